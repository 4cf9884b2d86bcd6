(** Convergence of the inversion for quantiles where the density has not dropped too far. *)
From Coq Require Import Reals List ZArith Lra Lia Sorted.
From Coquelicot Require Import Coquelicot.
From Verif Require Import Py Spec M_Num M_Dist M_Resonance M_PseudoVoigt S_Resonance L_RInt L_Dist L_Newton.
Import ListNotations.
Open Scope R_scope.

Section Convergence.
  Variables (f F : R -> R) (m kappa : R).
  Hypothesis D : density_of f F.
  Hypothesis U : unimodal m f.
  Hypothesis M : F m = 1 / 2.
  Hypothesis K : 0 < kappa <= 1.

  Let fpos : forall x, 0 < f x := dens_pos f F D.

  (** The density at the quantile is at least the fraction [kappa] of the peak. *)
  Definition central (q : R) : Prop := exists x, F x = q /\ kappa * f m <= f x.

  Lemma convex_right a b : m <= a -> a <= b -> f b * (b - a) <= F b - F a.
  Proof.
    intros Ha Hab. pose proof (is_RInt_unique (V := R_CompleteNormedModule) _ _ _ _ (dens_is_RInt f F D a b)) as E.
    rewrite <- E, <- RInt_const_R. apply RInt_le; [assumption|apply ex_RInt_const|eexists; apply (dens_is_RInt f F D)|].
    intros x Hx. apply (proj2 U); lra.
  Qed.
  Lemma convex_left a b : a <= b -> b <= m -> f a * (b - a) <= F b - F a.
  Proof.
    intros Hab Hb. pose proof (is_RInt_unique (V := R_CompleteNormedModule) _ _ _ _ (dens_is_RInt f F D a b)) as E.
    rewrite <- E, <- RInt_const_R. apply RInt_le; [assumption|apply ex_RInt_const|eexists; apply (dens_is_RInt f F D)|].
    intros x Hx. apply (proj1 U); lra.
  Qed.

  Lemma inside_dense q p : central q -> inside F m q p -> kappa * f m <= f p.
  Proof.
    intros (x & Hx & Hk) [A B]. destruct (Rle_dec (1 / 2) q) as [Hq|Hq].
    - destruct (A Hq) as [H1 H2]. apply Rle_trans with (f x); [assumption|]. apply (proj2 U); [assumption|].
      apply (dens_le_inv f F D). lra.
    - destruct (B ltac:(lra)) as [H1 H2]. apply Rle_trans with (f x); [assumption|]. apply (proj1 U); [|assumption].
      apply (dens_le_inv f F D). lra.
  Qed.
  Lemma contraction q p : central q -> inside F m q p ->
    Rabs (F (step f F q p) - q) <= (1 - kappa) * Rabs (F p - q).
  Proof.
    intros C I. pose proof (step_inside f F m D U q p I) as I'. pose proof (inside_dense _ _ C I') as H'.
    pose proof (fpos p) as P. pose proof (fpos m) as Pm. pose proof (peak f m U p) as Pk.
    assert (Pk' : 0 < kappa * f m) by (apply Rmult_lt_0_compat; lra).
    set (d := (F p - q) / f p). assert (Ed : f p * d = F p - q) by (unfold d; field; lra).
    assert (Es : step f F q p = p - d) by reflexivity.
    destruct (Rle_dec (1 / 2) q) as [Hq|Hq].
    - pose proof (step_right f F m D U q p I Hq) as (S1 & S2 & S3). destruct I as [A _]. destruct (A Hq) as [H1 H2].
      pose proof (convex_right p (step f F q p) H1 S1) as C1.
      rewrite !Rabs_left1 by lra. rewrite Es in *. replace (p - d - p) with (- d) in C1 by ring.
      assert (kappa * (q - F p) <= f (p - d) * (- d)); [|lra].
      assert (0 <= - d) by lra. apply Rle_trans with (kappa * f m * - d); [|apply Rmult_le_compat_r; lra].
      replace (q - F p) with (f p * - d) by (rewrite <- (Ropp_involutive (q - F p)); rewrite Ropp_minus_distr, <- Ed; ring).
      rewrite Rmult_assoc. apply Rmult_le_compat_l; [lra|]. apply Rmult_le_compat_r; lra.
    - pose proof (step_left f F m D U q p I ltac:(lra)) as (S1 & S2 & S3). destruct I as [_ A]. destruct (A ltac:(lra)) as [H1 H2].
      pose proof (convex_left (step f F q p) p S1 H1) as C1.
      rewrite !Rabs_pos_eq by lra. rewrite Es in *. replace (p - (p - d)) with d in C1 by ring.
      assert (kappa * (F p - q) <= f (p - d) * d); [|lra].
      assert (0 <= d) by lra. apply Rle_trans with (kappa * f m * d); [|apply Rmult_le_compat_r; lra].
      rewrite <- Ed.
      rewrite Rmult_assoc. apply Rmult_le_compat_l; [lra|]. apply Rmult_le_compat_r; lra.
  Qed.
  Lemma small_step q p d : central q -> inside F m q p -> Rabs (F p - q) <= d -> Rabs ((F p - q) / f p) <= d / (kappa * f m).
  Proof.
    intros C I B. pose proof (inside_dense _ _ C I) as H. pose proof (fpos m) as Pm.
    assert (Pk' : 0 < kappa * f m) by (apply Rmult_lt_0_compat; lra). pose proof (fpos p).
    unfold Rdiv. rewrite Rabs_mult, (Rabs_pos_eq (/ f p)) by (left; now apply Rinv_0_lt_compat).
    apply Rmult_le_compat; [apply Rabs_pos|left; now apply Rinv_0_lt_compat|assumption|]. now apply Rinv_le_contravar.
  Qed.

  Lemma scalar_converges q n p d : central q -> inside F m q p -> Rabs (F p - q) <= d ->
    d * (1 - kappa) ^ n / (kappa * f m) <= tol ->
    exists x, newton_scalar (S n) (fun E => Ok (F E - q)) (fun E => Ok (f E)) p = Ok x.
  Proof.
    intros C. revert p d; induction n as [|n IH]; intros p d I B T.
    - cbn [newton_scalar bind]. destruct (Req_EM_T (F p - q) 0); [eauto|].
      destruct (Req_EM_T (f p) 0); [pose proof (fpos p); lra|]. destruct (Rle_dec _ tol) as [|N]; [eauto|].
      exfalso. apply N. replace (p - (F p - q) / f p - p) with (- ((F p - q) / f p)) by ring. rewrite Rabs_Ropp.
      eapply Rle_trans; [eapply small_step; eassumption|]. rewrite pow_O, Rmult_1_r in T. exact T.
    - change (exists x, (let g := newton_scalar (S n) (fun E => Ok (F E - q)) (fun E => Ok (f E)) in
        if Req_EM_T (F p - q) 0 then Ok p else if Req_EM_T (f p) 0 then Raise RuntimeError else
        if Rle_dec (Rabs (p - (F p - q) / f p - p)) tol then Ok (p - (F p - q) / f p) else g (p - (F p - q) / f p)) = Ok x).
      cbn zeta. destruct (Req_EM_T (F p - q) 0); [eauto|].
      destruct (Req_EM_T (f p) 0); [pose proof (fpos p); lra|]. destruct (Rle_dec _ tol) as [|N]; [eauto|].
      apply (IH _ ((1 - kappa) * d)).
      + now apply step_inside.
      + eapply Rle_trans; [now apply contraction|]. apply Rmult_le_compat_l; lra.
      + replace ((1 - kappa) * d * (1 - kappa) ^ n) with (d * (1 - kappa) ^ S n) by (cbn; ring). exact T.
  Qed.

  Definition close (d q p : R) : Prop := central q /\ inside F m q p /\ Rabs (F p - q) <= d.
  Lemma close_steps d qs p : Forall2 (close d) qs p -> Forall2 (close ((1 - kappa) * d)) qs (steps f F qs p).
  Proof.
    induction 1 as [|q x qs p (C & I & B) _ IH]; cbn; constructor; [|exact IH]. split; [exact C|]. split; [now apply step_inside|].
    eapply Rle_trans; [now apply contraction|]. apply Rmult_le_compat_l; lra.
  Qed.
  Lemma close_done d qs p : Forall2 (close d) qs p -> d / (kappa * f m) < tol -> map2 (fails f F) qs p = map (fun _ => false) qs.
  Proof.
    intros H T. induction H as [|q x qs p (C & I & B) _ IH]; [reflexivity|]. cbn. rewrite IH. f_equal.
    unfold fails. destruct (Rle_dec tol _) as [L|]; [|reflexivity]. pose proof (small_step q x d C I B). lra.
  Qed.
  Lemma existsb_false {A} (l : list A) : existsb (fun b => b) (map (fun _ => false) l) = false.
  Proof. induction l; [reflexivity|]. exact IHl. Qed.
  Lemma existsb_map_false (l : list bool) : existsb (fun b => b) l = false -> forall n, List.length l = n -> l = repeat false n.
  Proof. induction l as [|b l IH]; intros H n L; subst n; [reflexivity|]. cbn in H. apply Bool.orb_false_elim in H. destruct H as [-> H]. cbn. f_equal. now apply IH. Qed.
  Lemma repeat_map {A} (l : list A) : repeat false (List.length l) = map (fun _ => false) l.
  Proof. induction l; [reflexivity|]. cbn. now f_equal. Qed.

  Lemma Forall2_len {A B} (P : A -> B -> Prop) l l' : Forall2 P l l' -> List.length l' = List.length l.
  Proof. induction 1; cbn; congruence. Qed.

  Lemma array_converges n qs p d fl nz : qs <> [] -> Forall2 (close d) qs p -> List.length fl = List.length qs ->
    d * (1 - kappa) ^ n / (kappa * f m) < tol ->
    exists x nz', array_newton (S n) (residual F qs) (slope f) p fl nz = Ok (x, map (fun _ => false) qs, nz').
  Proof.
    intros Nq. revert p d fl nz; induction n as [|n IH]; intros p d fl nz G Lf T; pose proof (Forall2_len _ _ _ G) as Lp.
    all: match goal with |- exists _ _, array_newton (S ?k) _ _ _ _ _ = _ =>
      change (array_newton (S k)) with (fun f f' pp (fa nz : list bool) => bind (f pp) (fun fval =>
        if forallb is_zero fval then Ok (pp, map (fun _ => false) fval, nz) else bind (f' pp) (fun fder =>
        let nz := map (fun x => negb (is_zero x)) fder in
        if negb (existsb (fun b => b) nz) then Ok (pp, fa, nz) else
        let p' := map4 newton_step nz pp fval fder in let failures' := map4 step_fails nz fa fval fder in
        if negb (existsb (fun b => b) (map2 andb nz failures')) then Ok (p', failures', nz) else array_newton k f f' p' failures' nz))) end.
    all: cbn beta; unfold residual at 1; unfold slope at 1; cbn [bind].
    all: destruct (forallb is_zero (map2 Rminus (map F p) qs)) eqn:Z;
      [do 2 eexists; f_equal; f_equal; f_equal; rewrite <- !repeat_map, map2_length; rewrite ?map_length; congruence|].
    all: cbn zeta; rewrite (nz_all f F D).
    all: rewrite (exists_true p) by (intros ->; destruct qs; [congruence|discriminate]); cbn [negb].
    all: rewrite steps_eq by assumption; rewrite (fails_eq f F qs p fl) by (assumption || congruence).
    all: rewrite and_true by (rewrite map2_length; congruence).
    - rewrite pow_O, Rmult_1_r in T. rewrite (close_done d qs p G T). rewrite existsb_false. cbn [negb]. eauto.
    - destruct (existsb (fun b => b) (map2 (fails f F) qs p)) eqn:Ex; cbn [negb].
      + apply (IH _ ((1 - kappa) * d)).
        * now apply close_steps.
        * rewrite map2_length; congruence.
        * replace ((1 - kappa) * d * (1 - kappa) ^ n) with (d * (1 - kappa) ^ S n) by (cbn; ring). exact T.
      + rewrite (existsb_map_false _ Ex (List.length qs)) by (rewrite map2_length; congruence). rewrite repeat_map. eauto.
  Qed.

  Lemma start_close qs : List.Forall central qs -> Forall2 (close (1 / 2)) qs (map (fun _ => m) qs).
  Proof.
    induction 1 as [|q qs C _ IH]; cbn; constructor; [|exact IH]. split; [exact C|]. split; [now apply inside_start|].
    destruct C as (x & Hx & _). pose proof (dens_range f F D x). rewrite M. apply Rabs_le. lra.
  Qed.
  Lemma newton_array_converges qs : qs <> [] -> List.Forall central qs -> 1 / 2 * (1 - kappa) ^ 49 / (kappa * f m) < tol ->
    exists x conv, newton_array (residual F qs) (slope f) (map (fun _ => m) qs) = Ok (x, conv) /\ forallb (fun b => b) conv = true.
  Proof.
    intros Nq C T. unfold newton_array.
    destruct (array_converges 49 qs (map (fun _ => m) qs) (1 / 2) (map (fun _ => true) (map (fun _ : R => m) qs))
                (map (fun _ => true) (map (fun _ : R => m) qs)) Nq (start_close qs C) ltac:(now rewrite !map_length) T) as (x & nz & E).
    assert (EM : maxiter = S 49) by reflexivity. rewrite EM, E. cbn [bind]. rewrite existsb_false.
    assert (Z : forall nz, existsb (fun b => b) (map2 (fun a b => andb (negb a) b) nz (map (fun _ : R => false) qs)) = false).
    { clear. induction qs as [|q qs IH]; intros [|b nz]; try reflexivity. cbn. rewrite Bool.andb_false_r. apply IH. }
    rewrite Z. do 2 eexists. split; [reflexivity|]. clear. induction qs; [reflexivity|assumption].
  Qed.
  Lemma newton_scalar_converges q : central q -> 1 / 2 * (1 - kappa) ^ 49 / (kappa * f m) <= tol ->
    exists x, newton_scalar maxiter (fun E => Ok (F E - q)) (fun E => Ok (f E)) m = Ok x.
  Proof.
    intros C T. apply (scalar_converges q 49 m (1 / 2) C); [now apply inside_start| |exact T].
    destruct C as (x & Hx & _). pose proof (dens_range f F D x). rewrite M. apply Rabs_le. lra.
  Qed.
End Convergence.
