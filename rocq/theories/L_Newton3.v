(** Convergence of the inversion: residual times slope drops by a factor of four in every step. *)
From Coq Require Import Reals List ZArith Lra Lia Sorted Psatz.
From Coquelicot Require Import Coquelicot.
From Verif Require Import Py Spec M_Num M_Dist M_Resonance M_PseudoVoigt S_Resonance L_RInt L_Dist L_Newton L_Newton2.
Import ListNotations.
Open Scope R_scope.

Section Quarter.
  Variables (f F : R -> R) (m : R).
  Hypothesis D : density_of f F.
  Hypothesis U : unimodal m f.
  Hypothesis M : F m = 1 / 2.
  Let fpos : forall x, 0 < f x := dens_pos f F D.

  (** The density at the quantile is at least [lo]. *)
  Definition dense (lo q : R) : Prop := exists x, F x = q /\ lo <= f x.
  Lemma dense_inside lo q p : dense lo q -> inside F m q p -> lo <= f p.
  Proof.
    intros (x & Hx & Hk) [A B]. destruct (Rle_dec (1 / 2) q) as [Hq|Hq].
    - destruct (A Hq) as [H1 H2]. apply Rle_trans with (f x); [assumption|]. apply (proj2 U); [assumption|]. apply (dens_le_inv f F D). lra.
    - destruct (B ltac:(lra)) as [H1 H2]. apply Rle_trans with (f x); [assumption|]. apply (proj1 U); [|assumption]. apply (dens_le_inv f F D). lra.
  Qed.
  Lemma amgm d f1 s f2 : 0 < f1 -> 0 < f2 -> 0 <= d -> s <= d - d / f1 * f2 -> s * f2 <= d * f1 / 4.
  Proof.
    intros H1 H2 Hd H. apply Rle_trans with ((d - d / f1 * f2) * f2); [apply Rmult_le_compat_r; lra|].
    assert (0 <= d / f1 * (f1 / 2 - f2) ^ 2) by (apply Rmult_le_pos; [apply Rmult_le_pos; [lra|left; now apply Rinv_0_lt_compat]|apply pow2_ge_0]).
    replace (d / f1 * (f1 / 2 - f2) ^ 2) with (d * f1 / 4 - (d - d / f1 * f2) * f2) in H0 by (field; lra). lra.
  Qed.
  Lemma quarter q p : inside F m q p -> Rabs (F (step f F q p) - q) * f (step f F q p) <= Rabs (F p - q) * f p / 4.
  Proof.
    intros I. pose proof (fpos p) as P. pose proof (fpos (step f F q p)) as P'.
    set (d := (F p - q) / f p). assert (Es : step f F q p = p - d) by reflexivity.
    destruct (Rle_dec (1 / 2) q) as [Hq|Hq].
    - pose proof (step_right f F m D U q p I Hq) as (S1 & S2 & S3). destruct I as [A _]. destruct (A Hq) as [H1 H2].
      pose proof (convex_right f F m D U p (step f F q p) H1 S1) as C1.
      rewrite !Rabs_left1 by lra. apply amgm; [assumption..|lra|]. replace (- (F p - q) / f p) with (step f F q p - p) by (rewrite Es; unfold d; field; lra). lra.
    - pose proof (step_left f F m D U q p I ltac:(lra)) as (S1 & S2 & S3). destruct I as [_ A]. destruct (A ltac:(lra)) as [H1 H2].
      pose proof (convex_left f F m D U (step f F q p) p S1 H1) as C1.
      rewrite !Rabs_pos_eq by lra. apply amgm; [assumption..|lra|]. replace ((F p - q) / f p) with (p - step f F q p) by (rewrite Es; unfold d; field; lra). lra.
  Qed.
  Lemma dense_step lo q p d : 0 < lo -> dense lo q -> inside F m q p -> Rabs (F p - q) * f p <= d -> Rabs ((F p - q) / f p) <= d / lo ^ 2.
  Proof.
    intros L C I B. pose proof (dense_inside _ _ _ C I) as H. pose proof (fpos p) as P.
    replace ((F p - q) / f p) with ((F p - q) * f p * / (f p * f p)) by (field; lra). rewrite !Rabs_mult, (Rabs_pos_eq (f p)) by lra.
    rewrite (Rabs_pos_eq (/ (f p * f p))) by (left; apply Rinv_0_lt_compat; nra).
    apply Rmult_le_compat; [apply Rmult_le_pos; [apply Rabs_pos|lra]|left; apply Rinv_0_lt_compat; nra|assumption|].
    apply Rinv_le_contravar; nra.
  Qed.
  Lemma quarter_scalar lo q n p d : 0 < lo -> dense lo q -> inside F m q p -> Rabs (F p - q) * f p <= d -> d / 4 ^ n / lo ^ 2 <= tol ->
    exists x, newton_scalar (S n) (fun E => Ok (F E - q)) (fun E => Ok (f E)) p = Ok x.
  Proof.
    intros L C. revert p d; induction n as [|n IH]; intros p d I B T.
    - cbn [newton_scalar bind]. destruct (Req_EM_T (F p - q) 0); [eauto|].
      destruct (Req_EM_T (f p) 0); [pose proof (fpos p); lra|]. destruct (Rle_dec _ tol) as [|N]; [eauto|].
      exfalso. apply N. replace (p - (F p - q) / f p - p) with (- ((F p - q) / f p)) by ring. rewrite Rabs_Ropp.
      eapply Rle_trans; [eapply dense_step; eassumption|]. rewrite pow_O in T. unfold Rdiv in T at 2. rewrite Rinv_1, Rmult_1_r in T. exact T.
    - change (exists x, (let g := newton_scalar (S n) (fun E => Ok (F E - q)) (fun E => Ok (f E)) in
        if Req_EM_T (F p - q) 0 then Ok p else if Req_EM_T (f p) 0 then Raise RuntimeError else
        if Rle_dec (Rabs (p - (F p - q) / f p - p)) tol then Ok (p - (F p - q) / f p) else g (p - (F p - q) / f p)) = Ok x).
      cbn zeta. destruct (Req_EM_T (F p - q) 0); [eauto|].
      destruct (Req_EM_T (f p) 0); [pose proof (fpos p); lra|]. destruct (Rle_dec _ tol) as [|N]; [eauto|].
      apply (IH _ (d / 4)).
      + now apply step_inside.
      + eapply Rle_trans; [now apply quarter|]. lra.
      + replace (d / 4 / 4 ^ n) with (d / 4 ^ S n); [exact T|]. cbn [pow]. field. apply pow_nonzero. lra.
  Qed.
  Definition quick (lo d q p : R) : Prop := dense lo q /\ inside F m q p /\ Rabs (F p - q) * f p <= d.
  Lemma quick_steps lo d qs p : Forall2 (quick lo d) qs p -> Forall2 (quick lo (d / 4)) qs (steps f F qs p).
  Proof.
    induction 1 as [|q x qs p (C & I & B) _ IH]; cbn; constructor; [|exact IH]. split; [exact C|]. split; [now apply step_inside|].
    eapply Rle_trans; [now apply quarter|]. lra.
  Qed.
  Lemma quick_done lo d qs p : 0 < lo -> Forall2 (quick lo d) qs p -> d / lo ^ 2 < tol -> map2 (fails f F) qs p = map (fun _ => false) qs.
  Proof.
    intros L H T. induction H as [|q x qs p (C & I & B) _ IH]; [reflexivity|]. cbn. rewrite IH. f_equal.
    unfold fails. destruct (Rle_dec tol _) as [Q|]; [|reflexivity]. pose proof (dense_step lo q x d L C I B). lra.
  Qed.
  Lemma quarter_array lo n qs p d fl nz : 0 < lo -> qs <> [] -> Forall2 (quick lo d) qs p -> List.length fl = List.length qs ->
    d / 4 ^ n / lo ^ 2 < tol ->
    exists x nz', array_newton (S n) (residual F qs) (slope f) p fl nz = Ok (x, map (fun _ => false) qs, nz').
  Proof.
    intros L Nq. revert p d fl nz; induction n as [|n IH]; intros p d fl nz G Lf T; pose proof (Forall2_len _ _ _ G) as Lp.
    all: match goal with |- exists _ _, array_newton (S ?k) _ _ _ _ _ = _ =>
      change (array_newton (S k)) with (fun f f' pp (fa nz : list bool) => bind (f pp) (fun fval =>
        if forallb is_zero fval then Ok (pp, map (fun _ => false) fval, nz) else bind (f' pp) (fun fder =>
        let nz := map (fun x => negb (is_zero x)) fder in
        if negb (existsb (fun b => b) nz) then Ok (pp, fa, nz) else
        let p' := map4 newton_step nz pp fval fder in let failures' := map4 step_fails nz fa fval fder in
        if negb (existsb (fun b => b) (map2 andb nz failures')) then Ok (p', failures', nz) else array_newton k f f' p' failures' nz))) end.
    all: cbn beta; unfold residual at 1; unfold slope at 1; cbn [bind].
    all: destruct (forallb is_zero (map2 Rminus (map F p) qs)) eqn:Z;
      [do 2 eexists; f_equal; f_equal; f_equal; rewrite <- !repeat_map, map2_length; rewrite ?map_length; congruence|].
    all: cbn zeta; rewrite (nz_all f F D).
    all: rewrite (exists_true p) by (intros ->; destruct qs; [congruence|discriminate]); cbn [negb].
    all: rewrite steps_eq by assumption; rewrite (fails_eq f F qs p fl) by (assumption || congruence).
    all: rewrite and_true by (rewrite map2_length; congruence).
    - rewrite pow_O in T. unfold Rdiv in T at 2. rewrite Rinv_1, Rmult_1_r in T. rewrite (quick_done lo d qs p L G T). rewrite existsb_false. cbn [negb]. eauto.
    - destruct (existsb (fun b => b) (map2 (fails f F) qs p)) eqn:Ex; cbn [negb].
      + apply (IH _ (d / 4)).
        * now apply quick_steps.
        * rewrite map2_length; congruence.
        * replace (d / 4 / 4 ^ n) with (d / 4 ^ S n); [exact T|]. cbn [pow]. field. apply pow_nonzero. lra.
      + rewrite (existsb_map_false _ Ex (List.length qs)) by (rewrite map2_length; congruence). rewrite repeat_map. eauto.
  Qed.
  Lemma start_bound q : (exists x, F x = q) -> Rabs (F m - q) * f m <= f m / 2.
  Proof.
    intros (x & Hx). pose proof (dens_range f F D x). pose proof (fpos m). assert (Rabs (F m - q) <= 1 / 2) by (rewrite M; apply Rabs_le; lra). nra.
  Qed.
  Lemma start_quick lo qs : List.Forall (dense lo) qs -> Forall2 (quick lo (f m / 2)) qs (map (fun _ => m) qs).
  Proof.
    induction 1 as [|q qs C _ IH]; cbn; constructor; [|exact IH]. split; [exact C|]. split; [now apply inside_start|].
    apply start_bound. destruct C as (x & Hx & _). now exists x.
  Qed.
  Lemma dense_array lo qs : 0 < lo -> qs <> [] -> List.Forall (dense lo) qs -> f m / 2 / 4 ^ 49 / lo ^ 2 < tol ->
    exists x conv, newton_array (residual F qs) (slope f) (map (fun _ => m) qs) = Ok (x, conv) /\ forallb (fun b => b) conv = true.
  Proof.
    intros L Nq C T. unfold newton_array.
    destruct (quarter_array lo 49 qs (map (fun _ => m) qs) (f m / 2) (map (fun _ => true) (map (fun _ : R => m) qs))
                (map (fun _ => true) (map (fun _ : R => m) qs)) L Nq (start_quick lo qs C) ltac:(now rewrite !map_length) T) as (x & nz & E).
    assert (EM : maxiter = S 49) by reflexivity. rewrite EM, E. cbn [bind]. rewrite existsb_false.
    assert (Z : forall nz, existsb (fun b => b) (map2 (fun a b => andb (negb a) b) nz (map (fun _ : R => false) qs)) = false).
    { clear. induction qs as [|q qs IH]; intros [|b nz]; try reflexivity. cbn. rewrite Bool.andb_false_r. apply IH. }
    rewrite Z. do 2 eexists. split; [reflexivity|]. clear. induction qs; [reflexivity|assumption].
  Qed.
  Lemma dense_scalar lo q : 0 < lo -> dense lo q -> f m / 2 / 4 ^ 49 / lo ^ 2 <= tol ->
    exists x, newton_scalar maxiter (fun E => Ok (F E - q)) (fun E => Ok (f E)) m = Ok x.
  Proof.
    intros L C T. apply (quarter_scalar lo q 49 m (f m / 2) L C); [now apply inside_start| |exact T]. apply start_bound. destruct C as (x & Hx & _). now exists x.
  Qed.
End Quarter.
