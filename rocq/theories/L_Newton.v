(** Newton's method for the inversion of the CDF of a unimodal density, started at the median. *)
From Coq Require Import Reals List ZArith Lra Lia Sorted.
From Coquelicot Require Import Coquelicot.
From Verif Require Import Py Spec M_Num M_Dist M_Resonance M_PseudoVoigt S_Resonance L_RInt L_Dist.
Import ListNotations.
Open Scope R_scope.

Inductive all3 {A B C} (P : A -> B -> C -> Prop) : list A -> list B -> list C -> Prop :=
  | all3_nil : all3 P [] [] []
  | all3_cons a b c l m n : P a b c -> all3 P l m n -> all3 P (a :: l) (b :: m) (c :: n).
Lemma all3_length {A B C} (P : A -> B -> C -> Prop) l m n : all3 P l m n ->
  List.length m = List.length l /\ List.length n = List.length l.
Proof. induction 1; cbn; intuition lia. Qed.

Section Newton.
  Variables (f F : R -> R) (m : R).
  Hypothesis D : density_of f F.
  Hypothesis U : unimodal m f.
  Hypothesis M : F m = 1 / 2.

  Let fpos : forall x, 0 < f x := dens_pos f F D.

  Lemma concave_right a b : m <= a -> a <= b -> F b - F a <= f a * (b - a).
  Proof.
    intros Ha Hab. pose proof (is_RInt_unique (V := R_CompleteNormedModule) _ _ _ _ (dens_is_RInt f F D a b)) as E.
    rewrite <- E, <- RInt_const_R. apply RInt_le; [assumption|eexists; apply (dens_is_RInt f F D)|apply ex_RInt_const|].
    intros x Hx. apply (proj2 U); lra.
  Qed.
  Lemma concave_left a b : a <= b -> b <= m -> F b - F a <= f b * (b - a).
  Proof.
    intros Hab Hb. pose proof (is_RInt_unique (V := R_CompleteNormedModule) _ _ _ _ (dens_is_RInt f F D a b)) as E.
    rewrite <- E, <- RInt_const_R. apply RInt_le; [assumption|eexists; apply (dens_is_RInt f F D)|apply ex_RInt_const|].
    intros x Hx. apply (proj1 U); lra.
  Qed.
  Lemma peak x : f x <= f m.
  Proof. destruct (Rle_dec x m); [apply (proj1 U)|apply (proj2 U)]; lra. Qed.

  Definition step (q p : R) : R := p - (F p - q) / f p.
  (** The iterate lies between the median and the quantile. *)
  Definition inside (q p : R) : Prop :=
    (1 / 2 <= q -> m <= p /\ F p <= q) /\ (q <= 1 / 2 -> p <= m /\ q <= F p).

  Lemma inside_start q : inside q m.
  Proof. split; intros; split; lra. Qed.

  Lemma step_right q p : inside q p -> 1 / 2 <= q -> p <= step q p /\ F p <= F (step q p) <= q.
  Proof.
    intros [A _] Hq. destruct (A Hq) as [H1 H2]. pose proof (fpos p) as P.
    set (d := (q - F p) / f p). assert (0 <= d) by (apply Rmult_le_pos; [lra|left; now apply Rinv_0_lt_compat]).
    assert (Ed : f p * d = q - F p) by (unfold d; field; lra).
    assert (Es : step q p = p + d) by (unfold step, d; field; lra). rewrite Es.
    pose proof (concave_right p (p + d) H1 ltac:(lra)). split; [lra|]. split; [apply (dens_le f F D); lra|].
    replace (p + d - p) with d in * by ring. lra.
  Qed.
  Lemma step_left q p : inside q p -> q <= 1 / 2 -> step q p <= p /\ q <= F (step q p) <= F p.
  Proof.
    intros [_ A] Hq. destruct (A Hq) as [H1 H2]. pose proof (fpos p) as P.
    set (d := (F p - q) / f p). assert (0 <= d) by (apply Rmult_le_pos; [lra|left; now apply Rinv_0_lt_compat]).
    assert (Ed : f p * d = F p - q) by (unfold d; field; lra).
    assert (Es : step q p = p - d) by (unfold step, d; field; lra). rewrite Es.
    pose proof (concave_left (p - d) p ltac:(lra) H1). split; [lra|]. split; [|apply (dens_le f F D); lra].
    replace (p - (p - d)) with d in * by ring. lra.
  Qed.
  Lemma step_inside q p : inside q p -> inside q (step q p).
  Proof.
    intros I. split; intros Hq.
    - pose proof (step_right q p I Hq). destruct I as [A _]. specialize (A Hq). lra.
    - pose proof (step_left q p I Hq). destruct I as [_ A]. specialize (A Hq). lra.
  Qed.
  Lemma step_size q p : Rabs (F p - q) = Rabs (step q p - p) * f p.
  Proof.
    pose proof (fpos p). unfold step. replace (p - (F p - q) / f p - p) with (- ((F p - q) / f p)) by ring.
    rewrite Rabs_Ropp. unfold Rdiv. rewrite Rabs_mult, (Rabs_pos_eq (/ f p)) by (left; now apply Rinv_0_lt_compat).
    field. lra.
  Qed.
  Lemma step_error q p t : inside q p -> Rabs (step q p - p) <= t -> Rabs (F (step q p) - q) <= t * f m.
  Proof.
    intros I Ht. apply Rle_trans with (Rabs (F p - q)).
    - destruct (Rle_dec (1 / 2) q) as [Hq|Hq].
      + pose proof (step_right q p I Hq). rewrite !Rabs_left1 by lra. lra.
      + pose proof (step_left q p I ltac:(lra)). rewrite !Rabs_pos_eq by lra. lra.
    - rewrite step_size. pose proof (fpos p). pose proof (peak p). pose proof (Rabs_pos (step q p - p)). nra.
  Qed.

  Lemma step_mono q1 q2 p1 p2 : inside q1 p1 -> inside q2 p2 -> q1 < q2 -> p1 <= p2 -> step q1 p1 < step q2 p2.
  Proof.
    intros I1 I2 Hq Hp. pose proof (fpos p1) as P1. pose proof (fpos p2) as P2.
    assert (S : forall p, 0 < f p -> step q1 p < step q2 p).
    { intros p Hf. unfold step. unfold Rdiv. assert (0 < / f p) by now apply Rinv_0_lt_compat. nra. }
    destruct (Rle_dec (1 / 2) q1) as [H1|H1].
    - (* right *)
      apply Rlt_le_trans with (step q2 p1); [now apply S|].
      destruct I1 as [A1 _]. destruct (A1 H1) as [Hm _]. destruct I2 as [A2 _]. destruct (A2 ltac:(lra)) as [_ HF].
      pose proof (concave_right p1 p2 Hm Hp) as C. pose proof (proj2 U p1 p2 Hm Hp) as Fd.
      unfold step.
      assert (K : (q2 - F p2) / f p1 <= (q2 - F p2) / f p2).
      { apply Rmult_le_compat_l; [lra|]. now apply Rinv_le_contravar. }
      assert (L : (F p2 - F p1) / f p1 <= p2 - p1).
      { apply (Rmult_le_reg_r (f p1)); [assumption|]. unfold Rdiv. rewrite Rmult_assoc, Rinv_l by lra. lra. }
      replace ((F p1 - q2) / f p1) with (- ((q2 - F p2) / f p1) - (F p2 - F p1) / f p1) by (field; lra).
      replace ((F p2 - q2) / f p2) with (- ((q2 - F p2) / f p2)) by (field; lra). lra.
    - destruct (Rle_dec (1 / 2) q2) as [H2|H2].
      + (* on both sides *)
        apply Rlt_le_trans with m.
        * destruct I1 as [_ A1]. destruct (A1 ltac:(lra)) as [[Hl| ->] HF].
          -- pose proof (step_left q1 p1 ltac:(split; [lra|intros; split; lra]) ltac:(lra)). lra.
          -- unfold step. rewrite M. assert (0 < (1 / 2 - q1) / f m) by (apply Rdiv_lt_0_compat; [lra|apply fpos]). lra.
        * pose proof (step_right q2 p2 I2 H2). destruct I2 as [A2 _]. specialize (A2 H2). lra.
      + (* left *)
        apply Rle_lt_trans with (step q1 p2); [|now apply S].
        destruct I1 as [_ A1]. destruct (A1 ltac:(lra)) as [_ HF]. destruct I2 as [_ A2]. destruct (A2 ltac:(lra)) as [Hm _].
        pose proof (concave_left p1 p2 Hp Hm) as C. pose proof (proj1 U p1 p2 Hp Hm) as Fd.
        unfold step.
        assert (K : (F p1 - q1) / f p2 <= (F p1 - q1) / f p1).
        { apply Rmult_le_compat_l; [lra|]. now apply Rinv_le_contravar. }
        assert (L : (F p2 - F p1) / f p2 <= p2 - p1).
        { apply (Rmult_le_reg_r (f p2)); [assumption|]. unfold Rdiv. rewrite Rmult_assoc, Rinv_l by lra. lra. }
        replace ((F p2 - q1) / f p2) with ((F p1 - q1) / f p2 + (F p2 - F p1) / f p2) by (field; lra). lra.
  Qed.

  (** *** Scalar iteration *)
  Section Scalar.
    Variable q : R.
    Lemma newton_scalar_spec n p : inside q p ->
      match newton_scalar n (fun E => Ok (F E - q)) (fun E => Ok (f E)) p with
      | Ok x => inside q x /\ Rabs (F x - q) <= tol * f m
      | NaN => False
      | Raise e => e = RuntimeError
      end.
    Proof.
      revert p; induction n as [|n IH]; intros p I; cbn [newton_scalar bind]; [reflexivity|].
      destruct (Req_EM_T (F p - q) 0) as [E|N].
      - split; [assumption|]. rewrite E, Rabs_R0. apply Rmult_le_pos; [unfold tol; lra|left; apply fpos].
      - destruct (Req_EM_T (f p) 0) as [E|_]; [pose proof (fpos p); lra|].
        change (p - (F p - q) / f p) with (step q p).
        destruct (Rle_dec (Rabs (step q p - p)) tol) as [L|L].
        + split; [now apply step_inside|now apply step_error].
        + apply IH. now apply step_inside.
    Qed.
  End Scalar.

  (** *** Array iteration *)
  Definition residual (qs p : list R) : out (list R) := Ok (map2 Rminus (map F p) qs).
  Definition slope (p : list R) : out (list R) := Ok (map f p).
  Definition steps (qs p : list R) : list R := map2 step qs p.
  Definition fails (q p : R) : bool := if Rle_dec tol (Rabs ((F p - q) / f p)) then true else false.

  Lemma nz_all p : map (fun x => negb (is_zero x)) (map f p) = map (fun _ => true) p.
  Proof.
    rewrite map_map. apply map_ext. intros x. unfold is_zero. destruct (Req_EM_T (f x) 0); [|reflexivity].
    pose proof (fpos x). lra.
  Qed.
  Lemma steps_eq qs p : List.length p = List.length qs ->
    map4 newton_step (map (fun _ => true) p) p (map2 Rminus (map F p) qs) (map f p) = steps qs p.
  Proof.
    revert qs; induction p as [|x p IH]; intros [|q qs] L; try discriminate; [reflexivity|].
    cbn. unfold steps in IH. rewrite IH by (injection L as L; exact L). reflexivity.
  Qed.
  Lemma fails_eq qs p fl : List.length p = List.length qs -> List.length fl = List.length qs ->
    map4 step_fails (map (fun _ => true) p) fl (map2 Rminus (map F p) qs) (map f p) = map2 fails qs p.
  Proof.
    revert qs fl; induction p as [|x p IH]; intros [|q qs] [|b fl] L L'; try discriminate; [reflexivity|].
    cbn. rewrite IH by (injection L as L; injection L' as L'; assumption). reflexivity.
  Qed.
  Lemma and_true {A} (p : list A) l : List.length l = List.length p -> map2 andb (map (fun _ => true) p) l = l.
  Proof. revert l; induction p as [|x p IH]; intros [|b l] L; try discriminate; [reflexivity|]. cbn. f_equal. apply IH. now injection L. Qed.
  Lemma map2_length {A B C} (g : A -> B -> C) a b : List.length a = List.length b -> List.length (map2 g a b) = List.length a.
  Proof. revert b; induction a as [|x a IH]; intros [|y b] L; try discriminate; [reflexivity|]. cbn. f_equal. apply IH. now injection L. Qed.
  Lemma exists_true {A} (p : list A) : p <> [] -> existsb (fun b => b) (map (fun _ => true) p) = true.
  Proof. destruct p; [congruence|reflexivity]. Qed.

  (** Element-wise state: inside, and the error is small where the iteration has not failed. *)
  Definition good (q x : R) (failed : bool) : Prop :=
    inside q x /\ (failed = false -> Rabs (F x - q) <= tol * f m).

  Lemma steps_good qs p fl : all3 good qs p fl -> all3 good qs (steps qs p) (map2 fails qs p).
  Proof.
    induction 1 as [|q x b qs p fl [I _] _ IH]; cbn; constructor; [|exact IH].
    split; [now apply step_inside|]. unfold fails. destruct (Rle_dec tol _) as [|L]; [discriminate|intros _].
    apply step_error; [assumption|]. unfold step. replace (x - (F x - q) / f x - x) with (- ((F x - q) / f x)) by ring.
    rewrite Rabs_Ropp. lra.
  Qed.
  Lemma steps_sorted qs p fl : all3 good qs p fl -> strictly_ascending qs -> ascending p -> strictly_ascending (steps qs p).
  Proof.
    intros G. induction G as [|q x b qs p fl [I _] G IH]; intros Sq Sp; cbn; [constructor|].
    inversion Sq as [|? ? Sq' Fq]; subst. inversion Sp as [|? ? Sp' Fp]; subst.
    constructor; [now apply IH|]. clear IH Sq Sp Sq' Sp'.
    induction G as [|q' x' b' qs p fl [I' _] G IH]; cbn; [constructor|].
    inversion Fq; subst. inversion Fp; subst. constructor; [|now apply IH]. now apply step_mono.
  Qed.
  Lemma exact_good qs p fl : all3 good qs p fl -> forallb is_zero (map2 Rminus (map F p) qs) = true ->
    all3 good qs p (map (fun _ => false) (map2 Rminus (map F p) qs)) /\ (strictly_ascending qs -> strictly_ascending p).
  Proof.
    intros G Z.
    assert (E : map F p = qs).
    { clear - G Z. induction G as [|q x b qs p fl _ G IH]; [reflexivity|]. cbn in *.
      apply andb_prop in Z. destruct Z as [Z1 Z2]. rewrite IH by assumption. f_equal.
      unfold is_zero in Z1. destruct (Req_EM_T (F x - q) 0); [lra|discriminate]. }
    split.
    - clear - G E fpos. induction G as [|q x b qs p fl [I _] G IH]; [constructor|]. cbn in *. injection E as Eq E.
      constructor; [|now apply IH]. split; [assumption|]. intros _. rewrite Eq, Rminus_eq_0, Rabs_R0.
      apply Rmult_le_pos; [unfold tol; lra|left; apply fpos].
    - rewrite <- E. clear - D. induction p as [|x p IH]; intros S; [constructor|].
      cbn in S. inversion S as [|? ? S' Fx]; subst. constructor; [now apply IH|].
      apply List.Forall_forall. intros y Hy. rewrite List.Forall_forall in Fx.
      apply (dens_lt_inv f F D). apply Fx. now apply in_map.
  Qed.
  Lemma sa_a x : strictly_ascending x -> ascending x.
  Proof. induction 1; constructor; [assumption|]. eapply List.Forall_impl; [|eassumption]. cbn; intros; lra. Qed.

  Lemma array_newton_spec n qs p fl nz : qs <> [] -> all3 good qs p fl -> (strictly_ascending qs -> ascending p) ->
    nz = map (fun _ => true) p ->
    exists x fl' nz', array_newton n (residual qs) slope p fl nz = Ok (x, fl', nz') /\
      all3 good qs x fl' /\ (strictly_ascending qs -> ascending x) /\
      (n <> O -> strictly_ascending qs -> strictly_ascending x) /\ nz' = map (fun _ => true) x.
  Proof.
    revert p fl nz; induction n as [|n IH]; intros p fl nz Nq G Sp Hnz; cbn [array_newton].
    { exists p, fl, nz. repeat split; auto. congruence. }
    unfold residual at 1. cbn [bind].
    destruct (forallb is_zero (map2 Rminus (map F p) qs)) eqn:Z.
    { destruct (exact_good qs p fl G Z) as [G' S']. do 3 eexists. split; [reflexivity|].
      split; [exact G'|]. split; [intros S; now apply sa_a, S'|]. split; [intros _; exact S'|assumption]. }
    destruct (all3_length _ _ _ _ G) as [Lp Lf].
    unfold slope at 1. cbn [bind]. rewrite nz_all.
    rewrite (exists_true p) by (intros ->; destruct qs; [congruence|discriminate]). cbn [negb].
    rewrite steps_eq by assumption. rewrite (fails_eq qs p fl) by (assumption || congruence).
    rewrite and_true by (rewrite map2_length; congruence).
    assert (Ls : List.length (steps qs p) = List.length p) by (unfold steps; rewrite map2_length; congruence).
    assert (Enz : map (fun _ => true) p = map (fun _ => true) (steps qs p)).
    { clear - Ls. revert Ls. generalize (steps qs p). induction p as [|a p IH]; intros [|b l] L; try discriminate; [reflexivity|].
      cbn. f_equal. apply IH. now injection L. }
    pose proof (steps_good qs p fl G) as G'.
    assert (Ss : strictly_ascending qs -> strictly_ascending (steps qs p)) by (intros S; eapply steps_sorted; eauto).
    destruct (existsb (fun b => b) (map2 fails qs p)) eqn:Ex; cbn [negb].
    - destruct (IH (steps qs p) (map2 fails qs p) (map (fun _ => true) p) Nq G' (fun S => sa_a _ (Ss S)) Enz)
        as (x & fl' & nz' & E & GG & A1 & A2 & A3).
      exists x, fl', nz'. split; [exact E|]. split; [exact GG|]. split; [exact A1|]. split; [|exact A3].
      intros _ S. destruct n as [|n]; [|apply A2; auto].
      cbn in E. injection E as <- <- <-. now apply Ss.
    - exists (steps qs p), (map2 fails qs p), (map (fun _ => true) p).
      split; [reflexivity|]. split; [exact G'|]. split; [intros S; now apply sa_a, Ss|]. split; [intros _; exact Ss|exact Enz].
  Qed.

  Lemma start_good qs : all3 good qs (map (fun _ => m) qs) (map (fun _ => true) qs).
  Proof. induction qs; cbn; constructor; [|assumption]. split; [apply inside_start|discriminate]. Qed.
  Lemma start_sorted qs : ascending (map (fun _ : R => m) qs).
  Proof.
    induction qs; cbn; constructor; [assumption|]. apply List.Forall_forall. intros y Hy.
    apply in_map_iff in Hy. destruct Hy as (_ & <- & _). lra.
  Qed.
  Lemma no_zero_der (x : list R) fl : List.length fl = List.length x ->
    existsb (fun b => b) (map2 (fun a b => andb (negb a) b) (map (fun _ => true) x) fl) = false.
  Proof. revert fl; induction x as [|a x IH]; intros [|b fl] L; try discriminate; [reflexivity|]. cbn. apply IH. now injection L. Qed.

  Lemma newton_array_spec qs : qs <> [] ->
    match newton_array (residual qs) slope (map (fun _ => m) qs) with
    | Ok (x, conv) => all3 (fun q x c => inside q x /\ (c = true -> Rabs (F x - q) <= tol * f m)) qs x conv /\
        (strictly_ascending qs -> strictly_ascending x)
    | NaN => False
    | Raise e => e = RuntimeError
    end.
  Proof.
    intros Nq. unfold newton_array.
    assert (E0 : map (fun _ => true) (map (fun _ : R => m) qs) = map (fun _ => true) qs) by (rewrite map_map; reflexivity).
    destruct (array_newton_spec maxiter qs (map (fun _ => m) qs) (map (fun _ => true) (map (fun _ : R => m) qs))
                (map (fun _ => true) (map (fun _ : R => m) qs)) Nq) as (x & fl & nz & E & G & _ & S & Hnz).
    { rewrite E0. apply start_good. } { intros _; apply start_sorted. } { reflexivity. }
    rewrite E. cbn [bind]. subst nz. destruct (all3_length _ _ _ _ G) as [Lx Lf].
    rewrite no_zero_der by congruence.
    assert (K : all3 (fun q x c => inside q x /\ (c = true -> Rabs (F x - q) <= tol * f m)) qs x (map negb fl)).
    { clear - G. induction G as [|q y b qs x fl [I B] G IH]; cbn; constructor; [|assumption]. split; [assumption|].
      destruct b; [discriminate|auto]. }
    assert (S' : strictly_ascending qs -> strictly_ascending x) by (apply S; discriminate).
    destruct (existsb (fun b => b) fl); [destruct (forallb (fun b => b) fl)|]; auto.
  Qed.
End Newton.
