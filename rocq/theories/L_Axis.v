(** Integrals over the whole axis: existence, linearity, comparison. *)
From Coq Require Import Reals List Lra Lia.
From Coquelicot Require Import Coquelicot.
From Verif Require Import Spec L_RInt.
Open Scope R_scope.

(** ** Limits of bounded monotone functions *)
Lemma incr_lim (P : R -> R) K : (forall x y, x <= y -> P x <= P y) -> (forall x, P x <= K) ->
  exists l : R, is_lim P p_infty l.
Proof.
  intros M B. destruct (completeness (fun y => exists x, y = P x)) as [l [U L]].
  - exists K. intros y [x ->]. apply B.
  - exists (P 0). now exists 0.
  - exists l. apply is_lim_spec. intros eps.
    assert (exists x0, l - eps < P x0) as [x0 H0].
    { destruct (Classical_Prop.classic (exists x0, l - eps < P x0)) as [|N]; [assumption|]. exfalso.
      assert (l <= l - eps); [|pose proof (cond_pos eps); lra].
      apply L. intros y [x ->]. apply Rnot_lt_le. intros C. apply N. now exists x. }
    exists x0. intros x Hx. pose proof (M x0 x ltac:(lra)). assert (P x <= l) by (apply U; now exists x).
    apply Rabs_def1; pose proof (cond_pos eps); lra.
Qed.
Lemma incr_lim_m (P : R -> R) K : (forall x y, x <= y -> P x <= P y) -> (forall x, K <= P x) ->
  exists l : R, is_lim P m_infty l.
Proof.
  intros M B. destruct (incr_lim (fun x => - P (- x)) (- K)) as [l L].
  - intros x y H. pose proof (M (- y) (- x) ltac:(lra)). lra.
  - intros x. pose proof (B (- x)). lra.
  - exists (- l).
    apply (is_lim_ext (fun x => - (- P (- (- x))))); [intros; rewrite !Ropp_involutive; reflexivity|].
    apply (is_lim_opp (fun x => - P (- - x)) m_infty l).
    apply (is_lim_comp (fun x => - P (- x)) (fun x => - x) m_infty l p_infty L).
    + apply (is_lim_opp (fun x => x) m_infty m_infty), is_lim_id.
    + exists 0. intros; discriminate.
Qed.

(** ** From primitives *)
Lemma axis_primitive (f P : R -> R) (l0 l1 : R) : (forall a b, is_RInt f a b (P b - P a)) ->
  is_lim P m_infty l0 -> is_lim P p_infty l1 -> integral_over_axis f (l1 - l0).
Proof.
  intros HP L0 L1. split; [|intros a b; eexists; apply HP].
  apply (filterlim_ext (fun ab => P (snd ab) - P (fst ab))).
  - intros [a b]. cbn [fst snd]. symmetry. apply RInt_val, HP.
  - apply (filterlim_comp_2 (F := filter_prod (Rbar_locally m_infty) (Rbar_locally p_infty))
             (fun ab => P (snd ab)) (fun ab => P (fst ab)) Rminus (G := locally l1) (H := locally l0)).
    + eapply filterlim_comp; [apply filterlim_snd|exact L1].
    + eapply filterlim_comp; [apply filterlim_fst|exact L0].
    + apply (filterlim_comp_2 (fun x => fst x) (fun x => opp (snd x)) Rplus
               (G := locally l1) (H := locally (- l0))).
      * apply filterlim_fst.
      * eapply filterlim_comp; [apply filterlim_snd|]. apply (filterlim_opp (V := R_NormedModule)).
      * apply (filterlim_plus (V := R_NormedModule) l1 (- l0)).
Qed.

(** A nonnegative function with bounded integrals has an integral over the axis. *)
Lemma axis_ex (f : R -> R) K : (forall x, continuous f x) -> (forall x, 0 <= f x) ->
  (forall a b, a <= b -> RInt f a b <= K) -> exists l, integral_over_axis f l.
Proof.
  intros C N B. set (P := fun x => RInt f 0 x).
  assert (E : forall a b, ex_RInt f a b) by (intros; now apply ex_RInt_cont).
  assert (I : forall a b, is_RInt f a b (P b - P a)).
  { intros a b. unfold P. replace (RInt f 0 b - RInt f 0 a) with (RInt f a b).
    2:{ pose proof (RInt_join f 0 a b (E _ _) (E _ _)) as H. lra. }
    apply (RInt_correct (V := R_CompleteNormedModule)), E. }
  assert (M : forall x y, x <= y -> P x <= P y).
  { intros x y H. assert (0 <= RInt f x y) by (apply RInt_ge_0; auto). rewrite (RInt_val _ _ _ _ (I x y)) in H0. lra. }
  destruct (incr_lim P K) as [l1 L1]; [exact M| |].
  { intros x. destruct (Rle_dec 0 x) as [H|H]; [now apply B|].
    pose proof (M x 0 ltac:(lra)) as H1. pose proof (B 0 0 ltac:(lra)) as H2. fold (P 0) in H2. lra. }
  destruct (incr_lim_m P (- K)) as [l0 L0]; [exact M| |].
  { intros x. destruct (Rle_dec x 0) as [H|H].
    - pose proof (B x 0 H) as H1. rewrite (RInt_val _ _ _ _ (I x 0)) in H1. unfold P in H1 at 1. rewrite RInt_point_R in H1. lra.
    - pose proof (M 0 x ltac:(lra)) as H1. pose proof (B 0 0 ltac:(lra)) as H2. fold (P 0) in H2.
      unfold P in H1 at 1. rewrite RInt_point_R in H1. unfold P in H2. rewrite RInt_point_R in H2. lra. }
  exists (l1 - l0). now apply (axis_primitive f P).
Qed.

(** ** Linearity and order *)
Lemma axis_unique f l l' : integral_over_axis f l -> integral_over_axis f l' -> l = l'.
Proof. intros [A _] [B _]. exact (filterlim_locally_unique _ _ _ A B). Qed.
Lemma axis_ext f g l : (forall x, f x = g x) -> integral_over_axis f l -> integral_over_axis g l.
Proof.
  intros H [L E]. split.
  - apply (filterlim_ext (fun ab => RInt f (fst ab) (snd ab))); [|exact L]. intros ab. apply RInt_ext_R. intros; apply H.
  - intros a b. apply (ex_RInt_ext f); [intros; apply H|apply E].
Qed.
Lemma axis_plus f g l l' : integral_over_axis f l -> integral_over_axis g l' -> integral_over_axis (fun x => f x + g x) (l + l').
Proof.
  intros [A EA] [B EB]. split.
  - apply (filterlim_ext (fun ab => plus (RInt f (fst ab) (snd ab)) (RInt g (fst ab) (snd ab)))).
    + intros ab. symmetry. apply RInt_plus_R; auto.
    + apply (filterlim_comp_2 _ _ plus A B). apply (filterlim_plus (V := R_NormedModule) l l').
  - intros a b. apply (ex_RInt_plus (V := R_NormedModule)); auto.
Qed.
Lemma axis_mult f c l : integral_over_axis f l -> integral_over_axis (fun x => c * f x) (c * l).
Proof.
  intros [L E]. split.
  - apply (filterlim_ext (fun ab => scal c (RInt f (fst ab) (snd ab)))).
    + intros [a b]. cbn [fst snd]. symmetry. apply RInt_scal_R, E.
    + eapply filterlim_comp; [exact L|]. apply (filterlim_scal_r (V := R_NormedModule) c l).
  - intros a b. apply (ex_RInt_scal (V := R_NormedModule)), E.
Qed.
Lemma axis_minus f g l l' : integral_over_axis f l -> integral_over_axis g l' -> integral_over_axis (fun x => f x - g x) (l - l').
Proof.
  intros A B. apply (axis_ext (fun x => f x + -1 * g x)); [intros; ring|]. replace (l - l') with (l + -1 * l') by ring.
  apply axis_plus; [assumption|now apply axis_mult].
Qed.
Lemma axis_le f g l l' : (forall x, f x <= g x) -> integral_over_axis f l -> integral_over_axis g l' -> l <= l'.
Proof.
  intros H [A EA] [B EB].
  assert (Rbar_le l l'); [|assumption].
  apply (filterlim_le (F := filter_prod (Rbar_locally m_infty) (Rbar_locally p_infty))
           (fun ab => RInt f (fst ab) (snd ab)) (fun ab => RInt g (fst ab) (snd ab))); [|exact A|exact B].
  exists (fun a => a < 0) (fun b => 0 < b); [exists 0; auto|exists 0; auto|].
  intros a b Ha Hb. cbn. apply RInt_le; [lra|auto|auto|auto].
Qed.
(** A part of the axis for a nonnegative function. *)
Lemma axis_part f l a b : (forall x, 0 <= f x) -> integral_over_axis f l -> a <= b -> RInt f a b <= l.
Proof.
  intros N [A E] H.
  assert (Rbar_le (RInt f a b) l); [|assumption].
  apply (filterlim_le (F := filter_prod (Rbar_locally m_infty) (Rbar_locally p_infty))
           (fun _ => RInt f a b) (fun ab => RInt f (fst ab) (snd ab))); [|apply filterlim_const|exact A].
  exists (fun x => x < a) (fun y => b < y); [exists a; auto|exists b; auto|].
  intros x y Hx Hy. cbn.
  pose proof (RInt_join f x a y (E _ _) (E _ _)). pose proof (RInt_join f a b y (E _ _) (E _ _)).
  assert (0 <= RInt f x a) by (apply RInt_ge_0; [lra|auto|auto]).
  assert (0 <= RInt f b y) by (apply RInt_ge_0; [lra|auto|auto]). change (RInt f a b <= RInt f x y). lra.
Qed.
(** Substitution [x -> s x + v], [s = 1] or [s = -1]. *)
Lemma axis_shift f v l : integral_over_axis f l -> integral_over_axis (fun x => f (x + v)) l.
Proof.
  intros [A E].
  assert (S : forall a b, is_RInt (fun x => f (x + v)) a b (RInt f (a + v) (b + v))).
  { intros a b. apply (is_RInt_ext (fun y => scal 1 (f (1 * y + v)))).
    - intros x _. change (1 * f (1 * x + v) = f (x + v)). now rewrite !Rmult_1_l.
    - apply (is_RInt_comp_lin (V := R_NormedModule) f 1 v a b). rewrite !Rmult_1_l.
      apply (RInt_correct (V := R_CompleteNormedModule)), E. }
  split; [|intros a b; eexists; apply S].
  apply (filterlim_ext (fun ab => RInt f (fst ab + v) (snd ab + v))); [intros ab; symmetry; apply RInt_val, S|].
  apply (filterlim_comp _ _ _ (fun ab => (fst ab + v, snd ab + v)) (fun ab => RInt f (fst ab) (snd ab)) _
           (filter_prod (Rbar_locally m_infty) (Rbar_locally p_infty))); [|exact A].
  apply (filterlim_pair (fun ab : R * R => fst ab + v) (fun ab : R * R => snd ab + v)).
  - apply (filterlim_comp _ _ _ (fun ab : R * R => fst ab) (fun x => x + v) _ (Rbar_locally m_infty)); [apply filterlim_fst|]. intros Q [M HM]. exists (M - v). intros x Hx. apply HM. lra.
  - apply (filterlim_comp _ _ _ (fun ab : R * R => snd ab) (fun x => x + v) _ (Rbar_locally p_infty)); [apply filterlim_snd|]. intros Q [M HM]. exists (M - v). intros x Hx. apply HM. lra.
Qed.
Lemma axis_reflect f l : integral_over_axis f l -> integral_over_axis (fun x => f (- x)) l.
Proof.
  intros [A E].
  assert (S : forall a b, is_RInt (fun x => f (- x)) a b (RInt f (- b) (- a))).
  { intros a b. apply (is_RInt_ext (fun y => scal (-1) (scal (-1) (f (-1 * y + 0))))).
    - intros x _. change (-1 * (-1 * f (-1 * x + 0)) = f (- x)). replace (-1 * x + 0) with (- x) by ring. ring.
    - replace (RInt f (- b) (- a)) with (scal (-1) (RInt f (- a) (- b))).
      + apply (is_RInt_scal (V := R_NormedModule)). apply (is_RInt_comp_lin (V := R_NormedModule) f (-1) 0 a b).
        replace (-1 * a + 0) with (- a) by ring. replace (-1 * b + 0) with (- b) by ring.
        apply (RInt_correct (V := R_CompleteNormedModule)), E.
      + rewrite <- (opp_RInt_swap (V := R_CompleteNormedModule) f (- b) (- a)) by apply E.
        change (-1 * - RInt f (- b) (- a) = RInt f (- b) (- a)). ring. }
  split; [|intros a b; eexists; apply S].
  apply (filterlim_ext (fun ab => RInt f (- snd ab) (- fst ab))); [intros ab; symmetry; apply RInt_val, S|].
  apply (filterlim_comp _ _ _ (fun ab => (- snd ab, - fst ab)) (fun ab => RInt f (fst ab) (snd ab)) _
           (filter_prod (Rbar_locally m_infty) (Rbar_locally p_infty))); [|exact A].
  apply (filterlim_pair (fun ab : R * R => - snd ab) (fun ab : R * R => - fst ab)).
  - apply (filterlim_comp _ _ _ (fun ab : R * R => snd ab) (fun x => - x) _ (Rbar_locally p_infty)); [apply filterlim_snd|]. intros Q [M HM]. exists (- M). intros x Hx. apply HM. lra.
  - apply (filterlim_comp _ _ _ (fun ab : R * R => fst ab) (fun x => - x) _ (Rbar_locally m_infty)); [apply filterlim_fst|]. intros Q [M HM]. exists (- M). intros x Hx. apply HM. lra.
Qed.

(** The improper integral of Coquelicot. *)
Lemma axis_RInt_gen f l : integral_over_axis f l <->
  (is_RInt_gen f (Rbar_locally m_infty) (Rbar_locally p_infty) l /\ forall a b, ex_RInt f a b).
Proof.
  split.
  - intros [A E]. split; [|exact E]. intros Q HQ. specialize (A Q HQ).
    unfold filtermapi. unfold filtermap in A. eapply filter_imp; [|exact A].
    intros ab H. exists (RInt f (fst ab) (snd ab)). split; [|exact H].
    apply (RInt_correct (V := R_CompleteNormedModule)), E.
  - intros [A E]. split; [|exact E]. intros Q HQ. specialize (A Q HQ).
    unfold filtermapi in A. unfold filtermap. eapply filter_imp; [|exact A].
    intros ab (y & Hy & H). now rewrite (RInt_val _ _ _ _ Hy).
Qed.
Lemma axis_RInt_gen_val f l : integral_over_axis f l -> RInt_gen f (Rbar_locally m_infty) (Rbar_locally p_infty) = l.
Proof. intros H. apply axis_RInt_gen in H. apply (is_RInt_gen_unique (V := R_CompleteNormedModule)), H. Qed.
