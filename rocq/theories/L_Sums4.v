(** Examples and counterexamples for C63-C66. *)
From Coq Require Import Reals List ZArith Lra Lia Sorted.
From Coquelicot Require Import Coquelicot.
From Verif Require Import Py Spec M_Num M_Grid M_Constituents M_Thermal M_Dist M_Resonance M_CrossSection M_Darboux
  S_CrossSection S_Resonance S_Sums L_RInt L_Darboux L_Darboux2 L_Dist L_Resonance L_Resonance3 L_Resonance6 L_Sums L_Sums2 L_Sums3.
Import ListNotations.
Open Scope R_scope.

Lemma refinement_example : ascending [-1; 0; 2] /\ ascending [-1; -1/2; 0; 1; 2] /\ incl [-1; 0; 2] [-1; -1/2; 0; 1; 2] /\
  first [-1; -1/2; 0; 1; 2] = first [-1; 0; 2] /\ final [-1; -1/2; 0; 1; 2] = final [-1; 0; 2] /\
  (forall a b, In (a, b) (cells [-1; 0; 2]) -> monotone_on (fun t => t * t) a b).
Proof.
  split; [unfold ascending; repeat constructor; lra|]. split; [unfold ascending; repeat constructor; lra|].
  split; [intros t; cbn; tauto|]. split; [reflexivity|]. split; [reflexivity|].
  intros a b [E|[E|[]]]; injection E as <- <-; [right|left]; intros s t ? ? ?; nra.
Qed.

Lemma square_sums : darboux (vectorized (fun t => t * t)) [-1; 1] = Ok (2, 0) /\
  darboux (vectorized (fun t => t * t)) [-1; 0; 1] = Ok (0, 2).
Proof.
  rewrite !darboux_ascending by (discriminate || (unfold ascending; repeat constructor; lra)).
  rewrite !lower_cons, !upper_cons. unfold lower, upper; cbn [cells combine tl map Rsum fold_right].
  rewrite (Rmin_left (-1 * -1) (1 * 1)), (Rmax_left (-1 * -1) (1 * 1)) by lra.
  rewrite (Rmin_right (-1 * -1) (0 * 0)), (Rmax_left (-1 * -1) (0 * 0)) by lra.
  rewrite (Rmin_left (0 * 0) (1 * 1)), (Rmax_right (0 * 0) (1 * 1)) by lra.
  split; do 2 f_equal; ring.
Qed.
Lemma refinement_worse : exists f x y L d L' d', ascending x /\ ascending y /\ incl x y /\
  first y = first x /\ final y = final x /\
  darboux (vectorized f) x = Ok (L, d) /\ darboux (vectorized f) y = Ok (L', d') /\ d < d'.
Proof.
  exists (fun t => t * t), [-1; 1], [-1; 0; 1], 2, 0, 0, 2. destruct square_sums as [E1 E2].
  split; [unfold ascending; repeat constructor; lra|]. split; [unfold ascending; repeat constructor; lra|].
  split; [intros t; cbn; tauto|]. split; [reflexivity|]. split; [reflexivity|]. split; [exact E1|]. split; [exact E2|lra].
Qed.

Lemma coarse_wrong : exists f x, ascending x /\ (forall t, continuity_pt f t) /\
  darboux (vectorized f) x = Ok (0, 0) /\ RInt f (first x) (final x) <> 0.
Proof.
  exists (fun t => 1 - t * t), [-1; 1]. split; [unfold ascending; repeat constructor; lra|].
  split; [intros t; reg|]. split.
  - rewrite !darboux_ascending by (discriminate || (unfold ascending; repeat constructor; lra)).
    rewrite !lower_cons, !upper_cons. unfold lower, upper; cbn [cells combine tl map Rsum fold_right].
    rewrite (Rmin_left (1 - -1 * -1) (1 - 1 * 1)), (Rmax_left (1 - -1 * -1) (1 - 1 * 1)) by lra.
    do 2 f_equal; ring.
  - change (first [-1; 1]) with (-1). change (final [-1; 1]) with 1.
    assert (K : is_RInt (fun t => 1 - t * t) (-1) 1 ((1 - 1 ^ 3 / 3) - (-1 - (-1) ^ 3 / 3))).
    { apply (is_RInt_derive (V := R_CompleteNormedModule) (fun t => t - t ^ 3 / 3)).
      - intros x _. auto_derive; [exact I|]. field.
      - intros x _. apply continuity_pt_filterlim. reg. }
    rewrite (RInt_val _ _ _ _ K). lra.
Qed.

Lemma cubic_example : constants_only (VLeaf {| l_call := fun E => Ok (E ^ 3 - E); l_pgrid := fun _ _ => Ok None |}) = false /\
  forall t, -2 <= t <= 2 -> continuity_pt (fun E => E ^ 3 - E) t.
Proof. split; [reflexivity|]. intros t _. reg. Qed.

Lemma lines_example : exists r1 r2, line r1 /\ line r2 /\ r_energy r1 = 1 /\ r_energy r2 = 2 /\
  0 < r_integrated r2 < r_integrated r1.
Proof.
  destruct (narrow_line 1 ltac:(lra)) as (r1 & H1 & E1 & I1). destruct (narrow_line 2 ltac:(lra)) as (r2 & H2 & E2 & I2).
  exists r1, r2. split; [left; exists codata, ground, (narrow 1), None, (1 / 100); repeat split; [exact H1|lra]|].
  split; [left; exists codata, ground, (narrow 2), None, (1 / 100); repeat split; [exact H2|lra]|].
  split; [exact E1|]. split; [exact E2|].
  assert (Hc : 0 < (PI * k_hbarc codata) ^ 2) by (apply pow_lt; apply Rmult_lt_0_compat; [apply PI_RGT_0|cbn; lra]).
  rewrite I1, I2. set (c := (PI * k_hbarc codata) ^ 2) in *. clearbody c. lra.
Qed.

Lemma expression_example : exists r1 r2 I1 I2 fs, 
  let e := EMul (EAdd (EAtom (leaf_of r1)) (EMul (EAtom (leaf_of r2)) 3)) (-2) in
  well_formed e = true /\
  List.Forall2 (fun t f => forall E, snd t E = Ok (f E)) (combination e) fs /\
  List.Forall2 (fun f I => integral_over_axis f I) fs [I1; I2] /\ 0 < I1 /\ 0 < I2.
Proof.
  destruct lines_example as (r1 & r2 & L1 & L2 & _ & _ & P).
  destruct (line_shape _ L1) as (f1 & F1 & S1). destruct (line_shape _ L2) as (f2 & F2 & S2).
  exists r1, r2, (r_integrated r1), (r_integrated r2), [(fun E => r_integrated r1 * f1 E); (fun E => r_integrated r2 * f2 E)].
  cbv zeta. split; [reflexivity|]. split; [|split; [|lra]].
  - cbn. constructor; [apply (res_value _ _ _ (proj1 S1))|]. constructor; [apply (res_value _ _ _ (proj1 S2))|constructor].
  - constructor; [apply (dens_axis_scal f1 F1), S1|]. constructor; [apply (dens_axis_scal f2 F2), S2|constructor].
Qed.
