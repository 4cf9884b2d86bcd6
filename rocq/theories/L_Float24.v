(** Interpolation of logarithms with rounding. *)
From Coq Require Import Reals List ZArith Lra Lia Psatz Sorted.
From Flocq Require Import Core.
From Verif Require Import Py Spec M_Num M_Grid M_CrossSection M_Xrmac S_Xrmac M_Float S_Float M_Float7 S_Float7
  L_Xrmac L_Float L_Float2 L_Float5 L_Float7 L_Float9.
Import ListNotations.
Open Scope R_scope.

(** Four factors and a divisor. *)
Lemma five_err e1 e2 e3 e4 e5 : Rabs e1 <= u -> Rabs e2 <= u -> Rabs e3 <= u -> Rabs e4 <= u -> Rabs e5 <= u ->
  Rabs ((1 + e1) / (1 + e2) * (1 + e3) * (1 + e4) * (1 + e5) - 1) <= 6 * u.
Proof.
  intros H1 H2 H3 H4 H5. pose proof (near_exact 1 Rlt_0_1) as N.
  assert (N2 : near 1 (1 + e2) 1) by (rewrite <- (Rmult_1_l (1 + e2)); now apply near_err).
  assert (N1 : near 1 (1 + e1) 1) by (rewrite <- (Rmult_1_l (1 + e1)); now apply near_err).
  pose proof (near_div _ _ _ _ _ _ N1 N2) as Q. replace (1 / 1) with 1 in Q by field.
  apply (near_err e3) in Q; [|exact H3]. apply (near_err e4) in Q; [|exact H4]. apply (near_err e5) in Q; [|exact H5].
  apply near_bound in Q; [|lia]. replace (INR (Datatypes.S (Datatypes.S (Datatypes.S (1 + 1)))) + 1) with 6 in Q by (simpl; ring). lra.
Qed.

Section Segment.
Variables (M S0 : R).
Hypothesis (HM : 1 <= M <= 100) (HS : 0 <= S0).
Let d := 2 * u * M.
Lemma d_small : 0 < d <= / 4 * M.
Proof. unfold d. pose proof u_pos. pose proof u_tiny. split; nra. Qed.

(** The ratio of distances. *)
Lemma ratio_err x0 x1 x l0 l1 lx : x0 < x1 -> l0 < l1 -> l0 <= lx <= l1 ->
  Rabs (l0 - x0) <= d -> Rabs (l1 - x1) <= d -> Rabs (lx - x) <= d ->
  Rabs ((lx - l0) / (l1 - l0) - (x - x0) / (x1 - x0)) * (x1 - x0) <= 4 * d.
Proof.
  intros Hx Hl Hlx E0 E1 Ex. set (rho := (lx - l0) / (l1 - l0)). set (r := (x - x0) / (x1 - x0)).
  assert (Er : r * (x1 - x0) = x - x0) by (unfold r; field; lra). assert (Eh : rho * (l1 - l0) = lx - l0) by (unfold rho; field; lra).
  assert (R1 : 0 <= rho <= 1).
  { unfold rho. split; [apply Rmult_le_pos; [lra|left; apply Rinv_0_lt_compat; lra]|]. apply (Rmult_le_reg_r (l1 - l0)); [lra|]. unfold Rdiv. rewrite Rmult_assoc, Rinv_l; lra. }
  rewrite <- (Rabs_pos_eq (x1 - x0)) by lra. rewrite <- Rabs_mult.
  replace ((rho - r) * (x1 - x0)) with (rho * ((x1 - l1) - (x0 - l0)) + ((lx - x) - (l0 - x0))) by lra.
  apply Rabs_le_inv in E0, E1, Ex. apply Rabs_le. clearbody rho r. clear Er Eh. nra.
Qed.
(** Exact interpolation of perturbed points. *)
Lemma exact_err x0 x1 y0 y1 x l0 l1 k0 k1 lx : x0 < x1 -> l0 < l1 -> l0 <= lx <= l1 ->
  Rabs (l0 - x0) <= d -> Rabs (l1 - x1) <= d -> Rabs (lx - x) <= d -> Rabs (k0 - y0) <= d -> Rabs (k1 - y1) <= d ->
  Rabs (y1 - y0) <= S0 * (x1 - x0) ->
  Rabs ((k1 - k0) * ((lx - l0) / (l1 - l0)) + k0 - ((y1 - y0) / (x1 - x0) * (x - x0) + y0)) <= (3 + 4 * S0) * d.
Proof.
  intros Hx Hl Hlx E0 E1 Ex F0 F1 HY. pose proof (ratio_err x0 x1 x l0 l1 lx Hx Hl Hlx E0 E1 Ex) as RE.
  set (rho := (lx - l0) / (l1 - l0)) in *. replace ((y1 - y0) / (x1 - x0) * (x - x0)) with ((y1 - y0) * ((x - x0) / (x1 - x0))) by (field; lra). set (r := (x - x0) / (x1 - x0)) in *.
  assert (R1 : 0 <= rho <= 1).
  { unfold rho. split; [apply Rmult_le_pos; [lra|left; apply Rinv_0_lt_compat; lra]|]. apply (Rmult_le_reg_r (l1 - l0)); [lra|]. unfold Rdiv. rewrite Rmult_assoc, Rinv_l; lra. }
  replace ((k1 - k0) * rho + k0 - ((y1 - y0) * r + y0)) with ((((k1 - y1) - (k0 - y0)) * rho + (k0 - y0)) + (y1 - y0) * (rho - r)) by ring.
  eapply Rle_trans; [apply Rabs_triang|]. rewrite (Rabs_mult (y1 - y0)).
  assert (A : Rabs (y1 - y0) * Rabs (rho - r) <= S0 * (4 * d)).
  { apply Rle_trans with (S0 * (x1 - x0) * Rabs (rho - r)); [apply Rmult_le_compat_r; [apply Rabs_pos|exact HY]|]. rewrite Rmult_assoc. apply Rmult_le_compat_l; [exact HS|]. rewrite Rmult_comm. exact RE. }
  assert (B : Rabs ((k1 - y1 - (k0 - y0)) * rho + (k0 - y0)) <= 3 * d).
  { pose proof d_small as D. apply Rabs_le_inv in F0, F1. clearbody rho r. apply Rabs_le. clear - F0 F1 R1 D. nra. }
  lra.
Qed.
(** The operations. *)
Lemma ops_err l0 l1 k0 k1 lx : double l0 -> double l1 -> double k0 -> double k1 -> double lx -> l0 < l1 -> l0 <= lx <= l1 ->
  Rabs l0 <= 33 / 32 * M -> Rabs l1 <= 33 / 32 * M -> Rabs k0 <= 33 / 32 * M -> Rabs k1 <= 33 / 32 * M ->
  Rabs (fadd (fmul (fquo (fsub k1 k0) (fsub l1 l0)) (fsub lx l0)) k0 - ((k1 - k0) * ((lx - l0) / (l1 - l0)) + k0)) <= 17 * M * u.
Proof.
  intros D0 D1 C0 C1 Dx Hl Hlx B0 B1 A0 A1. pose proof u_pos as Pu. pose proof u_tiny as Ut. pose proof eta_u as Et. pose proof eta_pos as Pe.
  destruct (fsub_error k1 k0 C1 C0) as (e1 & H1 & E1). destruct (fsub_error l1 l0 D1 D0) as (e2 & H2 & E2). destruct (rnd_error (fsub k1 k0 / fsub l1 l0)) as (e3 & h3 & H3 & G3 & E3).
  destruct (fsub_error lx l0 Dx D0) as (e4 & H4 & E4). destruct (rnd_error (fquo (fsub k1 k0) (fsub l1 l0) * fsub lx l0)) as (e5 & h5 & H5 & G5 & E5).
  set (D := k1 - k0) in *. set (rho := (lx - l0) / (l1 - l0)).
  set (w := (1 + e1) / (1 + e2) * (1 + e3) * (1 + e4) * (1 + e5)). pose proof (five_err e1 e2 e3 e4 e5 H1 H2 H3 H4 H5) as W. fold w in W.
  set (z := h3 * ((lx - l0) * (1 + e4)) * (1 + e5) + h5).
  assert (N2 : 0 < 1 + e2) by (apply Rabs_le_inv in H2; lra).
  assert (P : fmul (fquo (fsub k1 k0) (fsub l1 l0)) (fsub lx l0) = D * rho * w + z).
  { unfold fmul. rewrite E5. unfold fquo at 1. rewrite E3, E1, E2, E4. unfold w, z, rho. field. split; lra. }
  assert (R1 : 0 <= rho <= 1).
  { unfold rho. split; [apply Rmult_le_pos; [lra|left; apply Rinv_0_lt_compat; lra]|]. apply (Rmult_le_reg_r (l1 - l0)); [lra|]. unfold Rdiv. rewrite Rmult_assoc, Rinv_l; lra. }
  assert (BD : Rabs D <= 33 / 16 * M) by (unfold D; apply Rabs_le_inv in A0, A1; apply Rabs_le; lra).
  assert (BR : Rabs (D * rho) <= 33 / 16 * M) by (rewrite Rabs_mult, (Rabs_pos_eq rho) by lra; pose proof (Rabs_pos D); nra).
  assert (BZ : Rabs z <= / 64 * M * u).
  { unfold z. eapply Rle_trans; [apply Rabs_triang|]. rewrite !Rabs_mult. 
    assert (X1 : Rabs (1 + e4) <= 9 / 8) by (apply Rabs_le_inv in H4; apply Rabs_le; lra). assert (X2 : Rabs (1 + e5) <= 9 / 8) by (apply Rabs_le_inv in H5; apply Rabs_le; lra).
    assert (X3 : Rabs (lx - l0) <= 33 / 16 * M) by (apply Rabs_le_inv in B0, B1; apply Rabs_le; lra).
    assert (X4 : Rabs (lx - l0) * Rabs (1 + e4) <= 33 / 16 * M * (9 / 8)) by (apply Rmult_le_compat; auto using Rabs_pos).
    assert (X5 : Rabs h3 * (Rabs (lx - l0) * Rabs (1 + e4)) <= eta * (33 / 16 * M * (9 / 8))) by (apply Rmult_le_compat; auto using Rabs_pos; apply Rmult_le_pos; apply Rabs_pos).
    assert (X6 : Rabs h3 * (Rabs (lx - l0) * Rabs (1 + e4)) * Rabs (1 + e5) <= eta * (33 / 16 * M * (9 / 8)) * (9 / 8)) by (apply Rmult_le_compat; auto using Rabs_pos; repeat (apply Rmult_le_pos; try apply Rabs_pos)).
    assert (X7 : eta * M <= u * / 1024 * M) by (apply Rmult_le_compat_r; lra). nra. }
  rewrite P. destruct (fadd_error (D * rho * w + z) k0) as (e6 & H6 & E6); [rewrite <- P; apply rnd_double|exact C0|]. rewrite E6.
  assert (W' : Rabs (D * rho * (w - 1)) <= 33 / 16 * M * (6 * u)) by (rewrite Rabs_mult; apply Rmult_le_compat; auto using Rabs_pos).
  replace ((D * rho * w + z + k0) * (1 + e6) - (D * rho + k0)) with ((D * rho * (w - 1) + z) + (D * rho + k0 + (D * rho * (w - 1) + z)) * e6) by ring.
  assert (Y1 : Rabs (D * rho * (w - 1) + z) <= 33 / 16 * M * (6 * u) + / 64 * M * u) by (eapply Rle_trans; [apply Rabs_triang|]; lra).
  assert (Y2 : Rabs (D * rho + k0 + (D * rho * (w - 1) + z)) <= 4 * M).
  { apply Rabs_le_inv in BR, A0, Y1. apply Rabs_le. assert (M * u <= M * / 1024) by (apply Rmult_le_compat_l; lra). lra. }
  eapply Rle_trans; [apply Rabs_triang|]. rewrite (Rabs_mult _ e6).
  assert (Y3 : Rabs (D * rho + k0 + (D * rho * (w - 1) + z)) * Rabs e6 <= 4 * M * u) by (apply Rmult_le_compat; auto using Rabs_pos).
  assert (0 < M * u) by nra. lra.
Qed.
Lemma segment_err x0 x1 y0 y1 x l0 l1 k0 k1 lx : double l0 -> double l1 -> double k0 -> double k1 -> double lx ->
  x0 < x1 -> l0 < l1 -> l0 <= lx <= l1 ->
  Rabs x0 <= M -> Rabs x1 <= M -> Rabs y0 <= M -> Rabs y1 <= M ->
  Rabs (l0 - x0) <= d -> Rabs (l1 - x1) <= d -> Rabs (lx - x) <= d -> Rabs (k0 - y0) <= d -> Rabs (k1 - y1) <= d ->
  Rabs (y1 - y0) <= S0 * (x1 - x0) ->
  Rabs (fadd (fmul (fquo (fsub k1 k0) (fsub l1 l0)) (fsub lx l0)) k0 - ((y1 - y0) / (x1 - x0) * (x - x0) + y0)) <= 24 * (1 + S0) * M * u.
Proof.
  intros D0 D1 C0 C1 Dx Hx Hl Hlx A0 A1 B0 B1 E0 E1 Ex F0 F1 HY.
  assert (BB : forall a b, Rabs a <= M -> Rabs (b - a) <= d -> Rabs b <= 33 / 32 * M).
  { intros a b Ha Hb. assert (d <= / 32 * M) by (unfold d; pose proof u_tiny; pose proof u_pos; nra). apply Rabs_le_inv in Ha, Hb. apply Rabs_le. lra. }
  pose proof (ops_err l0 l1 k0 k1 lx D0 D1 C0 C1 Dx Hl Hlx (BB _ _ A0 E0) (BB _ _ A1 E1) (BB _ _ B0 F0) (BB _ _ B1 F1)) as O.
  pose proof (exact_err x0 x1 y0 y1 x l0 l1 k0 k1 lx Hx Hl Hlx E0 E1 Ex F0 F1 HY) as X.
  assert (Q : (3 + 4 * S0) * d = 6 * (M * u) + 8 * (S0 * (M * u))) by (unfold d; ring). rewrite Q in X. pose proof u_pos. assert (0 < M * u) by nra. assert (0 <= S0 * (M * u)) by nra.
  replace (24 * (1 + S0) * M * u) with (24 * (M * u) + 24 * (S0 * (M * u))) by ring. replace (17 * M * u) with (17 * (M * u)) in O by ring.
  apply Rabs_le_inv in O, X. apply Rabs_le. lra.
Qed.
End Segment.
