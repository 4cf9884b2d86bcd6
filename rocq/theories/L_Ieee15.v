(** XRMAC tables with infinities and nan: positive tables. *)
From Coq Require Import Reals List ZArith Lia Lra Bool Permutation.
From Flocq Require Import Core BinarySingleNaN.
From Verif Require Import Py M_Num M_Grid M_CrossSection M_Xrmac M_Float S_Float M_Float7 S_Float7 M_Ieee M_Ieee4 S_Ieee S_Ieee4 L_Xrmac L_Float L_Float25 L_Float26 L_Ieee L_Ieee2 L_Ieee5.
Import ListNotations.
Open Scope R_scope.

(** ** Logarithms *)
Lemma log10_pow2 n : Rabs (log10 (bpow radix2 n)) <= Rabs (IZR n).
Proof.
  unfold log10. rewrite bpow_powerRZ, powerRZ_Rpower by (cbn; lra). unfold Rpower. rewrite ln_exp. pose proof ln10_pos as P. unfold Rdiv. rewrite Rmult_assoc, Rabs_mult. rewrite <- (Rmult_1_r (Rabs (IZR n))) at 2.
  apply Rmult_le_compat_l; [apply Rabs_pos|]. assert (L2 : 0 < ln (IZR radix2)) by (change (IZR radix2) with 2; pose proof (ln_lt_2); lra). assert (L10 : ln (IZR radix2) <= ln 10) by (left; apply ln_increasing; cbn; lra).
  rewrite Rabs_pos_eq. - apply Rmult_le_reg_r with (ln 10); auto. rewrite Rmult_assoc, Rinv_l by lra. lra. - apply Rmult_le_pos; [lra|]. left. now apply Rinv_0_lt_compat.
Qed.
Lemma multiple x k : double x -> (k <= cexp radix2 fexp64 x)%Z -> exists n, x = IZR n * bpow radix2 k.
Proof.
  intros D H. exists (Ztrunc (scaled_mantissa radix2 fexp64 x) * 2 ^ (cexp radix2 fexp64 x - k))%Z.
  transitivity (F2R (Float radix2 (Ztrunc (scaled_mantissa radix2 fexp64 x)) (cexp radix2 fexp64 x))); [exact D|]. unfold F2R. cbn [Fnum Fexp].
  rewrite mult_IZR. change (2 ^ _)%Z with (radix2 ^ (cexp radix2 fexp64 x - k))%Z. rewrite IZR_Zpower by lia. rewrite Rmult_assoc, <- bpow_plus. do 2 f_equal. lia.
Qed.
Lemma double_min x : 0 < x -> double x -> bpow radix2 (-1074) <= x.
Proof.
  intros P D. destruct (multiple x (-1074) D) as [n E]. { unfold cexp, fexp64, FLT_exp. lia. }
  pose proof (bpow_gt_0 radix2 (-1074)) as B. assert (1 <= IZR n). { apply IZR_le. apply Z.lt_pred_le. cbn. apply lt_IZR. nra. }
  rewrite E. nra.
Qed.
Lemma log10_bounded x : 0 < x -> double x -> x < big -> Rabs (log10 x) <= 1074.
Proof.
  intros P D B. pose proof (double_min x P D) as L. pose proof (log10_le _ _ (bpow_gt_0 radix2 (-1074)) L) as L1. pose proof (log10_le _ _ P (Rlt_le _ _ B)) as L2.
  pose proof (log10_pow2 (-1074)) as A1. pose proof (log10_pow2 1024) as A2. rewrite <- abs_IZR in A1, A2. change (Z.abs (-1074)) with 1074%Z in A1. change (Z.abs 1024) with 1024%Z in A2. apply Rabs_le_inv in A1, A2. apply Rabs_le. lra.
Qed.

Section Logs.
Variable g : llib.
Hypothesis G : llib_ok g.
Lemma g_double x : 0 < x -> double x -> double (g_log10 g x).
Proof. intros P D. apply (proj1 G x P D). Qed.
Lemma g_close x : 0 < x -> double x -> Rabs (g_log10 g x - log10 x) <= / 1000 * Rabs (log10 x).
Proof.
  intros P D. destruct G as (H & _). destruct (H x P D) as [_ K]. eapply Rle_trans; [exact K|]. apply Rmult_le_compat_r; [apply Rabs_pos|]. change unit_roundoff with u. unfold u. simpl pow. lra.
Qed.
Lemma g_bounded x : 0 < x -> double x -> x < big -> Rabs (g_log10 g x) <= 1076.
Proof.
  intros P D B. pose proof (log10_bounded x P D B) as L. pose proof (g_close x P D) as C. replace (g_log10 g x) with (log10 x + (g_log10 g x - log10 x)) by ring. eapply Rle_trans; [apply Rabs_triang|]. lra.
Qed.
(** Logarithms are multiples of 2^-114. *)
Lemma g_multiple x : 0 < x -> double x -> exists n, g_log10 g x = IZR n * bpow radix2 (-114).
Proof.
  intros P D. pose proof (g_close x P D) as C. destruct (Req_dec x 1) as [->|N].
  - assert (Z : log10 1 = 0) by (unfold log10; rewrite ln_1; unfold Rdiv; ring). rewrite Z, Rabs_R0, Rminus_0_r, Rmult_0_r in C. exists 0%Z. pose proof (Rabs_pos (g_log10 g 1)).
    rewrite Rmult_0_l. destruct (Req_dec (g_log10 g 1) 0) as [|K]; auto. apply Rabs_pos_lt in K. lra.
  - apply multiple; [now apply g_double|]. pose proof (log10_away x P D N) as A.
    assert (B : bpow radix2 (-61) <= Rabs (g_log10 g x)).
    { apply Rle_trans with (/ 2 ^ 60 * / 2). { cbn. lra. } pose proof (Rabs_triang_inv (log10 x) (log10 x - g_log10 g x)) as T. replace (log10 x - (log10 x - g_log10 g x)) with (g_log10 g x) in T by ring. rewrite Rabs_minus_sym in T. lra. }
    unfold cexp, fexp64, FLT_exp. pose proof (mag_ge_bpow radix2 (g_log10 g x) (-60) B). lia.
Qed.
Lemma g_gap x y : 0 < x -> 0 < y -> double x -> double y -> g_log10 g x < g_log10 g y -> bpow radix2 (-114) <= g_log10 g y - g_log10 g x.
Proof.
  intros Px Py Dx Dy H. destruct (g_multiple x Px Dx) as [n En]. destruct (g_multiple y Py Dy) as [m Em]. rewrite En, Em in *. pose proof (bpow_gt_0 radix2 (-114)) as B.
  assert (K : (n < m)%Z) by (apply lt_IZR; nra). rewrite <- Rmult_minus_distr_r, <- minus_IZR. assert (1 <= IZR (m - n)) by (apply IZR_le; lia). nra.
Qed.
End Logs.

(** ** Sorting *)
Definition same_point (p : b64 * b64) (q : R * R) : Prop := rep (fst p) (fst q) /\ rep (snd p) (snd q).
Lemma insert_same p q l l' : same_point p q -> Forall2 same_point l l' -> Forall2 same_point (binsert_stable p l) (insert_stable q l').
Proof.
  intros H F. induction F as [|a b l l' Hab F IH]; [constructor; auto|]. cbn. unfold bless. rewrite (rep_nan _ _ (proj1 H)), (rep_lt _ _ _ _ (proj1 Hab) (proj1 H)).
  destruct (Rle_dec (fst q) (fst b)) as [L|L].
  - rewrite Rlt_bool_false by lra. constructor; auto.
  - rewrite Rlt_bool_true by lra. constructor; auto.
Qed.
Lemma sort_same l l' : Forall2 same_point l l' -> Forall2 same_point (bsort_stable l) (sort_stable l').
Proof. induction 1; [constructor|]. now apply insert_same. Qed.

(** ** Interpolation *)
Lemma rep_eq a b x y : rep a x -> rep b y -> Beqb a b = Req_bool x y.
Proof. intros [Fa <-] [Fb <-]. apply Beqb_correct; auto. Qed.
Definition fsegment (x0 y0 x1 y1 x : R) : R := fadd (fmul (fquo (fsub y1 y0) (fsub x1 x0)) (fsub x x0)) y0.
Lemma segment_same x0 y0 x1 y1 x X0 Y0 X1 Y1 X : rep x0 X0 -> rep y0 Y0 -> rep x1 X1 -> rep y1 Y1 -> rep x X ->
  Rabs X0 <= bpow radix2 11 -> Rabs Y0 <= bpow radix2 11 -> Rabs X1 <= bpow radix2 11 -> Rabs Y1 <= bpow radix2 11 -> Rabs X <= bpow radix2 11 -> bpow radix2 (-114) <= X1 - X0 ->
  rep (bsegment x0 y0 x1 y1 x) (fsegment X0 Y0 X1 Y1 X).
Proof.
  intros Rx0 Ry0 Rx1 Ry1 Rx B1 B2 B3 B4 B5 Gap.
  assert (D : bnd (bsub y1 y0) (fsub Y1 Y0) 12) by (apply (bnd_sub _ _ _ _ 11 11); [split; auto|split; auto|lia]).
  assert (W : win (bsub x1 x0) (fsub X1 X0) (-114) 12).
  { destruct (bnd_sub x1 x0 X1 X0 11 11) as [R B]; [split; auto|split; auto|lia|]. split; [exact R|]. split.
    - apply Rle_trans with (rnd (bpow radix2 (-114))); [right; symmetry; apply rnd_id, bpow_double; lia|]. now apply rnd_le.
    - eapply Rle_trans; [apply Rle_abs|exact B]. }
  pose proof (bnd_quo _ _ _ _ _ _ _ D W ltac:(lia)) as S. 
  assert (Z : bnd (bsub x x0) (fsub X X0) 12) by (apply (bnd_sub _ _ _ _ 11 11); [split; auto|split; auto|lia]).
  pose proof (bnd_mul _ _ _ _ _ _ S Z ltac:(lia)) as P.
  assert (Y : bnd y0 Y0 11) by (split; auto). destruct (bnd_add _ _ _ _ _ _ P Y ltac:(lia)) as [R _].
  unfold bsegment. cbv zeta. rewrite (rep_nan _ _ R). exact R.
Qed.

(** Points with moderate numbers whose abscissae are separated. *)
Definition moderate (l : list (R * R)) : Prop := Forall (fun p => Rabs (fst p) <= bpow radix2 11 /\ Rabs (snd p) <= bpow radix2 11) l /\
  (forall p q, In p l -> In q l -> fst p < fst q -> bpow radix2 (-114) <= fst q - fst p).
Lemma interp_same l l' x X : Forall2 same_point l l' -> moderate l' -> rep x X -> Rabs X <= bpow radix2 11 -> fst (hd (0, 0) l') <= X ->
  rep (bnp_interp l x) (fnp_interp l' X).
Proof.
  intros F. induction F as [|[x0 y0] [X0 Y0] l l' [H1 H2] F IH]; intros [M Gap] Rx BX L; [apply Z_rep; cbn; lia|].
  destruct F as [|[x1 y1] [X1 Y1] l l' [H3 H4] F]; [exact H2|]. cbn [fst snd] in *. cbn [hd fst] in L.
  rewrite fnp_step. change (rep (if Bleb x1 x then bnp_interp ((x1, y1) :: l) x else if Beqb x x0 then y0 else bsegment x0 y0 x1 y1 x)
    (if Rlt_dec X X1 then if Req_EM_T X X0 then Y0 else fadd (fmul (fquo (fsub Y1 Y0) (fsub X1 X0)) (fsub X X0)) Y0 else fnp_interp ((X1, Y1) :: l') X)).
  rewrite (rep_le _ _ _ _ H3 Rx). destruct (Rlt_dec X X1) as [C|C].
  - rewrite Rle_bool_false by lra. rewrite (rep_eq _ _ _ _ Rx H1). destruct (Req_EM_T X X0) as [E|E].
    + rewrite Req_bool_true by auto. exact H2.
    + rewrite Req_bool_false by auto. inversion M as [|? ? M1 M']; subst. inversion M' as [|? ? M2 M'']; subst. cbn [fst snd] in *.
      apply segment_same; try tauto. apply (Gap (X0, Y0) (X1, Y1)); [now left|right; now left|cbn; lra].
  - rewrite Rle_bool_true by lra. apply IH; auto.
    + split; [now inversion M|]. intros p q I J. apply Gap; now right.
    + cbn. lra.
Qed.
