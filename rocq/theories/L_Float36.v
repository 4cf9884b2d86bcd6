(** Reading decimal numbers. *)
From Coq Require Import Reals List ZArith Lra Lia Psatz Bool String.
From Flocq Require Import Core.
From Verif Require Import Py PyNum Spec M_Num M_Readers M_Constituents M_Float S_Float M_Float9 S_Decimal S_Float9
  L_Decimal L_Float L_Float2 L_Float5 L_Float7 L_Float8 L_Float34.
Import ListNotations.
Open Scope R_scope.

Lemma fnum_worth v x : worth v x -> fnum v = Ok (rnd x).
Proof. destruct v; cbn; try contradiction. now intros ->. Qed.
Lemma rnd_rel_any x : bpow radix2 (-1022) <= Rabs x -> Rabs (rnd x - x) <= u * Rabs x.
Proof. intros H. destruct (rnd_error_normal x H) as (e & He & ->). replace (x * (1 + e) - x) with (x * e) by ring. rewrite Rabs_mult. pose proof (Rabs_pos x). nra. Qed.
(** ** Order *)
Lemma decimal_apart n a b x y : significant n a -> significant n b -> worth a x -> worth b y -> x < y -> Rabs x <= (y - x) * 10 ^ n /\ Rabs y <= (y - x) * 10 ^ n.
Proof.
  destruct a as [m e| | |]; try contradiction. destruct b as [m' e'| | |]; try contradiction. cbn. intros Sa Sb -> -> L.
  assert (T : IZR (10 ^ Z.of_nat n) = 10 ^ n) by (rewrite <- pow_IZR; reflexivity).
  assert (B : Rabs (IZR m) <= 10 ^ n - 1 /\ Rabs (IZR m') <= 10 ^ n - 1). { rewrite <- !abs_IZR, <- T, <- minus_IZR. split; apply IZR_le; lia. } destruct B as [B B'].
  assert (P10 : 1 <= 10 ^ n) by (apply pow_R1_Rle; lra).
  destruct (Z_le_gt_dec e e') as [H|H].
  - rewrite (align m' e' e H) in *. set (M' := (m' * 10 ^ (e' - e))%Z) in *. pose proof (powerRZ_10_pos e) as P. set (p := powerRZ 10 e) in *. clearbody p.
    assert (G : (m + 1 <= M')%Z). { apply Z.lt_pred_le. apply lt_IZR. unfold Z.pred. rewrite !plus_IZR. apply (Rmult_lt_reg_r p); [exact P|]. lra. }
    apply IZR_le in G. rewrite plus_IZR in G. set (i := IZR m) in *. set (j := IZR M') in *. clearbody i j. rewrite !Rabs_mult, (Rabs_pos_eq p) by lra.
    assert (X : p <= j * p - i * p) by nra. split; [nra|]. 
    assert (Y : Rabs j <= (j - i) * 10 ^ n). { apply Rabs_le_inv in B. unfold Rabs. destruct (Rcase_abs j); nra. } nra.
  - rewrite (align m e e' ltac:(lia)) in *. set (M' := (m * 10 ^ (e - e'))%Z) in *. pose proof (powerRZ_10_pos e') as P. set (p := powerRZ 10 e') in *. clearbody p.
    assert (G : (M' + 1 <= m')%Z). { apply Z.lt_pred_le. apply lt_IZR. unfold Z.pred. rewrite !plus_IZR. apply (Rmult_lt_reg_r p); [exact P|]. lra. }
    apply IZR_le in G. rewrite plus_IZR in G. set (i := IZR M') in *. set (j := IZR m') in *. clearbody i j. rewrite !Rabs_mult, (Rabs_pos_eq p) by lra.
    assert (X : p <= j * p - i * p) by nra. split; [|nra]. 
    assert (Y : Rabs i <= (j - i) * 10 ^ n). { apply Rabs_le_inv in B'. unfold Rabs. destruct (Rcase_abs i); nra. } nra.
Qed.
Definition normal_or_zero (x : R) : Prop := x = 0 \/ bpow radix2 (-1022) <= Rabs x.
Lemma read_strict a b x y : significant 15 a -> significant 15 b -> worth a x -> worth b y -> normal_or_zero x -> normal_or_zero y -> x < y -> rnd x < rnd y.
Proof.
  intros Sa Sb Wa Wb Nx Ny L. destruct (decimal_apart 15 a b x y Sa Sb Wa Wb L) as [A B].
  assert (E : forall z, normal_or_zero z -> Rabs (rnd z - z) <= u * Rabs z). { intros z [->|H]; [rewrite rnd_0, Rminus_0_r, Rabs_R0; lra|now apply rnd_rel_any]. }
  pose proof (E x Nx) as Ex. pose proof (E y Ny) as Ey. pose proof u_pos as Pu.
  assert (U : u * 10 ^ 15 <= 12 / 100). { unfold u. simpl. lra. }
  assert (X1 : u * Rabs x <= 12 / 100 * (y - x)). { apply Rle_trans with (u * ((y - x) * 10 ^ 15)); [apply Rmult_le_compat_l; lra|]. replace (u * ((y - x) * 10 ^ 15)) with (u * 10 ^ 15 * (y - x)) by ring. apply Rmult_le_compat_r; lra. }
  assert (Y1 : u * Rabs y <= 12 / 100 * (y - x)). { apply Rle_trans with (u * ((y - x) * 10 ^ 15)); [apply Rmult_le_compat_l; lra|]. replace (u * ((y - x) * 10 ^ 15)) with (u * 10 ^ 15 * (y - x)) by ring. apply Rmult_le_compat_r; lra. }
  apply Rabs_le_inv in Ex, Ey. lra.
Qed.
(** Seventeen digits are not enough. *)
Lemma long_decimals : let a := Fin 10000000000000000 (-17) in let b := Fin 10000000000000001 (-17) in significant 17 a /\ significant 17 b /\ num_lt a b = true /\ fnum a = fnum b.
Proof.
  cbv zeta. split; [reflexivity|]. split; [reflexivity|]. split; [reflexivity|]. cbn [fnum]. f_equal.
  assert (P : powerRZ 10 (-17) = / 10 ^ 17) by reflexivity. rewrite P.
  assert (T : forall m, 10000000000000000 <= m <= 10000000000000001 -> rnd (m * / 10 ^ 17) = IZR 7205759403792794 * bpow radix2 (-56)).
  { intros m H. apply rnd_val; try lia; change (2 ^ 52)%Z with 4503599627370496%Z;
    change (bpow radix2 (-56)) with (/ IZR (2 ^ 56)); change (2 ^ 56)%Z with 72057594037927936%Z; simpl pow; lra. }
  rewrite !T by lra. reflexivity.
Qed.
