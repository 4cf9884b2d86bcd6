(** Masses and cross sections per atom with rounding. *)
From Coq Require Import Reals List ZArith Lra Lia Psatz Bool String Permutation.
From Flocq Require Import Core.
From Verif Require Import Py PyNum Spec M_Num M_Readers M_Constituents M_Xrmac M_XrmacTables M_Float S_Float M_Float7 M_Float9 S_Decimal S_Natural S_XrmacTables S_Float7 S_Float9
  L_Decimal L_XrmacTables L_Float L_Float2 L_Float5 L_Float7 L_Float8 L_Float34 L_Float36.
Import ListNotations.
Open Scope R_scope.

Lemma pow10_Z n : 10 ^ n = IZR (10 ^ Z.of_nat n).
Proof. rewrite <- pow_IZR. reflexivity. Qed.
Lemma normal_300 x : / 10 ^ 300 <= x -> bpow radix2 (-1022) <= x / 2.
Proof.
  intros H. apply Rle_trans with (/ 10 ^ 300 / 2); [|lra]. change (bpow radix2 (-1022)) with (/ IZR (2 ^ 1022)). unfold Rdiv. rewrite <- Rinv_mult, pow10_Z, <- mult_IZR.
  apply Rinv_le_contravar; [apply IZR_lt; reflexivity|]. apply IZR_le. apply Z.leb_le. vm_compute. reflexivity.
Qed.
Lemma rounding_zero k x' : roundings k x' 0 -> x' = 0.
Proof. intros (_ & H). rewrite Rabs_R0, Rmult_0_r, Rminus_0_r in H. pose proof (Rabs_pos x'). destruct (Req_dec x' 0) as [E|E]; [exact E|]. apply Rabs_no_R0 in E. lra. Qed.
Lemma rounding_weaken k k' x' x : k <= k' -> roundings k x' x -> roundings k' x' x.
Proof. intros L (D & H). split; [exact D|]. eapply Rle_trans; [exact H|]. apply Rmult_le_compat_r; [apply Rabs_pos|]. apply Rmult_le_compat_r; [change unit_roundoff with u; pose proof u_pos; lra|exact L]. Qed.
Lemma rounding_mul p q a' a b' b : 0 <= p <= 1000 -> 0 <= q <= 1000 -> 0 <= a -> 0 <= b -> a * b = 0 \/ / 10 ^ 300 <= a * b ->
  roundings p a' a -> roundings q b' b -> roundings (p + q + 2) (fmul a' b') (a * b).
Proof.
  intros Hp Hq Pa Pb N Ra Rb. unfold fmul. split; [apply rnd_double|]. change unit_roundoff with u. destruct N as [Z|N].
  - rewrite Z, Rabs_R0. assert (X : a' * b' = 0). { apply Rmult_integral in Z. destruct Z as [-> | ->]; [rewrite (rounding_zero p a' Ra)|rewrite (rounding_zero q b' Rb)]; ring. }
    rewrite X, rnd_0, Rminus_0_r, Rabs_R0. lra.
  - destruct Ra as (_ & Ra). destruct Rb as (_ & Rb). change unit_roundoff with u in Ra, Rb. rewrite (Rabs_pos_eq a) in Ra by exact Pa. rewrite (Rabs_pos_eq b) in Rb by exact Pb.
    rewrite (Rabs_pos_eq (a * b)) by nra. pose proof u_pos as Pu. pose proof u_small as US. simpl in US.
    assert (E : a' * b' - a * b = (a' - a) * b + a * (b' - b) + (a' - a) * (b' - b)) by ring.
    assert (D : Rabs (a' * b' - a * b) <= (p + q + / 1000) * u * (a * b)).
    { rewrite E. eapply Rle_trans; [apply Rabs_triang|]. eapply Rle_trans; [apply Rplus_le_compat_r, Rabs_triang|]. rewrite !Rabs_mult, (Rabs_pos_eq a), (Rabs_pos_eq b) by assumption.
      assert (A1 : Rabs (a' - a) * b <= p * u * a * b) by (apply Rmult_le_compat_r; assumption). assert (A2 : a * Rabs (b' - b) <= a * (q * u * b)) by (apply Rmult_le_compat_l; assumption).
      assert (A3 : Rabs (a' - a) * Rabs (b' - b) <= p * u * a * (q * u * b)) by (apply Rmult_le_compat; try apply Rabs_pos; assumption).
      assert (Q : p * q * u <= / 1000). { assert (p * q <= 1000 * 1000) by nra. assert (0 <= p * q) by nra. apply Rle_trans with (1000 * 1000 * u); [apply Rmult_le_compat_r; lra|lra]. }
      assert (A4 : p * u * a * (q * u * b) <= / 1000 * u * (a * b)). { replace (p * u * a * (q * u * b)) with (p * q * u * (u * (a * b))) by ring. replace (/ 1000 * u * (a * b)) with (/ 1000 * (u * (a * b))) by ring. apply Rmult_le_compat_r; [|exact Q]. apply Rmult_le_pos; nra. }
      lra. }
    assert (T : 0 <= a * b) by nra. set (x := a * b) in *. clearbody x. set (y := a' * b') in *. clearbody y. clear E Ra Rb.
    assert (S : (p + q + / 1000) * u <= / 1000) by (assert (p + q + / 1000 <= 2001) by lra; apply Rle_trans with (2001 * u); [apply Rmult_le_compat_r; lra|lra]).
    assert (Y : x / 2 <= y <= x * (1 + / 1000)) by (apply Rabs_le_inv in D; nra). pose proof (normal_300 x N) as NN.
    assert (R1 : Rabs (rnd y - y) <= u * y). { rewrite <- (Rabs_pos_eq y) at 3 by lra. apply rnd_rel_any. rewrite Rabs_pos_eq; lra. }
    assert (U1 : u * y <= u * (x * (1 + / 1000))) by (apply Rmult_le_compat_l; lra). apply Rabs_le_inv in R1, D. apply Rabs_le. 
    assert (0 <= u * x) by (apply Rmult_le_pos; lra). nra.
Qed.
(** ** Sums *)
Lemma height_le t : (S (height t) <= List.length (indices t))%nat.
Proof. induction t as [i|l IHl r IHr]; cbn [height indices List.length]; [lia|]. rewrite app_length. lia. Qed.
Lemma pow_u h : (h <= 500)%nat -> (1 + u) ^ h - 1 <= 1001 / 1000 * INR h * u.
Proof.
  pose proof u_pos as Pu. pose proof u_small as US. simpl in US. induction h as [|h IH]; intros H; [cbn; lra|]. specialize (IH ltac:(lia)). rewrite S_INR. change ((1 + u) ^ S h) with ((1 + u) * (1 + u) ^ h).
  assert (B : INR h <= 500) by (replace 500 with (INR 500) by (rewrite INR_IZR_INZ; reflexivity); apply le_INR; lia). pose proof (pos_INR h). assert (X : 1001 / 1000 * INR h * u <= / 1000 / 2). { apply Rle_trans with (1001 / 1000 * 500 * u); [apply Rmult_le_compat_r; lra|lra]. }
  assert (Z : (1 + u) * (1 + u) ^ h <= (1 + u) * (1 + 1001 / 1000 * INR h * u)) by (apply Rmult_le_compat_l; lra). assert (W : u * (1001 / 1000 * INR h * u) <= u * (/ 1000 / 2)) by (apply Rmult_le_compat_l; lra). lra.
Qed.
Lemma pow_u_ge h : 1 <= (1 + u) ^ h.
Proof. apply pow_R1_Rle. pose proof u_pos. lra. Qed.
Lemma sum_roundings p t xs' xs : 0 <= p <= 100 -> order_for (List.length xs') t -> (1 <= List.length xs' <= 500)%nat -> Forall2 (fun x' x => roundings p x' x /\ 0 <= x) xs' xs ->
  roundings (p + INR (List.length xs')) (np_sum t xs') (Rsum xs) /\ 0 <= Rsum xs.
Proof.
  intros Hp O L F. pose proof u_pos as Pu. pose proof u_small as US. simpl in US.
  assert (D : List.Forall double xs') by (clear - F; induction F as [|x' x l' l ((D & _) & _) F IH]; constructor; assumption).
  assert (Q : 0 <= Rsum xs /\ Rabs (Rsum xs' - Rsum xs) <= p * u * Rsum xs /\ Rabs_sum xs' <= (1 + p * u) * Rsum xs).
  { clear - F Pu. induction F as [|x' x l' l ((D & H) & P) F (IH1 & IH2 & IH3)]; [cbn; unfold Rabs_sum; cbn; rewrite Rminus_0_r, Rabs_R0; lra|]. unfold Rabs_sum in *. cbn [map]. rewrite !Rsum_cons'. change unit_roundoff with u in H. rewrite (Rabs_pos_eq x) in H by exact P.
    split; [lra|]. pose proof H as H2. apply Rabs_le_inv in H2, IH2. split; [apply Rabs_le; lra|]. assert (Rabs x' <= x + p * u * x). { replace x' with (x + (x' - x)) by ring. eapply Rle_trans; [apply Rabs_triang|]. rewrite (Rabs_pos_eq x) by exact P. lra. } lra. }
  destruct Q as (P & S1 & S2). split; [|exact P]. split; [now apply np_sum_double|]. change unit_roundoff with u. rewrite (Rabs_pos_eq (Rsum xs)) by exact P. pose proof (np_sum_error t xs' O D) as E.
  assert (H : (S (oheight t) <= List.length xs')%nat). { destruct t as [t|]; [|cbn in O; cbn; lia]. cbn in O |- *. pose proof (height_le t) as HL. apply Permutation_length in O. rewrite seq_length in O. lia. }
  pose proof (pow_u (oheight t) ltac:(lia)) as PU. pose proof (pow_u_ge (oheight t)) as PG. set (n := List.length xs') in *. assert (HN : INR (oheight t) <= INR n - 1). { apply le_INR in H. rewrite S_INR in H. lra. }
  assert (NB : INR n <= 500) by (replace 500 with (INR 500) by (rewrite INR_IZR_INZ; reflexivity); apply le_INR; lia).
  assert (A : ((1 + u) ^ oheight t - 1) * Rabs_sum xs' <= 1001 / 1000 * (INR n - 1) * u * ((1 + p * u) * Rsum xs)).
  { apply Rmult_le_compat; [lra|apply Rabs_sum_nonneg|eapply Rle_trans; [exact PU|]; apply Rmult_le_compat_r; lra|exact S2]. }
  assert (PU2 : p * u <= / 1000) by (apply Rle_trans with (100 * u); [apply Rmult_le_compat_r; lra|lra]).
  assert (N1 : 1 <= INR n) by (change 1 with (INR 1); apply le_INR; lia).
  assert (B : 1001 / 1000 * (INR n - 1) * u * ((1 + p * u) * Rsum xs) <= INR n * u * Rsum xs).
  { rewrite <- Rmult_assoc. apply Rmult_le_compat_r; [exact P|]. rewrite (Rmult_comm _ u), (Rmult_comm (INR n) u), Rmult_assoc. apply Rmult_le_compat_l; [lra|]. nra. }
  apply Rabs_le_inv in E, S1. apply Rabs_le. lra.
Qed.
