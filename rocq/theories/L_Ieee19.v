(** Library functions that round correctly, and a table. *)
From Coq Require Import Reals List ZArith Bool Lra Lia.
From Flocq Require Import Core BinarySingleNaN.
From Verif Require Import Py M_Num M_Xrmac M_Float S_Float M_Float7 S_Float7 M_Ieee M_Ieee4 S_Ieee S_Ieee4 L_Xrmac L_Float L_Float25 L_Float26 L_Ieee L_Ieee2 L_Ieee9 L_Ieee13 L_Ieee15 L_Ieee16 L_Ieee17 L_Ieee18.
Import ListNotations.
Open Scope R_scope.

Lemma log_rep b : finite b -> 0 < B2R b -> rep (of_R (log10 (B2R b))) (rnd (log10 (B2R b))).
Proof.
  intros F P. apply (bounded_rep _ 11); [lia|]. pose proof (log10_bounded (B2R b) P (rep_double _ _ (rep_refl _ F))) as H. eapply Rle_trans; [apply H|].
  - pose proof (abs_B2R_lt_emax 53 1024 b) as B. rewrite Rabs_pos_eq in B by lra. exact B.
  - change (bpow radix2 11) with 2048. lra.
Qed.
Lemma pow10_INR n : pow10 (INR n) = 10 ^ n.
Proof. unfold pow10. rewrite <- ln_pow by lra. apply exp_ln, pow_lt. lra. Qed.
Lemma pow10_small y : Rabs y <= 300 -> 0 < pow10 y <= bpow radix2 1000.
Proof.
  intros H. apply Rabs_le_inv in H. assert (P : 0 < pow10 y) by apply exp_pos. split; [exact P|]. assert (L : 0 < ln 10) by (rewrite <- ln_1; apply ln_increasing; lra).
  apply Rle_trans with (pow10 (INR 300)). { unfold pow10. destruct (Rle_lt_or_eq_dec y (INR 300)) as [Q|Q]; [rewrite INR_IZR_INZ; cbn; lra| |rewrite Q; apply Rle_refl]. left. apply exp_increasing. now apply Rmult_lt_compat_r. }
  rewrite pow10_INR. replace (10 ^ 300) with ((10 ^ 3) ^ 100) by (rewrite <- pow_mult; reflexivity). replace (bpow radix2 1000) with ((2 ^ 10) ^ 100).
  - apply pow_incr. lra.
  - rewrite <- pow_mult. symmetry. exact (bpow_powerRZ radix2 1000).
Qed.
Lemma pow_finite b : finite b -> bg_pow10 correct_bllib b = if Rlt_dec (rnd (pow10 (B2R b))) (bpow radix2 1024) then of_R (pow10 (B2R b)) else B754_infinity false.
Proof. destruct b; try discriminate; reflexivity. Qed.
Lemma rnd_pow_pos y : 0 <= rnd (pow10 y).
Proof. rewrite <- (round_0 radix2 (FLT_exp (-1074) 53) ZnearestE). apply round_le; try typeclasses eauto. left. apply exp_pos. Qed.
Lemma correct_bllib_same : same_llib correct_bllib correct_llib.
Proof.
  split; [|split].
  - intros b x [F <-] P. destruct (finite_pos b F P) as (m & e & W & E). cbn [correct_llib g_log10]. rewrite E at 1. cbn [correct_bllib bg_log10]. rewrite <- E. now apply log_rep.
  - intros b F. rewrite pow_finite by exact F. destruct (Rlt_dec _ _) as [H|H]; [|discriminate]. intros _. cbn [correct_llib g_pow10]. apply of_R_rep. rewrite Rabs_pos_eq by apply rnd_pow_pos. exact H.
  - intros b F B. rewrite pow_finite by exact F. destruct (pow10_small _ B) as [P Q]. assert (H : Rabs (pow10 (B2R b)) <= bpow radix2 1000) by (rewrite Rabs_pos_eq; lra). destruct (Rlt_dec _ _) as [H'|H'].
    + apply (bounded_rep _ 1000); [lia|exact H].
    + exfalso. apply H'. apply (rnd_bpow _ 1000) in H; [|lia]. rewrite Rabs_pos_eq in H by apply rnd_pow_pos. eapply Rle_lt_trans; [exact H|]. apply bpow_lt. lia.
Qed.
Lemma correct_bllib_special : bllib_special correct_bllib.
Proof.
  repeat split; try reflexivity.
  - intros b F N. destruct (finite_neg b F ltac:(lra)) as [[s ->]|(m & e & W & ->)]; [cbn in N; lra|reflexivity].
  - intros b F P. destruct correct_bllib_same as [H _]. now apply (H b _ (rep_refl _ F)).
  - intros b F. rewrite pow_finite by exact F. destruct (Rlt_dec _ _) as [H|H]; [|discriminate]. assert (R : rep (of_R (pow10 (B2R b))) (rnd (pow10 (B2R b)))) by (apply of_R_rep; rewrite Rabs_pos_eq by apply rnd_pow_pos; exact H).
    intros E. rewrite E in R. now destruct R.
Qed.

(** ** The statements *)
Section Statements.
Variables (L : bllib) (g : llib) (minval : nat) (o : binterp1d).
Hypothesis (G : llib_ok g) (S : same_llib L g) (Sp : bllib_special L).
Lemma zeros pre e1 c1 e2 c2 post E : energies_ok (pre ++ (e1, c1) :: (e2, c2) :: post) -> binterpolate_log_log L minval (pre ++ (e1, c1) :: (e2, c2) :: post) = Ok o ->
  between L e1 E e2 -> not_negative c1 -> not_negative c2 -> B2R c1 = 0 \/ B2R c2 = 0 -> bxrmac_call L o E = of_Z 0.
Proof. intros K HO B. exact (zero_cell L g G S Sp _ _ _ _ _ _ _ _ _ (make_cell L g G S _ _ _ _ _ _ _ _ _ K HO B)). Qed.
Lemma negatives pre e1 c1 e2 c2 post E : energies_ok (pre ++ (e1, c1) :: (e2, c2) :: post) -> binterpolate_log_log L minval (pre ++ (e1, c1) :: (e2, c2) :: post) = Ok o ->
  between L e1 E e2 -> no_number c1 \/ no_number c2 -> bxrmac_call L o E = B754_nan.
Proof. intros K HO B. exact (nan_cell L g G S Sp _ _ _ _ _ _ _ _ _ (make_cell L g G S _ _ _ _ _ _ _ _ _ K HO B)). Qed.
Lemma energies d : energies_ok d -> binterpolate_log_log L minval d = Ok o ->
  (forall E, no_number E -> (2 <= length d)%nat -> bxrmac_call L o E = B754_nan) /\
  (forall s, bxrmac_call L o (B754_zero s) = bg_pow10 L (bg_log10 L (snd (hd (of_Z 0, of_Z 0) d)))) /\
  bxrmac_call L o (B754_infinity false) = bg_pow10 L (bg_log10 L (snd (last d (of_Z 0, of_Z 0)))) /\
  (forall E, length d = 1%nat -> bxrmac_call L o E = bg_pow10 L (bg_log10 L (snd (hd (of_Z 0, of_Z 0) d)))).
Proof.
  intros K HO. split; [|split; [|split]].
  - intros E N Len. exact (nan_energy L g G S Sp _ _ _ _ K HO N Len).
  - intros s. exact (zero_energy L g G S Sp _ _ _ s K HO).
  - exact (infinite_energy L g G S Sp _ _ _ K HO).
  - intros E Len. destruct d as [|[e c] [|q d]]; try discriminate. exact (single_line L g G S _ _ _ _ E K HO).
Qed.
Lemma origin z c1 e2 c2 post : energies_ok ((e2, c2) :: post) -> binterpolate_log_log L minval ((B754_zero z, c1) :: (e2, c2) :: post) = Ok o ->
  (forall s, bxrmac_call L o (B754_zero s) = bg_pow10 L (bg_log10 L c1)) /\
  forall E, finite E -> 0 < B2R E -> B2R (bg_log10 L E) < B2R (bg_log10 L e2) ->
    (finite c1 -> 0 < B2R c1 -> finite c2 -> 0 < B2R c2 -> finite (bxrmac_call L o E) -> B2R (bxrmac_call L o E) = g_pow10 g (g_log10 g (B2R c2))) /\
    (not_negative c1 -> not_negative c2 -> (B2R c1 = 0 /\ 0 < B2R c2) \/ (0 < B2R c1 /\ B2R c2 = 0) -> bxrmac_call L o E = B754_nan) /\
    (not_negative c1 -> not_negative c2 -> B2R c1 = 0 -> B2R c2 = 0 -> bxrmac_call L o E = of_Z 0).
Proof.
  intros K HO. split; [exact (zero_at_zero L g G S Sp _ _ _ _ _ _ _ K HO)|]. intros E FE PE H. apply (zero_start L g G S Sp _ _ _ _ _ _ _ K HO E FE PE).
  destruct K as [F _]. inversion F as [|? ? [Fe Pe] _]; subst. cbn [fst] in Fe, Pe. apply lt_fin'; [|apply (lg_pos L g G S e2 Fe Pe)|exact H]. apply (lg_pos L g G S E FE PE).
Qed.
End Statements.

(** A table with an absorption edge, a zero and a negative coefficient. *)
Definition edge : list (b64 * b64) := [(of_Z 1, of_Z 5); (of_Z 2, of_Z 3); (of_Z 2, of_Z 6); (of_Z 8, of_Z 0); (of_Z 9, of_Z 4); (of_Z 16, of_Z (-1))].
Lemma of_Z_value z : (Z.abs z < 2 ^ 53)%Z -> finite (of_Z z) /\ B2R (of_Z z) = IZR z.
Proof. intros H. exact (Z_rep z ltac:(lia)). Qed.
Lemma edge_ok : energies_ok edge.
Proof.
  split.
  - unfold edge. repeat (apply Forall_cons; [cbn [fst]; split; [apply of_Z_value; lia|match goal with |- context [B2R (of_Z ?z)] => rewrite (proj2 (of_Z_value z ltac:(lia))) end; lra]|]). constructor.
  - unfold edge. cbn [consecutive fst]. repeat match goal with |- context [B2R (of_Z ?z)] => rewrite (proj2 (of_Z_value z ltac:(lia))) end. lra.
Qed.

(** ** Values of this table *)
Lemma lg_int z : (0 < z < 2 ^ 53)%Z -> finite (bg_log10 correct_bllib (of_Z z)) /\ B2R (bg_log10 correct_bllib (of_Z z)) = rnd (log10 (IZR z)).
Proof. intros H. destruct (proj1 correct_bllib_same (of_Z z) (IZR z)) as [F V]; [apply Z_rep; lia|apply IZR_lt; lia|]. now split. Qed.
Lemma lg_lt a b : (0 < a < b)%Z -> (b <= 16)%Z -> B2R (bg_log10 correct_bllib (of_Z a)) < B2R (bg_log10 correct_bllib (of_Z b)).
Proof.
  intros H B. rewrite !(fun z Hz => proj2 (lg_int z Hz)) by lia. 
  assert (D : forall z, (0 < z <= 16)%Z -> Rabs (rnd (log10 (IZR z)) - log10 (IZR z)) <= / 100000).
  { intros z Hz. destruct correct_llib_ok as (K & _). assert (Z1 : 1 <= IZR z) by (apply IZR_le; lia). assert (Z2 : IZR z <= 16) by (apply IZR_le; lia). destruct (K (IZR z)) as [_ K']; [lra|exact (rep_double _ _ (Z_rep z ltac:(lia)))|]. cbn [correct_llib g_log10] in K'. eapply Rle_trans; [exact K'|].
    pose proof ln10_pos as P. assert (L : 0 <= log10 (IZR z) <= 2).
    { unfold log10. assert (0 <= ln (IZR z)) by (rewrite <- ln_1; destruct Z1 as [Z1|Z1]; [left; apply ln_increasing; lra|rewrite <- Z1; lra]). assert (U : ln (IZR z) <= ln (10 ^ 2)) by (left; apply ln_increasing; lra). rewrite ln_pow in U by lra. cbn [INR] in U. split; [apply Rmult_le_pos; [assumption|left; now apply Rinv_0_lt_compat]|]. apply Rmult_le_reg_r with (ln 10); [exact P|]. unfold Rdiv. rewrite Rmult_assoc, Rinv_l by lra. lra. }
    rewrite Rabs_pos_eq by lra. change unit_roundoff with u. pose proof u_pos. apply Rle_trans with (2 * u * 2); [apply Rmult_le_compat_l; lra|]. unfold u. simpl pow. lra. }
  pose proof (D a ltac:(lia)) as Da. pose proof (D b ltac:(lia)) as Db. apply Rabs_le_inv in Da, Db.
  assert (Q : / 100 <= log10 (IZR b) - log10 (IZR a)).
  { assert (A1 : 1 <= IZR a) by (apply IZR_le; lia). assert (A2 : IZR a + 1 <= IZR b) by (rewrite <- plus_IZR; apply IZR_le; lia). assert (A3 : IZR b <= 16) by (apply IZR_le; lia). set (t := IZR b / IZR a - 1). assert (E : IZR b = IZR a * (1 + t)) by (unfold t; field; lra).
    assert (T : 0 < t) by nra. pose proof (ln_ge t T) as L. pose proof ln10_pos as P. pose proof ln10_le as P3. unfold log10. rewrite E, ln_mult by lra. replace ((ln (IZR a) + ln (1 + t)) / ln 10 - ln (IZR a) / ln 10) with (ln (1 + t) / ln 10) by (field; lra).
    assert (X : / 16 <= t / (1 + t)). { apply Rmult_le_reg_r with (1 + t); [lra|]. unfold Rdiv. rewrite Rmult_assoc, Rinv_l by lra. nra. }
    apply Rmult_le_reg_r with (ln 10); [exact P|]. unfold Rdiv. rewrite Rmult_assoc, Rinv_l by lra. nra. }
  lra.
Qed.
Lemma lg_between a z b : (0 < a < z)%Z -> (z < b <= 16)%Z -> between correct_bllib (of_Z a) (of_Z z) (of_Z b).
Proof. intros H H'. split; [apply of_Z_value; lia|]. split; [rewrite (proj2 (of_Z_value z ltac:(lia))); apply IZR_lt; lia|]. split; apply lg_lt; lia. Qed.
Lemma edge_values : exists o, binterpolate_log_log correct_bllib 4 edge = Ok o /\ bxrmac_call correct_bllib o (of_Z 3) = of_Z 0 /\ bxrmac_call correct_bllib o (of_Z 12) = B754_nan /\ bxrmac_call correct_bllib o (of_Z (-3)) = B754_nan.
Proof.
  eexists. split; [reflexivity|]. pose proof correct_llib_ok as G. pose proof correct_bllib_same as S. pose proof correct_bllib_special as Sp. assert (N : forall z, (0 <= z < 100)%Z -> not_negative (of_Z z)). { intros z H. split; [apply of_Z_value; lia|]. rewrite (proj2 (of_Z_value z ltac:(lia))). apply IZR_le. lia. }
  split; [|split].
  - apply (zero_cell _ _ G S Sp 4 [(of_Z 1, of_Z 5); (of_Z 2, of_Z 3)] (of_Z 2) (of_Z 6) (of_Z 8) (of_Z 0) [(of_Z 9, of_Z 4); (of_Z 16, of_Z (-1))]); [apply (make_cell _ _ G S); [exact edge_ok|reflexivity|apply lg_between; lia]|apply N; lia|apply N; lia|right; exact (proj2 (of_Z_value 0 ltac:(lia)))].
  - apply (nan_cell _ _ G S Sp 4 [(of_Z 1, of_Z 5); (of_Z 2, of_Z 3); (of_Z 2, of_Z 6); (of_Z 8, of_Z 0)] (of_Z 9) (of_Z 4) (of_Z 16) (of_Z (-1)) []); [apply (make_cell _ _ G S); [exact edge_ok|reflexivity|apply lg_between; lia]|]. right. right. right. split; [apply of_Z_value; lia|rewrite (proj2 (of_Z_value (-1) ltac:(lia))); lra].
  - apply (nan_energy _ _ G S Sp 4 edge); [exact edge_ok|reflexivity| |cbn; lia]. right. right. split; [apply of_Z_value; lia|rewrite (proj2 (of_Z_value (-3) ltac:(lia))); lra].
Qed.
