(** XRMAC tables with infinities and nan: calls of tables with zeros, special energies. *)
From Coq Require Import Reals List ZArith Lia Lra Bool Permutation.
From Flocq Require Import Core BinarySingleNaN.
From Verif Require Import Py M_Num M_Grid M_CrossSection M_Xrmac M_Float S_Float M_Float7 S_Float7 M_Ieee M_Ieee4 S_Ieee S_Ieee4 L_Xrmac L_Float L_Float25 L_Float26 L_Float33 L_Ieee L_Ieee2 L_Ieee5 L_Ieee13 L_Ieee15 L_Ieee16 L_Ieee17.
Import ListNotations.
Open Scope R_scope.

Section Special.
Variables (L : bllib) (g : llib).
Hypothesis (G : llib_ok g) (S : same_llib L g) (Sp : bllib_special L).

Notation lg := (bg_log10 L).
Lemma sp_zero s : lg (B754_zero s) = minf. Proof. destruct Sp as (S1 & S2 & S3 & S4 & S5 & S6 & S7 & S8 & S9 & S10); auto. Qed.
Lemma sp_pinf : lg pinf = pinf. Proof. destruct Sp as (S1 & S2 & S3 & S4 & S5 & S6 & S7 & S8 & S9 & S10); auto. Qed.
Lemma sp_minf : lg minf = B754_nan. Proof. destruct Sp as (S1 & S2 & S3 & S4 & S5 & S6 & S7 & S8 & S9 & S10); auto. Qed.
Lemma sp_nan : lg B754_nan = B754_nan. Proof. destruct Sp as (S1 & S2 & S3 & S4 & S5 & S6 & S7 & S8 & S9 & S10); auto. Qed.
Lemma sp_neg b : finite b -> B2R b < 0 -> lg b = B754_nan. Proof. destruct Sp as (S1 & S2 & S3 & S4 & S5 & S6 & S7 & S8 & S9 & S10); auto. Qed.
Lemma sp_pow_minf : bg_pow10 L minf = of_Z 0. Proof. destruct Sp as (S1 & S2 & S3 & S4 & S5 & S6 & S7 & S8 & S9 & S10); auto. Qed.
Lemma sp_pow_nan : bg_pow10 L B754_nan = B754_nan. Proof. destruct Sp as (S1 & S2 & S3 & S4 & S5 & S6 & S7 & S8 & S9 & S10); auto. Qed.
Lemma sp_pow b : b = minf \/ finite b -> bg_pow10 L b <> B754_nan.
Proof. intros [->|F]; [rewrite sp_pow_minf; discriminate|destruct Sp as (S1 & S2 & S3 & S4 & S5 & S6 & S7 & S8 & S9 & S10); auto]. Qed.
Lemma lg_pos b : finite b -> 0 < B2R b -> finite (lg b) /\ B2R (lg b) = g_log10 g (B2R b) /\ Rabs (B2R (lg b)) <= bpow radix2 11.
Proof.
  intros F P. pose proof (rep_refl b F) as R. destruct (proj1 S b _ R P) as [F' V]. split; [exact F'|]. split; [exact V|]. rewrite V. change (bpow radix2 11) with 2048.
  eapply Rle_trans; [apply g_bounded; auto; [eapply rep_double; eauto|]|lra]. pose proof (rep_big _ _ R) as B. rewrite Rabs_pos_eq in B by lra. exact B.
Qed.
Lemma not_neg_cases c : not_negative c -> (exists s, c = B754_zero s) \/ (finite c /\ 0 < B2R c).
Proof. intros [F [P|Z]]; [now right|]. left. destruct c as [s| | |s m e W]; try discriminate; [eauto|]. exfalso. symmetry in Z. cbn in Z. unfold F2R in Z. apply Rmult_integral in Z. destruct Z as [Z|Z]; [|pose proof (bpow_gt_0 radix2 e) as Q; cbn [Fexp] in Z; lra]. apply eq_IZR in Z. now destruct s. Qed.
Lemma lg_coefficient c : not_negative c -> lg c = minf \/ (finite (lg c) /\ Rabs (B2R (lg c)) <= bpow radix2 11).
Proof. intros H. destruct (not_neg_cases c H) as [[s ->]|[F P]]; [left; apply sp_zero|right]. destruct (lg_pos c F P) as (A & _ & B). auto. Qed.

Definition row (p : b64 * b64) : b64 * b64 := (lg (fst p), lg (snd p)).
Lemma lg_le a b : finite a -> finite b -> 0 < B2R a -> B2R a <= B2R b -> B2R (lg a) <= B2R (lg b).
Proof. intros Fa Fb P H. destruct (lg_pos a Fa P) as (_ & -> & _). destruct (lg_pos b Fb ltac:(lra)) as (_ & -> & _). apply G. lra. Qed.
Lemma rows_consecutive d : energies_ok d -> consecutive (fun p q => bless (fst q) (fst p) = false) (map row d).
Proof.
  intros [F C]. eapply consecutive_map; [|exact C]. intros p q I J H. cbn [row fst]. rewrite Forall_forall in F. destruct (F p I) as [Fp Pp]. destruct (F q J) as [Fq Pq].
  pose proof (lg_le _ _ Fp Fq Pp H) as LE. destruct (lg_pos _ Fp Pp) as (A & _). destruct (lg_pos _ Fq Pq) as (B & _). unfold bless. rewrite (rep_nan _ _ (rep_refl _ A)).
  rewrite (rep_lt _ _ _ _ (rep_refl _ B) (rep_refl _ A)). apply Rlt_bool_false. exact LE.
Qed.
Lemma builds minval d o : binterpolate_log_log L minval d = Ok o -> consecutive (fun p q => bless (fst q) (fst p) = false) (map row d) ->
  o = {| bi_points := map row d; bi_below := lg (snd (hd (of_Z 0, of_Z 0) d)); bi_above := lg (snd (last d (of_Z 0, of_Z 0))) |} /\ d <> [].
Proof.
  intros H C. unfold binterpolate_log_log in H. destruct d as [|p l]; [discriminate|]. destruct (_ <? _)%nat; [discriminate|]. injection H as <-. split; [|discriminate]. rewrite <- (bsort_id _ C). reflexivity.
Qed.
Lemma hd_row d : d <> [] -> hd (of_Z 0, of_Z 0) (map row d) = row (hd (of_Z 0, of_Z 0) d).
Proof. now destruct d. Qed.
Lemma last_row d : d <> [] -> last (map row d) (of_Z 0, of_Z 0) = row (last d (of_Z 0, of_Z 0)).
Proof. induction d as [|p l IH]; [congruence|]. intros _. destruct l as [|q l]; [reflexivity|]. apply IH. discriminate. Qed.
Lemma last_in_rows (d : list (b64 * b64)) : d <> [] -> In (last d (of_Z 0, of_Z 0)) d.
Proof. induction d as [|p l IH]; [congruence|]. intros _. destruct l as [|q l]; [now left|]. right. apply IH. discriminate. Qed.

(** Strictly between two neighbours. *)
Lemma lt_fin a b : finite a -> finite b -> (Bltb a b = true <-> B2R a < B2R b).
Proof. intros Fa Fb. rewrite (rep_lt _ _ _ _ (rep_refl _ Fa) (rep_refl _ Fb)). split; intros H; [|now apply Rlt_bool_true]. destruct (Rlt_bool_spec (B2R a) (B2R b)); [assumption|discriminate]. Qed.
Lemma inside minval pre e1 c1 e2 c2 post o E : energies_ok (pre ++ (e1, c1) :: (e2, c2) :: post) -> binterpolate_log_log L minval (pre ++ (e1, c1) :: (e2, c2) :: post) = Ok o ->
  finite E -> 0 < B2R E -> Bltb (lg e1) (lg E) = true -> Bltb (lg E) (lg e2) = true ->
  bxrmac_call L o E = bg_pow10 L (bsegment (lg e1) (lg c1) (lg e2) (lg c2) (lg E)).
Proof.
  intros K HO FE PE H1 H2. set (d := pre ++ (e1, c1) :: (e2, c2) :: post) in *. destruct (builds minval d o HO (rows_consecutive d K)) as [-> N]. destruct K as [F C].
  assert (I1 : In (e1, c1) d) by (apply in_app_iff; right; now left). assert (I2 : In (e2, c2) d) by (apply in_app_iff; right; right; now left).
  assert (FF : forall p, In p d -> finite (lg (fst p))) by (intros p J; rewrite Forall_forall in F; destruct (F p J) as [Fp Pp]; now apply lg_pos).
  destruct (lg_pos E FE PE) as (FX & _). pose proof (FF _ I1) as F1. pose proof (FF _ I2) as F2. cbn [fst] in F1, F2. apply lt_fin in H1; auto. apply lt_fin in H2; auto.
  assert (LE : forall p q, In p d -> In q d -> B2R (fst p) <= B2R (fst q) -> B2R (lg (fst p)) <= B2R (lg (fst q))).
  { intros p q I J H. rewrite Forall_forall in F. destruct (F p I) as [Fp Pp]. destruct (F q J) as [Fq Pq]. now apply lg_le. }
  pose proof (consecutive_before (fun p => B2R (fst p)) pre (e1, c1) ((e2, c2) :: post) C) as BF. 
  pose proof (consecutive_after (fun p => B2R (fst p)) (e1, c1) ((e2, c2) :: post) (consecutive_app _ pre _ C)) as AF. 
  unfold bxrmac_call. f_equal. unfold binterp_eval. cbn [bi_points bi_below bi_above]. rewrite (rep_nan _ _ (rep_refl _ FX)). rewrite hd_row, last_row by exact N. cbn [row fst].
  assert (Hh : In (hd (of_Z 0, of_Z 0) d) (pre ++ [(e1, c1)])) by (unfold d; destruct pre; now left).
  assert (Hl : In (last d (of_Z 0, of_Z 0)) ((e2, c2) :: post)).
  { assert (forall (a b : list (b64 * b64)), b <> [] -> last (a ++ b) (of_Z 0, of_Z 0) = last b (of_Z 0, of_Z 0)) as LA. { induction a as [|z a IH]; intros b Nb; [reflexivity|]. cbn [app]. rewrite <- (IH b Nb). destruct (a ++ b) eqn:Eab; [destruct a, b; discriminate || congruence|reflexivity]. }
    unfold d. rewrite LA by discriminate. change (In (last ((e2, c2) :: post) (of_Z 0, of_Z 0)) ((e2, c2) :: post)). apply last_in_rows. discriminate. }
  assert (A1 : Bltb (lg E) (lg (fst (hd (of_Z 0, of_Z 0) d))) = false).
  { assert (I : In (hd (of_Z 0, of_Z 0) d) d) by (unfold d; destruct pre; now left). pose proof (FF _ I) as FI. apply not_true_iff_false. intros T. apply lt_fin in T; auto. rewrite Forall_forall in BF. specialize (BF _ Hh). pose proof (LE _ _ I I1 BF). cbn [fst] in *. lra. }
  assert (A2 : Bltb (lg (fst (last d (of_Z 0, of_Z 0)))) (lg E) = false).
  { pose proof (last_in_rows d N) as I. pose proof (FF _ I) as FI. apply not_true_iff_false. intros T. apply lt_fin in T; auto.
    pose proof (consecutive_after (fun p => B2R (fst p)) (e2, c2) post (consecutive_app _ (pre ++ [(e1, c1)]) _ ltac:(rewrite <- app_assoc; exact C))) as AF2. rewrite Forall_forall in AF2. specialize (AF2 _ Hl). pose proof (LE _ _ I2 I AF2). cbn [fst] in *. lra. }
  rewrite A1, A2. unfold d. rewrite map_app. cbn [map]. rewrite skip.
  - change ((if Bleb (lg e2) (lg E) then bnp_interp ((lg e2, lg c2) :: map row post) (lg E) else if Beqb (lg E) (lg e1) then lg c1 else bsegment (lg e1) (lg c1) (lg e2) (lg c2) (lg E)) = bsegment (lg e1) (lg c1) (lg e2) (lg c2) (lg E)).
    rewrite (rep_le _ _ _ _ (rep_refl _ F2) (rep_refl _ FX)), Rle_bool_false by exact H2. rewrite (rep_eq _ _ _ _ (rep_refl _ FX) (rep_refl _ F1)), Req_bool_false by lra. reflexivity.
  - change [row (e1, c1)] with (map row [(e1, c1)]). rewrite <- map_app. apply Forall_forall. intros q J. apply in_map_iff in J. destruct J as (p & <- & J). cbn [row fst].
    rewrite Forall_forall in BF. specialize (BF p J). assert (I : In p d) by (apply in_app_iff in J; destruct J as [J|[<-|[]]]; [apply in_app_iff; now left|exact I1]).
    rewrite (rep_le _ _ _ _ (rep_refl _ (FF _ I)) (rep_refl _ FX)). apply Rle_bool_true. pose proof (LE _ _ I I1 BF). cbn [fst] in *. lra.
Qed.

(** ** Zeros and negative coefficients *)
Lemma lt_fin' a b : finite a -> finite b -> B2R a < B2R b -> Bltb a b = true.
Proof. intros A B H. rewrite (rep_lt _ _ _ _ (rep_refl _ A) (rep_refl _ B)). now apply Rlt_bool_true. Qed.
Definition cell minval pre e1 c1 e2 c2 post o E : Prop := energies_ok (pre ++ (e1, c1) :: (e2, c2) :: post) /\ binterpolate_log_log L minval (pre ++ (e1, c1) :: (e2, c2) :: post) = Ok o /\
  finite E /\ 0 < B2R E /\ Bltb (lg e1) (lg E) = true /\ Bltb (lg E) (lg e2) = true.
Lemma make_cell minval pre e1 c1 e2 c2 post o E : energies_ok (pre ++ (e1, c1) :: (e2, c2) :: post) -> binterpolate_log_log L minval (pre ++ (e1, c1) :: (e2, c2) :: post) = Ok o -> between L e1 E e2 -> cell minval pre e1 c1 e2 c2 post o E.
Proof.
  intros K HO (FE & PE & B1 & B2). pose proof K as [F _]. rewrite Forall_forall in F. destruct (F (e1, c1)) as [Fe1 Pe1]; [apply in_app_iff; right; now left|]. destruct (F (e2, c2)) as [Fe2 Pe2]; [apply in_app_iff; right; right; now left|]. cbn [fst] in *.
  destruct (lg_pos e1 Fe1 Pe1) as (A1 & _). destruct (lg_pos e2 Fe2 Pe2) as (A2 & _). destruct (lg_pos E FE PE) as (A3 & _). repeat split; auto; try apply K; now apply lt_fin'.
Qed.
Lemma zero_cell minval pre e1 c1 e2 c2 post o E : cell minval pre e1 c1 e2 c2 post o E -> not_negative c1 -> not_negative c2 -> B2R c1 = 0 \/ B2R c2 = 0 -> bxrmac_call L o E = of_Z 0.
Proof.
  intros (K & HO & FE & PE & H1 & H2) N1 N2 Z. rewrite (inside _ _ _ _ _ _ _ _ _ K HO FE PE H1 H2). transitivity (bg_pow10 L minf); [f_equal|apply sp_pow_minf].
  destruct K as [F _]. rewrite Forall_forall in F. destruct (F (e1, c1)) as [Fe1 Pe1]; [apply in_app_iff; right; now left|]. destruct (F (e2, c2)) as [Fe2 Pe2]; [apply in_app_iff; right; right; now left|]. cbn [fst] in *.
  destruct (lg_pos e1 Fe1 Pe1) as (A1 & _ & A2). destruct (lg_pos e2 Fe2 Pe2) as (B1 & _ & B2). destruct (lg_pos E FE PE) as (C1 & _ & C2). apply lt_fin in H1; auto. apply lt_fin in H2; auto.
  destruct (not_neg_cases c1 N1) as [[s1 ->]|[F1 P1]]; destruct (not_neg_cases c2 N2) as [[s2 ->]|[F2 P2]]; rewrite ?sp_zero.
  - apply seg_both.
  - apply seg_left; auto. now apply lg_pos.
  - apply seg_right; auto. now apply lg_pos.
  - lra.
Qed.
Lemma lg_no_number c : no_number c -> lg c = B754_nan.
Proof. intros [->|[->|[F N]]]; [apply sp_nan|apply sp_minf|now apply sp_neg]. Qed.
Lemma nan_cell minval pre e1 c1 e2 c2 post o E : cell minval pre e1 c1 e2 c2 post o E -> no_number c1 \/ no_number c2 -> bxrmac_call L o E = B754_nan.
Proof.
  intros (K & HO & FE & PE & H1 & H2) N. rewrite (inside _ _ _ _ _ _ _ _ _ K HO FE PE H1 H2). transitivity (bg_pow10 L B754_nan); [f_equal|apply sp_pow_nan]. apply seg_nan. destruct N as [N|N]; apply lg_no_number in N; auto.
Qed.

(** ** Special energies *)
Lemma nan_energy minval d o E : energies_ok d -> binterpolate_log_log L minval d = Ok o -> no_number E -> (2 <= length d)%nat -> bxrmac_call L o E = B754_nan.
Proof.
  intros K HO N Len. destruct (builds minval d o HO (rows_consecutive d K)) as [-> Nd]. unfold bxrmac_call. rewrite (lg_no_number E N). transitivity (bg_pow10 L B754_nan); [f_equal|apply sp_pow_nan]. unfold binterp_eval. cbn [bnanb bi_points].
  destruct d as [|p [|q l]]; [cbn in Len; lia|cbn in Len; lia|]. cbn [map]. destruct (row p). reflexivity.
Qed.
Lemma single_line minval e c o E : energies_ok [(e, c)] -> binterpolate_log_log L minval [(e, c)] = Ok o -> bxrmac_call L o E = bg_pow10 L (lg c).
Proof.
  intros K HO. destruct (builds minval _ o HO (rows_consecutive _ K)) as [-> _]. unfold bxrmac_call. f_equal. unfold binterp_eval. cbn [bi_points bi_below bi_above map row fst snd hd last]. destruct (bnanb _); [reflexivity|]. destruct (Bltb _ _); [reflexivity|]. destruct (Bltb _ _); reflexivity.
Qed.
Lemma zero_energy minval d o s : energies_ok d -> binterpolate_log_log L minval d = Ok o -> bxrmac_call L o (B754_zero s) = bg_pow10 L (lg (snd (hd (of_Z 0, of_Z 0) d))).
Proof.
  intros K HO. destruct (builds minval d o HO (rows_consecutive d K)) as [-> Nd]. unfold bxrmac_call. f_equal. rewrite sp_zero. unfold binterp_eval. cbn [bnanb bi_points bi_below]. rewrite hd_row by auto. cbn [row fst].
  destruct K as [F _]. destruct d as [|p l]; [congruence|]. inversion F as [|? ? [Fp Pp] _]; subst. cbn [hd]. destruct (lg_pos _ Fp Pp) as (A & _). destruct (lg (fst p)); try discriminate; reflexivity.
Qed.
Lemma infinite_energy minval d o : energies_ok d -> binterpolate_log_log L minval d = Ok o -> bxrmac_call L o pinf = bg_pow10 L (lg (snd (last d (of_Z 0, of_Z 0)))).
Proof.
  intros K HO. destruct (builds minval d o HO (rows_consecutive d K)) as [-> Nd]. unfold bxrmac_call. f_equal. rewrite sp_pinf. unfold binterp_eval. cbn [bnanb bi_points bi_below bi_above]. rewrite hd_row, last_row by auto. cbn [row fst].
  destruct K as [F _]. rewrite Forall_forall in F. destruct (F _ (last_in_rows d Nd)) as [Fl Pl]. assert (Ih : In (hd (of_Z 0, of_Z 0) d) d) by (destruct d; [congruence|now left]). destruct (F _ Ih) as [Fh Ph].
  destruct (lg_pos _ Fl Pl) as (A & _). destruct (lg_pos _ Fh Ph) as (B & _). destruct (lg (fst (hd (of_Z 0, of_Z 0) d))) as [| | |[] ? ? ?]; try discriminate; destruct (lg (fst (last d (of_Z 0, of_Z 0)))) as [| | |[] ? ? ?]; try discriminate; reflexivity.
Qed.

(** ** Never nan *)
Definition good_point (p : b64 * b64) : Prop := finite (fst p) /\ Rabs (B2R (fst p)) <= bpow radix2 11 /\ (snd p = minf \/ finite (snd p) /\ Rabs (B2R (snd p)) <= bpow radix2 11).
Lemma interp_never_nan l x : Forall good_point l -> (forall p q, In p l -> In q l -> B2R (fst p) < B2R (fst q) -> bpow radix2 (-114) <= B2R (fst q) - B2R (fst p)) ->
  finite x -> Rabs (B2R x) <= bpow radix2 11 -> B2R (fst (hd (of_Z 0, of_Z 0) l)) <= B2R x -> bnp_interp l x = minf \/ finite (bnp_interp l x).
Proof.
  intros F. induction l as [|[x0 y0] l IH]; intros Gap Fx Bx H; [right; reflexivity|]. inversion F as [|? ? (A1 & A2 & A3) F']; subst. cbn [fst snd] in *.
  destruct l as [|[x1 y1] l]; [cbn; tauto|]. inversion F' as [|? ? (B1 & B2 & B3) _]; subst. cbn [fst snd hd] in *.
  change (bnp_interp ((x0, y0) :: (x1, y1) :: l) x) with (if Bleb x1 x then bnp_interp ((x1, y1) :: l) x else if Beqb x x0 then y0 else bsegment x0 y0 x1 y1 x).
  rewrite (rep_le _ _ _ _ (rep_refl _ B1) (rep_refl _ Fx)). destruct (Rle_bool_spec (B2R x1) (B2R x)) as [C|C].
  - apply IH; auto. intros p q I J. apply Gap; now right.
  - rewrite (rep_eq _ _ _ _ (rep_refl _ Fx) (rep_refl _ A1)). destruct (Req_bool_spec (B2R x) (B2R x0)) as [E|E]; [tauto|].
    assert (L0 : B2R x0 < B2R x) by lra. destruct A3 as [->|[Fy0 By0]]; destruct B3 as [->|[Fy1 By1]].
    + left. apply seg_both.
    + left. now apply seg_left.
    + left. now apply seg_right.
    + right. apply (segment_same _ _ _ _ _ _ _ _ _ _ (rep_refl _ A1) (rep_refl _ Fy0) (rep_refl _ B1) (rep_refl _ Fy1) (rep_refl _ Fx)); auto. apply (Gap (x0, y0) (x1, y1)); [now left|right; now left|cbn; lra].
Qed.
Lemma never_nan minval d o E : energies_ok d -> Forall (fun p => not_negative (snd p)) d -> binterpolate_log_log L minval d = Ok o -> not_negative E \/ E = pinf -> bxrmac_call L o E <> B754_nan.
Proof.
  intros K C HO HE. assert (Lc : forall p, In p d -> lg (snd p) = minf \/ finite (lg (snd p))).
  { intros p I. rewrite Forall_forall in C. destruct (lg_coefficient _ (C p I)); tauto. }
  destruct (builds minval d o HO (rows_consecutive d K)) as [Eo Nd]. assert (Ih : In (hd (of_Z 0, of_Z 0) d) d) by (destruct d; [congruence|now left]). pose proof (last_in_rows d Nd) as Il.
  destruct HE as [HE| ->]; [destruct (not_neg_cases E HE) as [[s ->]|[FE PE]]|].
  - rewrite (zero_energy minval d o s K HO). apply sp_pow. now apply Lc.
  - rewrite Eo. unfold bxrmac_call. apply sp_pow. destruct (lg_pos E FE PE) as (FX & _ & BX). unfold binterp_eval. rewrite (rep_nan _ _ (rep_refl _ FX)). cbn [bi_points bi_below bi_above]. rewrite hd_row, last_row by auto. cbn [row fst].
    destruct (Bltb _ _) eqn:T1; [now apply Lc|]. destruct (Bltb _ (lg E)) eqn:T2; [now apply Lc|]. destruct K as [F _].
    assert (P : forall p, In p d -> finite (fst p) /\ 0 < B2R (fst p)) by (rewrite Forall_forall in F; exact F).
    apply interp_never_nan; auto.
    + apply Forall_forall. intros q J. apply in_map_iff in J. destruct J as (p & <- & J). destruct (P p J) as [Fp Pp]. destruct (lg_pos _ Fp Pp) as (A & _ & B). rewrite Forall_forall in C. split; [exact A|]. split; [exact B|]. apply lg_coefficient. now apply C.
    + intros p q I J. apply in_map_iff in I. destruct I as (a & <- & Ia). apply in_map_iff in J. destruct J as (b & <- & Ib). cbn [row fst]. destruct (P a Ia) as [Fa Pa]. destruct (P b Ib) as [Fb Pb].
      destruct (lg_pos _ Fa Pa) as (_ & -> & _). destruct (lg_pos _ Fb Pb) as (_ & -> & _). apply g_gap; auto; [exact (rep_double (fst a) _ (rep_refl _ Fa))|exact (rep_double (fst b) _ (rep_refl _ Fb))].
    + rewrite hd_row by auto. cbn [row fst]. destruct (P _ Ih) as [Fh Ph]. destruct (lg_pos _ Fh Ph) as (A & _). apply Rnot_lt_le. intros X. apply lt_fin in X; auto. congruence.
  - rewrite (infinite_energy minval d o K HO). apply sp_pow. now apply Lc.
Qed.

(** ** A table that begins at zero *)
Section Zero.
Variables (minval : nat) (z : bool) (c1 e2 c2 : b64) (post : list (b64 * b64)) (o : binterp1d).
Hypothesis (K : energies_ok ((e2, c2) :: post)) (HO : binterpolate_log_log L minval ((B754_zero z, c1) :: (e2, c2) :: post) = Ok o).
Lemma zero_builds : o = {| bi_points := map row ((B754_zero z, c1) :: (e2, c2) :: post); bi_below := lg c1; bi_above := lg (snd (last ((B754_zero z, c1) :: (e2, c2) :: post) (of_Z 0, of_Z 0))) |}.
Proof.
  destruct (builds minval ((B754_zero z, c1) :: (e2, c2) :: post) o HO) as [E _]; [|exact E]. split; [|exact (rows_consecutive _ K)]. cbn [row fst]. rewrite sp_zero. destruct K as [F _]. inversion F as [|? ? [Fp Pp] _]; subst. cbn [fst] in *. destruct (lg_pos _ Fp Pp) as (A & _). destruct (lg e2); try discriminate; reflexivity.
Qed.
Lemma zero_inside E : finite E -> 0 < B2R E -> Bltb (lg E) (lg e2) = true -> bxrmac_call L o E = bg_pow10 L (bsegment minf (lg c1) (lg e2) (lg c2) (lg E)).
Proof.
  intros FE PE H2. rewrite zero_builds. unfold bxrmac_call. f_equal. unfold binterp_eval. cbn [bi_points bi_below bi_above]. destruct (lg_pos E FE PE) as (FX & _). rewrite (rep_nan _ _ (rep_refl _ FX)).
  pose proof K as [F C]. assert (P : forall p, In p ((e2, c2) :: post) -> finite (fst p) /\ 0 < B2R (fst p)) by (rewrite Forall_forall in F; exact F).
  destruct (P (e2, c2)) as [Fe Pe]; [now left|]. cbn [fst] in Fe, Pe. destruct (lg_pos _ Fe Pe) as (Fl & _). pose proof H2 as H2'. apply lt_fin in H2'; auto.
  assert (A1 : Bltb (lg E) (fst (hd (of_Z 0, of_Z 0) (map row ((B754_zero z, c1) :: (e2, c2) :: post)))) = false). { cbn [map hd row fst]. rewrite sp_zero. destruct (lg E); try discriminate; reflexivity. }
  assert (A2 : Bltb (fst (row (last ((B754_zero z, c1) :: (e2, c2) :: post) (of_Z 0, of_Z 0)))) (lg E) = false).
  { change (last ((B754_zero z, c1) :: (e2, c2) :: post) (of_Z 0, of_Z 0)) with (last ((e2, c2) :: post) (of_Z 0, of_Z 0)). pose proof (last_in_rows ((e2, c2) :: post) ltac:(discriminate)) as I. destruct (P _ I) as [FI PI]. destruct (lg_pos _ FI PI) as (FLI & _). cbn [row fst].
    apply not_true_iff_false. intros T. apply lt_fin in T; auto. pose proof (consecutive_after (fun p => B2R (fst p)) (e2, c2) post C) as AF. rewrite Forall_forall in AF. specialize (AF _ I). cbn [fst] in AF. pose proof (lg_le _ _ Fe FI Pe AF). lra. }
  rewrite A1. rewrite last_row by discriminate. match goal with |- (if ?b then _ else _) = _ => replace b with false by (symmetry; exact A2) end. cbv iota. change ((if Bleb (lg e2) (lg E) then bnp_interp (map row ((e2, c2) :: post)) (lg E) else if Beqb (lg E) (lg (B754_zero z)) then lg c1 else bsegment (lg (B754_zero z)) (lg c1) (lg e2) (lg c2) (lg E)) = bsegment minf (lg c1) (lg e2) (lg c2) (lg E)).
  rewrite (rep_le _ _ _ _ (rep_refl _ Fl) (rep_refl _ FX)), Rle_bool_false by exact H2'. rewrite sp_zero. assert (Q : Beqb (lg E) minf = false) by (destruct (lg E); try discriminate; reflexivity). now rewrite Q.
Qed.
Lemma zero_start E : finite E -> 0 < B2R E -> Bltb (lg E) (lg e2) = true ->
  (finite c1 -> 0 < B2R c1 -> finite c2 -> 0 < B2R c2 -> finite (bxrmac_call L o E) -> B2R (bxrmac_call L o E) = g_pow10 g (g_log10 g (B2R c2))) /\
  (not_negative c1 -> not_negative c2 -> (B2R c1 = 0 /\ 0 < B2R c2) \/ (0 < B2R c1 /\ B2R c2 = 0) -> bxrmac_call L o E = B754_nan) /\
  (not_negative c1 -> not_negative c2 -> B2R c1 = 0 -> B2R c2 = 0 -> bxrmac_call L o E = of_Z 0).
Proof.
  intros FE PE H2. rewrite (zero_inside E FE PE H2). pose proof K as [F _]. inversion F as [|? ? [Fe Pe] _]; subst. cbn [fst] in Fe, Pe. destruct (lg_pos E FE PE) as (FX & _ & BX). destruct (lg_pos _ Fe Pe) as (Fl & _ & Bl). apply lt_fin in H2; auto. split; [|split].
  - intros F1 P1 F2 P2 FC. destruct (lg_pos c1 F1 P1) as (A1 & _ & A2). destruct (lg_pos c2 F2 P2) as (B1 & B2 & B3). destruct (seg_origin (lg e2) (lg E) Fl FX Bl BX H2 (lg c1) (lg c2) A1 B1 A2 B3) as [FS VS].
    rewrite (proj1 (proj2 S) _ FS FC), VS, B2. reflexivity.
  - intros N1 N2 Z. transitivity (bg_pow10 L B754_nan); [f_equal|apply sp_pow_nan]. apply seg_origin_nan; auto.
    destruct (not_neg_cases c1 N1) as [[s1 ->]|[F1 P1]]; destruct (not_neg_cases c2 N2) as [[s2 ->]|[F2 P2]]; rewrite ?sp_zero; cbn [B2R] in Z; try lra.
    + left. split; auto. now apply lg_pos.
    + right. split; auto. now apply lg_pos.
  - intros N1 N2 Z1 Z2. destruct (not_neg_cases c1 N1) as [[s1 ->]|[F1 P1]]; [|lra]. destruct (not_neg_cases c2 N2) as [[s2 ->]|[F2 P2]]; [|lra]. rewrite !sp_zero, seg_both. apply sp_pow_minf.
Qed.
Lemma zero_at_zero s : bxrmac_call L o (B754_zero s) = bg_pow10 L (lg c1).
Proof.
  rewrite zero_builds. unfold bxrmac_call. f_equal. rewrite sp_zero. unfold binterp_eval. cbn [bnanb bi_points bi_below bi_above]. rewrite last_row by discriminate. cbn [map hd row fst snd]. rewrite sp_zero.
  change (last ((B754_zero z, c1) :: (e2, c2) :: post) (of_Z 0, of_Z 0)) with (last ((e2, c2) :: post) (of_Z 0, of_Z 0)). pose proof (last_in_rows ((e2, c2) :: post) ltac:(discriminate)) as I. destruct K as [F _]. rewrite Forall_forall in F. destruct (F _ I) as [FI PI]. destruct (lg_pos _ FI PI) as (FLI & _).
  destruct (F (e2, c2)) as [Fe Pe]; [now left|]. cbn [fst] in Fe, Pe. destruct (lg_pos _ Fe Pe) as (Fl & _).
  change (Bltb minf minf) with false. cbv iota. assert (A : Bltb (lg (fst (last ((e2, c2) :: post) (of_Z 0, of_Z 0)))) minf = false) by (destruct (lg (fst (last ((e2, c2) :: post) (of_Z 0, of_Z 0)))); try discriminate; reflexivity). rewrite A.
  change ((if Bleb (lg e2) minf then bnp_interp (map row ((e2, c2) :: post)) minf else if Beqb minf (lg (B754_zero z)) then lg c1 else bsegment (lg (B754_zero z)) (lg c1) (lg e2) (lg c2) minf) = lg c1). rewrite sp_zero. assert (Q : Bleb (lg e2) minf = false) by (destruct (lg e2); try discriminate; reflexivity). now rewrite Q.
Qed.
End Zero.
End Special.
