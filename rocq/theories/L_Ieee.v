(** Arithmetic of binary64 numbers against rounding without an upper limit. *)
From Coq Require Import Reals List ZArith Lia Lra Bool.
From Flocq Require Import Core BinarySingleNaN.
From Verif Require Import Py M_Float M_Float4 L_Float M_Ieee S_Ieee.
Open Scope R_scope.

Notation big := (bpow radix2 1024).

Lemma rep_refl b : is_finite b = true -> rep b (B2R b). Proof. intros H. split; auto. Qed.

Lemma rnd_eq x : round radix2 (SpecFloat.fexp 53 1024) (round_mode mode_NE) x = rnd x.
Proof. reflexivity. Qed.

(** Results that do not overflow. *)
Lemma add_rep a b x y : rep a x -> rep b y -> Rabs (fadd x y) < big -> rep (badd a b) (fadd x y).
Proof.
  intros [Fa Ea] [Fb Eb] H. pose proof (Bplus_correct 53 1024 prec_53 emax_1024 mode_NE a b Fa Fb) as C.
  rewrite rnd_eq, Ea, Eb in C. fold (fadd x y) in C. rewrite Rlt_bool_true in C by exact H. split; apply C.
Qed.
Lemma sub_rep a b x y : rep a x -> rep b y -> Rabs (fsub x y) < big -> rep (bsub a b) (fsub x y).
Proof.
  intros [Fa Ea] [Fb Eb] H. pose proof (Bminus_correct 53 1024 prec_53 emax_1024 mode_NE a b Fa Fb) as C.
  rewrite rnd_eq, Ea, Eb in C. fold (fsub x y) in C. rewrite Rlt_bool_true in C by exact H. split; apply C.
Qed.
Lemma mul_rep a b x y : rep a x -> rep b y -> Rabs (fmul x y) < big -> rep (bmul a b) (fmul x y).
Proof.
  intros [Fa Ea] [Fb Eb] H. pose proof (Bmult_correct 53 1024 prec_53 emax_1024 mode_NE a b) as C.
  rewrite rnd_eq, Ea, Eb in C. fold (fmul x y) in C. rewrite Rlt_bool_true in C by exact H.
  destruct C as (C1 & C2 & _). split; [|exact C1]. unfold bmul. rewrite C2, Fa, Fb. reflexivity.
Qed.
Lemma quo_rep a b x y : rep a x -> rep b y -> y <> 0 -> Rabs (fquo x y) < big -> rep (bquo a b) (fquo x y).
Proof.
  intros [Fa Ea] [Fb Eb] Hy H. assert (Hb : B2R b <> 0) by (rewrite Eb; exact Hy).
  pose proof (Bdiv_correct 53 1024 prec_53 emax_1024 mode_NE a b Hb) as C.
  rewrite rnd_eq, Ea, Eb in C. fold (fquo x y) in C. rewrite Rlt_bool_true in C by exact H.
  destruct C as (C1 & C2 & _). split; [|exact C1]. unfold bquo. rewrite C2. exact Fa.
Qed.
Lemma sqrt_rep a x : rep a x -> 0 <= x -> rep (bsqrt a) (fsqrt x).
Proof.
  intros [Fa Ea] H. destruct (Bsqrt_correct 53 1024 prec_53 emax_1024 mode_NE a) as (C1 & C2 & _).
  rewrite rnd_eq, Ea in C1. split; [|exact C1]. unfold bsqrt. rewrite C2.
  destruct a as [s|s| |s m e W]; try reflexivity; try discriminate. destruct s; [|reflexivity].
  exfalso. assert (B2R (B754_finite true m e W) < 0) by (apply F2R_lt_0; reflexivity). rewrite Ea in H0. lra.
Qed.
Lemma opp_rep a x : rep a x -> rep (bopp a) (- x).
Proof. intros [Fa Ea]. split; unfold bopp. now rewrite is_finite_Bopp. now rewrite B2R_Bopp, Ea. Qed.
Lemma abs_rep a x : rep a x -> rep (babs a) (Rabs x).
Proof. intros [Fa Ea]. split; unfold babs. now rewrite is_finite_Babs. now rewrite B2R_Babs, Ea. Qed.

(** Numbers are below [big]. *)
Lemma rep_big b x : rep b x -> Rabs x < big.
Proof. intros [_ <-]. apply abs_B2R_lt_emax. Qed.
Lemma rep_double b x : rep b x -> double x.
Proof. intros [_ <-]. apply (generic_format_B2R 53 1024). Qed.
Lemma rep_zero b x : rep b x -> (bzero b = true <-> x = 0).
Proof.
  intros [F <-]. destruct b as [s|s| |s m e W]; try discriminate; cbn; split; try reflexivity; try discriminate.
  intros H. apply eq_0_F2R in H. destruct s; discriminate.
Qed.
Lemma rep_nan b x : rep b x -> bnanb b = false.
Proof. intros [F _]. destruct b; try discriminate; reflexivity. Qed.
Lemma rep_lt a b x y : rep a x -> rep b y -> Bltb a b = Rlt_bool x y.
Proof. intros [Fa <-] [Fb <-]. now apply Bltb_correct. Qed.
Lemma rep_le a b x y : rep a x -> rep b y -> Bleb a b = Rle_bool x y.
Proof. intros [Fa <-] [Fb <-]. now apply Bleb_correct. Qed.
Lemma rep_inj b x y : rep b x -> rep b y -> x = y.
Proof. intros [_ <-] [_ <-]. reflexivity. Qed.

(** Every number of the right format is represented. *)
Lemma rep_exists x : double x -> Rabs x < big -> exists b, rep b x.
Proof.
  intros D H. pose proof (D : generic_format _ _ _) as G. unfold generic_format in G.
  set (m := Ztrunc (scaled_mantissa radix2 fexp64 x)) in *. set (e := cexp radix2 fexp64 x) in *.
  exists (binary_normalize 53 1024 prec_53 emax_1024 mode_NE m e false).
  pose proof (binary_normalize_correct 53 1024 prec_53 emax_1024 mode_NE m e false) as C. cbv zeta in C. rewrite <- G in C.
  rewrite (round_generic radix2 _ _ x) in C by exact D.
  rewrite Rlt_bool_true in C by exact H. split; apply C.
Qed.

(** Integers. *)
Lemma double_IZR z : (Z.abs z <= 2 ^ 53)%Z -> double (IZR z).
Proof.
  intros H. apply generic_format_FLT. destruct (Z.eq_dec (Z.abs z) (2 ^ 53)) as [E|N].
  - destruct (Z.abs_eq_or_opp z) as [A|A].
    + exists (Float radix2 1 53); cbn -[IZR bpow]; try lia. rewrite <- A, E. unfold F2R. cbn -[IZR]. now rewrite Rmult_1_l.
    + assert (z = - 2 ^ 53)%Z by lia. subst z. exists (Float radix2 (-1) 53); cbn -[IZR bpow]; try lia. unfold F2R. cbn -[IZR].
      rewrite <- mult_IZR. reflexivity.
  - exists (Float radix2 z 0); cbn -[IZR bpow Z.pow]; try lia. unfold F2R. cbn. now rewrite Rmult_1_r.
Qed.
Lemma Z_rep z : (Z.abs z <= 2 ^ 53)%Z -> rep (of_Z z) (IZR z).
Proof.
  intros H. pose proof (binary_normalize_correct 53 1024 prec_53 emax_1024 mode_NE z 0 false) as C. cbv zeta in C.
  assert (E : F2R (Float radix2 z 0) = IZR z) by (unfold F2R; cbn; now rewrite Rmult_1_r).
  rewrite E, rnd_eq in C. unfold rnd in C.
  rewrite round_generic in C; [| typeclasses eauto | apply double_IZR; exact H].
  rewrite Rlt_bool_true in C. split; apply C.
  rewrite <- abs_IZR. eapply Rle_lt_trans with (IZR (2 ^ 53)). apply IZR_le; exact H.
  change (IZR (2 ^ 53)) with (bpow radix2 53). apply bpow_lt. lia.
Qed.

(** Infinities and nan never turn into numbers again, except by division by infinity. *)
Lemma overflow_not_finite (b : b64) s : B2SF b = binary_overflow 53 1024 mode_NE s -> is_finite b = false.
Proof. destruct b; cbn; try reflexivity; discriminate. Qed.
Lemma add_finite a b : is_finite (badd a b) = true ->
  is_finite a = true /\ is_finite b = true /\ B2R (badd a b) = fadd (B2R a) (B2R b).
Proof.
  intros H. assert (F : is_finite a = true /\ is_finite b = true).
  { destruct a as [[]|[]| |[] ? ? ?], b as [[]|[]| |[] ? ? ?]; cbn in H; auto; discriminate. }
  destruct F as [Fa Fb]. repeat split; auto. pose proof (Bplus_correct 53 1024 prec_53 emax_1024 mode_NE a b Fa Fb) as C.
  rewrite rnd_eq in C. destruct (Rlt_bool _ _).
  - apply C.
  - destruct C as [C _]. apply overflow_not_finite in C. unfold badd in H. congruence.
Qed.
Lemma sub_finite a b : is_finite (bsub a b) = true ->
  is_finite a = true /\ is_finite b = true /\ B2R (bsub a b) = fsub (B2R a) (B2R b).
Proof.
  intros H. assert (F : is_finite a = true /\ is_finite b = true).
  { destruct a as [[]|[]| |[] ? ? ?], b as [[]|[]| |[] ? ? ?]; cbn in H; auto; discriminate. }
  destruct F as [Fa Fb]. repeat split; auto. pose proof (Bminus_correct 53 1024 prec_53 emax_1024 mode_NE a b Fa Fb) as C.
  rewrite rnd_eq in C. destruct (Rlt_bool _ _).
  - apply C.
  - destruct C as [C _]. apply overflow_not_finite in C. unfold bsub in H. congruence.
Qed.
Lemma mul_finite a b : is_finite (bmul a b) = true ->
  is_finite a = true /\ is_finite b = true /\ B2R (bmul a b) = fmul (B2R a) (B2R b).
Proof.
  intros H. assert (F : is_finite a = true /\ is_finite b = true).
  { destruct a as [[]|[]| |[] ? ? ?], b as [[]|[]| |[] ? ? ?]; cbn in H; auto; discriminate. }
  destruct F as [Fa Fb]. repeat split; auto. pose proof (Bmult_correct 53 1024 prec_53 emax_1024 mode_NE a b) as C.
  rewrite rnd_eq in C. destruct (Rlt_bool _ _).
  - apply C.
  - apply overflow_not_finite in C. unfold bmul in H. congruence.
Qed.
Lemma quo_finite a b : is_finite b = true -> is_finite (bquo a b) = true ->
  is_finite a = true /\ B2R b <> 0 /\ B2R (bquo a b) = fquo (B2R a) (B2R b).
Proof.
  intros Fb H. assert (Z : bzero b = false).
  { destruct a as [[]|[]| |[] ? ? ?], b as [[]|[]| |[] ? ? ?]; cbn in H; auto; discriminate. }
  assert (N : B2R b <> 0). { intros E. apply (rep_zero b) in E. congruence. apply rep_refl; exact Fb. }
  pose proof (Bdiv_correct 53 1024 prec_53 emax_1024 mode_NE a b N) as C. rewrite rnd_eq in C. destruct (Rlt_bool _ _).
  - destruct C as (C1 & C2 & _). unfold bquo in *. rewrite C2 in H. auto.
  - apply overflow_not_finite in C. unfold bquo in H. congruence.
Qed.
Lemma abs_finite a : is_finite (babs a) = true -> is_finite a = true /\ B2R (babs a) = Rabs (B2R a).
Proof. unfold babs. rewrite is_finite_Babs. intros H. split; auto. apply B2R_Babs. Qed.
