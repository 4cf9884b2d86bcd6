(** Ranges of binary64 numbers. *)
From Coq Require Import Reals List ZArith Lia Lra Bool String.
From Flocq Require Import Core BinarySingleNaN.
From Verif Require Import Py M_Num M_Constituents M_Float M_Float2 M_Float4 M_Ieee M_Ieee2 S_Ieee L_Ieee L_Ieee2 L_Ieee4.
Import ListNotations.
Open Scope R_scope.

Definition win (b : b64) (x : R) (l h : Z) : Prop := rep b x /\ bpow radix2 l <= x <= bpow radix2 h.
Definition bnd (b : b64) (x : R) (h : Z) : Prop := rep b x /\ Rabs x <= bpow radix2 h.

Lemma win_bnd b x l h : win b x l h -> bnd b x h.
Proof. intros [R [H1 H2]]. split; auto. rewrite Rabs_pos_eq; auto. pose proof (bpow_gt_0 radix2 l). lra. Qed.
Lemma win_pos b x l h : win b x l h -> 0 < x.
Proof. intros [R [H1 H2]]. pose proof (bpow_gt_0 radix2 l). lra. Qed.
Lemma win_rep b x l h : win b x l h -> rep b x. Proof. intros [R _]. exact R. Qed.
Lemma bnd_rep b x h : bnd b x h -> rep b x. Proof. intros [R _]. exact R. Qed.
Lemma win_weaken b x l h l' h' : win b x l h -> (l' <= l)%Z -> (h <= h')%Z -> win b x l' h'.
Proof.
  intros [R [H1 H2]] Hl Hh. split; auto. split.
  - eapply Rle_trans; [apply bpow_le; exact Hl|exact H1].
  - eapply Rle_trans; [exact H2|apply bpow_le; exact Hh].
Qed.
Lemma bnd_weaken b x h h' : bnd b x h -> (h <= h')%Z -> bnd b x h'.
Proof. intros [R H] Hh. split; auto. eapply Rle_trans; [exact H|apply bpow_le; exact Hh]. Qed.
Lemma win_not_zero b x l h : win b x l h -> bzero b = false.
Proof.
  intros H. destruct (bzero b) eqn:Z; auto. exfalso. apply (rep_zero b x) in Z; [|apply H]. apply win_pos in H. lra.
Qed.

Lemma bpow_double e : (-1074 <= e)%Z -> double (bpow radix2 e).
Proof. intros He. apply generic_format_bpow. unfold fexp64, FLT_exp. lia. Qed.
Lemma rnd_win x l h : (-1074 <= l)%Z -> (-1074 <= h)%Z -> bpow radix2 l <= x <= bpow radix2 h -> bpow radix2 l <= rnd x <= bpow radix2 h.
Proof.
  intros Hl Hh [H1 H2]. split.
  - apply round_ge_generic; try typeclasses eauto; auto. apply bpow_double; exact Hl.
  - apply round_le_generic; try typeclasses eauto; auto. apply bpow_double; exact Hh.
Qed.
Lemma win_big x l h : (h < 1024)%Z -> bpow radix2 l <= x <= bpow radix2 h -> Rabs x < big.
Proof. intros Hh [H1 H2]. pose proof (bpow_gt_0 radix2 l). rewrite Rabs_pos_eq by lra. eapply Rle_lt_trans; [exact H2|now apply bpow_big]. Qed.

Lemma win_mul a b x y l h l' h' : win a x l h -> win b y l' h' -> (-1074 <= l + l')%Z -> (h + h' < 1024)%Z ->
  win (bmul a b) (fmul x y) (l + l') (h + h').
Proof.
  intros [Ra Ha] [Rb Hb] Hl Hh.
  assert (B : bpow radix2 (l + l') <= fmul x y <= bpow radix2 (h + h')).
  { pose proof (bpow_gt_0 radix2 l). pose proof (bpow_gt_0 radix2 l').
    assert (P : bpow radix2 (l + l') <= x * y <= bpow radix2 (h + h')) by (rewrite !bpow_plus; split; apply Rmult_le_compat; lra).
    apply rnd_win; auto. assert (l + l' <= h + h')%Z by (apply (le_bpow radix2); lra). lia. }
  split; auto. apply mul_rep; auto. eapply win_big; eauto.
Qed.
Lemma inv_bounds y l h : bpow radix2 l <= y <= bpow radix2 h -> bpow radix2 (- h) <= / y <= bpow radix2 (- l).
Proof.
  intros [H1 H2]. pose proof (bpow_gt_0 radix2 l). rewrite !bpow_opp. split; apply Rinv_le; lra.
Qed.
Lemma win_quo a b x y l h l' h' : win a x l h -> win b y l' h' -> (-1074 <= l - h')%Z -> (h - l' < 1024)%Z ->
  win (bquo a b) (fquo x y) (l - h') (h - l').
Proof.
  intros [Ra Ha] [Rb Hb] Hl Hh. assert (Y : 0 < y) by (pose proof (bpow_gt_0 radix2 l'); lra).
  assert (B : bpow radix2 (l - h') <= fquo x y <= bpow radix2 (h - l')).
  { pose proof (bpow_gt_0 radix2 l). destruct (inv_bounds _ _ _ Hb) as [I1 I2]. pose proof (bpow_gt_0 radix2 (- h')).
    assert (P : bpow radix2 (l - h') <= x / y <= bpow radix2 (h - l')).
    { unfold Z.sub. rewrite !bpow_plus. unfold Rdiv. split; apply Rmult_le_compat; lra. }
    apply rnd_win; auto. assert (l - h' <= h - l')%Z by (apply (le_bpow radix2); lra). lia. }
  split; auto. apply quo_rep; auto; [lra|]. eapply win_big; eauto.
Qed.
Lemma win_add a b x y l h l' h' : win a x l h -> win b y l' h' -> (-1074 <= Z.max l l')%Z -> (Z.max h h' + 1 < 1024)%Z ->
  win (badd a b) (fadd x y) (Z.max l l') (Z.max h h' + 1).
Proof.
  intros [Ra Ha] [Rb Hb] Hl Hh.
  assert (B : bpow radix2 (Z.max l l') <= fadd x y <= bpow radix2 (Z.max h h' + 1)).
  { pose proof (bpow_gt_0 radix2 l). pose proof (bpow_gt_0 radix2 l').
    assert (P : bpow radix2 (Z.max l l') <= x + y <= bpow radix2 (Z.max h h' + 1)).
    { rewrite bpow_plus. change (bpow radix2 1) with 2. split.
      - destruct (Z.max_spec l l') as [[_ ->]|[_ ->]]; lra.
      - assert (bpow radix2 h <= bpow radix2 (Z.max h h')) by (apply bpow_le; lia).
        assert (bpow radix2 h' <= bpow radix2 (Z.max h h')) by (apply bpow_le; lia). lra. }
    apply rnd_win; auto. assert (Z.max l l' <= Z.max h h' + 1)%Z by (apply (le_bpow radix2); lra). lia. }
  split; auto. apply add_rep; auto. eapply win_big; eauto.
Qed.
(** Adding a number that is not negative. *)
Lemma win_add_nonneg a b x y l h h' : win a x l h -> bnd b y h' -> 0 <= y -> (-1074 <= l)%Z -> (Z.max h h' + 1 < 1024)%Z ->
  win (badd a b) (fadd x y) l (Z.max h h' + 1).
Proof.
  intros [Ra Ha] [Rb Hb] Hy Hl Hh. rewrite Rabs_pos_eq in Hb by exact Hy.
  assert (B : bpow radix2 l <= fadd x y <= bpow radix2 (Z.max h h' + 1)).
  { pose proof (bpow_gt_0 radix2 l).
    assert (P : bpow radix2 l <= x + y <= bpow radix2 (Z.max h h' + 1)).
    { rewrite bpow_plus. change (bpow radix2 1) with 2. split; [lra|].
      assert (bpow radix2 h <= bpow radix2 (Z.max h h')) by (apply bpow_le; lia).
      assert (bpow radix2 h' <= bpow radix2 (Z.max h h')) by (apply bpow_le; lia). lra. }
    apply rnd_win; auto. assert (l <= Z.max h h' + 1)%Z by (apply (le_bpow radix2); lra). lia. }
  split; auto. apply add_rep; auto. eapply win_big; eauto.
Qed.
Lemma bnd_add a b x y h h' : bnd a x h -> bnd b y h' -> (-1074 <= Z.max h h' + 1 < 1024)%Z -> bnd (badd a b) (fadd x y) (Z.max h h' + 1).
Proof.
  intros [Ra Ha] [Rb Hb] Hh.
  assert (B : Rabs (fadd x y) <= bpow radix2 (Z.max h h' + 1)).
  { apply rnd_bpow; [lia|]. rewrite bpow_plus. change (bpow radix2 1) with 2.
    assert (bpow radix2 h <= bpow radix2 (Z.max h h')) by (apply bpow_le; lia).
    assert (bpow radix2 h' <= bpow radix2 (Z.max h h')) by (apply bpow_le; lia).
    eapply Rle_trans; [apply Rabs_triang|lra]. }
  split; auto. apply add_rep; auto. eapply Rle_lt_trans; [exact B|apply bpow_big; lia].
Qed.
Lemma bnd_sub a b x y h h' : bnd a x h -> bnd b y h' -> (-1074 <= Z.max h h' + 1 < 1024)%Z -> bnd (bsub a b) (fsub x y) (Z.max h h' + 1).
Proof.
  intros [Ra Ha] [Rb Hb] Hh.
  assert (B : Rabs (fsub x y) <= bpow radix2 (Z.max h h' + 1)).
  { apply rnd_bpow; [lia|]. rewrite bpow_plus. change (bpow radix2 1) with 2.
    assert (bpow radix2 h <= bpow radix2 (Z.max h h')) by (apply bpow_le; lia).
    assert (bpow radix2 h' <= bpow radix2 (Z.max h h')) by (apply bpow_le; lia).
    unfold Rminus. eapply Rle_trans; [apply Rabs_triang|rewrite Rabs_Ropp; lra]. }
  split; auto. apply sub_rep; auto. eapply Rle_lt_trans; [exact B|apply bpow_big; lia].
Qed.
Lemma bnd_mul a b x y h h' : bnd a x h -> bnd b y h' -> (-1074 <= h + h' < 1024)%Z -> bnd (bmul a b) (fmul x y) (h + h').
Proof.
  intros [Ra Ha] [Rb Hb] Hh.
  assert (B : Rabs (fmul x y) <= bpow radix2 (h + h')).
  { apply rnd_bpow; [lia|]. rewrite bpow_plus, Rabs_mult. apply Rmult_le_compat; auto using Rabs_pos. }
  split; auto. apply mul_rep; auto. eapply Rle_lt_trans; [exact B|apply bpow_big; lia].
Qed.
Lemma bnd_quo a b x y h l' h' : bnd a x h -> win b y l' h' -> (-1074 <= h - l' < 1024)%Z -> bnd (bquo a b) (fquo x y) (h - l').
Proof.
  intros [Ra Ha] [Rb Hb] Hh. assert (Y : 0 < y) by (pose proof (bpow_gt_0 radix2 l'); lra).
  assert (B : Rabs (fquo x y) <= bpow radix2 (h - l')).
  { apply rnd_bpow; [lia|]. unfold Z.sub, Rdiv. rewrite bpow_plus, Rabs_mult. destruct (inv_bounds _ _ _ Hb) as [I1 I2].
    apply Rmult_le_compat; auto using Rabs_pos. rewrite Rabs_pos_eq; auto. apply Rlt_le, Rinv_0_lt_compat, Y. }
  split; auto. apply quo_rep; auto; [lra|]. eapply Rle_lt_trans; [exact B|apply bpow_big; lia].
Qed.
Lemma bnd_opp a x h : bnd a x h -> bnd (bopp a) (- x) h.
Proof. intros [Ra Ha]. split; [now apply opp_rep|]. rewrite Rabs_Ropp. exact Ha. Qed.
Lemma win_sqrt a x l h : win a x (l + l) (h + h) -> (-1074 <= l)%Z -> win (bsqrt a) (fsqrt x) l h.
Proof.
  intros [Ra [H1 H2]] Hl. pose proof (bpow_gt_0 radix2 (l + l)).
  assert (P : bpow radix2 l <= sqrt x <= bpow radix2 h).
  { rewrite bpow_plus in H1, H2. split.
    - rewrite <- (sqrt_square (bpow radix2 l)) by apply bpow_ge_0. now apply sqrt_le_1_alt.
    - rewrite <- (sqrt_square (bpow radix2 h)) by apply bpow_ge_0. now apply sqrt_le_1_alt. }
  split; [apply sqrt_rep; [exact Ra|lra]|]. apply rnd_win; auto.
  assert (l <= h)%Z by (apply (le_bpow radix2); lra). lia.
Qed.
Lemma win_Z z : (0 < z < 2 ^ 53)%Z -> win (of_Z z) (IZR z) (Z.log2 z) (Z.log2 z + 1).
Proof.
  intros H. split; [apply Z_rep; lia|]. destruct (Z.log2_spec z) as [L U]; [lia|].
  pose proof (Z.log2_nonneg z). rewrite <- !(IZR_Zpower radix2) by lia. change (Z.pow radix2) with (Z.pow 2).
  split; apply IZR_le; unfold Z.succ in *; lia.
Qed.
Lemma win_literal n d : (0 < n < 2 ^ 53)%Z -> (0 < d < 2 ^ 53)%Z ->
  win (literal n d) (rnd (IZR n / IZR d)) (Z.log2 n - (Z.log2 d + 1)) (Z.log2 n + 1 - Z.log2 d).
Proof.
  intros Hn Hd. apply (win_quo _ _ _ _ _ _ _ _ (win_Z n Hn) (win_Z d Hd)).
  - assert (Z.log2 d < 53)%Z by (apply Z.log2_lt_pow2; lia). pose proof (Z.log2_nonneg n). lia.
  - assert (Z.log2 n < 53)%Z by (apply Z.log2_lt_pow2; lia). pose proof (Z.log2_nonneg d). lia.
Qed.
Lemma win_pi : win bpi np_pi 1 2.
Proof.
  pose proof (win_literal 884279719003555 281474976710656 ltac:(lia) ltac:(lia)) as W.
  destruct W as [R _]. rewrite np_pi_value.
  assert (E : rnd (884279719003555 / 281474976710656) = 884279719003555 / 281474976710656).
  { rewrite <- np_pi_value. unfold rnd, np_pi. apply round_generic; try typeclasses eauto. apply generic_format_round; typeclasses eauto. }
  rewrite E in R. split; [exact R|]. change (bpow radix2 1) with 2. change (bpow radix2 2) with 4. lra.
Qed.
