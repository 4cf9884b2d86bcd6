(** XRMAC tables with infinities and nan: calls of positive tables. *)
From Coq Require Import Reals List ZArith Lia Lra Bool Permutation.
From Flocq Require Import Core BinarySingleNaN.
From Verif Require Import Py M_Num M_Grid M_CrossSection M_Xrmac M_Float S_Float M_Float7 S_Float7 M_Ieee M_Ieee4 S_Ieee S_Ieee4 L_Xrmac L_Xrmac2 L_Float L_Float25 L_Float26 L_Float33 L_Ieee L_Ieee2 L_Ieee5 L_Ieee15 L_XrmacTables2.
Import ListNotations.
Open Scope R_scope.

(** A bound for interpolated values. *)
Lemma segment_bound x0 y0 x1 y1 x : double x0 -> double x1 -> double x -> x0 < x1 -> x0 <= x < x1 -> x1 - x0 <= 4096 -> Rabs y0 <= 92 -> Rabs y1 <= 92 -> Rabs (fsegment x0 y0 x1 y1 x) <= 280.
Proof.
  intros D0 D1 D L [L1 L2] B B0 B1. unfold fsegment. set (dy := fsub y1 y0). set (d := fsub x1 x0). set (d' := fsub x x0).
  assert (K : forall n y, (Z.abs n <= 2 ^ 53)%Z -> Rabs y <= IZR n -> Rabs (rnd y) <= IZR n).
  { intros n y Hn H. apply Rabs_le_inv in H. apply Rabs_le. split.
    - rewrite <- opp_IZR. apply rnd_ge; [apply double_IZR; lia|]. rewrite opp_IZR. lra.
    - apply rnd_le_d; [apply double_IZR; lia|]. lra. }
  assert (Y : Rabs dy <= 184). { apply (K 184%Z); [lia|]. eapply Rle_trans; [apply Rabs_triang|]. rewrite Rabs_Ropp. lra. }
  assert (P : 0 < d). { apply (sign_sub x1 x0); auto. }
  assert (Q : 0 <= d' <= d). { split; unfold d', d, fsub; [|apply rnd_le; lra]. rewrite <- rnd_0. apply rnd_le. lra. }
  assert (Dd : d <= 4096). { apply rnd_le_d; [apply double_IZR; lia|exact B]. }
  assert (Sl : Rabs (fquo dy d) * d' <= 185).
  { apply Rle_trans with (Rabs (fquo dy d) * d); [apply Rmult_le_compat_l; [apply Rabs_pos|lra]|]. pose proof (rnd_abs_le (dy / d)) as E. fold (fquo dy d) in E.
    assert (Z : Rabs (dy / d) * d = Rabs dy). { unfold Rdiv. rewrite Rabs_mult, Rabs_inv, (Rabs_pos_eq d) by lra. field. lra. }
    apply Rle_trans with ((Rabs (dy / d) * (1 + u) + eta) * d); [apply Rmult_le_compat_r; [lra|exact E]|].
    replace ((Rabs (dy / d) * (1 + u) + eta) * d) with (Rabs (dy / d) * d * (1 + u) + eta * d) by ring. rewrite Z.
    assert (U : 0 < u <= / 1000) by (unfold u; simpl pow; lra). assert (H : 0 < eta <= / 1000000). { unfold eta. pose proof (bpow_gt_0 radix2 (-1074)). pose proof (bpow_le radix2 (-1074) (-20) ltac:(lia)) as W. change (bpow radix2 (-20)) with (/ 1048576) in W. lra. }
    pose proof (Rabs_pos dy). assert (Rabs dy * u <= 184 * / 1000) by (apply Rmult_le_compat; lra). assert (eta * d <= / 1000000 * 4096) by (apply Rmult_le_compat; lra). lra. }
  assert (Pr : Rabs (fmul (fquo dy d) d') <= 185). { apply (K 185%Z); [lia|]. rewrite Rabs_mult, (Rabs_pos_eq d') by lra. exact Sl. }
  apply (K 280%Z); [lia|]. eapply Rle_trans; [apply Rabs_triang|]. lra.
Qed.
Definition flat (l : list (R * R)) : Prop := Forall (fun p => double (fst p) /\ Rabs (fst p) <= 1076 /\ Rabs (snd p) <= 92) l.
Lemma interp_small l X : flat l -> double X -> fst (hd (0, 0) l) <= X -> Rabs (fnp_interp l X) <= 280.
Proof.
  intros F D. induction l as [|[x0 y0] l IH]; intros H; [cbn; rewrite Rabs_R0; lra|]. inversion F as [|? ? (D0 & B0 & Y0) F']; subst. cbn [fst snd] in *.
  destruct l as [|[x1 y1] l]; [cbn; lra|]. inversion F' as [|? ? (D1 & B1 & Y1) _]; subst. cbn [fst snd hd] in *. rewrite fnp_step. destruct (Rlt_dec X x1) as [C|C].
  - destruct (Req_EM_T X x0); [lra|]. apply segment_bound; auto; try lra. apply Rabs_le_inv in B0, B1. lra.
  - apply IH; auto. lra.
Qed.

Lemma Forall2_len {A B} (Q : A -> B -> Prop) l m : Forall2 Q l m -> length l = length m.
Proof. induction 1; cbn; congruence. Qed.
Section Call.
Variables (L : bllib) (g : llib) (minval : nat) (d : list (b64 * b64)) (d' : list (R * R)).
Hypothesis (G : llib_ok g) (S : same_llib L g) (Rw : same_rows d d') (P : Forall (fun p => 0 < fst p /\ 0 < snd p) d') (N : d' <> []) (Len : (minval <= length d')%nat).

Lemma rows_double : Forall (fun p => (0 < fst p /\ double (fst p) /\ fst p < big) /\ (0 < snd p /\ double (snd p) /\ snd p < big)) d'.
Proof.
  clear N Len. induction Rw as [|p q l l' [H1 H2] F IH]; [constructor|]. inversion P as [|? ? [P1 P2] P']; subst. constructor; [|now apply IH].
  pose proof (rep_big _ _ H1) as B1. pose proof (rep_big _ _ H2) as B2. rewrite Rabs_pos_eq in B1, B2 by lra. repeat split; auto; eapply rep_double; eauto.
Qed.
Definition logs1 : list (R * R) := map (fun p => (g_log10 g (fst p), g_log10 g (snd p))) d'.
Definition points : list (R * R) := sort_stable logs1.
Lemma points_in p : In p points -> exists q, In q d' /\ p = (g_log10 g (fst q), g_log10 g (snd q)).
Proof. intros I. apply (Permutation_in p (sort_perm logs1)) in I. apply in_map_iff in I. destruct I as (q & <- & I). eauto. Qed.
Lemma points_moderate : moderate points.
Proof.
  pose proof rows_double as D. rewrite Forall_forall in D. split.
  - apply Forall_forall. intros p I. destruct (points_in p I) as (q & J & ->). destruct (D q J) as ((A1 & A2 & A3) & (B1 & B2 & B3)). cbn [fst snd].
    change (bpow radix2 11) with 2048. split; (eapply Rle_trans; [apply g_bounded; auto|lra]).
  - intros p q I J H. destruct (points_in p I) as (a & Ia & ->). destruct (points_in q J) as (b & Ib & ->). cbn [fst] in *. destruct (D a Ia) as ((A1 & A2 & A3) & _). destruct (D b Ib) as ((B1 & B2 & B3) & _). now apply g_gap.
Qed.
Lemma logs_same : Forall2 same_point (map (fun p => (bg_log10 L (fst p), bg_log10 L (snd p))) d) logs1.
Proof.
  unfold logs1. clear N Len. induction Rw as [|p q l l' [H1 H2] F IH]; [constructor|]. inversion P as [|? ? [P1 P2] P']; subst. constructor; [|now apply IH]. split; cbn [fst snd]; now apply (proj1 S).
Qed.
Lemma points_nil : points <> [].
Proof.
  intros Z. assert (length points = length d') as K by (unfold points; rewrite (Permutation_length (sort_perm logs1)); unfold logs1; apply map_length). rewrite Z in K. destruct d'; [congruence|discriminate].
Qed.
Lemma hd_same l l' : Forall2 same_point l l' -> same_point (hd (of_Z 0, of_Z 0) l) (hd (0, 0) l').
Proof. destruct 1; [split; apply (Z_rep 0); lia|auto]. Qed.
Lemma last_same l l' : Forall2 same_point l l' -> same_point (last l (of_Z 0, of_Z 0)) (last l' (0, 0)).
Proof.
  induction 1 as [|p q l l' H F IH]; [split; apply (Z_rep 0); lia|]. destruct F; [exact H|exact IH].
Qed.
Lemma rows_last : same_point (last d (of_Z 0, of_Z 0)) (last d' (0, 0)).
Proof. apply last_same. exact Rw. Qed.
Lemma last_pos : In (last d' (0, 0)) d'.
Proof. clear - N. destruct d' as [|a l]; [congruence|]. clear N. revert a. induction l as [|b l IH]; intros a; [now left|]. right. apply IH. Qed.
Lemma call_same : exists o o', binterpolate_log_log L minval d = Ok o /\ finterpolate_log_log g minval d' = Ok o' /\ forall E, finite E -> 0 < B2R E ->
  (finite (bxrmac_call L o E) -> fxrmac_call g o' (B2R E) = Ok (B2R (bxrmac_call L o E))) /\
  (Forall (fun p => Rabs (log10 (snd p)) <= 90) d' -> finite (bxrmac_call L o E)).
Proof.
  pose proof rows_double as RD. pose proof (sort_same _ _ logs_same) as SS. fold points in SS. pose proof rows_last as RL. pose proof last_pos as LP. pose proof points_nil as PN. pose proof points_moderate as PM.
  set (o := {| bi_points := bsort_stable (map (fun p => (bg_log10 L (fst p), bg_log10 L (snd p))) d); bi_below := bg_log10 L (snd (hd (of_Z 0, of_Z 0) d)); bi_above := bg_log10 L (snd (last d (of_Z 0, of_Z 0))) |}).
  set (o' := {| i_points := points; i_below := g_log10 g (snd (hd (0, 0) d')); i_above := g_log10 g (snd (last d' (0, 0))) |}).
  exists o, o'. split; [|split].
  - unfold binterpolate_log_log, o. pose proof (Forall2_len _ _ _ Rw) as LL. destruct d as [|p l]; [destruct d'; [congruence|discriminate]|]. rewrite LL. destruct (Nat.ltb_spec (length d') minval); [lia|]. reflexivity.
  - unfold finterpolate_log_log, o', points, logs1. pose proof (all_pos_iff d') as [_ AP]. specialize (AP P). destruct d' as [|p l]; [congruence|]. destruct (Nat.ltb_spec (length (p :: l)) minval); [lia|]. rewrite AP. reflexivity.
  - intros E FE PE. assert (RE : rep E (B2R E)) by now apply rep_refl. pose proof (rep_double _ _ RE) as DE. pose proof (rep_big _ _ RE) as BE. rewrite Rabs_pos_eq in BE by lra.
    pose proof (proj1 S _ _ RE PE) as RX. set (x := bg_log10 L E) in *. set (X := g_log10 g (B2R E)) in *.
    assert (BX : Rabs X <= bpow radix2 11) by (change (bpow radix2 11) with 2048; eapply Rle_trans; [apply g_bounded; auto|lra]). assert (DX : double X) by (now apply g_double).
    assert (K : rep (binterp_eval o x) (finterp_eval o' X) /\ (Forall (fun p => Rabs (log10 (snd p)) <= 90) d' -> Rabs (finterp_eval o' X) <= 300)).
    { assert (Big : forall q, In q d' -> Forall (fun p => Rabs (log10 (snd p)) <= 90) d' -> Rabs (g_log10 g (snd q)) <= 92).
      { intros q J A. rewrite Forall_forall in A, RD. specialize (A q J). destruct (RD q J) as (_ & B1 & B2 & B3). pose proof (g_close g G (snd q) B1 B2) as C.
        replace (g_log10 g (snd q)) with (log10 (snd q) + (g_log10 g (snd q) - log10 (snd q))) by ring. eapply Rle_trans; [apply Rabs_triang|]. lra. }
      unfold binterp_eval, finterp_eval. rewrite (rep_nan _ _ RX). cbn [o o' bi_points bi_below bi_above i_points i_below i_above].
      destruct (hd_same _ _ SS) as [H1 _]. destruct (last_same _ _ SS) as [H2 _]. rewrite (rep_lt _ _ _ _ RX H1), (rep_lt _ _ _ _ H2 RX).
      destruct (Rlt_dec X (fst (hd (0, 0) points))) as [C1|C1]; [rewrite Rlt_bool_true by auto|rewrite Rlt_bool_false by lra; destruct (Rlt_dec (fst (last points (0, 0))) X) as [C2|C2]; [rewrite Rlt_bool_true by auto|rewrite Rlt_bool_false by lra]].
      - destruct (hd_same _ _ Rw) as [_ Hh]. assert (J : In (hd (0, 0) d') d') by (destruct d'; [congruence|now left]). rewrite Forall_forall in P. split; [apply (proj1 S); [exact Hh|apply (P _ J)]|]. intros A. pose proof (Big _ J A). lra.
      - destruct RL as [_ Hl]. rewrite Forall_forall in P. split; [apply (proj1 S); [exact Hl|apply (P _ LP)]|]. intros A. pose proof (Big _ LP A). lra.
      - split; [apply interp_same; auto; lra|]. intros A. eapply Rle_trans; [apply interp_small; [|exact DX|lra]|lra].
        apply Forall_forall. intros p I. destruct (points_in p I) as (q & J & ->). cbn [fst snd]. rewrite Forall_forall in RD. destruct (RD q J) as ((A1 & A2 & A3) & _). split; [now apply g_double|]. split; [now apply g_bounded|now apply Big]. }
    destruct K as [[KF KV] KB]. unfold bxrmac_call, fxrmac_call. fold x. destruct (Rlt_dec (B2R E) 0); [lra|]. destruct (Req_EM_T (B2R E) 0); [lra|]. fold X. rewrite <- KV in *. split.
    + intros F. f_equal. symmetry. now apply S.
    + intros A. apply S; auto.
Qed.
End Call.
