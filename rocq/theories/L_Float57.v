(** Accuracy of the layered target. *)
From Coq Require Import Reals List ZArith Lra Lia Psatz.
From Flocq Require Import Core.
From Verif Require Import Py M_Num M_Notebook M_Float S_Float M_Float13 S_Float15 M_Float14 S_Float16 L_Float L_Float2 L_Float22 L_Float7 L_Float3 L_Float55 L_Float56.
Open Scope R_scope.

(** ** One layer, whose thickness is rounded *)
Section Layer.
  Variables (ex : R -> R) (nr' sr' nr sr : cross_section) (E delta c a b : R).
  Hypotheses (EX : exp_accurate ex) (Hn : close_value delta nr' E nr E) (Hr : close_value delta sr' E sr E) (Na : nr E = Ok a) (Nb : sr E = Ok b) (Hd : 0 <= delta <= / 16)
    (Dc : double c) (Hc : 0 <= c).
  Let s := a + c * b.
  Variables (r r' R0 e : R).
  Hypotheses (Dr : double r') (H0 : 0 <= r <= R0) (H0' : 0 <= r') (Cr : Rabs (r' - r) <= 4 * u * R0) (Ht : s * R0 <= 150) (He : target_error delta R0 s <= e) (H16 : e <= / 16).
  Lemma layer_close : 0 <= s /\ 0 <= c * b /\ 0 <= e /\ exists p', fPhi ex E r' nr' sr' c = Ok p' /\ Phi E r nr sr c = Ok (exp (- (s * r))) /\
    alpha E r nr sr c = Ok (c * b * exp (- (s * r))) /\ (exists q', falpha ex E r' nr' sr' c = Ok q' /\ Rabs (q' - c * b * exp (- (s * r))) <= (delta + 3 * e + 7 * u) * (c * b * exp (- (s * r))) + 3 * eta) /\
    Rabs (p' - exp (- (s * r))) <= (2 * e + 3 * u) * exp (- (s * r)).
  Proof using All.
    destruct Hn as (a' & a0 & N1 & N2 & Da & Ha' & Ha & A). destruct Hr as (b' & b0 & R1 & R2 & Db & Hb' & Hb & B). rewrite Na in N2. injection N2 as <-. rewrite Nb in R2. injection R2 as <-.
    assert (CB : 0 <= c * b) by now apply Rmult_le_pos. assert (CB' : 0 <= c * b') by now apply Rmult_le_pos. assert (S0 : 0 <= s) by (unfold s; lra).
    destruct (sum_close a b c a' b' delta Da Db Dc Ha Hb Hc Ha' Hb' Hd A B) as [M S]. fold s in S. set (m := fmul c b') in *. assert (Hm : 0 <= m) by (apply rnd_nonneg; exact CB').
    set (s' := fadd a' m) in *. assert (Hs : 0 <= s') by (apply rnd_nonneg; lra).
    pose proof (depth_close s s' r' delta Dr S0 H0' Hs Hd S) as D. unfold depth_error in D. rewrite u_unit, <- eta_half in D. unfold target_error in He. rewrite u_unit, <- eta_half in He.
    pose proof u_pos as U. pose proof u_tiny as U1. pose proof eta_pos as E0.
    assert (D1 : Rabs (s * r' - s * r) <= 4 * u * (s * R0)). { replace (s * r' - s * r) with (s * (r' - r)) by ring. rewrite Rabs_mult, (Rabs_pos_eq s) by lra. apply (Rmult_le_compat_l s) in Cr; [|lra]. lra. }
    assert (D2 : Rabs (fmul s' r' - s * r) <= e).
    { assert (Q0 : 0 <= s * r) by (apply Rmult_le_pos; lra). assert (Q1 : s * r <= s * R0) by (apply Rmult_le_compat_l; lra). assert (Qr : r' <= R0 + 4 * u * R0) by (apply Rabs_le_inv in Cr; lra).
      set (y := fmul s' r') in *. set (t := s * r) in *. set (t' := s * r') in *. set (T := s * R0) in *. clearbody y t t' T. apply Rabs_le_inv in D, D1.
      assert (UT : 0 <= u * T) by (apply Rmult_le_pos; lra). assert (UT2 : u * T <= / 1024 * T) by (apply Rmult_le_compat_r; lra).
      assert (X1 : (delta + 4 * u) * t' <= (delta + 4 * u) * (T + 4 * u * T)) by (apply Rmult_le_compat_l; lra).
      assert (X2 : (delta + 4 * u) * (4 * u * T) <= / 4 * (4 * u * T)) by (apply Rmult_le_compat_r; lra).
      assert (X3 : u * R0 <= / 1024 * R0) by (apply Rmult_le_compat_r; lra). assert (X4 : 2 * eta * (r' + 1) <= 2 * eta * (3 / 2 * (R0 + 1))) by (apply Rmult_le_compat_l; lra).
      apply Rabs_le. lra. }
    assert (e0 : 0 <= e) by (eapply Rle_trans; [apply Rabs_pos|exact D2]).
    assert (T0 : 0 <= s * r <= 150). { split; [apply Rmult_le_pos; lra|]. eapply Rle_trans; [|exact Ht]. apply Rmult_le_compat_l; lra. }
    pose proof (exp_close ex (fmul s' r') (s * r) e EX (rnd_double _) (rnd_nonneg _ (Rmult_le_pos _ _ Hs H0')) T0 D2 ltac:(lra)) as P. rewrite u_unit in P.
    split; [exact S0|]. split; [exact CB|]. split; [exact e0|]. exists (ex (- fmul s' r')). unfold falpha, alpha, Phi, fPhi. rewrite N1, Na, R1, Nb. cbn [bind]. fold m s' s. rewrite opp_mul. replace (- s * r) with (- (s * r)) by ring.
    repeat (split; [reflexivity|]). split; [|exact P]. eexists. split; [reflexivity|]. apply product_close; auto; [split; lra|]. split; [apply exp_pos|now apply exp_below].
  Qed.
End Layer.

(** ** Products *)
Lemma exp_lower t : 0 <= t <= 150 -> / 3 ^ 150 <= exp (- t) <= 1.
Proof.
  intros H. split; [|now apply exp_below]. apply Rle_trans with (exp (-150)).
  - assert (E : exp (-150) = (/ exp 1) ^ 150). { rewrite <- exp_Ropp, <- (Rpower_pow 150) by apply exp_pos. unfold Rpower. rewrite ln_exp. f_equal. rewrite INR_IZR_INZ. simpl. ring. }
    rewrite E, <- pow_inv. apply pow_incr. split; [lra|]. apply Rinv_le; [apply exp_pos|apply exp_le_3].
  - destruct (Req_dec t 150) as [->|N]; [right; f_equal|]. left. apply Rpower.exp_increasing. lra.
Qed.
Lemma trans_close p q p' q' k k' : 0 < p -> 0 < q -> / 3 ^ 450 <= p * q -> 0 <= k <= 33 / 100 -> 0 <= k' <= 13 / 100 -> Rabs (p' - p) <= k * p -> Rabs (q' - q) <= k' * q ->
  Rabs (fmul p' q' - p * q) <= (113 / 100 * k + k' + 16 / 10 * u) * (p * q).
Proof.
  intros P Q L K K' A B. pose proof u_pos as U. pose proof u_tiny as U1. apply Rabs_le_inv in A, B.
  assert (KP : 0 <= k * p <= 33 / 100 * p) by (split; [apply Rmult_le_pos; lra|apply Rmult_le_compat_r; lra]). assert (KQ : 0 <= k' * q <= 13 / 100 * q) by (split; [apply Rmult_le_pos; lra|apply Rmult_le_compat_r; lra]).
  assert (X1 : p' * q' <= (p + k * p) * (q + k' * q)) by (apply Rmult_le_compat; lra). assert (X2 : (p - k * p) * (q - k' * q) <= p' * q') by (apply Rmult_le_compat; lra).
  assert (PQ : 0 < p * q) by now apply Rmult_lt_0_compat. assert (LL : 33 / 100 * (p * q) <= p' * q'). { eapply Rle_trans; [|exact X2]. replace ((p - k * p) * (q - k' * q)) with ((1 - k) * (1 - k') * (p * q)) by ring. apply Rmult_le_compat_r; [lra|]. nra. }
  assert (KK : 0 <= k * k' <= 13 / 100 * k) by (split; [apply Rmult_le_pos; lra|rewrite Rmult_comm; apply Rmult_le_compat_r; lra]).
  assert (Z : Rabs (p' * q' - p * q) <= (113 / 100 * k + k') * (p * q)).
  { set (y := p * q) in *. assert (Y1 : (p + k * p) * (q + k' * q) = (1 + k + k' + k * k') * y) by (unfold y; ring). assert (Y2 : (p - k * p) * (q - k' * q) = (1 - k - k' + k * k') * y) by (unfold y; ring). rewrite Y1 in X1. rewrite Y2 in X2. clearbody y.
    assert (W1 : k * k' * y <= 13 / 100 * k * y) by (apply Rmult_le_compat_r; lra). assert (W0 : 0 <= k * k' * y) by (apply Rmult_le_pos; lra). assert (W2 : 0 <= k * y) by (apply Rmult_le_pos; lra). apply Rabs_le. lra. }
  unfold fmul. destruct (rnd_error_normal (p' * q')) as (d & Hd & ->).
  { rewrite Rabs_pos_eq by lra. apply Rle_trans with (/ 2 ^ 2 * / 3 ^ 450); [|apply Rle_trans with (33 / 100 * (p * q)); [|exact LL]; apply Rmult_le_compat; try lra].
    rewrite <- Rinv_mult. apply Rle_trans with (/ (2 ^ 2 * 2 ^ 900)).
    - change (-1022)%Z with (- (1022))%Z. rewrite bpow_opp. apply Rinv_le; [apply Rmult_lt_0_compat; apply pow_lt; lra|]. rewrite <- pow_add. replace (2 ^ (2 + 900)) with (bpow radix2 902). + apply bpow_le. lia. + rewrite <- (IZR_Zpower radix2 902) by lia. rewrite pow_IZR. f_equal.
    - apply Rinv_le; [apply Rmult_lt_0_compat; apply pow_lt; lra|]. apply Rmult_le_compat_l; [apply pow_le; lra|]. change 900%nat with (2 * 450)%nat. rewrite (pow_mult 2 2 450). apply pow_incr. simpl. lra. }
  apply Rabs_le_inv in Hd, Z. assert (Up : p' * q' <= 16 / 10 * (p * q)). { assert ((113 / 100 * k + k') * (p * q) <= 6 / 10 * (p * q)) by (apply Rmult_le_compat_r; lra). lra. }
  assert (Dx : Rabs (p' * q' * d) <= u * (16 / 10 * (p * q))). { rewrite Rabs_mult, Rmult_comm. apply Rmult_le_compat; try apply Rabs_pos; [now apply Rabs_le|]. rewrite Rabs_pos_eq; lra. }
  apply Rabs_le_inv in Dx. apply Rabs_le. lra.
Qed.
Lemma absorb_close x x' a a' k l : 0 < x <= 1 -> 0 <= a -> 0 <= k <= 6 / 10 -> 0 <= l <= 27 / 100 -> Rabs (x' - x) <= k * x -> Rabs (a' - a) <= l * a + 3 * eta ->
  Rabs (fmul x' a' - x * a) <= (l + 127 / 100 * k + 21 / 10 * u) * (x * a) + 6 * eta.
Proof.
  intros X A K L H1 H2. pose proof u_pos as U. pose proof u_tiny as U1. pose proof eta_pos as E0. pose proof (fmul_error x' a') as F.
  assert (XA : 0 <= x * a) by (apply Rmult_le_pos; lra). assert (KX : 0 <= k * x <= 6 / 10) by (split; [apply Rmult_le_pos; lra|nra]).
  assert (LA : 0 <= l * a) by (apply Rmult_le_pos; lra).
  assert (Z : Rabs (x' * a' - x * a) <= (l + 127 / 100 * k) * (x * a) + 48 / 10 * eta).
  { replace (x' * a' - x * a) with ((x' - x) * a' + x * (a' - a)) by ring. eapply Rle_trans; [apply Rabs_triang|]. rewrite !Rabs_mult, (Rabs_pos_eq x) by lra.
    assert (A1 : Rabs a' <= a + (l * a + 3 * eta)). { replace a' with (a + (a' - a)) by ring. eapply Rle_trans; [apply Rabs_triang|]. rewrite (Rabs_pos_eq a) by lra. lra. }
    assert (A2 : Rabs (x' - x) * Rabs a' <= k * x * (a + (l * a + 3 * eta))) by (apply Rmult_le_compat; try apply Rabs_pos; lra).
    assert (A3 : x * Rabs (a' - a) <= x * (l * a + 3 * eta)) by (apply Rmult_le_compat_l; lra).
    assert (A4 : k * (l * (x * a)) <= k * (27 / 100 * (x * a))) by (apply Rmult_le_compat_l; [lra|]; apply Rmult_le_compat_r; lra).
    assert (A5 : k * x * (3 * eta) <= 6 / 10 * (3 * eta)) by (apply Rmult_le_compat_r; lra). assert (A6 : x * (3 * eta) <= 1 * (3 * eta)) by (apply Rmult_le_compat_r; lra). lra. }
  assert (W : Rabs (x' * a') <= 21 / 10 * (x * a) + 48 / 10 * eta).
  { replace (x' * a') with (x * a + (x' * a' - x * a)) by ring. eapply Rle_trans; [apply Rabs_triang|]. rewrite (Rabs_pos_eq (x * a)) by lra. assert ((l + 127 / 100 * k) * (x * a) <= 11 / 10 * (x * a)) by (apply Rmult_le_compat_r; lra). lra. }
  assert (UW : u * Rabs (x' * a') <= u * (21 / 10 * (x * a) + 48 / 10 * eta)) by (apply Rmult_le_compat_l; lra). assert (UE : u * eta <= / 1024 * eta) by (apply Rmult_le_compat_r; lra).
  apply Rabs_le_inv in F, Z. apply Rabs_le. lra.
Qed.

(** ** The target *)
Section Target.
  Variables (ex : R -> R) (f : ftarget) (t : target) (E delta n p q e rho : R).
  Hypotheses (EX : exp_accurate ex) (ST : same_target delta f t E) (Hd : 0 <= delta <= / 16) (Nn : t_nr t E = Ok n) (Np : sigma_116 t E = Ok p) (Nq : sigma_112 t E = Ok q).
  Let R0 := rho_IV t.
  Let s6 := n + t_enrichment_116 t * p.
  Let s2 := n + t_enrichment_112 t * q.
  Hypotheses (H6 : s6 * R0 <= 150) (H2 : s2 * R0 <= 150) (E6 : target_error delta R0 s6 <= e) (E2 : target_error delta R0 s2 <= e) (H16 : e <= / 16) (Drho : double rho).
  Lemma layers_close :
    (rho_0 <= rho <= R0 -> computes (delta + 3 * e + 7 * unit_roundoff) 3 (fdN_dE_drho_I ex f E rho) (dN_dE_drho_I t E rho)) /\
    (frho_I f <= rho -> rho_I t <= rho <= R0 -> computes (delta + 6 * e + 13 * unit_roundoff) 6 (fdN_dE_drho_II ex f E rho) (dN_dE_drho_II t E rho)) /\
    (frho_II f <= rho -> rho_II t <= rho <= R0 -> computes (delta + 10 * e + 20 * unit_roundoff) 6 (fdN_dE_drho_III ex f E rho) (dN_dE_drho_III t E rho)) /\
    (frho_III f <= rho -> rho_III t <= rho <= R0 -> computes (delta + 14 * e + 27 * unit_roundoff) 6 (fdN_dE_drho_IV ex f E rho) (dN_dE_drho_IV t E rho)).
  Proof using All.
    destruct ST as (Cn & C6 & C2 & Q6 & Q2 & Q_I & Q_II & Q_III & Q_IV & D6 & D2 & P6 & P2 & D_I & D_II & D_III & D_IV & P_I & P_II & P_III & P_IV).
    assert (TA : exists n' p' q', target_at f E n' p' q'). { destruct Cn as (v1 & ? & V1 & _ & _ & W1 & _). destruct C6 as (v2 & ? & V2 & _ & _ & W2 & _). destruct C2 as (v3 & ? & V3 & _ & _ & W3 & _). exists v1, v2, v3. unfold target_at. auto 20. }
    destruct TA as (n' & p' & q' & TA). destruct (boundaries_close f E n' p' q' TA) as (F1 & B1 & B2 & B3 & W2 & W3 & W4 & G1 & G2 & G3). unfold within_units in *. rewrite u_unit in *. clear TA W4.
    pose proof u_pos as U. pose proof u_tiny as U1. pose proof eta_pos as E0.
    assert (RR : R0 = f_I f + f_II f + f_III f + f_IV f) by (unfold R0, rho_IV, rho_III, rho_II, rho_I, rho_0; rewrite Q_I, Q_II, Q_III, Q_IV; ring).
    assert (R1 : rho_I t = f_I f) by (unfold rho_I, rho_0; rewrite Q_I; ring). assert (R2 : rho_II t = f_I f + f_II f) by (unfold rho_II; rewrite R1, Q_II; ring). assert (R3 : rho_III t = f_I f + f_II f + f_III f) by (unfold rho_III; rewrite R2, Q_III; ring).
    assert (UR : forall x, 0 <= x <= R0 -> 0 <= u * x <= u * R0) by (intros x Hx; split; [apply Rmult_le_pos; lra|apply Rmult_le_compat_l; lra]).
    rewrite Q6 in D6, P6. rewrite Q2 in D2, P2.
    (* thicknesses *)
    assert (K6 : forall r r', double r' -> 0 <= r <= R0 -> 0 <= r' -> Rabs (r' - r) <= 4 * u * R0 -> _) by (intros r r' A1 A2 A3 A4; exact (layer_close ex (f_nr f) (f_116 f) (t_nr t) (sigma_116 t) E delta (t_enrichment_116 t) n p EX Cn C6 Nn Np Hd D6 P6 r r' R0 e A1 A2 A3 A4 H6 E6 H16)).
    assert (K2 : forall r r', double r' -> 0 <= r <= R0 -> 0 <= r' -> Rabs (r' - r) <= 4 * u * R0 -> _) by (intros r r' A1 A2 A3 A4; exact (layer_close ex (f_nr f) (f_112 f) (t_nr t) (sigma_112 t) E delta (t_enrichment_112 t) n q EX Cn C2 Nn Nq Hd D2 P2 r r' R0 e A1 A2 A3 A4 H2 E2 H16)).
    fold s6 in K6. fold s2 in K2.
    assert (UR0 : 0 <= u * R0) by (apply Rmult_le_pos; lra).
    destruct (K6 (rho_I t - rho_0) (fsub (frho_I f) frho_0)) as (S6 & CP6 & e0 & p1 & A1 & A2 & _ & _ & A3); [apply rnd_double|unfold rho_0; lra|rewrite G1; lra|rewrite G1, R1; unfold rho_0; replace (f_I f - (f_I f - 0)) with 0 by ring; rewrite Rabs_R0; lra|].
    destruct (K2 (rho_II t - rho_I t) (fsub (frho_II f) (frho_I f))) as (S2 & CP2 & _ & p2 & A4 & A5 & _ & _ & A6); [apply rnd_double|lra|apply sub_nonneg; lra| |].
    { replace (rho_II t - rho_I t) with (f_II f) by lra. eapply Rle_trans; [exact G2|]. pose proof (UR (f_I f + f_II f) ltac:(lra)). lra. }
    destruct (K6 (rho_III t - rho_II t) (fsub (frho_III f) (frho_II f))) as (_ & _ & _ & p3 & A7 & A8 & _ & _ & A9); [apply rnd_double|lra|apply sub_nonneg; lra| |].
    { replace (rho_III t - rho_II t) with (f_III f) by lra. eapply Rle_trans; [exact G3|]. pose proof (UR (f_I f + f_II f + f_III f) ltac:(lra)). lra. }
    assert (L : forall d d', double d' -> d' <= rho -> d <= rho <= R0 -> 0 <= d -> 0 <= d' -> Rabs (d' - d) <= 3 * u * d -> 0 <= rho - d <= R0 /\ 0 <= fsub rho d' /\ Rabs (fsub rho d' - (rho - d)) <= 4 * u * R0).
    { intros d d' Dd Hd1 Hd2 Hd3 Hd4 Hd5. split; [lra|]. split; [apply sub_nonneg; exact Hd1|]. pose proof (fsub_units rho d' Drho Dd Hd1) as Z. pose proof (UR d ltac:(lra)). pose proof (UR (rho - d') ltac:(lra)). apply Rabs_le_inv in Z, Hd5. apply Rabs_le. lra. }
    assert (T6 : forall r, 0 <= r <= R0 -> / 3 ^ 150 <= exp (- (s6 * r)) <= 1). { intros r Hr. apply exp_lower. split; [apply Rmult_le_pos; lra|]. eapply Rle_trans; [|exact H6]. apply Rmult_le_compat_l; lra. }
    assert (T2 : forall r, 0 <= r <= R0 -> / 3 ^ 150 <= exp (- (s2 * r)) <= 1). { intros r Hr. apply exp_lower. split; [apply Rmult_le_pos; lra|]. eapply Rle_trans; [|exact H2]. apply Rmult_le_compat_l; lra. }
    pose proof (T6 (rho_I t - rho_0) ltac:(unfold rho_0; lra)) as Y1. pose proof (T2 (rho_II t - rho_I t) ltac:(lra)) as Y2. pose proof (T6 (rho_III t - rho_II t) ltac:(lra)) as Y3.
    pose proof (exp_pos (- (s6 * (rho_I t - rho_0)))) as X1. pose proof (exp_pos (- (s2 * (rho_II t - rho_I t)))) as X2. pose proof (exp_pos (- (s6 * (rho_III t - rho_II t)))) as X3.
    unfold fdN_dE_drho_I, fdN_dE_drho_II, fdN_dE_drho_III, fdN_dE_drho_IV, dN_dE_drho_I, dN_dE_drho_II, dN_dE_drho_III, dN_dE_drho_IV. rewrite Q6, Q2, A1, A2, A4, A5, A7, A8. cbn [bind].
    set (x1 := exp (- (s6 * (rho_I t - rho_0)))) in *. set (x2 := exp (- (s2 * (rho_II t - rho_I t)))) in *. set (x3 := exp (- (s6 * (rho_III t - rho_II t)))) in *. clearbody x1 x2 x3.
    assert (Z0 : 0 < / 3 ^ 150) by (apply Rinv_0_lt_compat, pow_lt; lra).
    assert (Z2 : / 3 ^ 300 = / 3 ^ 150 * / 3 ^ 150) by (rewrite <- Rinv_mult, <- pow_add; reflexivity). assert (Z3 : / 3 ^ 450 = / 3 ^ 300 * / 3 ^ 150) by (rewrite <- Rinv_mult, <- pow_add; reflexivity).
    assert (L2 : / 3 ^ 300 <= x1 * x2) by (rewrite Z2; apply Rmult_le_compat; lra). assert (L3 : / 3 ^ 450 <= x1 * x2 * x3) by (rewrite Z3; apply Rmult_le_compat; try lra; rewrite Z2; apply Rmult_le_pos; lra).
    assert (Z1 : / 3 ^ 150 <= 1) by lra. assert (L2' : / 3 ^ 450 <= x1 * x2) by (eapply Rle_trans; [|exact L2]; rewrite Z3; rewrite <- (Rmult_1_r (/ 3 ^ 300)) at 2; apply Rmult_le_compat_l; [rewrite Z2; apply Rmult_le_pos; lra|exact Z1]).
    assert (X12 : 0 < x1 * x2 <= 1) by (split; [now apply Rmult_lt_0_compat|nra]). assert (X123 : 0 < x1 * x2 * x3 <= 1) by (split; [apply Rmult_lt_0_compat; lra|nra]).
    clear Z0 Z1 Z2 Z3.
    assert (V2 : Rabs (fmul p1 p2 - x1 * x2) <= (5 * e + 8 * u) * (x1 * x2)). { eapply Rle_trans; [apply (trans_close x1 x2 p1 p2 (2 * e + 3 * u) (2 * e + 3 * u)); auto; lra|]. apply Rmult_le_compat_r; lra. }
    assert (V3 : Rabs (fmul (fmul p1 p2) p3 - x1 * x2 * x3) <= (8 * e + 14 * u) * (x1 * x2 * x3)). { eapply Rle_trans; [apply (trans_close (x1 * x2) x3 (fmul p1 p2) p3 (5 * e + 8 * u) (2 * e + 3 * u)); auto; lra|]. apply Rmult_le_compat_r; lra. }
    unfold computes. rewrite <- eta_half.
    split; [|split; [|split]].
    - intros Hr. destruct (L rho_0 frho_0) as (M1 & M2 & M3); [exact double_0|unfold frho_0, rho_0 in *; lra|exact Hr|unfold rho_0; lra|unfold frho_0; lra|unfold rho_0, frho_0; rewrite Rminus_0_r, Rabs_R0; lra|].
      destruct (K6 (rho - rho_0) (fsub rho frho_0) (rnd_double _) M1 M2 M3) as (_ & _ & _ & z & _ & _ & N2 & (z' & N3 & N4) & _). exists z'. eexists. split; [exact N3|]. split; [exact N2|]. exact N4.
    - intros Hf Hr. destruct (L (rho_I t) (frho_I f)) as (M1 & M2 & M3); [rewrite F1; exact D_I|exact Hf|exact Hr|lra|lra|rewrite R1, F1; replace (f_I f - f_I f) with 0 by ring; rewrite Rabs_R0; pose proof (UR (f_I f) ltac:(lra)); lra|].
      destruct (K2 (rho - rho_I t) (fsub rho (frho_I f)) (rnd_double _) M1 M2 M3) as (_ & _ & _ & z & _ & _ & N2 & (z' & N3 & N4) & _). rewrite N2, N3. cbn [bind]. do 2 eexists. split; [reflexivity|]. split; [reflexivity|].
      pose proof (exp_pos (- (s2 * (rho - rho_I t)))) as XP. assert (AP : 0 <= t_enrichment_112 t * q * exp (- (s2 * (rho - rho_I t)))) by (apply Rmult_le_pos; lra).
      eapply Rle_trans; [apply (absorb_close x1 p1 _ z' (2 * e + 3 * u) (delta + 3 * e + 7 * u)); auto; lra|]. apply Rplus_le_compat_r, Rmult_le_compat_r; [apply Rmult_le_pos; lra|lra].
    - intros Hf Hr. destruct (L (rho_II t) (frho_II f)) as (M1 & M2 & M3); [apply rnd_double|exact Hf|exact Hr|lra|lra|rewrite R2; pose proof (UR (f_I f + f_II f) ltac:(lra)); lra|].
      destruct (K6 (rho - rho_II t) (fsub rho (frho_II f)) (rnd_double _) M1 M2 M3) as (_ & _ & _ & z & _ & _ & N2 & (z' & N3 & N4) & _). rewrite N2, N3. cbn [bind]. do 2 eexists. split; [reflexivity|]. split; [reflexivity|].
      pose proof (exp_pos (- (s6 * (rho - rho_II t)))) as XP. assert (AP : 0 <= t_enrichment_116 t * p * exp (- (s6 * (rho - rho_II t)))) by (apply Rmult_le_pos; lra).
      eapply Rle_trans; [apply (absorb_close (x1 * x2) (fmul p1 p2) _ z' (5 * e + 8 * u) (delta + 3 * e + 7 * u)); auto; lra|]. apply Rplus_le_compat_r, Rmult_le_compat_r; [apply Rmult_le_pos; lra|lra].
    - intros Hf Hr. destruct (L (rho_III t) (frho_III f)) as (M1 & M2 & M3); [apply rnd_double|exact Hf|exact Hr|lra|lra|rewrite R3; exact W3|].
      destruct (K2 (rho - rho_III t) (fsub rho (frho_III f)) (rnd_double _) M1 M2 M3) as (_ & _ & _ & z & _ & _ & N2 & (z' & N3 & N4) & _). rewrite N2, N3. cbn [bind]. do 2 eexists. split; [reflexivity|]. split; [reflexivity|].
      pose proof (exp_pos (- (s2 * (rho - rho_III t)))) as XP. assert (AP : 0 <= t_enrichment_112 t * q * exp (- (s2 * (rho - rho_III t)))) by (apply Rmult_le_pos; lra).
      eapply Rle_trans; [apply (absorb_close (x1 * x2 * x3) (fmul (fmul p1 p2) p3) _ z' (8 * e + 14 * u) (delta + 3 * e + 7 * u)); auto; lra|]. apply Rplus_le_compat_r, Rmult_le_compat_r; [apply Rmult_le_pos; lra|lra].
  Qed.
End Target.
