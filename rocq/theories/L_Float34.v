(** Tables of decimal numbers and the tables of floats that are read from them. *)
From Coq Require Import Reals List ZArith Lra Lia Psatz Sorted Bool.
From Flocq Require Import Core.
From Verif Require Import Py Spec M_Num M_Grid M_CrossSection M_Xrmac S_Xrmac M_Float S_Float M_Float7 S_Float7 S_Decimal S_Float9
  L_Xrmac L_Float L_Float2 L_Float3 L_Float5 L_Float7 L_Float8 L_Float9 L_Float18 L_Float24 L_Float25 L_Float26.
Import ListNotations.
Open Scope R_scope.

Lemma exp_2 : exp 2 <= 10.
Proof.
  replace 2 with (1 + 1) by ring. rewrite exp_plus. pose proof exp_le_3 as E. pose proof (exp_pos 1). nra.
Qed.
Lemma ln10_ge : 2 <= ln 10.
Proof. rewrite <- (ln_exp 2). pose proof exp_2 as [H|H]; [left; apply ln_increasing; [apply exp_pos|exact H]|rewrite H; lra]. Qed.
Lemma u_small : u <= / 10 ^ 15.
Proof. unfold u. apply Rinv_le_contravar; [apply pow_lt; lra|]. replace (10 ^ 15) with (IZR (10 ^ 15)) by (rewrite (pow_IZR 10 15); reflexivity). replace (2 ^ 53) with (IZR (2 ^ 53)) by (rewrite (pow_IZR 2 53); reflexivity). apply IZR_le. lia. Qed.
Lemma ln_small t : Rabs t <= / 2 -> Rabs (ln (1 + t)) <= 2 * Rabs t.
Proof.
  intros H. pose proof (Rabs_le_inv _ _ H) as B. pose proof (exp_ineq1_le (ln (1 + t))) as A. rewrite exp_ln in A by lra. pose proof (exp_ineq1_le (- ln (1 + t))) as C. rewrite exp_Ropp, exp_ln in C by lra.
  assert (X : / (1 + t) = 1 - t / (1 + t)) by (field; lra). assert (Y : t / (1 + t) >= - (2 * Rabs t)).
  { apply Rle_ge. apply (Rmult_le_reg_r (1 + t)); [lra|]. replace (t / (1 + t) * (1 + t)) with t by (field; lra). unfold Rabs in *. destruct (Rcase_abs t); nra. }
  pose proof (Rle_abs t). pose proof (Rabs_pos t). apply Rabs_le. lra.
Qed.
Lemma log10_rel k x' x : 1 <= k <= 1000 -> 0 < x -> Rabs (x' - x) <= k * u * x -> 0 < x' /\ Rabs (log10 x' - log10 x) <= k * u.
Proof.
  intros Hk P H. pose proof u_pos. pose proof u_small as US. simpl in US. assert (KU : 0 < k * u <= / 2 ) by nra. set (t := (x' - x) / x). assert (E : x' = x * (1 + t)) by (unfold t; field; lra).
  assert (T : Rabs t <= k * u). { unfold t, Rdiv. rewrite Rabs_mult, (Rabs_pos_eq (/ x)) by (left; now apply Rinv_0_lt_compat). apply (Rmult_le_reg_r x); [exact P|]. rewrite Rmult_assoc, Rinv_l by lra. lra. }
  pose proof (Rabs_le_inv _ _ T) as B. split; [rewrite E; apply Rmult_lt_0_compat; lra|]. pose proof ln10_ge as L.
  replace (log10 x' - log10 x) with (ln (1 + t) / ln 10); [|unfold log10; rewrite E, ln_mult by lra; field; lra]. pose proof (ln_small t ltac:(lra)) as LS.
  unfold Rdiv. rewrite Rabs_mult, (Rabs_pos_eq (/ ln 10)) by (left; apply Rinv_0_lt_compat; lra). apply (Rmult_le_reg_r (ln 10)); [lra|]. rewrite Rmult_assoc, Rinv_l by lra. nra.
Qed.
Lemma normal_log x : 0 < x -> Rabs (log10 x) <= 300 -> bpow radix2 (-1022) <= x.
Proof.
  intros P B. apply Rle_trans with (pow10 (-300)).
  - assert (Q : pow10 (-300) = / 10 ^ 300). { unfold pow10. replace (-300 * ln 10) with (- (INR 300 * ln 10)) by (rewrite (INR_IZR_INZ 300); simpl; ring). rewrite exp_Ropp. f_equal. rewrite <- (Rpower_pow 300 10) by lra. unfold Rpower. reflexivity. }
    rewrite Q. change (bpow radix2 (-1022)) with (/ IZR (2 ^ 1022)). replace (10 ^ 300) with (IZR (10 ^ 300)) by (rewrite (pow_IZR 10 300); reflexivity).
    apply Rinv_le_contravar; [apply IZR_lt; reflexivity|apply IZR_le]. apply Z.leb_le. vm_compute. reflexivity.
  - apply Rabs_le_inv in B. replace x with (pow10 (log10 x)); [apply pow10_le; lra|]. unfold pow10, log10. pose proof ln10_pos. replace (ln x / ln 10 * ln 10) with (ln x) by (field; lra). now apply exp_ln.
Qed.
Lemma rnd_read x : 0 < x -> Rabs (log10 x) <= 300 -> Rabs (rnd x - x) <= 1 * u * x.
Proof. intros P B. apply (rnd_rel x 1 P (normal_log x P B)). lra. Qed.

(** A segment with moved ends. *)
Lemma segment_move S0 wx wy x x0 x1 y0 y1 x0' x1' y0' y1' : 0 <= S0 -> 0 <= wx -> 0 <= wy -> x0 <= x <= x1 -> x0 < x1 -> x0' <= x <= x1' -> x1 - x0 <= 2 * (x1' - x0') ->
  Rabs (x0' - x0) <= wx -> Rabs (x1' - x1) <= wx -> Rabs (y0' - y0) <= wy -> Rabs (y1' - y1) <= wy -> Rabs (y1 - y0) <= S0 * (x1 - x0) ->
  Rabs ((y1' - y0') / (x1' - x0') * (x - x0') + y0' - ((y1 - y0) / (x1 - x0) * (x - x0) + y0)) <= wy + 2 * S0 * wx.
Proof.
  intros HS Hx Hy B L B' L' X0 X1 Y0 Y1 SL. set (t := (x - x0) / (x1 - x0)). set (t' := (x - x0') / (x1' - x0')).
  assert (P : 0 < x1' - x0') by lra.
  replace ((y1' - y0') / (x1' - x0') * (x - x0') + y0' - ((y1 - y0) / (x1 - x0) * (x - x0) + y0)) with ((y0' - y0) * (1 - t') + (y1' - y1) * t' + (y1 - y0) * (t' - t)) by (unfold t, t'; field; lra).
  assert (T : 0 <= t' <= 1). { unfold t'. split; [apply Rmult_le_pos; [lra|left; apply Rinv_0_lt_compat; lra]|]. apply (Rmult_le_reg_r (x1' - x0')); [lra|]. unfold Rdiv. rewrite Rmult_assoc, Rinv_l; lra. }
  assert (D : Rabs ((y1 - y0) * (t' - t)) <= 2 * S0 * wx).
  { assert (E : (t' - t) * (x1 - x0) * (x1' - x0') = ((x - x0') - (x - x0)) * (x1 - x) + (x - x0) * ((x1 - x) - (x1' - x))) by (unfold t, t'; field; lra).
    assert (Q : Rabs ((t' - t) * (x1 - x0)) * (x1' - x0') <= wx * (x1 - x0)).
    { rewrite <- (Rabs_pos_eq (x1' - x0')) by lra. rewrite <- Rabs_mult, E. apply Rabs_le_inv in X0, X1. apply Rabs_le. nra. }
    assert (Q2 : Rabs ((t' - t) * (x1 - x0)) <= 2 * wx). { apply (Rmult_le_reg_r (x1' - x0')); [exact P|]. nra. }
    rewrite Rabs_mult. rewrite Rabs_mult, (Rabs_pos_eq (x1 - x0)) in Q2 by lra. pose proof (Rabs_pos (t' - t)). apply Rle_trans with (S0 * (x1 - x0) * Rabs (t' - t)); [apply Rmult_le_compat_r; lra|]. nra. }
  eapply Rle_trans; [apply Rabs_triang|]. apply Rplus_le_compat; [|exact D]. apply Rabs_le_inv in Y0, Y1. apply Rabs_le. nra.
Qed.

Section Read.
Variables (k M S0 : R).
Hypothesis (Hk : 1 <= k <= 1000) (HM : 1 <= M <= 99) (HS : 0 <= S0).
Definition positive_line (p : R * R) : Prop := 0 < fst p /\ Rabs (log10 (fst p)) <= M /\ 0 < snd p /\ Rabs (log10 (snd p)) <= M.
Lemma read_log (p' p : R * R) : positive_line p -> fst p' = rnd (fst p) -> roundings k (snd p') (snd p) ->
  0 < fst p' /\ 0 < snd p' /\ Rabs (log10 (fst p') - log10 (fst p)) <= u /\ Rabs (log10 (snd p') - log10 (snd p)) <= k * u.
Proof.
  intros (P1 & B1 & P2 & B2) E (_ & R2). change unit_roundoff with u in R2. rewrite (Rabs_pos_eq (snd p)) in R2 by lra.
  assert (R1 : Rabs (fst p' - fst p) <= 1 * u * fst p) by (rewrite E; apply rnd_read; [exact P1|lra]).
  destruct (log10_rel 1 _ _ ltac:(lra) P1 R1) as (Q1 & L1). destruct (log10_rel k _ _ Hk P2 R2) as (Q2 & L2). rewrite Rmult_1_l in L1. repeat split; assumption.
Qed.
Lemma decimal_gap e e1 : 0 < e -> e * (1 + / 10 ^ 8) <= e1 -> / 10 ^ 9 <= log10 e1 - log10 e.
Proof.
  intros P H. set (t := / 10 ^ 8) in *. assert (Pt : 0 < t <= / 10). { unfold t. split; [apply Rinv_0_lt_compat, pow_lt; lra|simpl; lra]. }
  apply (log10_le (e * (1 + t))) in H; [|nra]. assert (E : log10 (e * (1 + t)) - log10 e = ln (1 + t) / ln 10). { unfold log10. rewrite ln_mult by lra. pose proof ln10_pos. field. lra. }
  pose proof (ln_ge t ltac:(lra)) as L. pose proof ln10_pos as P10. pose proof ln10_le as L3. apply Rle_trans with (ln (1 + t) / ln 10); [|lra]. apply Rle_trans with (t / (1 + t) / 3).
  - replace (/ 10 ^ 9) with (t / 10); [|unfold t; change 9%nat with (8 + 1)%nat; rewrite pow_add; pose proof (pow_lt 10 8 ltac:(lra)); field; lra].
    apply (Rmult_le_reg_r (3 * (1 + t))); [lra|]. replace (t / (1 + t) / 3 * (3 * (1 + t))) with t by (field; lra). nra.
  - unfold Rdiv. apply Rmult_le_compat; [apply Rmult_le_pos; [lra|left; apply Rinv_0_lt_compat; lra]|lra|exact L|]. apply Rinv_le_contravar; lra.
Qed.
Lemma u_tiny : k * u <= / 1000 * / 10 ^ 9 /\ u <= / 10000 * / 10 ^ 9.
Proof. pose proof u_small as US. pose proof u_pos. simpl in *. split; nra. Qed.
Lemma read_value x' x c : 0 < x -> 0 <= c -> Rabs (x' - x) <= c * x -> x * (1 - c) <= x' <= x * (1 + c).
Proof. intros P C H. apply Rabs_le_inv in H. lra. Qed.
Lemma gap_kept e e' e1 e1' : Rabs (log10 e' - log10 e) <= u -> Rabs (log10 e1' - log10 e1) <= u -> / 10 ^ 9 <= log10 e1 - log10 e -> / 2 ^ 31 <= log10 e1' - log10 e'.
Proof.
  intros A B C. apply Rabs_le_inv in A, B. destruct u_tiny as [_ U]. assert (/ 2 ^ 31 <= 9 / 10 * / 10 ^ 9) by (simpl; lra). lra.
Qed.

Lemma read_ftable data' data : read_table k data' data -> decimal_table M S0 data -> ftable (M * (1 + / 1000)) (S0 + (1 + S0) / 200) data'.
Proof.
  intros R0 (F & C). destruct u_tiny as [U1 U2]. pose proof u_pos as Pu. split.
  - clear C. induction R0 as [|p' p data' data (E & R2) R0 IH]; [constructor|]. apply List.Forall_cons_iff in F. destruct F as [F0 F]. constructor; [|now apply IH].
    destruct (read_log p' p F0 E R2) as (P1 & P2 & L1 & L2). destruct F0 as (_ & B1 & _ & B2). destruct R2 as (D2 & _). apply Rabs_le_inv in L1, L2, B1, B2. simpl in U1, U2.
    split; (split; [assumption|]; split; [|apply Rabs_le; lra]); [rewrite E; apply rnd_double|exact D2].
  - revert F C. induction R0 as [|p' p data' data (E & R2) R0 IH]; intros F C; [exact Logic.I|]. inversion R0 as [|q' q data1' data1 (E1 & R21) R1]; subst; [exact Logic.I|].
    destruct C as [C0 C]. apply List.Forall_cons_iff in F. destruct F as [F0 F]. split; [|now apply IH]. pose proof F as F1. apply List.Forall_cons_iff in F1. destruct F1 as [F1 _].
    destruct (read_log p' p F0 E R2) as (P1 & P2 & L1 & L2). destruct (read_log q' q F1 E1 R21) as (P1' & P2' & L1' & L2'). destruct C0 as [C0|[C0 CS]]; [left; now rewrite E, E1, C0|right].
    pose proof (decimal_gap _ _ (proj1 F0) C0) as G. split.
    + destruct F0 as (A0 & B0 & _). destruct F1 as (A1 & B1 & _). pose proof (read_value _ _ (1 * u) A0 ltac:(lra) (rnd_read _ A0 ltac:(lra))) as V0. pose proof (read_value _ _ (1 * u) A1 ltac:(lra) (rnd_read _ A1 ltac:(lra))) as V1.
      rewrite E, E1. assert (X : / 2 ^ 40 <= / 1000 * / 10 ^ 8) by (simpl; lra). assert (X2 : 0 < / 2 ^ 40) by (apply Rinv_0_lt_compat, pow_lt; lra). set (g40 := / 2 ^ 40) in *. clearbody g40. simpl in U2, C0, X.
      apply Rle_trans with (fst p * (1 + 1 * u) * (1 + g40)); [apply Rmult_le_compat_r; lra|]. apply Rle_trans with (fst q * (1 - 1 * u)); [|lra]. apply Rle_trans with (fst p * (1 + / (10 * (10 * (10 * (10 * (10 * (10 * (10 * (10 * 1))))))))) * (1 - 1 * u)); [|apply Rmult_le_compat_r; lra].
      rewrite !Rmult_assoc. apply Rmult_le_compat_l; [lra|]. nra.
    + set (dx := log10 (fst q) - log10 (fst p)) in *. assert (DX : dx - 2 * u <= log10 (fst q') - log10 (fst p')) by (apply Rabs_le_inv in L1, L1'; unfold dx; lra).
      assert (DY : Rabs (log10 (snd q') - log10 (snd p')) <= S0 * dx + 2 * (k * u)). { apply Rabs_le_inv in L2, L2', CS. apply Rabs_le. lra. }
      apply Rle_trans with ((S0 + (1 + S0) / 200) * (dx - 2 * u)); [|apply Rmult_le_compat_l; lra]. eapply Rle_trans; [exact DY|]. clearbody dx. clear - U1 U2 G HS Pu. simpl in *.
      assert (A : 2 * (k * u) + 202 / 100 * u * (1 + S0) <= (1 + S0) * (dx / 200)). { assert (0 <= S0 * (dx / 200 - 202 / 100 * u)) by (apply Rmult_le_pos; lra). lra. }
      assert (0 <= S0 * u) by (apply Rmult_le_pos; lra). lra.
Qed.
Lemma np_node x y r : (forall x' y' r', r = (x', y') :: r' -> x < x') -> np_interp ((x, y) :: r) x = y.
Proof. intros H. destruct r as [|[x1 y1] r]; [reflexivity|]. rewrite np_step. specialize (H x1 y1 r eq_refl). destruct (Rlt_dec x x1); [|contradiction]. destruct (Req_EM_T x x); [reflexivity|contradiction]. Qed.
Lemma edge_below e E : 0 < e -> Rabs (log10 e) <= 300 -> E = rnd e -> E < e -> E * (1 + / 2 ^ 39) <= e -> False.
Proof.
  intros P B -> L H. pose proof (read_value _ _ (1 * u) P ltac:(pose proof u_pos; lra) (rnd_read _ P B)) as V. assert (U : u <= / 16 * / 2 ^ 39).
  { unfold u. rewrite <- Rinv_mult. apply Rinv_le_contravar; [apply Rmult_lt_0_compat; [lra|apply pow_lt; lra]|]. change 53%nat with (14 + 39)%nat. rewrite pow_add. pose proof (pow_lt 2 39 ltac:(lra)). replace (2 ^ 14) with 16384 by ring. nra. }
  assert (Q : 0 < / 2 ^ 39) by (apply Rinv_0_lt_compat, pow_lt; lra). assert (Q1 : / 2 ^ 39 <= 1) by (rewrite <- Rinv_1; apply Rinv_le_contravar; [lra|apply pow_R1_Rle; lra]). set (q := / 2 ^ 39) in *. clearbody q. pose proof u_pos. assert (e * ((1 - 1 * u) * (1 + q)) <= e * 1) by nra. apply Rmult_le_reg_l in H1; [nra|exact P].
Qed.
Lemma table_read_err data' data E : read_table k data' data -> decimal_table M S0 data -> data <> [] -> 0 < E -> double E -> fst (hd (0, 0) data) <= E -> not_below_edge data E ->
  Rabs (np_interp (logs0 data') (log10 E) - np_interp (logs0 data) (log10 E)) <= (k + 2 * S0) * u.
Proof.
  intros R0. pose proof u_pos as Pu. destruct u_tiny as [U1 U2].
  induction R0 as [|[e0' m0'] [e0 m0] data' data (E0 & R2) R0 IH]; intros (F & C) N PE DE HE BE; [contradiction|]. clear N. cbn [hd fst] in HE. cbn [fst snd] in E0, R2.
  pose proof F as FF. apply List.Forall_cons_iff in FF. destruct FF as [F0 FF]. pose proof (read_log (e0', m0') (e0, m0) F0 E0 R2) as (Q0 & W0 & L0 & K0). cbn [fst snd] in Q0, W0, L0, K0.
  inversion R0 as [|[e1' m1'] [e1 m1] data1' data1 (E1 & R21) R1]; subst data' data.
  - cbn [logs0 map np_interp fst snd]. eapply Rle_trans; [exact K0|]. nra.
  - cbn [fst snd] in E1, R21. destruct C as [C0 C]. pose proof FF as FF1. apply List.Forall_cons_iff in FF1. destruct FF1 as [F1 FF1]. pose proof (read_log (e1', m1') (e1, m1) F1 E1 R21) as (Q1 & W1 & L1 & K1). cbn [fst snd] in Q1, W1, L1, K1.
    assert (BE' : not_below_edge ((e1, m1) :: data1) E). { intros pre e c c' post H. apply (BE ((e0, m0) :: pre) e c c' post). cbn [app]. now rewrite H. }
    destruct F0 as (P0 & B0 & P0' & B0'). destruct F1 as (P1 & B1 & P1' & B1'). cbn [fst snd] in *.
    change (logs0 ((e0, m0) :: (e1, m1) :: data1)) with ((log10 e0, log10 m0) :: (log10 e1, log10 m1) :: logs0 data1). change (logs0 ((e0', m0') :: (e1', m1') :: data1')) with ((log10 e0', log10 m0') :: (log10 e1', log10 m1') :: logs0 data1').
    rewrite !np_step. change ((log10 e1, log10 m1) :: logs0 data1) with (logs0 ((e1, m1) :: data1)). change ((log10 e1', log10 m1') :: logs0 data1') with (logs0 ((e1', m1') :: data1')).
    destruct (Rlt_dec (log10 E) (log10 e1)) as [HX|HX].
    + apply log10_lt_inv in HX; [|assumption..]. destruct C0 as [C0|[C0 CS]]; cbn [fst snd] in C0; [lra|]. cbn [fst snd] in CS. pose proof (decimal_gap e0 e1 P0 C0) as G.
      assert (X0 : log10 e0 <= log10 E) by (apply log10_le; lra). assert (X1 : log10 E < log10 e1) by (apply log10_incr; lra).
      assert (M0 : e0' <= E) by (rewrite E0; apply rnd_le_d; assumption). assert (M1 : E <= e1') by (rewrite E1; apply rnd_ge; [exact DE|lra]).
      assert (X0' : log10 e0' <= log10 E) by (apply log10_le; lra). assert (X1' : log10 E <= log10 e1') by (apply log10_le; lra).
      pose proof (fun h => segment_move S0 u (k * u) (log10 E) (log10 e0) (log10 e1) (log10 m0) (log10 m1) (log10 e0') (log10 e1') (log10 m0') (log10 m1') HS ltac:(lra) ltac:(nra) ltac:(lra) ltac:(simpl in G; lra) ltac:(lra) h L0 L1 K0 K1 CS) as SM.
      pose proof (gap_kept e0 e0' e1 e1' L0 L1 G) as GK.
      specialize (SM ltac:(apply Rabs_le_inv in L0, L1; simpl in U2, G; lra)).
      replace (k * u + 2 * S0 * u) with ((k + 2 * S0) * u) in SM by ring.
      assert (Z : (if Req_EM_T (log10 E) (log10 e0) then log10 m0 else (log10 m1 - log10 m0) / (log10 e1 - log10 e0) * (log10 E - log10 e0) + log10 m0) = (log10 m1 - log10 m0) / (log10 e1 - log10 e0) * (log10 E - log10 e0) + log10 m0).
      { destruct (Req_EM_T _ _) as [EX|_]; [rewrite EX; unfold Rdiv; ring|reflexivity]. }
      rewrite Z. destruct (Rlt_dec (log10 E) (log10 e1')) as [HL|HL].
      * assert (Z' : (if Req_EM_T (log10 E) (log10 e0') then log10 m0' else (log10 m1' - log10 m0') / (log10 e1' - log10 e0') * (log10 E - log10 e0') + log10 m0') = (log10 m1' - log10 m0') / (log10 e1' - log10 e0') * (log10 E - log10 e0') + log10 m0').
        { destruct (Req_EM_T (log10 E) (log10 e0')) as [EX|_]; [rewrite EX; unfold Rdiv; ring|reflexivity]. }
        rewrite Z'. exact SM.
      * assert (EL : log10 E = log10 e1') by lra. assert (EE : E = e1') by (apply log10_inj; assumption).
        assert (NN : np_interp (logs0 ((e1', m1') :: data1')) (log10 E) = log10 m1').
        { rewrite EL. apply np_node. intros x' y' r' H. destruct R1 as [|[e2' m2'] [e2 m2] data2' data2 (E2 & R22) R2']; [discriminate|]. cbn in H. injection H as <- _ _. cbn [fst snd] in E2, R22.
          apply List.Forall_cons_iff in FF1. destruct FF1 as [F2 _]. pose proof (read_log (e2', m2') (e2, m2) F2 E2 R22) as (Q2 & _ & L2 & _). cbn [fst snd] in *.
          destruct C as [[C2|[C2 _]] _]; cbn [fst snd] in C2.
          - exfalso. subst e2. apply (edge_below e1 E P1 ltac:(lra) ltac:(lra) HX). apply (BE' [] e1 m1 m2 data2); [reflexivity|exact HX].
          - pose proof (decimal_gap e1 e2 P1 C2) as G2. pose proof (gap_kept e1 e1' e2 e2' L1 L2 G2) as G3. assert (0 < / 2 ^ 31) by (apply Rinv_0_lt_compat, pow_lt; lra). lra. }
        rewrite NN. replace (log10 m1') with ((log10 m1' - log10 m0') / (log10 e1' - log10 e0') * (log10 E - log10 e0') + log10 m0'); [exact SM|]. rewrite EL. field. assert (0 < / 2 ^ 31) by (apply Rinv_0_lt_compat, pow_lt; lra). lra.
    + assert (H1 : e1 <= E). { apply Rnot_lt_le. intros X. apply HX. now apply log10_incr. }
      assert (M1 : e1' <= E) by (rewrite E1; apply rnd_le_d; assumption). assert (X1 : log10 e1' <= log10 E) by (apply log10_le; lra). destruct (Rlt_dec (log10 E) (log10 e1')); [lra|].
      apply IH; try assumption; [split; assumption|discriminate].
Qed.
End Read.
