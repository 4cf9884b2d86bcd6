(** Coefficients from tables with rounding. *)
From Coq Require Import Reals List ZArith Lra Lia Psatz Sorted.
From Flocq Require Import Core.
From Verif Require Import Py Spec M_Num M_Grid M_CrossSection M_Xrmac S_Xrmac M_Float S_Float M_Float7 S_Float7
  L_Xrmac L_Float L_Float2 L_Float5 L_Float7 L_Float9 L_Float24.
Import ListNotations.
Open Scope R_scope.

(** ** Logarithms *)
Lemma ln_ge t : 0 < t -> t / (1 + t) <= ln (1 + t).
Proof.
  intros H. pose proof (exp_ineq1_le (- ln (1 + t))) as E. rewrite exp_Ropp, exp_ln in E by lra. replace (t / (1 + t)) with (1 - / (1 + t)) by (field; lra). lra.
Qed.
Lemma exp_3 : 10 <= exp 3.
Proof.
  replace 3 with (1 / 2 + 1 / 2 + (1 / 2 + 1 / 2) + (1 / 2 + 1 / 2)) by field. rewrite !exp_plus. pose proof (exp_ineq1_le (1 / 2)) as E. set (a := exp (1 / 2)) in *.
  assert (9 / 4 <= a * a) by nra. assert (a * a * (a * a) >= 81 / 16) by nra. nra.
Qed.
Lemma ln10_le : ln 10 <= 3.
Proof. rewrite <- (ln_exp 3). pose proof exp_3 as [H|H]; [left; apply ln_increasing; lra|rewrite H; lra]. Qed.
Lemma log10_gap a b : 0 < a -> a * (1 + / 2 ^ 40) <= b -> / 2 ^ 43 <= log10 b - log10 a.
Proof.
  intros Ha H. set (t := / 2 ^ 40) in *. assert (Pt : 0 < t) by (apply Rinv_0_lt_compat, pow_lt; lra). assert (Ht : t <= / 4). { unfold t. apply Rinv_le_contravar; [lra|]. simpl. lra. }
  apply (log10_le (a * (1 + t))) in H; [|nra]. assert (E : log10 (a * (1 + t)) - log10 a = ln (1 + t) / ln 10). { unfold log10. rewrite ln_mult by lra. pose proof ln10_pos. field. lra. }
  pose proof (ln_ge t Pt) as L. pose proof ln10_pos as P. pose proof ln10_le as L3.
  apply Rle_trans with (ln (1 + t) / ln 10); [|lra]. apply Rle_trans with (t / (1 + t) / 3).
  - replace (/ 2 ^ 43) with (t / 8); [|unfold t; change 43%nat with (40 + 3)%nat; rewrite pow_add; pose proof (pow_lt 2 40 ltac:(lra)); field; lra].
    apply (Rmult_le_reg_r (3 * (1 + t))); [lra|]. replace (t / (1 + t) / 3 * (3 * (1 + t))) with t by (field; lra). nra.
  - unfold Rdiv. apply Rmult_le_compat; [apply Rmult_le_pos; [lra|left; apply Rinv_0_lt_compat; lra]|lra|exact L|]. apply Rinv_le_contravar; lra.
Qed.

Lemma np_step x0 y0 x1 y1 r x : np_interp ((x0, y0) :: (x1, y1) :: r) x =
  if Rlt_dec x x1 then if Req_EM_T x x0 then y0 else (y1 - y0) / (x1 - x0) * (x - x0) + y0 else np_interp ((x1, y1) :: r) x.
Proof. reflexivity. Qed.
Lemma fnp_step x0 y0 x1 y1 r x : fnp_interp ((x0, y0) :: (x1, y1) :: r) x =
  if Rlt_dec x x1 then if Req_EM_T x x0 then y0 else fadd (fmul (fquo (fsub y1 y0) (fsub x1 x0)) (fsub x x0)) y0 else fnp_interp ((x1, y1) :: r) x.
Proof. reflexivity. Qed.

Section Table.
Variables (g : llib) (M S0 : R).
Hypothesis (K : llib_ok g) (HM : 1 <= M <= 100) (HS : 0 <= S0).
Let d := 2 * u * M.
Lemma log_err x : digits M x -> double (g_log10 g x) /\ Rabs (g_log10 g x - log10 x) <= d.
Proof.
  intros (P & D & B). destruct K as (K1 & _). destruct (K1 x P D) as (H1 & H2). split; [exact H1|]. change unit_roundoff with u in H2. eapply Rle_trans; [exact H2|]. unfold d. apply Rmult_le_compat_l; [pose proof u_pos; lra|exact B].
Qed.
Lemma log_mono x y : 0 < x <= y -> g_log10 g x <= g_log10 g y.
Proof. apply K. Qed.
Lemma log_gap a b : digits M a -> digits M b -> a * (1 + / 2 ^ 40) <= b -> g_log10 g a < g_log10 g b.
Proof.
  intros Ha Hb H. destruct (log_err a Ha) as (_ & E1). destruct (log_err b Hb) as (_ & E2). destruct Ha as (Pa & _). pose proof (log10_gap a b Pa H) as G.
  assert (X : 2 * d < / 2 ^ 43).
  { unfold d, u. replace (2 * (2 * / 2 ^ 53 * M)) with (M * / 256 * / 2 ^ 43). 2:{ change 53%nat with (10 + 43)%nat. rewrite pow_add. pose proof (pow_lt 2 43 ltac:(lra)). replace (2 ^ 10) with 1024 by ring. field; lra. }
    assert (0 < / 2 ^ 43) by (apply Rinv_0_lt_compat, pow_lt; lra). nra. }
  apply Rabs_le_inv in E1, E2. lra.
Qed.
Definition logs0 (l : list (R * R)) : list (R * R) := map (fun p => (log10 (fst p), log10 (snd p))) l.
Definition flogs (l : list (R * R)) : list (R * R) := map (fun p => (g_log10 g (fst p), g_log10 g (snd p))) l.
(** The energy of a line that is no edge. *)
Lemma fnode e m r : ftable M S0 ((e, m) :: r) -> (forall c' post, r <> (e, c') :: post) -> fnp_interp (flogs ((e, m) :: r)) (g_log10 g e) = g_log10 g m.
Proof.
  intros [F C] N. destruct r as [|[e' m'] r]; [reflexivity|]. cbn [flogs map fst snd fnp_interp]. destruct C as [[E|[E _]] _]; cbn [fst] in E; [subst e'; exfalso; now apply (N m' r)|].
  apply List.Forall_cons_iff in F. destruct F as [[F1 _] F]. apply List.Forall_cons_iff in F. destruct F as [[F2 _] _]. cbn [fst] in *.
  pose proof (log_gap e e' F1 F2 E). destruct (Rlt_dec _ _); [|contradiction]. destruct (Req_EM_T _ _); [reflexivity|contradiction].
Qed.
Lemma table_err data : forall E, ftable M S0 data -> data <> [] -> 0 < E -> double E -> fst (hd (0, 0) data) <= E -> below_edges g data E ->
  Rabs (fnp_interp (flogs data) (g_log10 g E) - np_interp (logs0 data) (log10 E)) <= 24 * (1 + S0) * M * u.
Proof.
  pose proof u_pos as Pu. assert (PM : 0 < M * u) by nra. assert (PS : 0 <= S0 * (M * u)) by nra.
  assert (T0 : 24 * (1 + S0) * M * u = 24 * (M * u) + 24 * (S0 * (M * u))) by ring. assert (Td : d = 2 * (M * u)) by (unfold d; ring).
  induction data as [|[e0 m0] r IH]; intros E F N PE DE HE BE; [contradiction|]. clear N. cbn [hd fst] in HE. destruct r as [|[e1 m1] r].
  - cbn [flogs logs0 map fnp_interp np_interp fst snd]. destruct F as [F _]. apply List.Forall_cons_iff in F. destruct F as [[_ F] _]. cbn [snd] in F. destruct (log_err m0 F) as (_ & X). lra.
  - assert (F' : ftable M S0 ((e1, m1) :: r)). { destruct F as [F1 F2]. apply List.Forall_cons_iff in F1. split; [apply F1|apply F2]. }
    assert (BE' : below_edges g ((e1, m1) :: r) E). { intros pre e c c' post H. apply (BE ((e0, m0) :: pre) e c c' post). cbn [app]. now rewrite H. }
    pose proof F as [FF [C _]]. apply List.Forall_cons_iff in FF. destruct FF as [[F0 G0] FF]. apply List.Forall_cons_iff in FF. destruct FF as [[F1 G1] _]. cbn [fst snd] in F0, F1, G0, G1.
    destruct (log_err e0 F0) as (D0 & L0). destruct (log_err e1 F1) as (D1 & L1). destruct (log_err m0 G0) as (C0 & K0). destruct (log_err m1 G1) as (C1 & K1).
    assert (P0 : 0 < e0) by apply F0. assert (P1 : 0 < e1) by apply F1.
    change (logs0 ((e0, m0) :: (e1, m1) :: r)) with ((log10 e0, log10 m0) :: (log10 e1, log10 m1) :: logs0 r).
    change (flogs ((e0, m0) :: (e1, m1) :: r)) with ((g_log10 g e0, g_log10 g m0) :: (g_log10 g e1, g_log10 g m1) :: flogs r).
    rewrite np_step, fnp_step.
    change ((log10 e1, log10 m1) :: logs0 r) with (logs0 ((e1, m1) :: r)). change ((g_log10 g e1, g_log10 g m1) :: flogs r) with (flogs ((e1, m1) :: r)).
    destruct (Rlt_dec (log10 E) (log10 e1)) as [HX|HX].
    + apply log10_lt_inv in HX; [|assumption..]. destruct C as [C|[C CS]]; cbn [fst snd] in C; [lra|]. cbn [fst snd] in CS.
      assert (X01 : log10 e0 < log10 e1) by (apply log10_incr; lra). assert (X0 : log10 e0 <= log10 E) by (apply log10_le; lra). assert (X1 : log10 E < log10 e1) by (apply log10_incr; lra).
      assert (FE : digits M E). { split; [exact PE|]. split; [exact DE|]. destruct F0 as (_ & _ & A0). destruct F1 as (_ & _ & A1). apply Rabs_le_inv in A0, A1. apply Rabs_le. lra. }
      destruct (log_err E FE) as (Dx & Lx). pose proof (log_gap e0 e1 F0 F1 C) as GL. pose proof (log_mono e0 E ltac:(lra)) as M0. pose proof (log_mono E e1 ltac:(lra)) as M1.
      set (x0 := log10 e0) in *. set (x1 := log10 e1) in *. set (y0 := log10 m0) in *. set (y1 := log10 m1) in *. set (x := log10 E) in *.
      assert (SL : forall t, 0 <= t <= x1 - x0 -> Rabs ((y1 - y0) / (x1 - x0) * t) <= S0 * t).
      { intros t Ht. rewrite Rabs_mult, (Rabs_pos_eq t) by lra. apply Rmult_le_compat_r; [lra|]. unfold Rdiv. rewrite Rabs_mult, (Rabs_pos_eq (/ _)) by (left; apply Rinv_0_lt_compat; lra). apply (Rmult_le_reg_r (x1 - x0)); [lra|]. rewrite Rmult_assoc, Rinv_l by lra. lra. }
      destruct (Rlt_dec (g_log10 g E) (g_log10 g e1)) as [HL|HL].
      * destruct (Req_EM_T x x0) as [EX|EX].
        -- assert (E = e0) as -> by (apply log10_inj; assumption). destruct (Req_EM_T _ _); [lra|contradiction].
        -- destruct (Req_EM_T _ _) as [EL|EL].
           ++ rewrite EL in Lx. specialize (SL (x - x0) ltac:(lra)). apply Rabs_le_inv in Lx, L0, K0, SL. apply Rabs_le.
              assert (S0 * (x - x0) <= S0 * (4 * (M * u))) by (apply Rmult_le_compat_l; lra). lra.
           ++ destruct F0 as (_ & _ & A0). destruct F1 as (_ & _ & A1). destruct G0 as (_ & _ & B0). destruct G1 as (_ & _ & B1).
              apply (segment_err M S0 HM HS); try assumption; try lra.
      * (* the logarithm is that of the next line *)
        assert (EL : g_log10 g E = g_log10 g e1) by lra. rewrite EL, fnode; [|exact F'|].
        2:{ intros c' post ->. apply HL. apply (BE [(e0, m0)] e1 m1 c' post); [reflexivity|lra]. }
        rewrite EL in Lx. 
        assert (Y : (y1 - y0) / (x1 - x0) * (x - x0) + y0 = y1 - (y1 - y0) / (x1 - x0) * (x1 - x)) by (field; lra).
        specialize (SL (x1 - x) ltac:(lra)). apply Rabs_le_inv in Lx, L1, K1, SL. assert (S0 * (x1 - x) <= S0 * (4 * (M * u))) by (apply Rmult_le_compat_l; lra).
        destruct (Req_EM_T x x0) as [EX|EX]; [replace y0 with ((y1 - y0) / (x1 - x0) * (x - x0) + y0) by (rewrite EX; ring)|]; rewrite Y; apply Rabs_le; lra.
    + assert (H1 : e1 <= E). { apply Rnot_lt_le. intros X. apply HX. now apply log10_incr. }
      pose proof (log_mono e1 E ltac:(lra)). destruct (Rlt_dec (g_log10 g E) (g_log10 g e1)); [lra|]. apply IH; try assumption. discriminate.
Qed.
End Table.
