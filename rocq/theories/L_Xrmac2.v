(** Final statements about the interpolation. *)
From Coq Require Import Reals List ZArith Lra Lia Sorted Bool Permutation.
From Verif Require Import Py Spec M_Num M_Grid M_CrossSection M_Xrmac L_Xrmac S_Xrmac.
Import ListNotations.
Open Scope R_scope.

Lemma ln_div x y : 0 < x -> 0 < y -> ln (x / y) = ln x - ln y.
Proof. intros Hx Hy. unfold Rdiv. rewrite ln_mult, ln_Rinv by (try assumption; now apply Rinv_0_lt_compat). ring. Qed.
Lemma ln_le x y : 0 < x -> x <= y -> ln x <= ln y.
Proof. intros H [L| ->]; [left; now apply ln_increasing|lra]. Qed.
Lemma log10_div x y : 0 < x -> 0 < y -> log10 (x / y) = log10 x - log10 y.
Proof. intros Hx Hy. unfold log10. pose proof ln10_pos. rewrite ln_div by assumption. field. lra. Qed.
Lemma power_law minval data o pre E1 c1 E2 c2 post E : table_ok data -> ascending (map fst data) -> XRMAC minval data = Ok o ->
  data = pre ++ (E1, c1) :: (E2, c2) :: post -> E1 < E2 -> E1 <= E -> E < E2 \/ E = E2 /\ List.Forall (fun q => E2 < fst q) post ->
  exists v, xrmac_call o E = Ok v /\ v = c1 * Rpower (E / E1) (ln (c2 / c1) / ln (E2 / E1)) /\ Rmin c1 c2 <= v <= Rmax c1 c2.
Proof.
  intros T A HO D L12 L1 L2. pose proof (data_pos data T) as DP.
  assert (I1 : In (E1, c1) data) by (rewrite D; apply in_or_app; right; now left).
  assert (I2 : In (E2, c2) data) by (rewrite D; apply in_or_app; right; right; now left).
  destruct (DP _ I1) as [P1 P2]. destruct (DP _ I2) as [P3 P4]. cbn in P1, P2, P3, P4.
  assert (X12 : 0 < ln (E2 / E1)) by (rewrite ln_div by assumption; assert (ln E1 < ln E2) by (now apply ln_increasing); lra).
  set (t := ln (E / E1) / ln (E2 / E1)).
  assert (Ev : c1 * Rpower (E / E1) (ln (c2 / c1) / ln (E2 / E1)) = exp ((1 - t) * ln c1 + t * ln c2)).
  { replace ((1 - t) * ln c1 + t * ln c2) with (ln c1 + t * (ln c2 - ln c1)) by ring. rewrite exp_plus, exp_ln by exact P2. f_equal.
    unfold Rpower. f_equal. unfold t. rewrite (ln_div c2 c1) by assumption. field. lra. }
  assert (Q : exists v, xrmac_call o E = Ok v /\ v = c1 * Rpower (E / E1) (ln (c2 / c1) / ln (E2 / E1))).
  { destruct L2 as [L2|[-> F]].
    - destruct (call_between minval data o T A HO pre E1 c1 E2 c2 post E D L1 L2) as (v & Hv & Lv & Pv). exists v. split; [exact Hv|].
      apply log10_inj; [exact Pv|apply Rmult_lt_0_compat; [exact P2|apply exp_pos]|]. rewrite Ev. unfold log10 at 2. rewrite ln_exp, Lv.
      assert (K : log10 E2 - log10 E1 = ln (E2 / E1) / ln 10) by (rewrite <- log10_div by assumption; reflexivity).
      assert (K' : log10 E - log10 E1 = ln (E / E1) / ln 10) by (rewrite <- log10_div by lra; reflexivity).
      rewrite K, K'. unfold t, log10. pose proof ln10_pos. field. lra.
    - assert (D' : data = (pre ++ [(E1, c1)]) ++ (E2, c2) :: post) by (rewrite <- app_assoc; exact D).
      rewrite (call_node minval data o T A HO _ E2 c2 post D' F). exists c2. split; [reflexivity|].
      rewrite Ev. unfold t. replace (ln (E2 / E1) / ln (E2 / E1)) with 1 by (field; lra). replace ((1 - 1) * ln c1 + 1 * ln c2) with (ln c2) by ring. now rewrite exp_ln. }
  destruct Q as (v & Hv & Evv). exists v. split; [exact Hv|]. split; [exact Evv|]. rewrite Evv, Ev.
  assert (Bt : 0 <= t <= 1).
  { assert (B0 : 0 <= ln (E / E1) <= ln (E2 / E1)).
    { rewrite !ln_div by lra. assert (ln E1 <= ln E) by (apply ln_le; lra). assert (ln E <= ln E2) by (apply ln_le; lra). lra. }
    unfold t. split; [apply Rmult_le_pos; [lra|left; now apply Rinv_0_lt_compat]|].
    apply (Rmult_le_reg_r (ln (E2 / E1))); [exact X12|]. replace (ln (E / E1) / ln (E2 / E1) * ln (E2 / E1)) with (ln (E / E1)) by (field; lra). lra. }
  assert (EM : forall x y, x <= y -> exp x <= exp y) by (intros x y [H| ->]; [left; now apply exp_increasing|lra]).
  destruct (Rle_dec c1 c2) as [C|C].
  - rewrite Rmin_left, Rmax_right by lra. assert (ln c1 <= ln c2) by (now apply ln_le).
    split; [rewrite <- (exp_ln c1) at 1 by assumption|rewrite <- (exp_ln c2) at 2 by assumption]; apply EM; nra.
  - rewrite Rmin_right, Rmax_left by lra. assert (ln c2 <= ln c1) by (apply ln_le; lra).
    split; [rewrite <- (exp_ln c2) at 1 by assumption|rewrite <- (exp_ln c1) at 2 by assumption]; apply EM; nra.
Qed.

Lemma interp_bounds l lo hi x : ordered l -> l <> [] -> fst (hd (0, 0) l) <= x -> List.Forall (fun p => lo <= snd p <= hi) l ->
  lo <= np_interp l x <= hi.
Proof.
  induction l as [|[x0 y0] l IH]; intros Sx N H F; [contradiction|]. destruct l as [|[x1 y1] r].
  - cbn. now apply List.Forall_inv in F.
  - cbn [np_interp]. inversion F as [|? ? F0 Fr]; subst. inversion Sx as [|? ? Sr Fs]; subst. cbn in F0, H.
    pose proof (List.Forall_inv Fr) as F1. cbn in F1. destruct (Rlt_dec x x1) as [L|L].
    + destruct (Req_EM_T x x0) as [|Ne]; [lra|]. set (t := (x - x0) / (x1 - x0)).
      assert (Bt : 0 <= t <= 1).
      { unfold t. split; [apply Rmult_le_pos; [lra|left; apply Rinv_0_lt_compat; lra]|]. apply (Rmult_le_reg_r (x1 - x0)); [lra|].
        replace ((x - x0) / (x1 - x0) * (x1 - x0)) with (x - x0) by (field; lra). lra. }
      replace ((y1 - y0) / (x1 - x0) * (x - x0) + y0) with ((1 - t) * y0 + t * y1) by (unfold t; field; lra). split; nra.
    + apply IH; [exact Sr|discriminate|cbn; lra|exact Fr].
Qed.
Lemma all_bounds minval data o lo hi E : table_ok data -> ascending (map fst data) -> XRMAC minval data = Ok o -> 0 <= E -> 0 < lo ->
  List.Forall (fun p => lo <= snd p <= hi) data -> exists v, xrmac_call o E = Ok v /\ lo <= v <= hi.
Proof.
  intros T A HO HE Hlo F. rewrite List.Forall_forall in F.
  destruct (Rlt_le_dec E (fst (hd (0, 0) data))) as [L|L].
  { rewrite (call_below minval data o T A HO E HE L). eexists. split; [reflexivity|]. apply F. now apply hd_in. }
  destruct (Rlt_le_dec (fst (last data (0, 0))) E) as [U|U].
  { rewrite (call_above minval data o T A HO E U). eexists. split; [reflexivity|]. apply F. now apply last_in. }
  rewrite (call_inside minval data o T A HO E (conj L U)). eexists. split; [reflexivity|].
  destruct (data_pos data T _ (hd_in data T)) as [Q _].
  assert (Hhi : lo <= hi) by (pose proof (F _ (hd_in data T)); lra).
  assert (B : log10 lo <= np_interp (logs data) (log10 E) <= log10 hi).
  { apply interp_bounds.
    - now apply logs_ordered.
    - destruct T as [N _]. destruct data; [contradiction|discriminate].
    - rewrite hd_logs by assumption. apply log10_le; lra.
    - unfold logs. rewrite List.Forall_map. apply List.Forall_forall. intros p Hp. cbn. pose proof (F p Hp). destruct (data_pos data T p Hp). split; apply log10_le; lra. }
  rewrite <- (pow10_log10 lo), <- (pow10_log10 hi) by lra. split; apply pow10_le; lra.
Qed.
Lemma exists_min data : data <> [] -> List.Forall (fun p : R * R => 0 < fst p /\ 0 < snd p) data ->
  exists lo hi, 0 < lo /\ List.Forall (fun p => lo <= snd p <= hi) data.
Proof.
  intros _ F. induction F as [|p l Hp F IH]; [exists 1, 1; split; [lra|constructor]|]. destruct IH as (lo & hi & Hlo & G).
  exists (Rmin lo (snd p)), (Rmax hi (snd p)). split; [apply Rmin_glb_lt; [assumption|apply Hp]|]. constructor.
  - split; [apply Rmin_r|apply Rmax_r].
  - eapply List.Forall_impl; [|exact G]. cbn. intros q Hq. pose proof (Rmin_l lo (snd p)). pose proof (Rmax_l hi (snd p)). lra.
Qed.
Lemma positive minval data o E : table_ok data -> ascending (map fst data) -> XRMAC minval data = Ok o -> 0 <= E ->
  exists v, xrmac_call o E = Ok v /\ 0 < v.
Proof.
  intros T A HO HE. destruct T as [N F] eqn:ET. clear ET. destruct (exists_min data N F) as (lo & hi & Hlo & G).
  destruct (all_bounds minval data o lo hi E (conj N F) A HO HE Hlo G) as (v & Hv & B). exists v. split; [exact Hv|lra].
Qed.
Lemma sort_length l : length (sort_stable l) = length l.
Proof. symmetry. apply Permutation_length. apply Permutation_sym, sort_perm. Qed.
Lemma negative minval data o E : XRMAC minval data = Ok o -> E < 0 -> (2 <= length data)%nat -> xrmac_call o E = NaN.
Proof.
  intros HO H N. assert (L : length (i_points o) = length data).
  { unfold XRMAC, interpolate_log_log in HO. destruct data as [|d data]; [discriminate|]. destruct (_ <? _)%nat; [discriminate|]. destruct (forallb _ _); [|discriminate]. injection HO as <-.
    cbn [i_points]. change (length (sort_stable (map (fun p => (log10 (fst p), log10 (snd p))) (d :: data))) = length (d :: data)). rewrite sort_length, map_length. reflexivity. }
  unfold xrmac_call. destruct (Rlt_dec E 0); [|contradiction]. unfold interp_nan. destruct (i_points o) as [|[a b] [|q l]]; [reflexivity|exfalso; rewrite <- L in N; cbn in N; lia|reflexivity].
Qed.
(** A single line: the coefficient, whatever the energy. *)
Lemma single minval e c o E : 0 < e -> 0 < c -> XRMAC minval [(e, c)] = Ok o -> xrmac_call o E = Ok c.
Proof.
  intros He Hc HO. unfold XRMAC, interpolate_log_log in HO. destruct (_ <? _)%nat; [discriminate|]. destruct (forallb _ _); [|discriminate]. injection HO as <-. cbn [map sort_stable fold_right insert_stable last fst snd].
  unfold xrmac_call, interp_nan, interp_eval. cbn [i_points i_below i_above hd last fst snd np_interp omap bind]. destruct (Rlt_dec E 0); [|destruct (Req_EM_T E 0); [|destruct (Rlt_dec _ _); [|destruct (Rlt_dec _ _)]]]; cbn [omap bind]; now rewrite pow10_log10.
Qed.

Lemma sort_logs data : List.Forall (fun p => 0 < fst p /\ 0 < snd p) data -> sort_stable (logs data) = logs (sort_stable data).
Proof.
  induction 1 as [|p l Hp F IH]; [reflexivity|]. change (sort_stable (p :: l)) with (insert_stable p (sort_stable l)).
  change (sort_stable (logs (p :: l))) with (insert_stable (log10 (fst p), log10 (snd p)) (sort_stable (logs l))). rewrite IH.
  assert (G : List.Forall (fun p => 0 < fst p /\ 0 < snd p) (sort_stable l)) by (apply (Permutation_Forall (Permutation_sym (sort_perm l))); exact F).
  clear IH F. induction G as [|q r Hq G IHr]; [reflexivity|]. cbn. destruct (Rle_dec (log10 (fst p)) (log10 (fst q))) as [L|L]; destruct (Rle_dec (fst p) (fst q)) as [L'|L']; cbn.
  - reflexivity.
  - exfalso. apply L'. destruct (Rle_lt_dec (fst p) (fst q)) as [|K]; [assumption|]. apply log10_incr in K; [lra|apply Hq].
  - exfalso. apply L. apply log10_le; [apply Hp|exact L'].
  - f_equal. exact IHr.
Qed.
(** A permuted table, sorted: the same values inside of the table. *)
Lemma unsorted minval data sorted o o' E : table_ok data -> Permutation data sorted -> NoDup (map fst data) -> ascending (map fst sorted) ->
  XRMAC minval data = Ok o -> XRMAC minval sorted = Ok o' -> fst (hd (0, 0) sorted) <= E <= fst (last sorted (0, 0)) ->
  xrmac_call o E = xrmac_call o' E.
Proof.
  intros T P ND A HO HO' HE.
  assert (T' : table_ok sorted).
  { destruct T as [N F]. split; [|now apply (Permutation_Forall P)]. intros ->. apply Permutation_sym, Permutation_nil in P. contradiction. }
  rewrite (call_inside minval sorted o' T' A HO' E HE).
  assert (ES : sort_stable data = sorted).
  { assert (P2 : Permutation (sort_stable data) sorted) by (rewrite sort_perm; exact P).
    assert (S1 := sort_sorted data). assert (ND' : NoDup (map fst (sort_stable data))) by (eapply Permutation_NoDup; [apply Permutation_map, Permutation_sym, sort_perm|exact ND]).
    revert P2 S1 ND' A. generalize (sort_stable data). clear. intros l. revert sorted. induction l as [|p l IH]; intros s P2 S1 ND A.
    - now apply Permutation_nil in P2.
    - destruct s as [|q s]; [apply Permutation_sym, Permutation_nil in P2; discriminate|].
      inversion S1 as [|? ? Sl F]; subst. cbn in A, ND. inversion A as [|? ? As G]; subst. inversion ND as [|? ? Nin ND']; subst.
      assert (p = q).
      { assert (Ip : In p (q :: s)) by (eapply Permutation_in; [exact P2|now left]). assert (Iq : In q (p :: l)) by (eapply Permutation_in; [apply Permutation_sym; exact P2|now left]).
        destruct Ip as [->|Ip]; [reflexivity|]. destruct Iq as [->|Iq]; [reflexivity|]. exfalso. apply Nin.
        assert (E : fst p = fst q). { rewrite List.Forall_forall in F, G. pose proof (F q Iq). pose proof (G (fst p) (in_map fst _ _ Ip)). lra. }
        rewrite E. now apply in_map. }
      subst q. f_equal. apply IH; try assumption. now apply Permutation_cons_inv in P2. }
  assert (L : (minval <= length data)%nat).
  { unfold XRMAC, interpolate_log_log in HO. destruct data as [|d r]; [discriminate|]. destruct (Nat.ltb_spec (length (d :: r)) minval); [discriminate|assumption]. }
  destruct (xrmac_ok minval data T L) as (o1 & E1 & P1 & _). rewrite HO in E1. injection E1 as <-.
  change (map (fun p => (log10 (fst p), log10 (snd p))) data) with (logs data) in P1. rewrite sort_logs, ES in P1 by apply T.
  destruct (data_pos _ T' _ (hd_in _ T')) as [Q1 _]. destruct (data_pos _ T' _ (last_in _ T')) as [Q2 _].
  unfold xrmac_call. destruct (Rlt_dec E 0); [lra|]. destruct (Req_EM_T E 0); [lra|]. unfold interp_eval. rewrite P1.
  rewrite hd_logs, last_logs by assumption.
  destruct (Rlt_dec _ _) as [K|K]; [exfalso; apply log10_lt_inv in K; lra|].
  destruct (Rlt_dec _ _) as [K'|K']; [exfalso; apply log10_lt_inv in K'; lra|]. reflexivity.
Qed.
Lemma constructs minval data : table_ok data -> (minval <= length data)%nat -> exists o, XRMAC minval data = Ok o.
Proof. intros T L. destruct (xrmac_ok minval data T L) as (o & H & _). eauto. Qed.
