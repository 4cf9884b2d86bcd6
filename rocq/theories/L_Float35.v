(** Calls of tables that are read from files. *)
From Coq Require Import Reals List ZArith Lra Lia Psatz Sorted Bool.
From Flocq Require Import Core.
From Verif Require Import Py Spec M_Num M_Grid M_CrossSection M_Xrmac S_Xrmac M_Float S_Float M_Float7 S_Float7 S_Decimal S_Float9
  L_Xrmac L_Float L_Float2 L_Float3 L_Float5 L_Float7 L_Float8 L_Float9 L_Float18 L_Float24 L_Float25 L_Float26 L_Float34.
Import ListNotations.
Open Scope R_scope.

Section Exact.
Variables (M S0 : R) (minval : nat) (data : list (R * R)).
Hypothesis (D : decimal_table M S0 data) (N : data <> []) (Hl : (minval <= length data)%nat).
Lemma decimal_order : consecutive (fun p q => 0 < fst p <= fst q) data.
Proof.
  destruct D as [F C]. eapply consecutive_impl; [|exact C]. intros a b Ia Ib H. rewrite List.Forall_forall in F. destruct (F a Ia) as (P & _). split; [exact P|]. destruct H as [H|[H _]]; [lra|].
  assert (0 < / 10 ^ 8) by (apply Rinv_0_lt_compat, pow_lt; lra). nra.
Qed.
Lemma decimal_ordered : ordered (logs0 data).
Proof. apply consecutive_ordered. eapply consecutive_impl; [|exact decimal_order]. cbn beta. intros a b _ _ H. cbn [fst]. apply log10_le; lra. Qed.
Lemma decimal_builds : XRMAC minval data = Ok (o_exact data).
Proof.
  unfold XRMAC, interpolate_log_log, o_exact. fold (logs0 data). rewrite (sort_ordered _ decimal_ordered).
  assert (P : forallb (fun p : R * R => is_pos (fst p) && is_pos (snd p)) data = true).
  { apply forallb_forall. intros p I. destruct D as [F1 _]. rewrite List.Forall_forall in F1. destruct (F1 p I) as (P & _ & Q & _). unfold is_pos. destruct (Rlt_dec 0 (fst p)); [|contradiction]. destruct (Rlt_dec 0 (snd p)); [reflexivity|contradiction]. }
  rewrite P. assert (L : (length data <? minval)%nat = false) by (apply Nat.ltb_ge; exact Hl). rewrite L. destruct data as [|p r]; [contradiction|]. reflexivity.
Qed.
(** The logarithm that is returned is that of the interpolation, also beyond the last line. *)
Lemma exact_eval x : ordered (logs0 data) -> fst (hd (0, 0) (logs0 data)) <= x -> interp_eval (o_exact data) x = np_interp (logs0 data) x.
Proof.
  clear D Hl. intros O H. assert (NL : logs0 data <> []) by (unfold logs0; destruct data; [contradiction|discriminate]). unfold interp_eval. cbn [o_exact i_points i_below i_above]. destruct (Rlt_dec x _); [lra|].
  destruct (Rlt_dec _ x) as [L|L]; [|reflexivity]. destruct (interp_beyond _ _ O L NL) as [-> _]. unfold logs0. now rewrite last_map.
Qed.
End Exact.

Section Call.
Variables (k M S0 : R) (minval : nat) (data' data : list (R * R)).
Hypothesis (Hk : 1 <= k <= 1000) (HM : 1 <= M <= 99) (HS : 0 <= S0) (R0 : read_table k data' data) (D : decimal_table M S0 data) (N : data <> []) (Hl : (minval <= length data)%nat).
Lemma read_length : length data' = length data.
Proof. clear - R0. unfold read_table in R0. induction R0 as [|? ? ? ? ? ? IH]; [reflexivity|]. cbn. now rewrite IH. Qed.
Lemma read_nonempty : data' <> [].
Proof. intros E. apply N. clear - R0 E. subst data'. now inversion R0. Qed.
Lemma read_edges E : double E -> not_below_edge data E -> forall pre e c c' post, data' = pre ++ (e, c) :: (e, c') :: post -> E < e -> E * (1 + / 2 ^ 40) <= e.
Proof.
  intros DE BE. clear N Hl. revert BE D. induction R0 as [|p' p data0' data0 (E0 & R2) R1 IH]; intros BE (F & C) pre e c c' post H HE; [destruct pre; discriminate|].
  apply List.Forall_cons_iff in F. destruct F as [F0 F]. destruct pre as [|p1 pre].
  - cbn [app] in H. injection H as -> ->. cbn [fst snd] in *. inversion R1 as [|q' q data1' data1 (E1 & R21) R1' ]; subst data0 q'. cbn [fst snd] in E1, R21.
    apply List.Forall_cons_iff in F. destruct F as [F1 _]. destruct C as [[C|[C _]] _].
    + assert (EP : E < fst p). { apply Rnot_le_lt. intros X. apply (rnd_le_d _ _ DE) in X. lra. }
      assert (B : E * (1 + / 2 ^ 39) <= fst p). { destruct p as [e1 m1], q as [e2 m2]. cbn [fst] in *. subst e2. now apply (BE [] e1 m1 m2 data1). }
      destruct F0 as (P0 & B0 & _). pose proof (read_value _ _ (1 * u) P0 ltac:(pose proof u_pos; lra) (rnd_read _ P0 ltac:(lra))) as V. rewrite <- E0 in V.
      assert (U : u <= / 16 * / 2 ^ 39). { unfold u. rewrite <- Rinv_mult. apply Rinv_le_contravar; [apply Rmult_lt_0_compat; [lra|apply pow_lt; lra]|]. change 53%nat with (14 + 39)%nat. rewrite pow_add. pose proof (pow_lt 2 39 ltac:(lra)). replace (2 ^ 14) with 16384 by ring. nra. }
      assert (Q40 : / 2 ^ 40 = / 2 * / 2 ^ 39) by (rewrite <- Rinv_mult; reflexivity). assert (Q : 0 < / 2 ^ 39) by (apply Rinv_0_lt_compat, pow_lt; lra). assert (Q1 : / 2 ^ 39 <= / 16) by (apply Rinv_le_contravar; [lra|simpl; lra]). rewrite Q40. set (q39 := / 2 ^ 39) in *. clearbody q39. pose proof u_pos.
      destruct (Rle_lt_dec E 0) as [NE|PE]; [apply Rle_trans with E; [nra|lra]|]. apply Rle_trans with (fst p * (1 - 1 * u)); [|lra]. apply (Rmult_le_reg_r (1 + q39)); [lra|].
      apply Rle_trans with (fst p * (1 + / 2 * q39)); [|rewrite Rmult_assoc; apply Rmult_le_compat_l; [lra|nra]]. nra.
    + exfalso. pose proof (decimal_gap _ _ (proj1 F0) C) as G. destruct (read_log k M Hk HM (e, c) p F0 E0 R2) as (_ & _ & L1 & _). destruct (read_log k M Hk HM (e, c') q F1 E1 R21) as (_ & _ & L2 & _).
      cbn [fst] in *. pose proof (gap_kept k Hk _ _ _ _ L1 L2 G). assert (0 < / 2 ^ 31) by (apply Rinv_0_lt_compat, pow_lt; lra). lra.
  - cbn [app] in H. injection H as -> ->. apply (IH R1) with (pre := pre) (c := c) (c' := c') (post := post); try reflexivity; try assumption.
    + intros pre0 e1 c1 c1' post0 H. apply (BE (p :: pre0) e1 c1 c1' post0). cbn [app]. now rewrite H.
    + split; [exact F|]. destruct data0; [exact Logic.I|apply C].
Qed.
Lemma read_value_err E : 0 <= E -> (0 < E -> double E /\ not_below_edge data E) -> ordered (logs0 data') ->
  exists y y', xrmac_call (o_exact data) E = Ok (pow10 y) /\ xrmac_call (o_exact data') E = Ok (pow10 y') /\ Rabs (y' - y) <= (k + 2 * S0) * u.
Proof.
  intros HE BE O'. pose proof (decimal_ordered M S0 data D) as O. pose proof u_pos as Pu. pose proof read_nonempty as N'.
  assert (HD : exists p' p r' r, data' = p' :: r' /\ data = p :: r /\ fst p' = rnd (fst p) /\ roundings k (snd p') (snd p) /\ read_table k r' r).
  { destruct R0 as [|p' p r' r (A & B) R1]; [contradiction|]. exists p', p, r', r. repeat split; assumption || apply B. }
  destruct HD as (p' & p & r' & r & E1 & E2 & A & B & R1). pose proof D as [F C]. rewrite E2 in F. apply List.Forall_cons_iff in F. destruct F as [F0 F].
  destruct (read_log k M Hk HM p' p F0 A B) as (P1 & P2 & L1 & L2). assert (KU : k * u <= (k + 2 * S0) * u) by nra.
  assert (NL : logs0 data <> []) by (rewrite E2; discriminate). assert (X0 : fst (hd (0, 0) (logs0 data)) = log10 (fst p)) by (rewrite E2; reflexivity). assert (X0' : fst (hd (0, 0) (logs0 data')) = log10 (fst p')) by (rewrite E1; reflexivity).
  unfold xrmac_call. destruct (Rlt_dec E 0); [lra|]. destruct (Req_EM_T E 0) as [Z|Z].
  { exists (log10 (snd p)), (log10 (snd p')). cbn [o_exact i_below]. rewrite E1, E2. cbn [hd]. repeat split. lra. }
  assert (PE : 0 < E) by lra. destruct (BE PE) as [DE NB]. destruct (Rlt_le_dec E (fst p)) as [L|L].
  - exists (log10 (snd p)), (log10 (snd p')). split; [|split; [|lra]].
    + do 2 f_equal. unfold interp_eval. cbn [o_exact i_points i_below]. destruct (Rlt_dec _ _) as [_|Q]; [rewrite E2; reflexivity|]. elim Q. rewrite X0. apply log10_incr; [exact PE|exact L].
    + do 2 f_equal. assert (EP : E <= fst p') by (rewrite A; apply rnd_ge; [exact DE|lra]). destruct EP as [EP|EP].
      * unfold interp_eval. cbn [o_exact i_points i_below]. destruct (Rlt_dec _ _) as [_|Q]; [rewrite E1; reflexivity|]. elim Q. rewrite X0'. apply log10_incr; [exact PE|exact EP].
      * rewrite exact_eval; [|exact N'|exact O'|rewrite X0', EP; lra]. rewrite E1. destruct p' as [e' m']. cbn [fst snd] in *. rewrite EP. cbn [logs0 map fst snd]. apply np_node. intros x' y' r1' H.
        destruct R1 as [|q' q r1 r2 (A1 & B1) R2]; [discriminate|]. cbn [map] in H. injection H as <- _ _. apply List.Forall_cons_iff in F. destruct F as [F1 _]. destruct (read_log k M Hk HM q' q F1 A1 B1) as (_ & _ & L3 & _).
        rewrite E2 in C. destruct C as [[C|[C _]] _].
        -- exfalso. apply (edge_below (fst p) E (proj1 F0)); [destruct F0 as (_ & F0 & _); lra|rewrite <- A; exact EP|exact L|]. destruct p as [e m], q as [e1 m1]. cbn [fst] in *. subst e1. apply (NB [] e m m1 r2); [exact E2|exact L].
        -- pose proof (gap_kept k Hk _ _ _ _ L1 L3 (decimal_gap _ _ (proj1 F0) C)) as G. assert (0 < / 2 ^ 31) by (apply Rinv_0_lt_compat, pow_lt; lra). lra.
  - exists (np_interp (logs0 data) (log10 E)), (np_interp (logs0 data') (log10 E)). assert (L' : fst p' <= E) by (rewrite A; apply rnd_le_d; assumption).
    rewrite !exact_eval; try assumption; [|rewrite X0'; apply log10_le; lra|rewrite X0; apply log10_le; [apply F0|exact L]]. repeat split. apply (table_read_err k M S0 Hk HM HS data' data E R0 D N PE DE); [rewrite E2; exact L|exact NB].
Qed.
End Call.

Lemma read_call g k M S0 minval data' data E : llib_ok g -> 1 <= k <= 1000 -> 1 <= M <= 99 -> 0 <= S0 -> (1 + S0) * M <= 2 ^ 29 -> read_table k data' data -> decimal_table M S0 data -> data <> [] ->
  (minval <= length data)%nat -> E = 0 \/ S_Float7.digits 100 E -> not_below_edge data E ->
  exists o o' v V, XRMAC minval data = Ok o /\ finterpolate_log_log g minval data' = Ok o' /\ xrmac_call o E = Ok V /\ fxrmac_call g o' E = Ok v /\
    0 < V /\ Rabs (v - V) <= (1 + S0) * (104 * M + 4 * k) * u * V.
Proof.
  intros K Hk HM HS HB R0 D N Hl HE NB. pose proof (read_ftable k M S0 Hk HM HS data' data R0 D) as FT. set (M' := M * (1 + / 1000)) in *. set (S' := S0 + (1 + S0) / 200) in *.
  assert (HM' : 1 <= M' <= 100) by (unfold M'; lra). assert (HS' : 0 <= S') by (unfold S'; lra). assert (Q : (1 + S') * M' <= 101 / 100 * ((1 + S0) * M)).
  { unfold S', M'. replace ((1 + (S0 + (1 + S0) / 200)) * (M * (1 + / 1000))) with ((1 + / 200) * (1 + / 1000) * ((1 + S0) * M)) by field. assert (1 <= (1 + S0) * M) by nra. nra. }
  assert (Q30 : 2 * 2 ^ 29 = 2 ^ 30) by reflexivity. assert (HE' : 0 <= E /\ double E) by (destruct HE as [->|(P & DE & _)]; [split; [lra|apply double_0]|split; [lra|exact DE]]). destruct HE' as [HE0 DE].
  destruct (call_acc g M' S' minval data' E K HM' HS' ltac:(assert (1 <= (1 + S0) * M) by nra; lra) FT (read_nonempty k data' data R0 N)) as (o1 & o' & v & V1 & B1 & B2 & C1 & C2 & P1 & ERR).
  { rewrite (read_length k data' data R0). exact Hl. } { exact HE. } { apply (read_edges k M S0 data' data Hk HM R0 D E DE NB). }
  pose proof (builds g M' S' minval data' K FT (read_nonempty k data' data R0 N) ltac:(rewrite (read_length k data' data R0); exact Hl)) as [B1' B2']. rewrite B1 in B1'. injection B1' as ->.
  destruct (read_value_err k M S0 minval data' data Hk HM HS R0 D N Hl E HE0 (fun _ => conj DE NB) (proj1 (ordered_logs g M' S' data' K FT))) as (y & y' & V & V' & Y). rewrite C1 in V'. injection V' as ->.
  exists (o_exact data), o', v, (pow10 y). split; [apply (decimal_builds M S0); assumption|]. split; [exact B2|]. split; [exact V|]. split; [exact C2|]. split; [apply pow10_pos|].
  pose proof u_pos as Pu. pose proof u_small as US. assert (SB : S0 <= 2 ^ 29) by nra. assert (YB : 0 <= (k + 2 * S0) * u <= / 24). { split; [nra|]. apply Rle_trans with ((1000 + 2 * 2 ^ 29) * / 10 ^ 15); [|simpl; lra]. apply Rmult_le_compat; lra. }
  pose proof (pow_close y' y _ YB Y) as PC. change unit_roundoff with u in ERR. pose proof (pow10_pos y) as PY.
  assert (T1 : (k + 2 * S0) * u <= / 400). { apply Rle_trans with ((1000 + 2 * 2 ^ 29) * / 10 ^ 15); [|simpl; lra]. apply Rmult_le_compat; lra. }
  set (a := pow10 y) in *. set (b := pow10 y') in *. clearbody a b. assert (BA : b <= 101 / 100 * a). { apply Rabs_le_inv in PC. nra. }
  assert (T2 : 96 * (1 + S') * M' * u * b <= 96 * (101 / 100) * (101 / 100) * ((1 + S0) * M) * u * a).
  { replace (96 * (1 + S') * M' * u * b) with (96 * u * (((1 + S') * M') * b)) by ring. replace (96 * (101 / 100) * (101 / 100) * ((1 + S0) * M) * u * a) with (96 * u * ((101 / 100 * ((1 + S0) * M)) * (101 / 100 * a))) by field.
    apply Rmult_le_compat_l; [lra|]. apply Rmult_le_compat; [|lra|exact Q|exact BA]. unfold S'. apply Rmult_le_pos; lra. }
  assert (T3 : 24 / 7 * ((k + 2 * S0) * u) * a <= (4 * k * (1 + S0) + 6 * (1 + S0) * M) * u * a). { apply Rmult_le_compat_r; [lra|]. replace (24 / 7 * ((k + 2 * S0) * u)) with ((24 / 7 * (k + 2 * S0)) * u) by ring. apply Rmult_le_compat_r; [lra|]. assert (S0 <= S0 * M) by nra. assert (0 <= k * S0) by nra. nra. }
  apply Rabs_le_inv in ERR, PC. assert (PM : 0 <= (1 + S0) * M * u * a) by (repeat apply Rmult_le_pos; lra). replace ((1 + S0) * (104 * M + 4 * k) * u * a) with (104 * ((1 + S0) * M * u * a) + 4 * k * (1 + S0) * u * a) by ring.
  replace ((4 * k * (1 + S0) + 6 * (1 + S0) * M) * u * a) with (4 * k * (1 + S0) * u * a + 6 * ((1 + S0) * M * u * a)) in T3 by ring. replace (96 * (101 / 100) * (101 / 100) * ((1 + S0) * M) * u * a) with (96 * (101 / 100) * (101 / 100) * ((1 + S0) * M * u * a)) in T2 by ring.
  apply Rabs_le. lra.
Qed.
