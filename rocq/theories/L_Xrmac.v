(** Proofs for the interpolation of mass attenuation coefficients. *)
From Coq Require Import Reals List ZArith Lra Lia Sorted Bool Permutation.
From Verif Require Import Py Spec M_Num M_Grid M_CrossSection M_Xrmac S_Xrmac.
Import ListNotations.
Open Scope R_scope.

Lemma ln10_pos : 0 < ln 10.
Proof. rewrite <- ln_1. apply ln_increasing; lra. Qed.
Lemma log10_incr x y : 0 < x -> x < y -> log10 x < log10 y.
Proof. intros. unfold log10, Rdiv. apply Rmult_lt_compat_r; [apply Rinv_0_lt_compat, ln10_pos|]. now apply ln_increasing. Qed.
Lemma log10_le x y : 0 < x -> x <= y -> log10 x <= log10 y.
Proof. intros H [L| ->]; [left; now apply log10_incr|lra]. Qed.
Lemma log10_lt_inv x y : 0 < x -> 0 < y -> log10 x < log10 y -> x < y.
Proof. intros Hx Hy H. destruct (Rlt_le_dec x y) as [|L]; [assumption|]. apply log10_le in L; lra. Qed.
Lemma log10_inj x y : 0 < x -> 0 < y -> log10 x = log10 y -> x = y.
Proof.
  intros Hx Hy H. destruct (Rtotal_order x y) as [L|[L|L]]; [|assumption|]; apply log10_incr in L; lra.
Qed.
Lemma pow10_log10 x : 0 < x -> pow10 (log10 x) = x.
Proof. intros H. unfold pow10, log10. pose proof ln10_pos. replace (ln x / ln 10 * ln 10) with (ln x) by (field; lra). now apply exp_ln. Qed.
Lemma pow10_pos y : 0 < pow10 y. Proof. apply exp_pos. Qed.
Lemma pow10_le x y : x <= y -> pow10 x <= pow10 y.
Proof.
  intros [H| ->]; [|lra]. left. apply exp_increasing. apply Rmult_lt_compat_r; [apply ln10_pos|exact H].
Qed.

(** ** The stable sort *)
Definition ordered (l : list (R * R)) : Prop := StronglySorted (fun p q => fst p <= fst q) l.
Lemma sort_ordered l : ordered l -> sort_stable l = l.
Proof.
  induction 1 as [|p l S IH F]; [reflexivity|]. change (sort_stable (p :: l)) with (insert_stable p (sort_stable l)). rewrite IH. destruct l as [|q r]; [reflexivity|]. cbn.
  apply List.Forall_inv in F. destruct (Rle_dec (fst p) (fst q)); [reflexivity|contradiction].
Qed.
Lemma insert_perm p l : Permutation (insert_stable p l) (p :: l).
Proof.
  induction l as [|q r IH]; [reflexivity|]. cbn. destruct (Rle_dec _ _); [reflexivity|]. rewrite IH. apply perm_swap.
Qed.
Lemma sort_perm l : Permutation (sort_stable l) l.
Proof. induction l as [|p l IH]; [reflexivity|]. change (sort_stable (p :: l)) with (insert_stable p (sort_stable l)). rewrite insert_perm. now constructor. Qed.
Lemma insert_sorted p l : ordered l -> ordered (insert_stable p l).
Proof.
  induction 1 as [|q r Sr IH F]; [repeat constructor|]. cbn. destruct (Rle_dec _ _) as [L|L].
  - constructor; [now constructor|]. constructor; [exact L|]. eapply List.Forall_impl; [|exact F]. cbn. intros; lra.
  - constructor; [exact IH|]. apply (Permutation_Forall (Permutation_sym (insert_perm p r))). constructor; [lra|exact F].
Qed.
Lemma sort_sorted l : ordered (sort_stable l).
Proof. induction l as [|p l IH]; [constructor|]. cbn. now apply insert_sorted. Qed.

(** ** Interpolation *)
Lemma interp_skip pre p l x : ordered (pre ++ p :: l) -> fst p <= x -> np_interp (pre ++ p :: l) x = np_interp (p :: l) x.
Proof.
  induction pre as [|q pre IH]; intros S Hx; [reflexivity|]. cbn [app] in *. inversion S as [|? ? Sr F]; subst.
  rewrite <- (IH Sr Hx). destruct q as [xq yq]. destruct (pre ++ p :: l) as [|[x1 y1] r] eqn:E; [destruct pre; discriminate|].
  cbn [np_interp]. destruct (Rlt_dec x x1) as [L|L]; [|reflexivity]. exfalso.
  assert (x1 <= fst p); [|lra]. inversion Sr as [|? ? Sr' F']; subst. destruct pre as [|r0 pre]; cbn in E.
  - injection E as -> _. cbn. lra.
  - injection E as -> E. rewrite List.Forall_forall in F'. apply (F' p). rewrite <- E. apply in_or_app. right. now left.
Qed.
Lemma interp_node p l : List.Forall (fun q => fst p < fst q) l -> np_interp (p :: l) (fst p) = snd p.
Proof.
  intros F. destruct p as [x y]. destruct l as [|[x1 y1] r]; [reflexivity|]. cbn in *. apply List.Forall_inv in F. cbn in F.
  destruct (Rlt_dec x x1); [|contradiction]. destruct (Req_EM_T x x); [reflexivity|contradiction].
Qed.
Lemma interp_between x0 y0 x1 y1 l x : x0 <= x -> x < x1 ->
  np_interp ((x0, y0) :: (x1, y1) :: l) x = (y1 - y0) / (x1 - x0) * (x - x0) + y0.
Proof.
  intros H0 H1. cbn. destruct (Rlt_dec x x1); [|contradiction]. destruct (Req_EM_T x x0) as [->|]; [|reflexivity].
  replace (x0 - x0) with 0 by ring. ring.
Qed.

(** ** The class *)
Lemma xrmac_ok minval data : table_ok data -> (minval <= length data)%nat ->
  exists o, XRMAC minval data = Ok o /\ i_points o = sort_stable (map (fun p => (log10 (fst p), log10 (snd p))) data) /\
    i_below o = log10 (snd (hd (0, 0) data)) /\ i_above o = log10 (snd (last data (0, 0))).
Proof.
  intros [N F] L. unfold XRMAC, interpolate_log_log. destruct data as [|d r]; [contradiction|].
  destruct (Nat.ltb_spec (length (d :: r)) minval); [lia|].
  assert (E : forallb (fun p => (is_pos (fst p) && is_pos (snd p))%bool) (d :: r) = true).
  { apply forallb_forall. intros p Hp. rewrite List.Forall_forall in F. destruct (F p Hp) as [A B]. unfold is_pos.
    destruct (Rlt_dec 0 (fst p)); [|contradiction]. destruct (Rlt_dec 0 (snd p)); [reflexivity|contradiction]. }
  rewrite E. eexists. split; [reflexivity|]. repeat split.
Qed.
Definition logs (data : list (R * R)) := map (fun p => (log10 (fst p), log10 (snd p))) data.
Lemma logs_ordered data : table_ok data -> ascending (map fst data) -> ordered (logs data).
Proof.
  intros [_ F] S. unfold logs. induction data as [|p data IH]; [constructor|]. cbn in *. inversion S as [|? ? Sr G]; subst.
  inversion F as [|? ? Fp Fr]; subst. constructor; [now apply IH|]. apply List.Forall_map. cbn.
  rewrite List.Forall_map in G. rewrite List.Forall_forall in *. intros q Hq. apply log10_le; [apply Fp|now apply G].
Qed.

Section Table.
  Variables (minval : nat) (data : list (R * R)) (o : interp1d).
  Hypothesis T : table_ok data.
  Hypothesis A : ascending (map fst data).
  Hypothesis HO : XRMAC minval data = Ok o.

  Lemma parts : i_points o = logs data /\ i_below o = log10 (snd (hd (0, 0) data)) /\ i_above o = log10 (snd (last data (0, 0))).
  Proof.
    assert (L : (minval <= length data)%nat).
    { unfold XRMAC, interpolate_log_log in HO. destruct data as [|d r]; [discriminate|]. destruct (Nat.ltb_spec (length (d :: r)) minval); [discriminate|assumption]. }
    destruct (xrmac_ok minval data T L) as (o' & E & P & B & U). rewrite HO in E. injection E as <-.
    rewrite P, sort_ordered by (now apply logs_ordered). auto.
  Qed.
  Lemma data_pos p : In p data -> 0 < fst p /\ 0 < snd p.
  Proof. destruct T as [_ F]. rewrite List.Forall_forall in F. apply F. Qed.
  Lemma hd_in : In (hd (0, 0) data) data.
  Proof. clear A HO. destruct T as [N _]. destruct data; [contradiction|now left]. Qed.
  Lemma last_in : In (last data (0, 0)) data.
  Proof.
    clear A HO. destruct T as [N _]. rewrite (app_removelast_last (0, 0) N) at 2. apply in_or_app. right. now left.
  Qed.
  Lemma hd_logs : fst (hd (0, 0) (logs data)) = log10 (fst (hd (0, 0) data)).
  Proof. clear A HO. destruct T as [N _]. destruct data; [contradiction|reflexivity]. Qed.
  Lemma last_logs : fst (last (logs data) (0, 0)) = log10 (fst (last data (0, 0))).
  Proof.
    clear A HO. destruct T as [N _]. unfold logs. rewrite (app_removelast_last (0, 0) N) at 1. rewrite map_app. cbn. now rewrite last_last.
  Qed.
  Lemma call_below E : 0 <= E -> E < fst (hd (0, 0) data) -> xrmac_call o E = Ok (snd (hd (0, 0) data)).
  Proof.
    intros H0 H1. destruct parts as (P & B & _). unfold xrmac_call. destruct (Rlt_dec E 0); [lra|].
    destruct (data_pos _ hd_in) as [Q1 Q2]. destruct (Req_EM_T E 0); [now rewrite B, pow10_log10|].
    unfold interp_eval. rewrite P, hd_logs. destruct (Rlt_dec _ _) as [L|L]; [now rewrite B, pow10_log10|]. exfalso. apply L. apply log10_incr; lra.
  Qed.
  Lemma call_above E : fst (last data (0, 0)) < E -> xrmac_call o E = Ok (snd (last data (0, 0))).
  Proof.
    intros H1. destruct parts as (P & B & U). unfold xrmac_call. destruct (data_pos _ last_in) as [Q1 Q2]. destruct (data_pos _ hd_in) as [Q3 Q4].
    destruct (Rlt_dec E 0); [lra|]. destruct (Req_EM_T E 0); [lra|].
    unfold interp_eval. rewrite P, hd_logs, last_logs. 
    assert (HL : fst (hd (0, 0) data) <= fst (last data (0, 0))).
    { pose proof last_in as I. destruct T as [N _]. destruct data as [|d r]; [contradiction|]. cbn [hd map] in *. inversion A as [|? ? _ F]; subst.
      destruct I as [<-|I]; [lra|]. rewrite List.Forall_forall in F. apply F. apply in_map. exact I. }
    destruct (Rlt_dec _ _) as [L|L]; [exfalso; apply log10_lt_inv in L; lra|].
    destruct (Rlt_dec _ _) as [L'|L']; [now rewrite U, pow10_log10|]. exfalso. apply L'. apply log10_incr; lra.
  Qed.
  Lemma call_inside E : fst (hd (0, 0) data) <= E <= fst (last data (0, 0)) -> xrmac_call o E = Ok (pow10 (np_interp (logs data) (log10 E))).
  Proof.
    intros [H1 H2]. destruct parts as (P & B & U). unfold xrmac_call. destruct (data_pos _ last_in) as [Q1 Q2]. destruct (data_pos _ hd_in) as [Q3 Q4].
    destruct (Rlt_dec E 0); [lra|]. destruct (Req_EM_T E 0); [lra|]. unfold interp_eval. rewrite P, hd_logs, last_logs.
    destruct (Rlt_dec _ _) as [L|L]; [exfalso; apply log10_lt_inv in L; lra|].
    destruct (Rlt_dec _ _) as [L'|L']; [exfalso; apply log10_lt_inv in L'; lra|]. reflexivity.
  Qed.
  Lemma in_range pre E c post : data = pre ++ (E, c) :: post -> fst (hd (0, 0) data) <= E <= fst (last data (0, 0)).
  Proof.
    intros D. split.
    - rewrite D. destruct pre as [|q pre]; cbn; [lra|]. rewrite D in A. cbn in A. inversion A as [|? ? _ F]; subst.
      rewrite map_app, List.Forall_app in F. destruct F as [_ F]. now apply List.Forall_inv in F.
    - pose proof last_in as I. rewrite D in A. rewrite map_app in A.
      destruct post as [|q post]; [rewrite D, last_last; cbn; lra|].
      assert (I' : In (last data (0, 0)) (q :: post)).
      { rewrite D. clear. assert (X : last (pre ++ (E, c) :: q :: post) (0, 0) = last (q :: post) (0, 0)).
        { induction pre as [|a pre IH]; [reflexivity|]. cbn [app]. rewrite <- IH. destruct (pre ++ (E, c) :: q :: post) eqn:Z; [destruct pre; discriminate|reflexivity]. }
        rewrite X. assert (N : q :: post <> []) by discriminate. rewrite (app_removelast_last (0, 0) N) at 2. apply in_or_app. right. now left. }
      assert (Z : forall l, ascending (l ++ map fst ((E, c) :: q :: post)) -> ascending (map fst ((E, c) :: q :: post))).
      { clear. induction l as [|a l IH]; [auto|]. cbn [app]. intros S. inversion S. auto. }
      apply Z in A. cbn in A. inversion A as [|? ? _ F]; subst. rewrite List.Forall_forall in F. apply F. change (fst q :: map fst post) with (map fst (q :: post)). apply in_map, I'.
  Qed.
  (** A line whose energy does not occur in a later line. *)
  Lemma call_node pre E c post : data = pre ++ (E, c) :: post -> List.Forall (fun q => E < fst q) post -> xrmac_call o E = Ok c.
  Proof.
    intros D F. assert (I : In (E, c) data) by (rewrite D; apply in_or_app; right; now left).
    destruct (data_pos _ I) as [P1 P2]. cbn in P1, P2. rewrite (call_inside E (in_range pre E c post D)). do 2 f_equal.
    assert (O : ordered (logs data)) by (now apply logs_ordered).
    assert (DL : logs data = logs pre ++ (log10 E, log10 c) :: logs post) by (rewrite D; unfold logs; now rewrite map_app).
    rewrite DL in *. rewrite interp_skip by (try exact O; cbn; lra).
    pose proof (interp_node (log10 E, log10 c) (logs post)) as N. cbn [fst snd] in N. rewrite N; [now apply pow10_log10|].
    unfold logs. rewrite List.Forall_map. eapply List.Forall_impl; [|exact F]. cbn. intros q Hq. now apply log10_incr.
  Qed.
  Lemma call_between pre E1 c1 E2 c2 post E : data = pre ++ (E1, c1) :: (E2, c2) :: post -> E1 <= E -> E < E2 ->
    exists v, xrmac_call o E = Ok v /\ log10 v = (log10 c2 - log10 c1) / (log10 E2 - log10 E1) * (log10 E - log10 E1) + log10 c1 /\ 0 < v.
  Proof.
    intros D L1 L2. assert (I1 : In (E1, c1) data) by (rewrite D; apply in_or_app; right; now left).
    assert (I2 : In (E2, c2) data) by (rewrite D; apply in_or_app; right; right; now left).
    destruct (data_pos _ I1) as [P1 P2]. destruct (data_pos _ I2) as [P3 P4]. cbn in P1, P2, P3, P4.
    assert (R1 := in_range pre E1 c1 _ D).
    assert (D' : data = (pre ++ [(E1, c1)]) ++ (E2, c2) :: post) by (rewrite <- app_assoc; exact D). assert (R2 := in_range _ E2 c2 _ D').
    rewrite call_inside by lra. eexists. split; [reflexivity|]. split; [|apply pow10_pos].
    assert (O : ordered (logs data)) by (now apply logs_ordered).
    assert (DL : logs data = logs pre ++ (log10 E1, log10 c1) :: (log10 E2, log10 c2) :: logs post) by (rewrite D; unfold logs; now rewrite map_app).
    rewrite DL in *. rewrite interp_skip; [|exact O|cbn; now apply log10_le].
    rewrite interp_between; [|now apply log10_le|apply log10_incr; lra].
    unfold log10 at 1, pow10. rewrite ln_exp. field_simplify; try reflexivity.
    all: pose proof ln10_pos; assert (log10 E1 < log10 E2) by (apply log10_incr; lra); repeat split; lra.
  Qed.
End Table.
