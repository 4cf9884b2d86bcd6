(** Calls of XRMAC objects with rounding. *)
From Coq Require Import Reals List ZArith Lra Lia Psatz Sorted Bool.
From Flocq Require Import Core.
From Verif Require Import Py Spec M_Num M_Grid M_CrossSection M_Xrmac S_Xrmac M_Float S_Float M_Float7 S_Float7
  L_Xrmac L_Float L_Float2 L_Float3 L_Float5 L_Float7 L_Float9 L_Float18 L_Float24 L_Float25.
Import ListNotations.
Open Scope R_scope.

(** ** Powers *)
Lemma exp_small a : Rabs a <= / 8 -> Rabs (exp a - 1) <= 8 / 7 * Rabs a.
Proof.
  intros H. apply Rabs_le_inv in H. pose proof (exp_ineq1_le a) as L. pose proof (exp_ineq1_le (- a)) as U. rewrite exp_Ropp in U. pose proof (exp_pos a) as P.
  assert (Q : exp a <= / (1 - a)). { rewrite <- (Rinv_inv (exp a)). apply Rinv_le_contravar; lra. }
  assert (X : / (1 - a) = 1 + a / (1 - a)) by (field; lra).
  assert (Y : a / (1 - a) <= 8 / 7 * Rabs a).
  { apply (Rmult_le_reg_r (1 - a)); [lra|]. replace (a / (1 - a) * (1 - a)) with a by (field; lra). unfold Rabs. destruct (Rcase_abs a); nra. }
  pose proof (Rle_abs (- a)) as Z. rewrite Rabs_Ropp in Z. pose proof (Rabs_pos a). apply Rabs_le. lra.
Qed.
Lemma pow_close t y e : 0 <= e <= / 24 -> Rabs (t - y) <= e -> Rabs (pow10 t - pow10 y) <= 24 / 7 * e * pow10 y.
Proof.
  intros He H. pose proof ln10_pos. pose proof ln10_le. assert (E : pow10 t = pow10 y * exp ((t - y) * ln 10)) by (unfold pow10; rewrite <- exp_plus; f_equal; ring).
  assert (A : Rabs ((t - y) * ln 10) <= 3 * e) by (rewrite Rabs_mult, (Rabs_pos_eq (ln 10)) by lra; pose proof (Rabs_pos (t - y)); nra).
  pose proof (exp_small _ ltac:(apply Rle_trans with (3 * e); [exact A|lra])) as X. pose proof (pow10_pos y) as P.
  rewrite E. replace (pow10 y * exp ((t - y) * ln 10) - pow10 y) with (pow10 y * (exp ((t - y) * ln 10) - 1)) by ring. rewrite Rabs_mult, (Rabs_pos_eq (pow10 y)) by lra. nra.
Qed.
Lemma fpow_close g t y e : llib_ok g -> double t -> Rabs y <= 200 -> 0 <= e <= / 24 -> Rabs (t - y) <= e ->
  Rabs (g_pow10 g t - pow10 y) <= (24 / 7 * e + 3 * u) * pow10 y.
Proof.
  intros (_ & _ & K) D B He H. pose proof (pow_close t y e He H) as X. assert (Bt : Rabs t <= 300) by (apply Rabs_le_inv in B, H; apply Rabs_le; lra).
  destruct (K t Bt D) as (_ & Y). change unit_roundoff with u in Y. pose proof (pow10_pos y) as P. pose proof u_pos as U. apply Rabs_le_inv in X, Y. 
  assert (Z : pow10 t <= 3 / 2 * pow10 y) by nra. assert (2 * u * pow10 t <= 2 * u * (3 / 2 * pow10 y)) by (apply Rmult_le_compat_l; lra). apply Rabs_le. lra.
Qed.

(** ** Ordered tables *)
Lemma consecutive_ordered (f : R * R -> R * R) data : consecutive (fun p q => fst (f p) <= fst (f q)) data -> ordered (map f data).
Proof.
  induction data as [|p r IH]; intros C; [constructor|]. destruct r as [|q r]; [repeat constructor|]. destruct C as [C1 C2]. specialize (IH C2). cbn [map] in *.
  constructor; [exact IH|]. constructor; [exact C1|]. apply StronglySorted_inv in IH. destruct IH as [_ IH]. eapply List.Forall_impl; [|exact IH]. cbn beta. intros; lra.
Qed.
Lemma consecutive_impl {A} (P Q : A -> A -> Prop) l : (forall a b, In a l -> In b l -> P a b -> Q a b) -> consecutive P l -> consecutive Q l.
Proof.
  induction l as [|a r IH]; intros H C; [exact Logic.I|]. destruct r as [|b r]; [exact Logic.I|]. destruct C as [C1 C2]. split; [apply H; [now left|right; now left|exact C1]|]. apply IH; [|exact C2]. intros. apply H; [now right|now right|assumption].
Qed.
Lemma table_order M S0 data : ftable M S0 data -> consecutive (fun p q => 0 < fst p <= fst q) data.
Proof.
  intros [F C]. eapply consecutive_impl; [|exact C]. intros a b Ia Ib H. rewrite List.Forall_forall in F. destruct (F a Ia) as [(P & _) _]. split; [exact P|]. destruct H as [H|[H _]]; [lra|].
  assert (0 < / 2 ^ 40) by (apply Rinv_0_lt_compat, pow_lt; lra). nra.
Qed.

Section Call.
Variables (g : llib) (M S0 : R) (minval : nat) (data : list (R * R)).
Hypothesis (K : llib_ok g) (HM : 1 <= M <= 100) (HS : 0 <= S0) (F : ftable M S0 data) (N : data <> []) (Hl : (minval <= length data)%nat).
Lemma ordered_logs : ordered (logs0 data) /\ ordered (flogs g data).
Proof.
  pose proof (table_order M S0 data F) as C. split; apply consecutive_ordered; (eapply consecutive_impl; [|exact C]); cbn beta; intros a b _ _ H; cbn [fst].
  - apply log10_le; lra.
  - apply (log_mono g K). lra.
Qed.
Definition o_exact : interp1d := {| i_points := logs0 data; i_below := log10 (snd (hd (0, 0) data)); i_above := log10 (snd (last data (0, 0))) |}.
Definition o_float : interp1d := {| i_points := flogs g data; i_below := g_log10 g (snd (hd (0, 0) data)); i_above := g_log10 g (snd (last data (0, 0))) |}.
Lemma positive_rows : forallb (fun p : R * R => is_pos (fst p) && is_pos (snd p)) data = true.
Proof.
  apply forallb_forall. intros p I. destruct F as [F1 _]. rewrite List.Forall_forall in F1. destruct (F1 p I) as [(P & _) (Q & _)]. unfold is_pos. destruct (Rlt_dec 0 (fst p)); [|contradiction]. destruct (Rlt_dec 0 (snd p)); [reflexivity|contradiction].
Qed.
Lemma builds : XRMAC minval data = Ok o_exact /\ finterpolate_log_log g minval data = Ok o_float.
Proof.
  pose proof positive_rows as P. destruct ordered_logs as [O1 O2]. unfold XRMAC, interpolate_log_log, finterpolate_log_log, o_exact, o_float.
  fold (logs0 data) (flogs g data). rewrite (sort_ordered _ O1), (sort_ordered _ O2), P. assert (L : (length data <? minval)%nat = false) by (apply Nat.ltb_ge; exact Hl). rewrite L. destruct data as [|p r]; [contradiction|]. split; reflexivity.
Qed.
Lemma in_digits p : In p data -> digits M (fst p) /\ digits M (snd p).
Proof. intros I. destruct F as [F1 _]. rewrite List.Forall_forall in F1. now apply F1. Qed.
Lemma hd_in : In (hd (0, 0) data) data.
Proof. clear - N. destruct data; [contradiction|now left]. Qed.
Lemma last_in : In (last data (0, 0)) data.
Proof. clear - N. induction data as [|p r IH]; [contradiction|]. destruct r as [|q r]; [now left|]. right. apply IH. discriminate. Qed.
Lemma hd_map (f : R * R -> R * R) : hd (0, 0) (map f data) = f (hd (0, 0) data).
Proof. clear - N. destruct data; [contradiction|reflexivity]. Qed.
Lemma last_map (f : R * R -> R * R) : last (map f data) (0, 0) = f (last data (0, 0)).
Proof. clear - N. induction data as [|p r IH]; [contradiction|]. destruct r as [|q r]; [reflexivity|]. change (last (map f (q :: r)) (0, 0) = f (last (q :: r) (0, 0))). apply IH. discriminate. Qed.
End Call.

Lemma interp_beyond l x : ordered l -> fst (last l (0, 0)) < x -> l <> [] -> np_interp l x = snd (last l (0, 0)) /\ fnp_interp l x = snd (last l (0, 0)).
Proof.
  induction l as [|[x0 y0] r IH]; intros O H N; [contradiction|]. destruct r as [|[x1 y1] r]; [split; reflexivity|]. apply StronglySorted_inv in O. destruct O as [O _].
  change (last ((x0, y0) :: (x1, y1) :: r) (0, 0)) with (last ((x1, y1) :: r) (0, 0)) in *. rewrite np_step, fnp_step.
  assert (x1 < x). { eapply Rle_lt_trans; [|exact H]. destruct r as [|q r]; [cbn; lra|]. apply StronglySorted_inv in O. destruct O as [_ O]. rewrite List.Forall_forall in O. apply (O (last (q :: r) (0, 0))). apply last_in. discriminate. }
  destruct (Rlt_dec x x1); [lra|]. apply IH; [exact O|exact H|discriminate].
Qed.
Lemma interp_bound M l x : ordered l -> List.Forall (fun p => Rabs (snd p) <= M) l -> fst (hd (0, 0) l) <= x -> l <> [] -> Rabs (np_interp l x) <= M.
Proof.
  induction l as [|[x0 y0] r IH]; intros O F H N; [contradiction|]. destruct r as [|[x1 y1] r].
  - apply List.Forall_cons_iff in F. apply F.
  - apply StronglySorted_inv in O. destruct O as [O _]. apply List.Forall_cons_iff in F. destruct F as [F0 F]. pose proof F as F'. apply List.Forall_cons_iff in F'. destruct F' as [F1 _]. cbn [hd fst snd] in *.
    rewrite np_step. destruct (Rlt_dec x x1); [|apply IH; try assumption; [cbn; lra|discriminate]]. destruct (Req_EM_T x x0); [exact F0|].
    replace ((y1 - y0) / (x1 - x0) * (x - x0) + y0) with (y1 * ((x - x0) / (x1 - x0)) + y0 * (1 - (x - x0) / (x1 - x0))) by (field; lra). set (ra := (x - x0) / (x1 - x0)).
    assert (R0 : 0 <= ra <= 1). { unfold ra. split; [apply Rmult_le_pos; [lra|left; apply Rinv_0_lt_compat; lra]|]. apply (Rmult_le_reg_r (x1 - x0)); [lra|]. unfold Rdiv. rewrite Rmult_assoc, Rinv_l; lra. }
    apply Rabs_le_inv in F0, F1. apply Rabs_le. clearbody ra. nra.
Qed.
Lemma fnp_double l x : List.Forall (fun p => double (snd p)) l -> double (fnp_interp l x).
Proof.
  induction l as [|[x0 y0] r IH]; intros F; [apply double_0|]. apply List.Forall_cons_iff in F. destruct F as [F0 F]. destruct r as [|[x1 y1] r]; [exact F0|]. rewrite fnp_step. destruct (Rlt_dec _ _); [destruct (Req_EM_T _ _); [exact F0|apply rnd_double]|]. now apply IH.
Qed.

Lemma call_err g M S0 minval data E : llib_ok g -> 1 <= M <= 100 -> 0 <= S0 -> (1 + S0) * M <= 2 ^ 30 -> ftable M S0 data -> data <> [] -> (minval <= length data)%nat ->
  0 <= E -> double E -> (0 < E -> below_edges g data E) ->
  exists o o' v V, XRMAC minval data = Ok o /\ finterpolate_log_log g minval data = Ok o' /\ xrmac_call o E = Ok V /\ fxrmac_call g o' E = Ok v /\
    0 < V /\ Rabs (v - V) <= 96 * (1 + S0) * M * u * V.
Proof.
  intros K HM HS HB F N Hl HE DE BE. destruct (builds g M S0 minval data K F N Hl) as [B1 B2]. exists (o_exact data), (o_float g data).
  pose proof (ordered_logs g M S0 data K F) as [O1 O2]. set (B := 24 * (1 + S0) * M * u).
  assert (PB : 2 * u * M <= B <= / 24).
  { unfold B. pose proof u_pos. assert (0 < M * u) by nra. assert (0 <= S0 * (M * u)) by nra. split; [replace (24 * (1 + S0) * M * u) with (24 * (M * u) + 24 * (S0 * (M * u))) by ring; nra|].
    apply Rle_trans with (24 * 2 ^ 30 * u); [nra|]. unfold u. simpl. lra. }
  assert (PU : u <= B) by (unfold B; pose proof u_pos; assert (0 < M * u) by nra; assert (0 <= S0 * (M * u)) by nra; nra).
  assert (Main : forall t y, double t -> Rabs y <= M -> Rabs (t - y) <= B -> 0 < pow10 y /\ Rabs (g_pow10 g t - pow10 y) <= 96 * (1 + S0) * M * u * pow10 y).
  { intros t y D Hy Ht. split; [apply pow10_pos|]. pose proof u_pos. eapply Rle_trans; [apply (fpow_close g t y B K D ltac:(lra) ltac:(lra) Ht)|]. apply Rmult_le_compat_r; [left; apply pow10_pos|].
    replace (96 * (1 + S0) * M * u) with (4 * B) by (unfold B; ring). assert (X : 8 * u <= B); [|lra]. unfold B. assert (1 <= (1 + S0) * M) by nra. replace (24 * (1 + S0) * M * u) with (24 * u * ((1 + S0) * M)) by ring. nra. }
  assert (LOG : forall m, digits M m -> double (g_log10 g m) /\ Rabs (log10 m) <= M /\ Rabs (g_log10 g m - log10 m) <= B).
  { intros m Hm. destruct (log_err g M K m Hm) as (D & X). split; [exact D|]. split; [apply Hm|lra]. }
  destruct (in_digits M S0 data F _ (hd_in data N)) as [H0 H0']. destruct (in_digits M S0 data F _ (last_in data N)) as [H1 H1'].
  assert (PE0 : 0 < fst (hd (0, 0) data)) by apply H0. assert (PE1 : 0 < fst (last data (0, 0))) by apply H1.
  unfold xrmac_call, fxrmac_call. destruct (Rlt_dec E 0); [lra|]. destruct (Req_EM_T E 0) as [E0|E0].
  { do 2 eexists. split; [exact B1|]. split; [exact B2|]. split; [reflexivity|]. split; [reflexivity|]. cbn [o_exact o_float i_below]. destruct (LOG _ H0') as (D & A & X). now apply Main. }
  assert (PE : 0 < E) by lra. specialize (BE PE).
  do 2 eexists. split; [exact B1|]. split; [exact B2|]. split; [reflexivity|]. split; [reflexivity|].
  unfold interp_eval, finterp_eval. cbn [o_exact o_float i_points i_below i_above].
  assert (X0 : fst (hd (0, 0) (logs0 data)) = log10 (fst (hd (0, 0) data))) by (unfold logs0; now rewrite hd_map).
  assert (X1 : fst (last (logs0 data) (0, 0)) = log10 (fst (last data (0, 0)))) by (unfold logs0; now rewrite last_map).
  assert (Y0 : fst (hd (0, 0) (flogs g data)) = g_log10 g (fst (hd (0, 0) data))) by (unfold flogs; now rewrite hd_map).
  assert (Y1 : fst (last (flogs g data) (0, 0)) = g_log10 g (fst (last data (0, 0)))) by (unfold flogs; now rewrite last_map).
  assert (NL : logs0 data <> []) by (unfold logs0; destruct data; [contradiction|discriminate]). assert (NF : flogs g data <> []) by (unfold flogs; destruct data; [contradiction|discriminate]).
  destruct (Rlt_dec (log10 E) _) as [L|L]; rewrite X0 in L.
  - apply log10_lt_inv in L; [|assumption..]. destruct (Rlt_dec (g_log10 g E) _) as [L'|L']; rewrite Y0 in L'.
    + destruct (LOG _ H0') as (D & A & X). now apply Main.
    + pose proof (log_mono g K E (fst (hd (0, 0) data)) ltac:(lra)) as MM. assert (EL : g_log10 g E = g_log10 g (fst (hd (0, 0) data))) by lra.
      assert (HL : g_log10 g E <= g_log10 g (fst (last data (0, 0)))).
      { rewrite EL, <- Y0, <- Y1. clear - O2 NF. destruct (flogs g data) as [|p r]; [contradiction|]. destruct r as [|q r]; [cbn; lra|]. apply StronglySorted_inv in O2. destruct O2 as [_ O2]. rewrite List.Forall_forall in O2. apply (O2 (last (q :: r) (0, 0))). apply last_in. discriminate. }
      destruct (Rlt_dec _ (g_log10 g E)) as [L2|L2]; rewrite Y1 in L2; [lra|]. rewrite EL. clear X0 X1 Y0 Y1 HL NL NF O1 O2 B1 B2. destruct data as [|[e m] r]; [contradiction|]. cbn [hd fst snd] in *.
      rewrite (fnode g M S0 K HM e m r F); [destruct (LOG _ H0') as (D & A & X); now apply Main|]. intros c' post ->. apply L'. apply (BE [] e m c' post); [reflexivity|lra].
  - assert (HE0 : fst (hd (0, 0) data) <= E). { apply Rnot_lt_le. intros X. apply L. now apply log10_incr. }
    pose proof (log_mono g K (fst (hd (0, 0) data)) E ltac:(lra)) as MM. destruct (Rlt_dec (g_log10 g E) _) as [L'|L']; rewrite Y0 in L'; [lra|].
    pose proof (table_err g M S0 K HM HS data E F N PE DE HE0 BE) as T.
    assert (Z1 : (if Rlt_dec (fst (last (logs0 data) (0, 0))) (log10 E) then log10 (snd (last data (0, 0))) else np_interp (logs0 data) (log10 E)) = np_interp (logs0 data) (log10 E)).
    { destruct (Rlt_dec _ _) as [L2|L2]; [|reflexivity]. destruct (interp_beyond _ _ O1 L2 NL) as [-> _]. unfold logs0. now rewrite last_map. }
    assert (Z2 : (if Rlt_dec (fst (last (flogs g data) (0, 0))) (g_log10 g E) then g_log10 g (snd (last data (0, 0))) else fnp_interp (flogs g data) (g_log10 g E)) = fnp_interp (flogs g data) (g_log10 g E)).
    { clear Z1. destruct (Rlt_dec _ _) as [L2|L2]; [|reflexivity]. destruct (interp_beyond _ _ O2 L2 NF) as [_ ->]. unfold flogs. now rewrite last_map. }
    rewrite Z1, Z2. apply Main; [| |exact T].
    + apply fnp_double. apply Forall_forall. intros p I. apply in_map_iff in I. destruct I as (q & <- & I). cbn [snd]. destruct (in_digits M S0 data F q I) as [_ Q]. apply (LOG _ Q).
    + apply interp_bound; [exact O1| |rewrite X0; now apply log10_le|exact NL]. apply Forall_forall. intros p I. apply in_map_iff in I. destruct I as (q & <- & I). cbn [snd]. destruct (in_digits M S0 data F q I) as [_ Q]. apply Q.
Qed.

(** ** The correctly rounded library *)
Lemma log10_away x : 0 < x -> double x -> x <> 1 -> / 2 ^ 60 <= Rabs (log10 x).
Proof.
  intros P D N. pose proof ln10_pos. pose proof ln10_le. unfold log10. unfold Rdiv. rewrite Rabs_mult, Rabs_inv, (Rabs_pos_eq (ln 10)) by lra.
  assert (X : / 2 ^ 58 <= Rabs (ln x)).
  { destruct (Rtotal_order x 1) as [L|[L|L]]; [|contradiction|].
    - assert (H1 : x <= 1 - / 18014398509481984). { apply Rnot_lt_le. intros H1. pose proof (rnd_below_one x (conj H1 L)) as Q. rewrite (rnd_id x D) in Q. contradiction. }
      rewrite <- Rabs_Ropp. eapply Rle_trans; [|apply Rle_abs]. pose proof (exp_ineq1_le (ln x)) as Q. rewrite exp_ln in Q by exact P. simpl. lra.
    - assert (H1 : 1 + / 9007199254740992 <= x). { apply Rnot_lt_le. intros H1. pose proof (rnd_above_one x ltac:(lra)) as Q. rewrite (rnd_id x D) in Q. contradiction. }
      eapply Rle_trans; [|apply Rle_abs]. pose proof (ln_ge (/ 9007199254740992) ltac:(lra)) as Q. assert (Y : ln (1 + / 9007199254740992) <= ln x) by (destruct H1 as [H1|<-]; [left; apply ln_increasing; lra|right; reflexivity]).
      eapply Rle_trans; [|exact (Rle_trans _ _ _ Q Y)]. simpl. lra. }
  apply Rle_trans with (/ 2 ^ 58 * / 4); [simpl; lra|]. apply Rmult_le_compat; [left; apply Rinv_0_lt_compat, pow_lt; lra|lra|exact X|]. apply Rinv_le_contravar; lra.
Qed.
Lemma rel_rnd x : bpow radix2 (-1022) <= Rabs x -> Rabs (rnd x - x) <= 2 * u * Rabs x.
Proof.
  intros H. destruct (rnd_error_normal x H) as (e & He & ->). replace (x * (1 + e) - x) with (x * e) by ring. rewrite Rabs_mult. pose proof (Rabs_pos x). pose proof u_pos. nra.
Qed.
Lemma correct_llib_ok : llib_ok correct_llib.
Proof.
  unfold llib_ok, correct_llib. cbn [g_log10 g_pow10]. change unit_roundoff with u. split; [|split].
  - intros x P D. split; [apply rnd_double|]. destruct (Req_EM_T x 1) as [->|N].
    + assert (Z : log10 1 = 0) by (unfold log10; rewrite ln_1; unfold Rdiv; ring). rewrite Z. unfold rnd. rewrite round_0 by typeclasses eauto. rewrite Rminus_0_r, Rabs_R0. lra.
    + apply rel_rnd. eapply Rle_trans; [|apply (log10_away x P D N)]. change (/ 2 ^ 60) with (/ 2 ^ 60). apply Rle_trans with (bpow radix2 (-60)); [apply bpow_le; lia|]. simpl. lra.
  - intros x y H. apply rnd_le. apply log10_le; lra.
  - intros y B D. split; [apply rnd_double|]. pose proof (pow10_pos y) as P. rewrite <- (Rabs_pos_eq (pow10 y)) at 3 by lra. apply rel_rnd. rewrite Rabs_pos_eq by lra.
    apply Rle_trans with (pow10 (-300)); [|apply pow10_le; apply Rabs_le_inv in B; lra].
    assert (Q : pow10 (-300) = / 10 ^ 300). { unfold pow10. replace (-300 * ln 10) with (- (INR 300 * ln 10)) by (rewrite (INR_IZR_INZ 300); simpl; ring). rewrite exp_Ropp. f_equal. rewrite <- (Rpower_pow 300 10) by lra. unfold Rpower. reflexivity. }
    rewrite Q. change (bpow radix2 (-1022)) with (/ IZR (2 ^ 1022)). replace (10 ^ 300) with (IZR (10 ^ 300)) by (rewrite (pow_IZR 10 300); reflexivity).
    apply Rinv_le_contravar; [apply IZR_lt; reflexivity|apply IZR_le]. apply Z.leb_le. vm_compute. reflexivity.
Qed.

(** ** Just below an absorption edge *)
Lemma log10_ten n : log10 (10 ^ n) = INR n.
Proof. unfold log10. rewrite <- (Rpower_pow n 10) by lra. unfold Rpower. rewrite ln_exp. pose proof ln10_pos. field. lra. Qed.
Lemma log_1 : log10 1 = 0. Proof. change 1 with (10 ^ 0) at 1. rewrite log10_ten. reflexivity. Qed.
Lemma log_100 : log10 100 = 2. Proof. replace 100 with (10 ^ 2) by lra. rewrite log10_ten. simpl. lra. Qed.
Lemma log_1000 : log10 1000 = 3. Proof. replace 1000 with (10 ^ 3) by lra. rewrite log10_ten. simpl. lra. Qed.
Lemma log_10000 : log10 10000 = 4. Proof. replace 10000 with (10 ^ 4) by lra. rewrite log10_ten. simpl. lra. Qed.
Definition edge_table : list (R * R) := [(1, 1); (1000, 1); (1000, 100); (10000, 100)].
Definition edge_energy : R := 1000 - / 2 ^ 43.
Lemma edge_table_ok : ftable 4 1 edge_table.
Proof.
  unfold ftable, edge_table. cbn [consecutive fst snd]. split.
  - repeat (apply List.Forall_cons); [..|constructor]; cbn [fst snd]; unfold digits; rewrite ?log_1, ?log_100, ?log_1000, ?log_10000; 
      repeat split; try lra; try (apply double_IZR; lia); apply Rabs_le; lra.
  - unfold lines. cbn [fst snd]. rewrite ?log_1, ?log_100, ?log_1000, ?log_10000. repeat split; [right|left; reflexivity|right]; (split; [|rewrite Rminus_eq_0, Rabs_R0; lra]).
    + assert (/ 2 ^ 40 <= 1) by (simpl; lra). lra.
    + assert (/ 2 ^ 40 <= 1) by (simpl; lra). lra.
Qed.
Lemma edge_double : double edge_energy.
Proof.
  replace edge_energy with (IZR 8796093022207999 * / 8796093022208) by (unfold edge_energy; simpl; field; lra).
  apply (double_scaled 8796093022207999 (-43)); [reflexivity|lia|lia].
Qed.
Lemma edge_log : rnd (log10 edge_energy) = 3.
Proof.
  assert (P : 0 < edge_energy < 1000) by (unfold edge_energy; simpl; lra).
  assert (U : log10 edge_energy < 3) by (rewrite <- log_1000; apply log10_incr; lra).
  assert (L : 3 - / 4503599627370496 < log10 edge_energy).
  { rewrite <- log_1000. unfold log10. pose proof ln10_pos as Q. assert (Q2 : 1 <= ln 10) by (apply Rnot_lt_le; intros Z2; apply exp_increasing in Z2; rewrite exp_ln in Z2 by lra; pose proof exp_le_3; lra).
    assert (X : ln 1000 - ln edge_energy <= / 8000000000000000).
    { assert (Y : ln 1000 - ln edge_energy = ln (1000 / edge_energy)) by (unfold Rdiv; rewrite ln_mult, ln_Rinv; [ring|lra|lra|apply Rinv_0_lt_compat; lra]). rewrite Y. pose proof (exp_ineq1_le (ln (1000 / edge_energy))) as Z3. rewrite exp_ln in Z3 by (apply Rdiv_lt_0_compat; lra).
      assert (Z4 : 1000 / edge_energy <= 1 + / 8000000000000000). { apply (Rmult_le_reg_r edge_energy); [lra|]. replace (1000 / edge_energy * edge_energy) with 1000 by (field; lra). unfold edge_energy. simpl. lra. } lra. }
    assert (Y : ln 1000 / ln 10 - ln edge_energy / ln 10 <= / 8000000000000000).
    { replace (ln 1000 / ln 10 - ln edge_energy / ln 10) with ((ln 1000 - ln edge_energy) * / ln 10) by (field; lra). assert (0 < / ln 10 <= 1) by (split; [apply Rinv_0_lt_compat; lra|]; apply Rle_trans with (/ 1); [apply Rinv_le_contravar; lra|lra]). nra. }
    lra. }
  rewrite (rnd_lit _ 6755399441055744 (-51) (/ 2251799813685248)); [lra|lia|lia|lia|reflexivity|lra..].
Qed.
Lemma rnd_nat_id z : (Z.abs z <= 2 ^ 53)%Z -> rnd (IZR z) = IZR z.
Proof. intros H. apply rnd_id. apply double_IZR. exact H. Qed.
Lemma edge_values : exists o o', XRMAC 4 edge_table = Ok o /\ finterpolate_log_log correct_llib 4 edge_table = Ok o' /\ xrmac_call o edge_energy = Ok 1 /\ fxrmac_call correct_llib o' edge_energy = Ok 100.
Proof.
  assert (N : edge_table <> []) by discriminate. destruct (builds correct_llib 4 1 4 edge_table correct_llib_ok edge_table_ok N (le_n _)) as [B1 B2].
  exists (o_exact edge_table), (o_float correct_llib edge_table). split; [exact B1|]. split; [exact B2|]. assert (P : 0 < edge_energy < 1000) by (unfold edge_energy; simpl; lra). assert (P1 : 1 < edge_energy) by (unfold edge_energy; simpl; lra).
  assert (U : log10 edge_energy < 3) by (rewrite <- log_1000; apply log10_incr; lra). assert (U0 : 0 < log10 edge_energy) by (rewrite <- log_1; apply log10_incr; lra).
  split.
  - unfold xrmac_call. destruct (Rlt_dec edge_energy 0); [lra|]. destruct (Req_EM_T edge_energy 0); [lra|]. f_equal.
    assert (Z : interp_eval (o_exact edge_table) (log10 edge_energy) = 0).
    { unfold interp_eval, o_exact, logs0, edge_table. cbn [i_points i_below i_above map fst snd hd last]. rewrite log_1, log_100, log_1000, log_10000. set (x := log10 edge_energy) in *. clearbody x.
      destruct (Rlt_dec x 0); [lra|]. destruct (Rlt_dec 4 x); [lra|]. rewrite np_step. destruct (Rlt_dec x 3); [|lra]. destruct (Req_EM_T x 0); [lra|]. field. }
    rewrite Z. unfold pow10. rewrite Rmult_0_l. apply exp_0.
  - unfold fxrmac_call. destruct (Rlt_dec edge_energy 0); [lra|]. destruct (Req_EM_T edge_energy 0); [lra|]. f_equal.
    assert (Z : finterp_eval (o_float correct_llib edge_table) (g_log10 correct_llib edge_energy) = 2).
    { unfold finterp_eval, o_float, flogs, edge_table. cbn [correct_llib g_log10 i_points i_below i_above map fst snd hd last]. rewrite edge_log, log_1, log_100, log_1000, log_10000. rewrite !rnd_nat_id by lia.
      destruct (Rlt_dec 3 0); [lra|]. destruct (Rlt_dec 4 3); [lra|]. rewrite fnp_step. destruct (Rlt_dec 3 3); [lra|]. rewrite fnp_step. destruct (Rlt_dec 3 3); [lra|]. rewrite fnp_step. destruct (Rlt_dec 3 4); [|lra]. destruct (Req_EM_T 3 3); [reflexivity|lra]. }
    rewrite Z. cbn [correct_llib g_pow10]. rewrite <- log_100, pow10_log10 by lra. apply rnd_nat_id. lia.
Qed.

Lemma digits_mono M M' x : M <= M' -> digits M x -> digits M' x.
Proof. intros H (A & B & C). repeat split; [exact A|exact B|lra]. Qed.
Lemma call_acc g M S0 minval data E : llib_ok g -> 1 <= M <= 100 -> 0 <= S0 -> (1 + S0) * M <= 2 ^ 30 -> ftable M S0 data -> data <> [] -> (minval <= length data)%nat ->
  E = 0 \/ digits 100 E -> (forall pre e c c' post, data = pre ++ (e, c) :: (e, c') :: post -> E < e -> E * (1 + / 2 ^ 40) <= e) ->
  exists o o' v V, XRMAC minval data = Ok o /\ finterpolate_log_log g minval data = Ok o' /\ xrmac_call o E = Ok V /\ fxrmac_call g o' E = Ok v /\
    0 < V /\ Rabs (v - V) <= 96 * (1 + S0) * M * unit_roundoff * V.
Proof.
  intros K HM HS HB F N Hl HE X. change unit_roundoff with u. apply call_err; try assumption.
  - destruct HE as [->|(H & _)]; lra.
  - destruct HE as [->|(_ & H & _)]; [apply double_0|exact H].
  - intros P pre e c c' post Q L. destruct HE as [->|HE]; [lra|]. apply (log_gap g 100 K ltac:(lra)); [exact HE| |apply (X pre e c c' post Q L)].
    apply (digits_mono M); [lra|]. apply (in_digits M S0 data F (e, c)). rewrite Q. apply in_elt.
Qed.
Lemma edge_far x : 1000 * (1 + / 2 ^ 40) <= x \/ x * (1 + / 2 ^ 40) <= 1000 -> forall pre e c c' post, edge_table = pre ++ (e, c) :: (e, c') :: post -> x < e -> x * (1 + / 2 ^ 40) <= e.
Proof.
  intros H pre e c c' post Q L. assert (e = 1000).
  { unfold edge_table in Q. destruct pre as [|p0 [|p1 [|p2 [|p3 pre]]]]; cbn [app] in Q; injection Q; intros; subst; try lra. all: try discriminate. destruct pre; discriminate. }
  subst e. destruct H as [H|H]; [|exact H]. assert (0 < / 2 ^ 40) by (apply Rinv_0_lt_compat, pow_lt; lra). lra.
Qed.
Lemma edge_refuted : exists g M S0 minval data E o o' v V, llib_ok g /\ 1 <= M <= 100 /\ 0 <= S0 /\ (1 + S0) * M <= 2 ^ 30 /\ ftable M S0 data /\ (minval <= length data)%nat /\ digits M E /\
  XRMAC minval data = Ok o /\ finterpolate_log_log g minval data = Ok o' /\ xrmac_call o E = Ok V /\ fxrmac_call g o' E = Ok v /\ v = 100 * V /\ 0 < V.
Proof.
  destruct edge_values as (o & o' & B1 & B2 & C1 & C2). exists correct_llib, 4, 1, 4%nat, edge_table, edge_energy, o, o', 100, 1.
  split; [exact correct_llib_ok|]. split; [lra|]. split; [lra|]. split; [simpl; lra|]. split; [exact edge_table_ok|]. split; [exact (le_n 4)|].
  split. { assert (P : 1 < edge_energy < 10000) by (unfold edge_energy; simpl; lra). split; [lra|]. split; [exact edge_double|]. apply Rabs_le. split; [apply Rle_trans with (log10 1); [rewrite log_1; lra|apply log10_le; lra]|rewrite <- log_10000; apply log10_le; lra]. }
  repeat (split; [first [eassumption|lra]|]). lra.
Qed.

(** ** Tabulated energies *)
Lemma fnp_skip pre r x : r <> [] -> ordered (pre ++ r) -> fst (hd (0, 0) r) <= x -> fnp_interp (pre ++ r) x = fnp_interp r x.
Proof.
  intros N. induction pre as [|[x0 y0] pre IH]; intros O H; [reflexivity|]. cbn [app] in *. apply StronglySorted_inv in O. destruct O as [O O']. specialize (IH O H).
  destruct (pre ++ r) as [|[x1 y1] q] eqn:Q; [destruct pre; [contradiction|discriminate]|]. rewrite fnp_step. destruct (Rlt_dec x x1) as [L|L]; [|exact IH].
  exfalso. assert (X : x1 <= fst (hd (0, 0) r)); [|lra]. destruct pre as [|p pre]; cbn [app] in Q.
  - rewrite Q. cbn. lra.
  - injection Q as -> Q. apply StronglySorted_inv in O. destruct O as [_ O]. rewrite List.Forall_forall in O. apply (O (hd (0, 0) r)). rewrite <- Q. apply in_or_app. right. destruct r; [contradiction|now left].
Qed.
Lemma suffix_table M S0 pre data : ftable M S0 (pre ++ data) -> ftable M S0 data.
Proof.
  intros [F C]. split; [apply Forall_app in F; apply F|]. clear F. induction pre as [|p pre IH]; [exact C|]. apply IH. cbn [app] in C. destruct (pre ++ data); [exact Logic.I|apply C].
Qed.
Lemma call_node_err g M S0 minval pre e c post : llib_ok g -> 1 <= M <= 100 -> ftable M S0 (pre ++ (e, c) :: post) -> (minval <= length (pre ++ (e, c) :: post))%nat ->
  (forall c' post', post <> (e, c') :: post') ->
  exists o v, finterpolate_log_log g minval (pre ++ (e, c) :: post) = Ok o /\ fxrmac_call g o e = Ok v /\ Rabs (v - c) <= 10 * M * unit_roundoff * c.
Proof.
  intros K HM F Hl Hp. change unit_roundoff with u. set (data := pre ++ (e, c) :: post) in *. assert (N : data <> []) by (unfold data; destruct pre; discriminate).
  destruct (builds g M S0 minval data K F N Hl) as [_ B2]. destruct (ordered_logs g M S0 data K F) as [_ O]. exists (o_float g data). eexists. split; [exact B2|].
  assert (I : In (e, c) data) by apply in_elt. destruct (in_digits M S0 data F _ I) as [D1 D2]. cbn [fst snd] in *.
  unfold fxrmac_call. destruct D1 as (P & D1). destruct (Rlt_dec e 0); [lra|]. destruct (Req_EM_T e 0); [lra|]. split; [reflexivity|].
  assert (Z : finterp_eval (o_float g data) (g_log10 g e) = g_log10 g c).
  { unfold finterp_eval. cbn [o_float i_points i_below i_above].
    assert (Q : flogs g data = flogs g pre ++ flogs g ((e, c) :: post)) by (unfold flogs, data; apply map_app).
    assert (V : fnp_interp (flogs g data) (g_log10 g e) = g_log10 g c).
    { rewrite Q, fnp_skip; [|discriminate|now rewrite <- Q|cbn; lra]. apply (fnode g M S0 K HM); [apply (suffix_table M S0 pre); exact F|exact Hp]. }
    rewrite V. assert (Q2 : In (g_log10 g e, g_log10 g c) (flogs g data)) by (unfold flogs; apply in_map_iff; exists (e, c); split; [reflexivity|exact I]).
    clear V Q. destruct (flogs g data) as [|p r] eqn:QF; [contradiction|]. cbn [hd]. apply StronglySorted_inv in O as O'. destruct O' as [_ O']. rewrite List.Forall_forall in O'.
    destruct (Rlt_dec (g_log10 g e) (fst p)) as [L|L].
    - exfalso. destruct Q2 as [->|Q2]; [cbn in L; lra|]. specialize (O' _ Q2). cbn in O'. lra.
    - destruct (Rlt_dec (fst (last (p :: r) (0, 0))) (g_log10 g e)) as [L2|L2]; [|reflexivity]. exfalso. clear - O Q2 L2.
      assert (X : forall l q, ordered l -> In q l -> fst q <= fst (last l (0, 0))).
      { clear. induction l as [|a r IH]; intros q O I; [contradiction|]. destruct r as [|b r]; [destruct I as [->|[]]; cbn; lra|]. change (last (a :: b :: r) (0, 0)) with (last (b :: r) (0, 0)). apply StronglySorted_inv in O. destruct O as [O O']. destruct I as [->|I]; [|now apply IH]. rewrite List.Forall_forall in O'. apply O'. apply last_in. discriminate. }
      specialize (X _ _ O Q2). cbn [fst] in X. lra. }
  rewrite Z. destruct (log_err g M K c D2) as (DL & EL). pose proof D2 as (Pc & _ & Bc). pose proof u_pos as PU. assert (U2 : 2 * u * M <= / 24) by (unfold u; simpl; lra).
  pose proof (fpow_close g (g_log10 g c) (log10 c) (2 * u * M) K DL ltac:(lra) ltac:(split; [|exact U2]; apply Rmult_le_pos; lra) EL) as X. rewrite pow10_log10 in X by exact Pc.
  eapply Rle_trans; [exact X|]. apply Rmult_le_compat_r; [lra|]. assert (u <= u * M) by nra. lra.
Qed.
