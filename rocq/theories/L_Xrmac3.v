(** The interpolated attenuation coefficient as a function of the energy: continuity, edges, variation, integral. *)
From Coq Require Import Reals List ZArith Lra Lia Sorted Psatz.
From Coquelicot Require Import Coquelicot.
From Verif Require Import Py Spec M_Num M_Grid M_CrossSection M_Xrmac S_Xrmac L_Xrmac L_Xrmac2 M_Darboux L_RInt L_Darboux L_Darboux2.
Import ListNotations.
Open Scope R_scope.
Open Scope list_scope.

(** ** Interpolation with constant continuation *)
Definition piece (x0 y0 x1 y1 x : R) : R := (y1 - y0) / (x1 - x0) * (Rmax x0 x - x0) + y0.
Fixpoint gi (l : list (R * R)) (x : R) : R :=
  match l with
  | [] => 0
  | [(x0, y0)] => y0
  | (x0, y0) :: (((x1, y1) :: _) as r) => if Rlt_dec x x1 then piece x0 y0 x1 y1 x else gi r x
  end.
Lemma piece_left x0 y0 x1 y1 x : x <= x0 -> piece x0 y0 x1 y1 x = y0.
Proof. intros H. unfold piece. rewrite Rmax_left by lra. ring. Qed.
Lemma piece_right x0 y0 x1 y1 : x0 < x1 -> piece x0 y0 x1 y1 x1 = y1.
Proof. intros H. unfold piece. rewrite Rmax_right by lra. field. lra. Qed.
Lemma gi_cons x0 y0 x1 y1 r x : gi ((x0, y0) :: (x1, y1) :: r) x = if Rlt_dec x x1 then piece x0 y0 x1 y1 x else gi ((x1, y1) :: r) x.
Proof. reflexivity. Qed.
Lemma gi_below x0 y0 r x : ordered ((x0, y0) :: r) -> x < x0 -> gi ((x0, y0) :: r) x = y0.
Proof.
  intros Or H. destruct r as [|[x1 y1] r]; [reflexivity|]. rewrite gi_cons. inversion Or as [|? ? _ F]; subst. apply List.Forall_inv in F. cbn in F.
  destruct Rlt_dec; [|lra]. apply piece_left. lra.
Qed.
Lemma gi_interp l x : ordered l -> l <> [] -> fst (hd (0, 0) l) <= x -> np_interp l x = gi l x.
Proof.
  induction l as [|[x0 y0] l IH]; intros Or N H; [contradiction|]. destruct l as [|[x1 y1] r]; [reflexivity|]. rewrite gi_cons. cbn [hd fst] in H.
  destruct (Rlt_dec x x1) as [L|L].
  - rewrite interp_between by assumption. unfold piece. now rewrite Rmax_right.
  - cbn [np_interp]. destruct (Rlt_dec x x1); [contradiction|]. apply IH; [now inversion Or|discriminate|cbn; lra].
Qed.
Lemma gi_above l x : ordered l -> l <> [] -> fst (last l (0, 0)) <= x -> gi l x = snd (last l (0, 0)).
Proof.
  induction l as [|[x0 y0] l IH]; intros Or N H; [contradiction|]. destruct l as [|[x1 y1] r]; [reflexivity|]. rewrite gi_cons. change (last ((x0, y0) :: (x1, y1) :: r) (0, 0)) with (last ((x1, y1) :: r) (0, 0)) in *.
  inversion Or as [|? ? Or' F]; subst. destruct (Rlt_dec x x1) as [L|L]; [|apply IH; [exact Or'|discriminate|exact H]]. exfalso.
  assert (K : x1 <= fst (last ((x1, y1) :: r) (0, 0))); [|lra].
  inversion Or' as [|? ? _ F1]; subst. assert (I : In (last ((x1, y1) :: r) (0, 0)) ((x1, y1) :: r)).
  { rewrite (app_removelast_last (0, 0) (l := (x1, y1) :: r)) at 2 by discriminate. apply in_or_app. right. now left. }
  destruct I as [<-|I]; [cbn; lra|]. rewrite List.Forall_forall in F1. apply (F1 _ I).
Qed.
Lemma call_gi minval data o E : table_ok data -> ascending (map fst data) -> XRMAC minval data = Ok o -> 0 < E ->
  xrmac_call o E = Ok (pow10 (gi (logs data) (log10 E))).
Proof.
  intros T A HO HE. pose proof (logs_ordered data T A) as Or. pose proof T as [N _]. assert (NL : logs data <> []) by (destruct data; [contradiction|discriminate]).
  destruct (data_pos data T _ (hd_in data T)) as [P1 P2]. destruct (data_pos data T _ (L_Xrmac.last_in data T)) as [P3 P4].
  destruct (Rlt_dec E (fst (hd (0, 0) data))) as [L|L].
  - rewrite (call_below minval data o T A HO E) by lra. destruct data as [|[e c] r]; [contradiction|]. cbn [hd fst snd] in *. f_equal. cbn [logs map]. change (map (fun p => (log10 (fst p), log10 (snd p))) r) with (logs r).
    rewrite gi_below; [now rewrite pow10_log10|exact Or|]. now apply log10_incr.
  - destruct (Rlt_dec (fst (last data (0, 0))) E) as [L'|L'].
    + rewrite (call_above minval data o T A HO E) by exact L'. f_equal. pose proof (last_logs data T) as LL. rewrite gi_above; [|exact Or|exact NL|rewrite LL; apply log10_le; lra].
      replace (snd (last (logs data) (0, 0))) with (log10 (snd (last data (0, 0)))); [now rewrite pow10_log10|]. unfold logs. rewrite (app_removelast_last (0, 0) N) at 2. rewrite map_app. cbn. now rewrite last_last.
    + rewrite (call_inside minval data o T A HO E) by lra. f_equal. f_equal. apply gi_interp; [exact Or|exact NL|]. rewrite (hd_logs data T). apply log10_le; lra.
Qed.

(** ** Continuity *)
Lemma piece_continuous x0 y0 x1 y1 x : continuous (piece x0 y0 x1 y1) x.
Proof.
  unfold piece. apply (continuous_plus (V := R_NormedModule)); [|apply continuous_const]. apply (continuous_mult (K := R_AbsRing)); [apply continuous_const|]. apply (continuous_minus (V := R_NormedModule)); [|apply continuous_const].
  apply continuity_pt_filterlim. intros eps He. exists eps. split; [exact He|]. intros t [_ Ht]. cbn in *. unfold R_dist in *. eapply Rle_lt_trans; [|exact Ht].
  unfold Rmax, Rabs. repeat destruct Rle_dec; repeat destruct Rcase_abs; lra.
Qed.
(** The abscissa occurs at most once. *)
Definition lone (x : R) (l : list (R * R)) : Prop := forall pre y y' post, l <> pre ++ (x, y) :: (x, y') :: post.
Lemma lone_tail x p l : lone x (p :: l) -> lone x l.
Proof. intros H pre y y' post E. apply (H (p :: pre) y y' post). now rewrite E. Qed.
Lemma glue (f g h : R -> R) b : continuous f b -> continuous g b -> f b = g b -> (forall x, x < b -> h x = f x) -> (forall x, b <= x -> h x = g x) -> continuous h b.
Proof.
  intros F G E Hf Hg. apply continuity_pt_filterlim in F. apply continuity_pt_filterlim in G. apply continuity_pt_filterlim. intros eps He. destruct (F eps He) as (d1 & D1 & F1). destruct (G eps He) as (d2 & D2 & G2).
  exists (Rmin d1 d2). split; [now apply Rmin_pos|]. intros x [_ Hx]. cbn in *. unfold R_dist in *. rewrite (Hg b (Rle_refl b)). destruct (Req_dec x b) as [->|Ne].
  - rewrite (Hg b (Rle_refl b)). rewrite Rminus_diag_eq by reflexivity. rewrite Rabs_R0. lra.
  - destruct (Rlt_or_le x b) as [L|L].
    + rewrite Hf, <- E by exact L. apply F1. split; [split; [exact I|auto]|]. eapply Rlt_le_trans; [exact Hx|apply Rmin_l].
    + rewrite Hg by exact L. apply G2. split; [split; [exact I|auto]|]. eapply Rlt_le_trans; [exact Hx|apply Rmin_r].
Qed.
Lemma locally_lt (P : R -> Prop) x b : x < b -> (forall t, t < b -> P t) -> locally x P.
Proof. intros H F. exists (mkposreal (b - x) ltac:(lra)). intros t Ht. apply F. unfold ball in Ht. cbn in Ht. unfold AbsRing_ball, abs, minus, plus, opp in Ht. cbn in Ht. apply Rabs_def2 in Ht. lra. Qed.
Lemma locally_gt (P : R -> Prop) x b : b < x -> (forall t, b < t -> P t) -> locally x P.
Proof. intros H F. exists (mkposreal (x - b) ltac:(lra)). intros t Ht. apply F. unfold ball in Ht. cbn in Ht. unfold AbsRing_ball, abs, minus, plus, opp in Ht. cbn in Ht. apply Rabs_def2 in Ht. lra. Qed.
Lemma gi_node x y l : ordered ((x, y) :: l) -> lone x ((x, y) :: l) -> gi ((x, y) :: l) x = y.
Proof.
  intros Or Lo. destruct l as [|[x1 y1] r]; [reflexivity|]. rewrite gi_cons. inversion Or as [|? ? _ F]; subst. apply List.Forall_inv in F. cbn in F.
  destruct (Rlt_dec x x1); [apply piece_left; lra|]. exfalso. apply (Lo [] y y1 r). cbn. replace x1 with x by lra. reflexivity.
Qed.
Lemma gi_continuous l x : ordered l -> lone x l -> continuous (gi l) x.
Proof.
  induction l as [|[x0 y0] l IH]; intros Or Lo; [apply (continuous_const (V := R_UniformSpace) 0)|]. destruct l as [|[x1 y1] r]; [apply (continuous_const (V := R_UniformSpace) y0)|].
  inversion Or as [|? ? Or' F]; subst. pose proof (List.Forall_inv F) as F1. cbn in F1. pose proof (lone_tail _ _ _ Lo) as Lo'.
  destruct (Rtotal_order x x1) as [L|[->|L]].
  - apply (continuous_ext_loc _ (piece x0 y0 x1 y1)); [|apply piece_continuous]. apply (locally_lt _ x x1 L). intros t Ht. rewrite gi_cons. destruct Rlt_dec; [reflexivity|lra].
  - assert (x0 < x1). { destruct F1 as [|E]; [assumption|]. exfalso. apply (Lo [] y0 y1 r). cbn. now rewrite E. }
    apply (glue (piece x0 y0 x1 y1) (gi ((x1, y1) :: r))); [apply piece_continuous|now apply IH| | |].
    + rewrite piece_right by assumption. symmetry. now apply gi_node.
    + intros t Ht. rewrite gi_cons. destruct Rlt_dec; [reflexivity|lra].
    + intros t Ht. rewrite gi_cons. destruct Rlt_dec; [lra|reflexivity].
  - apply (continuous_ext_loc _ (gi ((x1, y1) :: r))); [|now apply IH]. apply (locally_gt _ x x1 L). intros t Ht. rewrite gi_cons. destruct Rlt_dec; [lra|reflexivity].
Qed.
(** At a repeated abscissa. *)
Lemma gi_prefix pre x y l t : ordered (pre ++ (x, y) :: l) -> t < x -> gi (pre ++ (x, y) :: l) t = gi (pre ++ [(x, y)]) t.
Proof.
  induction pre as [|[a b] pre IH]; intros Or H; cbn [app] in *.
  - now rewrite gi_below.
  - destruct pre as [|[a' b'] pre]; cbn [app] in *; rewrite !gi_cons; destruct Rlt_dec; try reflexivity; [lra|]. apply IH; [now inversion Or|exact H].
Qed.
Lemma gi_suffix pre x y l t : ordered (pre ++ (x, y) :: l) -> x <= t -> gi (pre ++ (x, y) :: l) t = gi ((x, y) :: l) t.
Proof.
  induction pre as [|[a b] pre IH]; intros Or H; cbn [app] in *; [reflexivity|]. assert (Or' : ordered (pre ++ (x, y) :: l)) by now inversion Or.
  destruct pre as [|[a' b'] pre]; cbn [app] in *; rewrite gi_cons; (destruct Rlt_dec as [L|]; [exfalso|now apply IH]).
  - lra.
  - inversion Or' as [|? ? _ F]; subst. rewrite List.Forall_forall in F. specialize (F (x, y) ltac:(apply in_or_app; right; now left)). cbn in F. lra.
Qed.

(** ** Variation *)
Lemma ordered_tail p l : ordered (p :: l) -> ordered l. Proof. now inversion 1. Qed.
Lemma piece_mono x0 y0 x1 y1 s t : x0 <= x1 -> s <= t -> t < x1 ->
  (y0 <= y1 -> y0 <= piece x0 y0 x1 y1 s <= piece x0 y0 x1 y1 t /\ piece x0 y0 x1 y1 t <= y1) /\
  (y1 <= y0 -> y1 <= piece x0 y0 x1 y1 t <= piece x0 y0 x1 y1 s /\ piece x0 y0 x1 y1 s <= y0).
Proof.
  intros H Hst Ht. destruct H as [H| ->]; [|rewrite !piece_left by lra; lra].
  unfold piece. set (a := (Rmax x0 s - x0) / (x1 - x0)). set (b := (Rmax x0 t - x0) / (x1 - x0)).
  replace ((y1 - y0) / (x1 - x0) * (Rmax x0 s - x0) + y0) with ((y1 - y0) * a + y0) by (unfold a; field; lra).
  replace ((y1 - y0) / (x1 - x0) * (Rmax x0 t - x0) + y0) with ((y1 - y0) * b + y0) by (unfold b; field; lra).
  assert (I0 : 0 < / (x1 - x0)) by (apply Rinv_0_lt_compat; lra).
  assert (A0 : 0 <= a) by (unfold a; pose proof (Rmax_l x0 s); apply Rmult_le_pos; lra).
  assert (AB : a <= b) by (unfold a, b; apply Rmult_le_compat_r; [lra|]; pose proof (Rle_max_compat_l s t x0 Hst); lra).
  assert (B1 : b <= 1). { unfold b. apply (Rmult_le_reg_r (x1 - x0)); [lra|]. unfold Rdiv. rewrite Rmult_assoc, Rinv_l by lra. assert (Rmax x0 t <= x1) by (apply Rmax_lub; lra). lra. }
  split; intros; split; nra.
Qed.
(** Distance covered by [P (gi l x)] from -infinity to x. *)
Fixpoint var (P : R -> R) (l : list (R * R)) (x : R) : R :=
  match l with
  | [] => 0
  | [_] => 0
  | (x0, y0) :: (((x1, y1) :: _) as r) => if Rlt_dec x x1 then Rabs (P (piece x0 y0 x1 y1 x) - P y0) else Rabs (P y1 - P y0) + var P r x
  end.
Lemma var_cons P x0 y0 x1 y1 r x : var P ((x0, y0) :: (x1, y1) :: r) x = if Rlt_dec x x1 then Rabs (P (piece x0 y0 x1 y1 x) - P y0) else Rabs (P y1 - P y0) + var P ((x1, y1) :: r) x.
Proof. reflexivity. Qed.
Fixpoint steps (l : list R) : R :=
  match l with a :: ((b :: _) as r) => Rabs (b - a) + steps r | _ => 0 end.
Lemma steps_nonneg l : 0 <= steps l.
Proof. induction l as [|a [|b l] IH]; cbn in *; try lra. pose proof (Rabs_pos (b - a)). lra. Qed.
Section Var.
  Variable P : R -> R.
  Hypothesis HP : forall x y, x <= y -> P x <= P y.
  Lemma P_piece x0 y0 x1 y1 s t : x0 <= x1 -> s <= t -> t < x1 ->
    (P y0 <= P (piece x0 y0 x1 y1 s) /\ P (piece x0 y0 x1 y1 s) <= P (piece x0 y0 x1 y1 t) /\ P (piece x0 y0 x1 y1 t) <= P y1) \/
    (P y1 <= P (piece x0 y0 x1 y1 t) /\ P (piece x0 y0 x1 y1 t) <= P (piece x0 y0 x1 y1 s) /\ P (piece x0 y0 x1 y1 s) <= P y0).
  Proof.
    intros H1 H2 H3. destruct (piece_mono x0 y0 x1 y1 s t H1 H2 H3) as [A B]. destruct (Rle_or_lt y0 y1) as [L|L].
    - left. destruct (A L) as [[? ?] ?]. repeat split; now apply HP.
    - right. destruct (B (Rlt_le _ _ L)) as [[? ?] ?]. repeat split; now apply HP.
  Qed.
  Lemma var_head x0 y0 l x : ordered ((x0, y0) :: l) -> x < x0 -> var P ((x0, y0) :: l) x = 0.
  Proof.
    intros Or H. destruct l as [|[x1 y1] r]; [reflexivity|]. rewrite var_cons. inversion Or as [|? ? _ F]; subst. apply List.Forall_inv in F. cbn in F. destruct Rlt_dec; [|lra]. rewrite piece_left by lra. rewrite Rminus_diag_eq by reflexivity. apply Rabs_R0.
  Qed.
  Lemma var_diff l s t : ordered l -> s <= t -> Rabs (P (gi l s) - P (gi l t)) <= var P l t - var P l s.
  Proof.
    revert s. induction l as [|[x0 y0] l IH]; intros s Or H; [cbn; rewrite Rminus_diag_eq by reflexivity; rewrite Rabs_R0; lra|].
    destruct l as [|[x1 y1] r]; [cbn; rewrite Rminus_diag_eq by reflexivity; rewrite Rabs_R0; lra|].
    pose proof (ordered_tail _ _ Or) as Or'. inversion Or as [|? ? _ F]; subst. apply List.Forall_inv in F. cbn in F. rewrite !gi_cons, !var_cons.
    destruct (Rlt_dec t x1) as [Lt|Lt], (Rlt_dec s x1) as [Ls|Ls]; try lra.
    - destruct (P_piece x0 y0 x1 y1 s t F H Lt) as [(A & B & C)|(A & B & C)].
      + rewrite (Rabs_left1 (P (piece x0 y0 x1 y1 s) - P (piece x0 y0 x1 y1 t))), !Rabs_pos_eq by lra. lra.
      + rewrite (Rabs_pos_eq (P (piece x0 y0 x1 y1 s) - P (piece x0 y0 x1 y1 t))), !Rabs_left1 by lra. lra.
    - assert (K : Rabs (P y1 - P (gi ((x1, y1) :: r) t)) <= var P ((x1, y1) :: r) t).
      { specialize (IH (x1 - 1) Or' ltac:(lra)). rewrite gi_below, (var_head x1 y1 r (x1 - 1)) in IH by (try exact Or'; lra). lra. }
      assert (K2 : Rabs (P (piece x0 y0 x1 y1 s) - P y1) <= Rabs (P y1 - P y0) - Rabs (P (piece x0 y0 x1 y1 s) - P y0)).
      { destruct (P_piece x0 y0 x1 y1 s s F (Rle_refl s) Ls) as [(A & B & C)|(A & B & C)].
        - rewrite (Rabs_left1 (P (piece x0 y0 x1 y1 s) - P y1)), !Rabs_pos_eq by lra. lra.
        - rewrite (Rabs_pos_eq (P (piece x0 y0 x1 y1 s) - P y1)), !Rabs_left1 by lra. lra. }
      replace (P (piece x0 y0 x1 y1 s) - P (gi ((x1, y1) :: r) t)) with ((P (piece x0 y0 x1 y1 s) - P y1) + (P y1 - P (gi ((x1, y1) :: r) t))) by ring. eapply Rle_trans; [apply Rabs_triang|]. lra.
    - specialize (IH s Or' H). lra.
  Qed.
  Lemma var_bounds l x : ordered l -> 0 <= var P l x <= steps (map (fun p => P (snd p)) l).
  Proof.
    induction l as [|[x0 y0] l IH]; intros Or; [cbn; lra|]. destruct l as [|[x1 y1] r]; [cbn; lra|]. rewrite var_cons. cbn [map snd].
    change (steps (P y0 :: P y1 :: map (fun p => P (snd p)) r)) with (Rabs (P y1 - P y0) + steps (map (fun p => P (snd p)) ((x1, y1) :: r))).
    specialize (IH (ordered_tail _ _ Or)). pose proof (steps_nonneg (map (fun p => P (snd p)) ((x1, y1) :: r))). inversion Or as [|? ? _ F]; subst. apply List.Forall_inv in F. cbn in F.
    destruct (Rlt_dec x x1) as [L|L]; [|pose proof (Rabs_pos (P y1 - P y0)); lra]. split; [apply Rabs_pos|].
    destruct (P_piece x0 y0 x1 y1 x x F (Rle_refl x) L) as [(A & B & C)|(A & B & C)]; [rewrite !Rabs_pos_eq by lra|rewrite !Rabs_left1 by lra]; lra.
  Qed.
  Lemma gi_descending l s t : ordered l -> StronglySorted Rge (map snd l) -> s <= t -> P (gi l t) <= P (gi l s).
  Proof.
    revert s. induction l as [|[x0 y0] l IH]; intros s Or D H; [cbn; lra|]. destruct l as [|[x1 y1] r]; [cbn; lra|].
    pose proof (ordered_tail _ _ Or) as Or'. inversion Or as [|? ? _ F]; subst. apply List.Forall_inv in F. cbn in F. cbn [map snd] in D. inversion D as [|? ? D' G]; subst. apply List.Forall_inv in G. rewrite !gi_cons.
    destruct (Rlt_dec t x1) as [Lt|Lt], (Rlt_dec s x1) as [Ls|Ls]; try lra.
    - apply HP. apply piece_mono; lra.
    - specialize (IH (x1 - 1) Or' D' ltac:(lra)). rewrite (gi_below x1 y1 r (x1 - 1)) in IH by (try exact Or'; lra). eapply Rle_trans; [exact IH|]. apply HP. apply (piece_mono x0 y0 x1 y1 s s); lra.
    - now apply IH.
  Qed.
End Var.

(** ** Integrals *)
Lemma cont_pow10 x : continuous pow10 x.
Proof. unfold pow10. apply (continuous_comp (fun y => y * ln 10) exp); [|apply continuous_exp]. apply (continuous_mult (K := R_AbsRing)); [apply continuous_id|apply continuous_const]. Qed.
Lemma cont_log10 x : 0 < x -> continuous log10 x.
Proof. intros H. unfold log10. apply (continuous_mult (K := R_AbsRing)); [|apply continuous_const]. apply continuity_pt_filterlim. apply derivable_continuous_pt. exists (/ x). now apply derivable_pt_lim_ln. Qed.
Lemma comp_log (g : R -> R) E : 0 < E -> continuous g (log10 E) -> continuous (fun E => pow10 (g (log10 E))) E.
Proof. intros H G. apply (continuous_comp (fun E => g (log10 E)) pow10); [|apply cont_pow10]. apply (continuous_comp log10 g); [now apply cont_log10|exact G]. Qed.
Lemma gi_integrable l a b : ordered l -> List.Forall (fun p => exists e, 0 < e /\ fst p = log10 e) l -> 0 < a -> a <= b ->
  ex_RInt (fun E => pow10 (gi l (log10 E))) a b.
Proof.
  revert a. induction l as [|[x0 y0] l IH]; intros a Or Fl Ha Hab; [apply (ex_RInt_const (V := R_NormedModule) a b (pow10 0))|]. destruct l as [|[x1 y1] r]; [apply (ex_RInt_const (V := R_NormedModule) a b (pow10 y0))|].
  pose proof (ordered_tail _ _ Or) as Or'. inversion Fl as [|? ? _ Fl']; subst. pose proof (List.Forall_inv Fl') as (e & He & Ee). cbn in Ee. subst x1.
  assert (Pc : forall u v, 0 < u -> u <= v -> ex_RInt (fun E => pow10 (piece x0 y0 (log10 e) y1 (log10 E))) u v).
  { intros u v Hu Huv. apply (ex_RInt_continuous (V := R_CompleteNormedModule)). intros z Hz. rewrite Rmin_left in Hz by lra. apply comp_log; [lra|]. apply piece_continuous. }
  assert (Lo : forall v, v <= e -> a <= v -> ex_RInt (fun E => pow10 (gi ((x0, y0) :: (log10 e, y1) :: r) (log10 E))) a v).
  { intros v Hv Hav. apply (ex_RInt_ext (fun E => pow10 (piece x0 y0 (log10 e) y1 (log10 E)))); [|now apply Pc]. rewrite Rmin_left, Rmax_right by lra. intros z Hz. rewrite gi_cons. destruct Rlt_dec as [|L]; [reflexivity|]. exfalso. apply L. apply log10_incr; lra. }
  assert (Hi : forall u, 0 < u -> e <= u -> u <= b -> ex_RInt (fun E => pow10 (gi ((x0, y0) :: (log10 e, y1) :: r) (log10 E))) u b).
  { intros u Hu Heu Hub. apply (ex_RInt_ext (fun E => pow10 (gi ((log10 e, y1) :: r) (log10 E)))); [|now apply IH]. rewrite Rmin_left, Rmax_right by lra. intros z Hz. rewrite gi_cons. destruct Rlt_dec as [L|]; [|reflexivity]. exfalso. apply log10_lt_inv in L; lra. }
  destruct (Rle_or_lt b e) as [B|B]; [now apply Lo|]. destruct (Rle_or_lt e a) as [A|A]; [now apply Hi|].
  apply (ex_RInt_Chasles _ a e b); [apply Lo; lra|apply Hi; lra].
Qed.
Lemma sums_var f W x h : x <> [] -> ascending x -> ex_RInt f (first x) (final x) ->
  (forall s t, first x <= s -> s <= t -> t <= final x -> Rabs (f s - f t) <= W t - W s) -> (forall a b, In (a, b) (cells x) -> b - a <= h) ->
  Rabs (RInt f (first x) (final x) - lower f x) <= h * (W (final x) - W (first x)) /\
  upper f x - lower f x <= h * (W (final x) - W (first x)).
Proof.
  intros N. induction x as [|a x IH]; intros A E O Hh; [contradiction|]. destruct x as [|b x].
  { unfold lower, upper, first, final. simpl. rewrite RInt_point_R. rewrite !Rminus_diag_eq by reflexivity. rewrite Rabs_R0. lra. }
  assert (AB : a <= b) by (apply (ascending_cells _ _ _ A); rewrite cells_cons; now left).
  inversion A as [|? ? A' FA]; subst. pose proof (ascending_first_final _ _ A') as BF.
  unfold first in *. cbn [hd] in *. rewrite final_cons in *.
  assert (E1 : ex_RInt f a b) by (apply ex_RInt_left with (final (b :: x)); auto).
  assert (E2 : ex_RInt f b (final (b :: x))) by (apply ex_RInt_right with a; auto).
  destruct IH as [I1 I2]; [discriminate|exact A'|exact E2|intros s t H1 H2 H3; apply O; lra|intros u v UV; apply Hh; rewrite cells_cons; now right|].
  pose proof (Hh a b ltac:(rewrite cells_cons; now left)) as H0.
  assert (Mono : forall s t, a <= s -> s <= t -> t <= b -> W s <= W t) by (intros s t H1 H2 H3; specialize (O s t H1 H2 ltac:(lra)); pose proof (Rabs_pos (f s - f t)); lra).
  assert (O1 : forall s t, a <= s <= b -> a <= t <= b -> Rabs (f s - f t) <= W b - W a).
  { intros s t Hs Ht. destruct (Rle_or_lt s t) as [L|L].
    - eapply Rle_trans; [apply O; lra|]. pose proof (Mono a s ltac:(lra) ltac:(lra) ltac:(lra)). pose proof (Mono t b ltac:(lra) ltac:(lra) ltac:(lra)). lra.
    - rewrite Rabs_minus_sym. eapply Rle_trans; [apply O; lra|]. pose proof (Mono a t ltac:(lra) ltac:(lra) ltac:(lra)). pose proof (Mono s b ltac:(lra) ltac:(lra) ltac:(lra)). lra. }
  pose proof (cell_close f a b _ AB E1 O1) as C.
  pose proof (O1 b a ltac:(lra) ltac:(lra)) as D. rewrite <- Rmax_minus_Rmin in D.
  rewrite lower_cons, upper_cons. pose proof (RInt_join f a b (final (b :: x)) E1 E2) as Ch.
  pose proof (Mono a b ltac:(lra) ltac:(lra) ltac:(lra)) as M. assert (HW : (W b - W a) * (b - a) <= h * (W b - W a)) by nra.
  apply Rabs_le_between in I1. apply Rabs_le_between in C. split; [apply Rabs_le_between|]; nra.
Qed.
Lemma darboux_variation f W x h : x <> [] -> ascending x -> ex_RInt f (first x) (final x) ->
  (forall s t, first x <= s -> s <= t -> t <= final x -> Rabs (f s - f t) <= W t - W s) -> (forall a b, In (a, b) (cells x) -> b - a <= h) ->
  exists L d, darboux (vectorized f) x = Ok (L, d) /\
    Rabs (L - RInt f (first x) (final x)) <= h * (W (final x) - W (first x)) /\ d <= h * (W (final x) - W (first x)).
Proof.
  intros N A E O Hh. destruct (sums_var f W x h N A E O Hh) as [H1 H2]. exists (lower f x), (upper f x - lower f x). rewrite darboux_ascending by assumption.
  split; [reflexivity|]. split; [|exact H2]. rewrite Rabs_minus_sym. exact H1.
Qed.
