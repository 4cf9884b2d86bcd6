(** Properties of the interpolated attenuation coefficient as a function of the energy. *)
From Coq Require Import Reals List ZArith Lra Lia Sorted Psatz.
From Coquelicot Require Import Coquelicot.
From Verif Require Import Py Spec M_Num M_Grid M_CrossSection M_Xrmac S_Xrmac L_Xrmac L_Xrmac2 M_Darboux L_RInt L_Darboux L_Darboux2 L_Xrmac3 S_Xrmac2.
Import ListNotations.
Open Scope R_scope.
Open Scope list_scope.

Lemma ordered_app l m : ordered (l ++ m) -> ordered l /\ ordered m.
Proof.
  induction l as [|p l IH]; cbn; intros H; [split; [constructor|exact H]|]. inversion H as [|? ? H' F]; subst. destruct (IH H') as [A B]. split; [|exact B].
  constructor; [exact A|]. apply List.Forall_app in F. apply F.
Qed.
Lemma logs_app l m : logs (l ++ m) = logs l ++ logs m. Proof. apply map_app. Qed.
Lemma logs_nodes data : List.Forall (fun p => 0 < fst p /\ 0 < snd p) data -> List.Forall (fun p => exists e, 0 < e /\ fst p = log10 e) (logs data).
Proof. intros F. unfold logs. apply List.Forall_map. eapply List.Forall_impl; [|exact F]. cbn. intros p [H _]. now exists (fst p). Qed.
Lemma map_split {A B} (g : A -> B) l pre x y post : map g l = pre ++ x :: y :: post -> exists pre' x' y' post', l = pre' ++ x' :: y' :: post' /\ g x' = x /\ g y' = y.
Proof.
  intros H. apply map_eq_app in H. destruct H as (p & q & -> & _ & H). destruct q as [|x' [|y' q]]; try discriminate. cbn in H. injection H as <- <- _. now exists p, x', y', q.
Qed.
Lemma logs_lone data E : List.Forall (fun p => 0 < fst p /\ 0 < snd p) data -> 0 < E -> no_edge E data -> lone (log10 E) (logs data).
Proof.
  intros F HE H pre y y' post K. apply map_split in K. destruct K as (p & [e1 c1] & [e2 c2] & q & -> & K1 & K2). cbn in *. injection K1 as K1 _. injection K2 as K2 _.
  apply List.Forall_app in F. destruct F as [_ F]. inversion F as [|? ? [P1 _] F']; subst. inversion F' as [|? ? [P2 _] _]; subst. cbn in *. apply log10_inj in K1; [|assumption..]. apply log10_inj in K2; [|assumption..]. subst. now apply (H p c1 c2 q).
Qed.
Lemma steps_total c : steps c = total_change c.
Proof.
  unfold total_change. induction c as [|a c IH]; [reflexivity|]. destruct c as [|b c]; [reflexivity|]. change (steps (a :: b :: c)) with (Rabs (b - a) + steps (b :: c)). rewrite IH. reflexivity.
Qed.

Section Table.
  Variables (minval : nat) (data : list (R * R)) (o : interp1d) (f : R -> R).
  Hypothesis T : table_ok data.
  Hypothesis A : ascending (map fst data).
  Hypothesis HO : XRMAC minval data = Ok o.
  Hypothesis Hf : forall E, 0 < E -> xrmac_call o E = Ok (f E).
  Lemma f_gi E : 0 < E -> f E = pow10 (gi (logs data) (log10 E)).
  Proof. intros H. pose proof (Hf E H) as K. rewrite (call_gi minval data o E T A HO H) in K. now injection K. Qed.
  Lemma xr_continuous E : 0 < E -> no_edge E data -> continuity_pt f E.
  Proof.
    intros HE H. apply continuity_pt_filterlim. apply (continuous_ext_loc _ (fun E => pow10 (gi (logs data) (log10 E)))).
    - apply (locally_gt _ E 0 HE). intros t Ht. symmetry. now apply f_gi.
    - apply comp_log; [exact HE|]. apply gi_continuous; [now apply logs_ordered|]. apply logs_lone; [apply T|exact HE|exact H].
  Qed.
  Lemma xr_edge pre E c1 mid c2 post : data = pre ++ (E, c1) :: mid ++ (E, c2) :: post -> List.Forall (fun q => fst q < E) pre -> List.Forall (fun q => E < fst q) post ->
    f E = c2 /\ left_limit f E c1 /\ right_limit f E c2.
  Proof.
    intros D Fp Fq. pose proof T as [_ F]. pose proof (logs_ordered data T A) as Or. pose proof F as Fd. rewrite D in F. apply List.Forall_app in F. destruct F as [F1 F2]. destruct (List.Forall_inv F2) as [HE Hc1]. cbn in HE, Hc1. apply List.Forall_inv_tail in F2. apply List.Forall_app in F2. destruct F2 as [F3 F4]. destruct (List.Forall_inv F4) as [_ Hc2]. cbn in Hc2.
    assert (D1 : logs data = logs pre ++ (log10 E, log10 c1) :: logs (mid ++ (E, c2) :: post)) by (rewrite D; now rewrite logs_app).
    assert (D2 : logs data = logs (pre ++ (E, c1) :: mid) ++ (log10 E, log10 c2) :: logs post) by (rewrite D; change ((E, c1) :: mid ++ (E, c2) :: post) with (((E, c1) :: mid) ++ (E, c2) :: post); rewrite app_assoc, logs_app; reflexivity).
    assert (Or1 : ordered (logs (pre ++ [(E, c1)]))) by (rewrite D1 in Or; rewrite logs_app; cbn [logs map fst snd]; apply (ordered_app (logs pre ++ [(log10 E, log10 c1)]) (logs (mid ++ (E, c2) :: post))); rewrite <- app_assoc; exact Or).
    assert (Or2 : ordered (logs ((E, c2) :: post))) by (rewrite D2 in Or; apply ordered_app in Or; apply Or).
    assert (Lo : forall t, 0 < t -> t < E -> f t = pow10 (gi (logs (pre ++ [(E, c1)])) (log10 t))).
    { intros t H1 H2. rewrite f_gi by exact H1. rewrite D1, gi_prefix; [|now rewrite <- D1|now apply log10_incr]. now rewrite logs_app. }
    assert (Hi : forall t, E <= t -> f t = pow10 (gi (logs ((E, c2) :: post)) (log10 t))).
    { intros t H2. rewrite f_gi by lra. rewrite D2, gi_suffix; [|now rewrite <- D2|now apply log10_le]. reflexivity. }
    assert (N1 : no_edge E (pre ++ [(E, c1)])).
    { intros p x y q K. assert (C : (count_occ Req_EM_T (map fst (pre ++ [(E, c1)])) E <= 1)%nat).
      { rewrite map_app, count_occ_app. replace (count_occ Req_EM_T (map fst pre) E) with 0%nat; [cbn; destruct Req_EM_T; lia|]. symmetry. apply count_occ_not_In. intros I1. apply in_map_iff in I1. destruct I1 as (z & Ez & Iz). rewrite List.Forall_forall in Fp. specialize (Fp z Iz). lra. }
      rewrite K in C. rewrite map_app, count_occ_app in C. cbn in C. destruct Req_EM_T; [|congruence]. lia. }
    assert (N2 : no_edge E ((E, c2) :: post)).
    { intros p x y q K. assert (C : (count_occ Req_EM_T (map fst ((E, c2) :: post)) E <= 1)%nat).
      { cbn. replace (count_occ Req_EM_T (map fst post) E) with 0%nat; [destruct Req_EM_T; lia|]. symmetry. apply count_occ_not_In. intros I1. apply in_map_iff in I1. destruct I1 as (z & Ez & Iz). rewrite List.Forall_forall in Fq. specialize (Fq z Iz). lra. }
      rewrite K in C. rewrite map_app, count_occ_app in C. cbn in C. destruct Req_EM_T; [|congruence]. lia. }
    assert (C1 : continuity_pt (fun t => pow10 (gi (logs (pre ++ [(E, c1)])) (log10 t))) E).
    { apply continuity_pt_filterlim. apply comp_log; [exact HE|]. apply gi_continuous; [exact Or1|]. apply logs_lone; [|exact HE|exact N1]. apply List.Forall_app. split; [exact F1|]. constructor; [now split|constructor]. }
    assert (C2 : continuity_pt (fun t => pow10 (gi (logs ((E, c2) :: post)) (log10 t))) E).
    { apply continuity_pt_filterlim. apply comp_log; [exact HE|]. apply gi_continuous; [exact Or2|]. apply logs_lone; [|exact HE|exact N2]. exact F4. }
    assert (V1 : pow10 (gi (logs (pre ++ [(E, c1)])) (log10 E)) = c1).
    { rewrite gi_above; [|exact Or1|rewrite logs_app; destruct (logs pre); discriminate|rewrite logs_app; cbn; rewrite last_last; cbn; lra]. rewrite logs_app. cbn. rewrite last_last. now apply pow10_log10. }
    assert (V2 : pow10 (gi (logs ((E, c2) :: post)) (log10 E)) = c2).
    { change (logs ((E, c2) :: post)) with ((log10 E, log10 c2) :: logs post). rewrite gi_node; [now apply pow10_log10|exact Or2|]. apply (logs_lone ((E, c2) :: post)); [exact F4|exact HE|exact N2]. }
    split; [rewrite Hi by lra; exact V2|]. split; intros eps He.
    - destruct (C1 eps He) as (d & Dp & K). rewrite V1 in K. exists (Rmin d E). split; [now apply Rmin_pos|]. intros t Ht. pose proof (Rmin_l d E). pose proof (Rmin_r d E). rewrite Lo by lra. apply (K t). split; [split; [exact I|lra]|]. cbn. unfold R_dist. apply Rabs_def1; lra.
    - destruct (C2 eps He) as (d & Dp & K). rewrite V2 in K. exists d. split; [exact Dp|]. intros t Ht. rewrite Hi by lra. apply (K t). split; [split; [exact I|lra]|]. cbn. unfold R_dist. apply Rabs_def1; lra.
  Qed.
  Lemma xr_integrable a b : 0 < a -> a <= b -> ex_RInt f a b.
  Proof.
    intros Ha Hab. apply (ex_RInt_ext (fun E => pow10 (gi (logs data) (log10 E)))).
    - rewrite Rmin_left, Rmax_right by lra. intros x Hx. symmetry. apply f_gi. lra.
    - apply gi_integrable; [now apply logs_ordered|apply logs_nodes, T|exact Ha|exact Hab].
  Qed.
  Lemma coefficients : map (fun p => pow10 (snd p)) (logs data) = map snd data.
  Proof.
    unfold logs. rewrite map_map. apply map_ext_in. cbn. intros p Hp. apply pow10_log10. pose proof T as [_ F]. rewrite List.Forall_forall in F. now apply F.
  Qed.
  Lemma xr_variation x : ascending x -> List.Forall (fun E => 0 < E) x -> total_change (map f x) <= total_change (map snd data).
  Proof.
    intros Ax Px. rewrite <- !steps_total, <- coefficients. pose proof (logs_ordered data T A) as Or.
    assert (K : forall E r, ascending (E :: r) -> List.Forall (fun E => 0 < E) (E :: r) -> steps (map f (E :: r)) <= var pow10 (logs data) (log10 (last (E :: r) 0)) - var pow10 (logs data) (log10 E)).
    { intros E r. revert E. induction r as [|E2 r IH]; intros E AE PE; [cbn; lra|]. inversion AE as [|? ? AE' FE]; subst. inversion PE as [|? ? P1 PE']; subst. pose proof (List.Forall_inv PE') as P2. apply List.Forall_inv in FE.
      specialize (IH E2 AE' PE'). change (last (E :: E2 :: r) 0) with (last (E2 :: r) 0). change (steps (map f (E :: E2 :: r))) with (Rabs (f E2 - f E) + steps (map f (E2 :: r))).
      pose proof (var_diff pow10 pow10_le (logs data) (log10 E) (log10 E2) Or (log10_le _ _ P1 FE)) as V. rewrite <- !f_gi in V by assumption. rewrite Rabs_minus_sym in V. lra. }
    destruct x as [|E r]; [apply steps_nonneg|]. eapply Rle_trans; [now apply K|].
    pose proof (var_bounds pow10 pow10_le (logs data) (log10 (last (E :: r) 0)) Or). pose proof (var_bounds pow10 pow10_le (logs data) (log10 E) Or). lra.
  Qed.
  Lemma xr_integral x h : x <> [] -> ascending x -> 0 < first x -> 0 <= h -> spacing_at_most h x ->
    exists L d, darboux (of_value (VLeaf (xrmac_leaf o))) x = Ok (L, d) /\ ex_RInt f (first x) (final x) /\
      Rabs (L - RInt f (first x) (final x)) <= h * total_change (map snd data) /\ d <= h * total_change (map snd data).
  Proof.
    intros N Ax P H0 Hh. pose proof (logs_ordered data T A) as Or.
    assert (Px : forall E, In E x -> 0 < E). { intros E HE. destruct x as [|a x]; [contradiction|]. pose proof (first_le a x E Ax HE). unfold first in P. cbn in P. lra. }
    rewrite (darboux_of_value _ f x N); [|reflexivity|intros E HE; apply Hf, Px, HE].
    assert (FF : first x <= final x) by (destruct x as [|a x]; [contradiction|]; apply (ascending_first_final a x Ax)).
    pose proof (xr_integrable (first x) (final x) P FF) as Ex.
    set (W := fun E => var pow10 (logs data) (log10 E)).
    destruct (darboux_variation f W x h N Ax Ex) as (L & d & D1 & D2 & D3).
    { intros s t H1 H2 H3. rewrite !f_gi by lra. unfold W. apply var_diff; [exact pow10_le|exact Or|apply log10_le; lra]. }
    { intros a b I1. destruct (cells_nth x 0 (a, b) I1) as (i & Hi & E). injection E as -> ->. destruct (nth_split x 0 (Nat.lt_trans _ _ _ (Nat.lt_succ_diag_r i) Hi)) as (l1 & l2 & K & Li).
      destruct l2 as [|y l2]; [exfalso; rewrite K in Hi; rewrite app_length in Hi; cbn in Hi; lia|].
      assert (Y : nth (S i) x 0 = y). { rewrite K at 1. rewrite app_nth2 by lia. rewrite Li. replace (S i - i)%nat with 1%nat by lia. reflexivity. }
      rewrite Y. now apply (Hh l1 _ _ l2). }
    exists L, d. split; [exact D1|]. split; [exact Ex|].
    assert (B : W (final x) - W (first x) <= total_change (map snd data)).
    { pose proof (var_bounds pow10 pow10_le (logs data) (log10 (final x)) Or) as B1. pose proof (var_bounds pow10 pow10_le (logs data) (log10 (first x)) Or) as B2. unfold W. rewrite coefficients, steps_total in *. lra. }
    assert (M : 0 <= W (final x) - W (first x)). { pose proof (var_diff pow10 pow10_le (logs data) (log10 (first x)) (log10 (final x)) Or ltac:(apply log10_le; lra)) as V. pose proof (Rabs_pos (pow10 (gi (logs data) (log10 (first x))) - pow10 (gi (logs data) (log10 (final x))))). unfold W. lra. }
    assert (h * (W (final x) - W (first x)) <= h * total_change (map snd data)) by (apply Rmult_le_compat_l; lra). lra.
  Qed.
  Lemma xr_descending s t : descending (map snd data) -> 0 < s -> s <= t -> f t <= f s.
  Proof.
    intros D Hs Hst. rewrite !f_gi by lra. apply gi_descending; [exact pow10_le|now apply logs_ordered| |apply log10_le; lra].
    unfold logs. rewrite map_map. cbn. pose proof T as [_ F]. clear -D F. induction data as [|p l IH]; cbn in *; [constructor|]. inversion D as [|? ? D' G]; subst. inversion F as [|? ? Fp F']; subst. constructor; [now apply IH|].
    apply List.Forall_map. rewrite List.Forall_map in G. rewrite List.Forall_forall in *. intros q Hq. specialize (G q Hq). specialize (F' q Hq). apply Rle_ge. apply log10_le; lra.
  Qed.
End Table.

(** ** Units *)
Definition move (a b : R) (p : R * R) : R * R := (fst p + a, snd p + b).
Lemma gi_move a b l x : l <> [] -> gi (map (move a b) l) (x + a) = gi l x + b.
Proof.
  induction l as [|[x0 y0] l IH]; intros N; [contradiction|]. destruct l as [|[x1 y1] r]; [reflexivity|]. specialize (IH ltac:(discriminate)). cbn [map] in *. unfold move at 1 2. cbn [fst snd]. unfold move at 1 in IH. cbn [fst snd] in IH. rewrite !gi_cons.
  destruct (Rlt_dec (x + a) (x1 + a)), (Rlt_dec x x1); try lra. unfold piece.
  replace (Rmax (x0 + a) (x + a) - (x0 + a)) with (Rmax x0 x - x0) by (unfold Rmax; repeat destruct Rle_dec; lra). replace (x1 + a - (x0 + a)) with (x1 - x0) by ring. replace (y1 + b - (y0 + b)) with (y1 - y0) by ring. ring.
Qed.
Lemma log10_times x y : 0 < x -> 0 < y -> log10 (x * y) = log10 y + log10 x.
Proof. intros Hx Hy. unfold log10. rewrite ln_mult by assumption. field. pose proof ln10_pos. lra. Qed.
Lemma pow10_add x y : pow10 (x + y) = pow10 y * pow10 x.
Proof. unfold pow10. rewrite Rmult_plus_distr_r, exp_plus. ring. Qed.
Lemma logs_rescale a b data : 0 < a -> 0 < b -> List.Forall (fun p => 0 < fst p /\ 0 < snd p) data -> logs (rescale a b data) = map (move (log10 a) (log10 b)) (logs data).
Proof.
  intros Ha Hb F. unfold logs, rescale. rewrite !map_map. apply map_ext_in. intros p Hp. rewrite List.Forall_forall in F. destruct (F p Hp) as [F1 F2]. unfold move. cbn. now rewrite !log10_times by assumption.
Qed.
Lemma rescale_ok a b data : 0 < a -> 0 < b -> table_ok data -> table_ok (rescale a b data).
Proof.
  intros Ha Hb [N F]. split; [destruct data; [contradiction|discriminate]|]. unfold rescale. apply List.Forall_map. eapply List.Forall_impl; [|exact F]. cbn. intros p [H1 H2]. split; now apply Rmult_lt_0_compat.
Qed.
Lemma rescale_ascending a b data : 0 < a -> ascending (map fst data) -> ascending (map fst (rescale a b data)).
Proof.
  intros Ha A. unfold rescale. rewrite map_map. cbn. induction data as [|p l IH]; cbn in *; [constructor|]. inversion A as [|? ? A' F]; subst. constructor; [now apply IH|]. apply List.Forall_map. rewrite List.Forall_map in F. eapply List.Forall_impl; [|exact F]. cbn. intros q Hq. apply Rmult_le_compat_l; lra.
Qed.
Lemma length_enough minval data o : XRMAC minval data = Ok o -> (minval <= List.length data)%nat.
Proof. unfold XRMAC, interpolate_log_log. destruct data as [|d r]; [discriminate|]. destruct (Nat.ltb_spec (List.length (d :: r)) minval); [discriminate|auto]. Qed.
Lemma xr_units minval data o a b : table_ok data -> ascending (map fst data) -> XRMAC minval data = Ok o -> 0 < a -> 0 < b ->
  exists o', XRMAC minval (rescale a b data) = Ok o' /\ forall E v, 0 < E -> xrmac_call o E = Ok v -> xrmac_call o' (a * E) = Ok (b * v).
Proof.
  intros T A HO Ha Hb. pose proof (rescale_ok a b data Ha Hb T) as T'. pose proof (rescale_ascending a b data Ha A) as A'.
  pose proof (length_enough minval data o HO) as Ln. destruct (constructs minval (rescale a b data) T') as [o' E']; [unfold rescale; now rewrite map_length|].
  exists o'. split; [exact E'|]. intros E v HE HV. rewrite (call_gi minval data o E T A HO HE) in HV. injection HV as <-. rewrite (call_gi minval _ o' _ T' A' E') by now apply Rmult_lt_0_compat.
  rewrite logs_rescale by (try assumption; apply T). rewrite log10_times by assumption. rewrite gi_move; [now rewrite pow10_add, pow10_log10|]. destruct T as [N _]. destruct data; [contradiction|discriminate].
Qed.

(** ** An additional line *)
Lemma gi_insert pre post x t : pre ++ post <> [] -> ordered (pre ++ post) -> List.Forall (fun q => fst q <= x) pre -> List.Forall (fun q => x < fst q) post ->
  gi (pre ++ (x, gi (pre ++ post) x) :: post) t = gi (pre ++ post) t.
Proof.
  induction pre as [|[a b] pre IH]; intros N Or Fp Fq; cbn [app] in *.
  - destruct post as [|[x1 y1] r]; [contradiction|]. pose proof (List.Forall_inv Fq) as F. cbn in F. rewrite (gi_below x1 y1 r x Or F), gi_cons. destruct (Rlt_dec t x1) as [L|L]; [|reflexivity]. rewrite gi_below by assumption. unfold piece. unfold Rdiv. ring.
  - pose proof (List.Forall_inv Fp) as Fa. cbn in Fa. destruct pre as [|[a' b'] pre]; cbn [app] in *.
    + destruct post as [|[x1 y1] r].
      * rewrite gi_cons. cbn [gi]. destruct Rlt_dec; [|reflexivity]. unfold piece, Rdiv. ring.
      * pose proof (List.Forall_inv Fq) as F. cbn in F. rewrite !gi_cons. destruct (Rlt_dec x x1); [|lra].
        destruct (Rlt_dec t x) as [L|L], (Rlt_dec t x1) as [L'|L']; try lra.
        { destruct Fa as [Fa| ->]; [|rewrite !piece_left by lra; reflexivity]. unfold piece. rewrite (Rmax_right a x) by lra. field. lra. }
        { unfold piece. rewrite (Rmax_right a x), (Rmax_right x t), (Rmax_right a t) by lra. field. lra. }
    + pose proof (List.Forall_inv (List.Forall_inv_tail Fp)) as Fa'. cbn in Fa'. pose proof (List.Forall_inv_tail Fp) as Fp'.
      rewrite (gi_cons a b a' b' (pre ++ post) x), (gi_cons a b a' b' (pre ++ post) t). destruct (Rlt_dec x a') as [Q|Q]; [lra|]. rewrite gi_cons.
      destruct (Rlt_dec t a'); [reflexivity|]. apply IH; [discriminate|now apply ordered_tail in Or|exact Fp'|exact Fq].
Qed.
Lemma ascending_insert (pre post : list (R * R)) (E c : R) : ascending (map fst (pre ++ post)) -> List.Forall (fun q => fst q <= E) pre -> List.Forall (fun q => E < fst q) post -> ascending (map fst (pre ++ (E, c) :: post)).
Proof.
  induction pre as [|p pre IH]; cbn; intros A Fp Fq.
  - constructor; [exact A|]. apply List.Forall_map. eapply List.Forall_impl; [|exact Fq]. cbn. intros q Hq. lra.
  - inversion A as [|? ? A' F]; subst. constructor; [apply IH; [exact A'|now inversion Fp|exact Fq]|]. rewrite map_app in *. apply List.Forall_app in F. destruct F as [F1 F2]. apply List.Forall_app. split; [exact F1|]. constructor; [|exact F2]. now inversion Fp.
Qed.
Lemma xr_insert minval pre post o E c : table_ok (pre ++ post) -> ascending (map fst (pre ++ post)) -> XRMAC minval (pre ++ post) = Ok o -> 0 < E -> xrmac_call o E = Ok c ->
  List.Forall (fun q => fst q <= E) pre -> List.Forall (fun q => E < fst q) post ->
  exists o', XRMAC minval (pre ++ (E, c) :: post) = Ok o' /\ forall t, 0 < t -> xrmac_call o' t = xrmac_call o t.
Proof.
  intros T A HO HE HV Fp Fq. pose proof (ascending_insert pre post E c A Fp Fq) as A'.
  rewrite (call_gi minval _ o E T A HO HE) in HV. injection HV as Ec. pose proof T as [N F]. apply List.Forall_app in F. destruct F as [F1 F2].
  assert (Hc : 0 < c) by (rewrite <- Ec; apply pow10_pos).
  assert (T' : table_ok (pre ++ (E, c) :: post)). { split; [destruct pre; discriminate|]. apply List.Forall_app. split; [exact F1|]. constructor; [now split|exact F2]. }
  pose proof (length_enough minval _ o HO) as Ln. destruct (constructs minval (pre ++ (E, c) :: post) T') as [o' K]; [rewrite app_length in *; cbn; lia|].
  exists o'. split; [exact K|]. intros t Ht. rewrite (call_gi minval _ o' t T' A' K Ht), (call_gi minval _ o t T A HO Ht). f_equal. f_equal.
  rewrite !logs_app. cbn [logs map fst snd]. change (map (fun p => (log10 (fst p), log10 (snd p))) post) with (logs post).
  assert (Lc : log10 c = gi (logs pre ++ logs post) (log10 E)). { rewrite <- logs_app. rewrite <- Ec. unfold log10, pow10. rewrite ln_exp. field. pose proof ln10_pos. lra. }
  rewrite Lc. apply gi_insert.
  - rewrite <- logs_app. destruct (pre ++ post); [contradiction|discriminate].
  - rewrite <- logs_app. now apply logs_ordered.
  - unfold logs. apply List.Forall_map. rewrite List.Forall_forall in *. intros q Hq. cbn. apply log10_le; [now apply F1|now apply Fp].
  - unfold logs. apply List.Forall_map. rewrite List.Forall_forall in *. intros q Hq. cbn. apply log10_incr; [exact HE|now apply Fq].
Qed.
