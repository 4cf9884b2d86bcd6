(** Rounding: weighted sums of cross sections. *)
From Coq Require Import Reals List ZArith Lra Lia Psatz Permutation.
From Flocq Require Import Core.
From Verif Require Import Py Spec M_Num M_Grid M_CrossSection S_CrossSection M_Constituents M_Float S_Float L_CrossSection L_Float L_Float2.
Import ListNotations.
Open Scope R_scope.

Lemma eta_half : eta = half_smallest.
Proof.
  unfold eta, half_smallest. replace (bpow radix2 (-1074)) with (/ 2 ^ 1074).
  - replace (2 ^ 1075) with (2 * 2 ^ 1074) by (change 1075%nat with (S 1074); now rewrite <- tech_pow_Rmult). rewrite Rinv_mult. reflexivity.
  - replace (-1074)%Z with (- Z.of_nat 1074)%Z by reflexivity. rewrite bpow_opp, bpow_powerRZ, <- pow_powerRZ. reflexivity.
Qed.

Definition floop ss E := fix loop (rs : list value) (i : nat) (acc : out R) : out R :=
         match rs with
         | [] => acc
         | r :: rs' =>
             loop rs' (S i)
               (match acc with
                | Raise e => Raise e
                | _ => match get ss i with
                       | Ok s => foadd acc (foscale s (fcall r E))
                       | NaN => NaN
                       | Raise e => Raise e
                       end
                end)
         end.
Lemma floop_sum ss E rs i acc : (length rs + i <= length ss)%nat ->
  floop ss E rs i acc = fold_left foadd (map2 (fun s x => foscale s (fcall x E)) (skipn i ss) rs) acc.
Proof.
  revert i acc; induction rs as [|a rs IH]; intros i acc H; [cbn; destruct (skipn i ss); reflexivity|].
  cbn [length] in H. destruct (nth_error ss i) as [r|] eqn:N; [|apply nth_error_None in N; lia].
  assert (K : skipn i ss = r :: skipn (S i) ss).
  { clear - N. revert i N; induction ss; destruct i; simpl; intros; try discriminate.
    inversion N; subst; auto. now rewrite (IHss _ N). }
  rewrite K. cbn [map2 fold_left]. cbn [floop]. unfold get. rewrite N.
  change (floop ss E rs (S i) (match acc with Raise e => Raise e | _ => foadd acc (foscale r (fcall a E)) end) =
    fold_left foadd (map2 (fun s x => foscale s (fcall x E)) (skipn (S i) ss) rs) (foadd acc (foscale r (fcall a E)))).
  rewrite IH by lia. destruct acc; reflexivity.
Qed.
Lemma fcall_sum rs ss E : (length rs <= length ss)%nat ->
  fcall (VSum rs ss) E = fold_left foadd (map2 (fun s x => foscale s (fcall x E)) ss rs) (Ok 0).
Proof. intros. change (fcall (VSum rs ss) E) with (floop ss E rs 0 (Ok 0)). rewrite floop_sum by lia. reflexivity. Qed.

Lemma foadd_0_l x : double_result x -> foadd (Ok 0) x = x.
Proof. destruct x; cbn; auto. intros D. now rewrite fadd_0_l. Qed.
Lemma foadd_comm_ok r x : foadd (Ok r) x = foadd x (Ok r).
Proof. destruct x; cbn; auto. now rewrite fadd_comm. Qed.
Lemma foscale_1 x : double_result x -> foscale 1 x = x.
Proof. destruct x; cbn; auto. intros D. now rewrite fmul_1_l. Qed.
Lemma foscale_double c x : double_result (foscale c x).
Proof. destruct x; cbn; auto. apply rnd_double. Qed.
Lemma foadd_double x y : double_result (foadd x y).
Proof. destruct x, y; cbn; auto. apply rnd_double. Qed.
Lemma fold_foadd_double l acc : double_result acc -> double_result (fold_left foadd l acc).
Proof. revert acc. induction l; cbn; auto. intros. apply IHl, foadd_double. Qed.

Lemma fcall_pair a b E : double_result (fcall a E) -> double_result (fcall b E) ->
  fcall (VSum [a; b] [1; 1]) E = foadd (fcall a E) (fcall b E).
Proof. intros Da Db. rewrite fcall_sum by auto. cbn [map2 fold_left]. rewrite !foscale_1, foadd_0_l by assumption. reflexivity. Qed.
Lemma fcall_snoc rs ss b E : (length rs <= length ss)%nat -> double_result (fcall b E) ->
  fcall (VSum (rs ++ [b]) (firstn (length rs) ss ++ [1])) E = foadd (fcall (VSum rs ss) E) (fcall b E).
Proof.
  intros L Db. rewrite !fcall_sum; [|exact L|rewrite !app_length, firstn_length_le by exact L; cbn; lia].
  rewrite map2_app by now apply firstn_length_le. rewrite fold_left_app, map2_firstn. cbn [map2 fold_left]. now rewrite foscale_1.
Qed.

(** [(a+b)(E)] is the rounded sum of [a(E)] and [b(E)], unless both are sums. *)
Lemma fadd_exact a b s E : ~ is_foreign a -> ~ is_foreign b -> ~ (is_number a /\ is_number b) -> ~ (is_sum a /\ is_sum b) ->
  double_result (float_at a E) -> double_result (float_at b E) ->
  fpy_add a b = Ok s -> fcall s E = foadd (float_at a E) (float_at b E).
Proof.
  intros Fa Fb N Ns Da Db H.
  assert (H' : py_add a b = Ok s) by (destruct a, b; cbn in Fa, Fb, N; try tauto; exact H). clear H.
  assert (CS : forall a b s, is_plain a -> double_result (float_at a E) -> double_result (float_at b E) -> cs_add a b = Ok s -> ~ is_foreign b ->
           fcall s E = foadd (fcall a E) (float_at b E)).
  { intros a0 b0 s0 P D1 D2 K F. destruct a0; cbn in P; try tauto; destruct b0; cbn in K, F; try tauto; injection K as <-; rewrite fcall_pair; auto. }
  assert (WS : forall rs ss b s, ws_add rs ss b = Ok s -> ~ is_foreign b -> ~ is_sum b -> double_result (float_at b E) ->
           fcall s E = foadd (fcall (VSum rs ss) E) (float_at b E)).
  { intros rs ss b0 s0 K F S D. unfold ws_add in K. destruct copy_factors as [ss1| |] eqn:C; cbn [bind] in K; try discriminate.
    apply copy_inv in C; destruct C as [L ->]. rewrite map_id in K. destruct b0; cbn in S, F; try tauto; injection K as <-; now rewrite fcall_snoc. }
  destruct a; cbn in Fa; try tauto.
  - destruct b; cbn in Fb, N; try tauto.
    + rewrite (CS (VLeaf c) (VNum r) s) by (cbn; auto). symmetry; apply foadd_comm_ok.
    + rewrite (CS (VConst r0) (VNum r) s) by (cbn; auto). symmetry; apply foadd_comm_ok.
    + rewrite (WS rs ss (VNum r) s) by (cbn; auto). symmetry; apply foadd_comm_ok.
  - now apply (CS (VLeaf c)).
  - now apply (CS (VConst r)).
  - apply (WS rs ss); auto. intros K. apply Ns. split; [exact I|exact K].
Qed.

(** Products. *)
Lemma fcs_mul_exact a c s E : is_plain a -> fpy_mul a c = Ok s -> fcall s E = foscale c (fcall a E).
Proof.
  intros P H. destruct a; cbn in P; try tauto; injection H as <-; rewrite fcall_sum by auto; cbn [map2 fold_left];
    apply foadd_0_l, foscale_double.
Qed.
Lemma foadd_neg x y : foadd (oneg x) (oneg y) = oneg (foadd x y).
Proof. destruct x, y; cbn; auto. unfold fadd. rewrite <- rnd_opp. do 2 f_equal. ring. Qed.
Lemma fold_neg l acc : fold_left foadd (map oneg l) (oneg acc) = oneg (fold_left foadd l acc).
Proof. revert acc. induction l; cbn; auto. intros. now rewrite foadd_neg. Qed.
Lemma fmul_neg s : double s -> fmul (-1) s = - s.
Proof. intros D. unfold fmul. replace (-1 * s) with (- s) by ring. now apply rnd_id, double_opp. Qed.
Lemma fmul_opp_l s x : fmul (- s) x = - fmul s x.
Proof. unfold fmul. rewrite <- rnd_opp. f_equal. ring. Qed.
Lemma map2_ext_F {A B C} (P : A -> Prop) (f g : A -> B -> C) l m : Forall P l -> (forall a b, P a -> f a b = g a b) -> map2 f l m = map2 g l m.
Proof. intros F H. revert m. induction F; intros [|b m]; cbn; auto. f_equal; auto. Qed.
Lemma fneg_exact a s E : ~ is_foreign a -> ~ is_number a -> factors_double a -> double_result (fcall a E) ->
  fpy_mul a (-1) = Ok s -> fcall s E = oneg (fcall a E).
Proof.
  intros F N D Dr H. destruct a as [r|r|c|r|rs ss]; cbn in F, N; try tauto.
  - rewrite (fcs_mul_exact _ _ _ E) with (2 := H) by exact I. destruct (fcall (VLeaf c) E); cbn; auto. now rewrite fmul_neg.
  - rewrite (fcs_mul_exact _ _ _ E) with (2 := H) by exact I. cbn in *. now rewrite fmul_neg.
  - cbn in H. unfold fws_mul in H. destruct copy_factors as [ss1| |] eqn:C; cbn [bind] in H; try discriminate. injection H as <-.
    apply copy_inv in C; destruct C as [L ->]. rewrite !fcall_sum; [|exact L|rewrite map_length, firstn_length_le; auto].
    rewrite <- fold_neg. rewrite map2_map_l. f_equal; [|cbn; now rewrite Ropp_0].
    rewrite map_map2. rewrite <- (map2_firstn (fun a b => oneg (foscale a (fcall b E))) ss rs). apply (map2_ext_F double).
    + cbn in D. rewrite <- (firstn_skipn (length rs) ss) in D. apply Forall_app in D. tauto.
    + intros s x Ds. rewrite fmul_neg by exact Ds. destruct (fcall x E); cbn; auto. now rewrite fmul_opp_l.
Qed.

(** Values. *)
Lemma fcall_values rs ss E vs : (length rs <= length ss)%nat -> Forall2 (fun r v => fcall r E = Ok v) rs vs ->
  fcall (VSum rs ss) E = Ok (fsum (map2 fmul ss vs)).
Proof.
  intros L F. rewrite fcall_sum by exact L. unfold fsum. generalize 0 as acc. revert ss L.
  induction F as [|r v rs vs E1 F IH]; intros ss L acc; [destruct ss; reflexivity|].
  destruct ss as [|s ss]; [cbn in L; lia|]. cbn [map2 fold_left]. rewrite E1. cbn [foscale foadd]. apply IH. cbn in L. lia.
Qed.
Lemma call_values rs ss E vs : (length rs <= length ss)%nat -> Forall2 (fun r v => call r E = Ok v) rs vs ->
  call (VSum rs ss) E = Ok (Rsum (map2 Rmult ss vs)).
Proof.
  intros L F. rewrite call_sum by exact L. revert ss L. induction F as [|r v rs vs E1 F IH]; intros ss L; [destruct ss; reflexivity|].
  destruct ss as [|s ss]; [cbn in L; lia|]. cbn [map2 osum fold_right]. change (fold_right oadd (Ok 0)) with osum. rewrite E1, IH by (cbn in L; lia). reflexivity.
Qed.
Lemma plain_same v E : is_plain v -> fcall v E = call v E.
Proof. destruct v; cbn; tauto. Qed.
Lemma fcall_error rs ss E x : (length rs <= length ss)%nat -> Forall is_plain rs -> call (VSum rs ss) E = Ok x ->
  exists y vs, fcall (VSum rs ss) E = Ok y /\ Forall2 (fun r v => call r E = Ok v) rs vs /\
    Rabs (y - x) <= ((1 + unit_roundoff) ^ length rs - 1) * total_magnitude (map2 Rmult ss vs) +
      INR (length rs) * ((1 + unit_roundoff) ^ Nat.pred (length rs) * half_smallest).
Proof.
  intros L P H.
  assert (X : exists vs, Forall2 (fun r v => call r E = Ok v) rs vs).
  { rewrite call_sum in H by exact L. revert ss x L H. clear P. induction rs as [|r rs IH]; intros ss x L H; [exists []; constructor|].
    destruct ss as [|s ss]; [cbn in L; lia|]. cbn [map2 osum fold_right] in H. change (fold_right oadd (Ok 0)) with osum in H.
    destruct (call r E) as [v| |] eqn:E1; cbn [oscale] in H.
    - destruct (osum (map2 (fun s0 x0 => oscale s0 (call x0 E)) ss rs)) as [y| |] eqn:E2; try (cbn in H; discriminate).
      destruct (IH ss y) as [vs F]; [cbn in L; lia|exact E2|]. exists (v :: vs). now constructor.
    - destruct (osum (map2 (fun s0 x0 => oscale s0 (call x0 E)) ss rs)); cbn in H; discriminate.
    - discriminate. }
  destruct X as [vs F]. pose proof (call_values rs ss E vs L F) as C. rewrite H in C. injection C as ->.
  assert (F' : Forall2 (fun r v => fcall r E = Ok v) rs vs).
  { revert P. clear -F. induction F; intros P; constructor; inversion P; subst; auto. rewrite plain_same; auto. }
  exists (fsum (map2 fmul ss vs)), vs. split; [now apply fcall_values|]. split; [exact F|].
  pose proof (fdot_error ss vs) as B. rewrite eta_half in B. change u with unit_roundoff in B. change Rabs_sum with total_magnitude in B.
  rewrite L_Float2.map2_length in B. rewrite <- (Forall2_length _ _ _ F) in B. rewrite Nat.min_r in B by exact L. exact B.
Qed.
Lemma fcall_nonneg rs ss E y vs : (length rs <= length ss)%nat -> Forall2 (fun r v => fcall r E = Ok v) rs vs ->
  Forall (Rle 0) ss -> Forall (Rle 0) vs -> fcall (VSum rs ss) E = Ok y ->
  0 <= y /\ forall i s v, nth_error ss i = Some s -> nth_error vs i = Some v -> fmul s v <= y.
Proof.
  intros L F Fs Fv H. rewrite (fcall_values _ _ _ _ L F) in H. injection H as <-.
  assert (Fp : Forall (Rle 0) (map2 fmul ss vs)).
  { revert Fv Fs. clear. intros Fv Fs. revert vs Fv. induction Fs as [|s ss Hs Fs IH]; intros vs Fv; [constructor|]. destruct Fv as [|v vs Hv Fv]; [constructor|].
    cbn. constructor; [|now apply IH]. apply rnd_nonneg. now apply Rmult_le_pos. }
  split; [now apply fsum_nonneg|]. intros i s v Es Ev. apply fsum_ge; [apply products_double|exact Fp|].
  clear -Es Ev. revert i vs Es Ev. induction ss as [|a ss IH]; intros [|i] [|b vs] Es Ev; cbn in *; try discriminate.
  - injection Es as <-. injection Ev as <-. now left.
  - right. eauto.
Qed.

(** *** Counterexamples to exact equality *)
(** 2^54 = 18014398509481984 *)
Lemma rnd_lit x m e p : (-1074 <= e)%Z -> (2 ^ 52 <= m)%Z -> (m < 2 ^ 53)%Z -> bpow radix2 e = p ->
  4503599627370496 * p <= x -> (IZR m - / 2) * p < x -> x < (IZR m + / 2) * p -> rnd x = IZR m * p.
Proof. intros H1 H2 H3 <-. change 4503599627370496 with (IZR (2 ^ 52)). now apply rnd_val. Qed.
Lemma big_plus : fadd 18014398509481984 (3 / 2) = 18014398509481984.
Proof. unfold fadd. rewrite (rnd_lit _ 4503599627370496 2 4); [lra|lia|lia|lia|reflexivity|lra..]. Qed.
Lemma big_plus3 : fadd 18014398509481984 3 = 18014398509481988.
Proof. unfold fadd. rewrite (rnd_lit _ 4503599627370497 2 4); [lra|lia|lia|lia|reflexivity|lra..]. Qed.
Lemma big_plus45 : fadd (3 * 18014398509481984) (9 / 2) = 3 * 18014398509481984 + 8.
Proof. unfold fadd. rewrite (rnd_lit _ 6755399441055745 3 8); [lra|lia|lia|lia|reflexivity|lra..]. Qed.
Lemma double_big : double 18014398509481984.
Proof. change 18014398509481984 with (bpow radix2 54). apply double_bpow. lia. Qed.
Lemma double_scaled m e p : bpow radix2 e = p -> (-1074 <= e)%Z -> (Z.abs m < 2 ^ 53)%Z -> double (IZR m * p).
Proof.
  intros <- He Hm. unfold double, fexp64. apply generic_format_FLT. exists (Float radix2 m e); [reflexivity|exact Hm|exact He].
Qed.
Lemma bpow_m1 : bpow radix2 (-1) = / 2. Proof. reflexivity. Qed.
Lemma double_15 : double (3 / 2).
Proof. apply (double_scaled 3 (-1) (/ 2) bpow_m1); lia. Qed.
Lemma double_45 : double (9 / 2).
Proof. apply (double_scaled 9 (-1) (/ 2) bpow_m1); lia. Qed.
Lemma double_int z : (Z.abs z < 2 ^ 53)%Z -> double (IZR z).
Proof. intros H. apply double_IZR. lia. Qed.
Lemma double_3big : double (3 * 18014398509481984).
Proof. apply (double_scaled 3 54 18014398509481984); [reflexivity|lia|lia]. Qed.

(** a = CrossSectionWeightedSum([C(2^54)]), b = CrossSectionWeightedSum([C(1.5), C(1.5)]) *)
Definition ex_a : value := VSum [VConst 18014398509481984] [1].
Definition ex_b : value := VSum [VConst (3 / 2); VConst (3 / 2)] [1; 1].
Lemma ex_a_val E : fcall ex_a E = Ok 18014398509481984.
Proof.
  unfold ex_a. rewrite (fcall_values _ _ _ [18014398509481984]) by (auto; repeat constructor). unfold fsum. cbn [app map2 fold_left map firstn length].
  rewrite fmul_1_l by apply double_big. now rewrite fadd_0_l by apply double_big.
Qed.
Lemma three_halves : fadd (3 / 2) (3 / 2) = 3.
Proof. unfold fadd. replace (3 / 2 + 3 / 2) with 3 by lra. apply rnd_id. apply double_int. lia. Qed.
Lemma ex_b_val E : fcall ex_b E = Ok 3.
Proof.
  unfold ex_b. rewrite (fcall_values _ _ _ [3 / 2; 3 / 2]) by (auto; repeat constructor). unfold fsum. cbn [app map2 fold_left map firstn length].
  rewrite fmul_1_l by apply double_15. rewrite fadd_0_l by apply double_15. now rewrite three_halves.
Qed.
Lemma sum_of_sums : exists a b s E x y z, is_sum a /\ is_sum b /\ fpy_add a b = Ok s /\
  fcall a E = Ok x /\ fcall b E = Ok y /\ fcall s E = Ok z /\ double x /\ double y /\ z <> fadd x y.
Proof.
  exists ex_a, ex_b, (VSum [VConst 18014398509481984; VConst (3 / 2); VConst (3 / 2)] [1; 1; 1]), 0, 18014398509481984, 3, 18014398509481984.
  split; [exact I|]. split; [exact I|]. split; [reflexivity|]. split; [apply ex_a_val|]. split; [apply ex_b_val|]. split.
  - rewrite (fcall_values _ _ _ [18014398509481984; 3 / 2; 3 / 2]) by (auto; repeat constructor). unfold fsum. cbn [app map2 fold_left map firstn length].
    rewrite (fmul_1_l _ double_big), (fmul_1_l _ double_15), (fadd_0_l _ double_big). now rewrite !big_plus.
  - split; [apply double_big|]. split; [apply double_int; lia|]. rewrite big_plus3. lra.
Qed.
(** The value depends on the order of the operands. *)
Lemma order_matters : exists a b c s t E x y, is_plain a /\ is_plain b /\ is_plain c /\
  py_sum [a; b; c] = Ok s /\ py_sum [c; b; a] = Ok t /\ fcall s E = Ok x /\ fcall t E = Ok y /\ x <> y.
Proof.
  exists (VConst 18014398509481984), (VConst (3 / 2)), (VConst (3 / 2)). do 2 eexists. exists 0, 18014398509481984, 18014398509481988.
  repeat (split; [exact I|]). split; [reflexivity|]. split; [reflexivity|].
  pose proof double_big as D1. pose proof double_15 as D2. pose proof double_0 as D0.
  split; [|split; [|lra]].
  - rewrite (fcall_values _ _ _ [18014398509481984; 0; 3 / 2; 3 / 2]) by (auto; repeat constructor). unfold fsum. cbn [app map2 fold_left map firstn length].
    rewrite (fmul_1_l _ D1), (fmul_1_l _ D0), (fmul_1_l _ D2), (fadd_0_l _ D1), (fadd_0_r _ D1). now rewrite !big_plus.
  - rewrite (fcall_values _ _ _ [3 / 2; 0; 3 / 2; 18014398509481984]) by (auto; repeat constructor). unfold fsum. cbn [app map2 fold_left map firstn length].
    rewrite (fmul_1_l _ D1), (fmul_1_l _ D0), (fmul_1_l _ D2), (fadd_0_l _ D2), (fadd_0_r _ D2), three_halves, fadd_comm. now rewrite big_plus3.
Qed.
(** [(3 * a)(E)] is not the rounded [3 * a(E)]. *)
Lemma product_of_sum : exists a s E x y, is_sum a /\ fpy_mul a 3 = Ok s /\ fcall a E = Ok x /\ fcall s E = Ok y /\ y <> fmul 3 x.
Proof.
  exists (VSum [VConst 18014398509481984; VConst (3 / 2)] [1; 1]). eexists. exists 0, 18014398509481984, (3 * 18014398509481984 + 8).
  pose proof double_big as D1. pose proof double_15 as D2.
  assert (M1 : fmul 3 1 = 3) by (unfold fmul; rewrite Rmult_1_r; apply rnd_id, double_int; lia).
  assert (M2 : fmul 3 18014398509481984 = 3 * 18014398509481984) by (apply rnd_id, double_3big).
  assert (M3 : fmul 3 (3 / 2) = 9 / 2) by (unfold fmul; replace (3 * (3 / 2)) with (9 / 2) by lra; apply rnd_id, double_45).
  split; [exact I|]. split; [reflexivity|]. split; [|split].
  - rewrite (fcall_values _ _ _ [18014398509481984; 3 / 2]) by (auto; repeat constructor). unfold fsum. cbn [app map2 fold_left map firstn length].
    rewrite (fmul_1_l _ D1), (fmul_1_l _ D2), (fadd_0_l _ D1). now rewrite big_plus.
  - rewrite (fcall_values _ _ _ [18014398509481984; 3 / 2]) by (auto; repeat constructor). unfold fsum. cbn [app map2 fold_left map firstn length].
    rewrite M1, M2, M3, (fadd_0_l _ double_3big). now rewrite big_plus45.
  - rewrite M2. lra.
Qed.
