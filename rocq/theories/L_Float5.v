(** Rounding: equidistant grids. *)
From Coq Require Import Reals List ZArith Lra Lia Psatz Sorted.
From Flocq Require Import Core.
From Verif Require Import Py Spec M_Num M_Grid M_CrossSection M_Constituents M_Float S_Float L_Grid L_Float L_Float2 L_Float3.
Import ListNotations.
Open Scope R_scope.
Open Scope list_scope.

(** An integer times a double does not underflow. *)
Lemma int_mul_error k s : double s -> exists e, Rabs e <= u /\ rnd (IZR k * s) = IZR k * s * (1 + e).
Proof.
  intros D. destruct (Rle_or_lt (bpow radix2 (-1022)) (Rabs (IZR k * s))) as [H|H]; [now apply rnd_error_normal|].
  exists 0. rewrite Rabs_R0. split; [apply Rlt_le, u_pos|]. rewrite Rplus_0_r, Rmult_1_r. apply rnd_id.
  unfold double, fexp64 in D. apply FLT_format_generic in D; [|reflexivity]. destruct D as [f Ef Hm He]. destruct f as [m e]. cbn in Hm, He.
  assert (X : IZR k * s = F2R (Float radix2 (k * m * 2 ^ (e + 1074)) (-1074))).
  { rewrite Ef. unfold F2R. cbn [Fnum Fexp]. rewrite !mult_IZR. change 2%Z with (radix_val radix2). rewrite (IZR_Zpower radix2) by lia.
    replace e with (e + 1074 + -1074)%Z at 1 by lia. rewrite bpow_plus. ring. }
  rewrite X in *. unfold double, fexp64. apply generic_format_FLT. eexists; [reflexivity| |reflexivity]. cbn [Fnum].
  rewrite <- F2R_Zabs in H. unfold F2R in H. cbn [Fnum Fexp] in H. replace (-1022)%Z with (52 + -1074)%Z in H by reflexivity. rewrite bpow_plus in H.
  apply Rmult_lt_reg_r in H; [|apply bpow_gt_0]. change (bpow radix2 52) with (IZR (2 ^ 52)) in H. apply lt_IZR in H. change (radix2 ^ 53)%Z with (2 ^ 53)%Z. lia.
Qed.

Section Points.
  Variables (a b : R) (n : Z).
  Hypothesis Da : double a.
  Hypothesis Db : double b.
  Hypothesis Hab : a <= b.
  Hypothesis Hn : (2 <= n <= 2 ^ 50)%Z.
  Hypothesis Hs : a = b \/ bpow radix2 (-1022) * IZR (n - 1) <= b - a.
  Let h := (b - a) / IZR (n - 1).
  Lemma N_pos : 1 <= IZR (n - 1).
  Proof. apply IZR_le. lia. Qed.
  Lemma N_small : IZR (n - 1) * (8 * u) <= 1.
  Proof.
    assert (H : IZR (n - 1) <= IZR (2 ^ 50)) by (apply IZR_le; lia). unfold u. replace (8 * / 2 ^ 53) with (/ 2 ^ 50) by (simpl; field).
    replace (IZR (2 ^ 50)) with (2 ^ 50) in H by (rewrite pow_IZR; reflexivity). pose proof (pow_lt 2 50). apply (Rmult_le_reg_r (2 ^ 50)); [lra|]. rewrite Rmult_assoc, Rinv_l by lra. lra.
  Qed.
  (** The product with the step before [a] is added. *)
  Definition offset (i : nat) : R :=
    let delta := fsub b a in let step := fquo delta (IZR (n - 1)) in
    if Req_EM_T step 0 then fmul (fquo (INR i) (IZR (n - 1))) delta else fmul (INR i) step.
  Lemma point_offset i : flinspace_point a b n i = fadd (offset i) a.
  Proof. reflexivity. Qed.
  Lemma delta_nonneg : 0 <= fsub b a.
  Proof. apply rnd_nonneg. lra. Qed.
  Lemma step_nonneg : 0 <= fquo (fsub b a) (IZR (n - 1)).
  Proof. pose proof N_pos. apply rnd_nonneg. apply Rmult_le_pos; [apply delta_nonneg|]. left. apply Rinv_0_lt_compat. lra. Qed.
  Lemma offset_mono i j : (i <= j)%nat -> offset i <= offset j.
  Proof.
    intros H. apply le_INR in H. pose proof N_pos. pose proof delta_nonneg. pose proof step_nonneg. unfold offset. cbv zeta. destruct Req_EM_T; apply rnd_le; apply Rmult_le_compat_r; auto.
    apply rnd_le. apply Rmult_le_compat_r; [|exact H]. left. apply Rinv_0_lt_compat. lra.
  Qed.
  Lemma offset_0 : offset 0 = 0.
  Proof. unfold offset, fmul, fquo. cbv zeta. change (INR 0) with 0. unfold Rdiv. rewrite !Rmult_0_l, rnd_0. rewrite Rmult_0_l, rnd_0. now destruct Req_EM_T. Qed.
  Lemma point_mono i j : (i <= j)%nat -> flinspace_point a b n i <= flinspace_point a b n j.
  Proof. intros H. rewrite !point_offset. apply rnd_le. apply Rplus_le_compat_r. now apply offset_mono. Qed.
  Lemma point_0 : flinspace_point a b n 0 = a.
  Proof. rewrite point_offset, offset_0. now apply fadd_0_l. Qed.
  (** Its relative error. *)
  Lemma offset_error i : exists e, Rabs e <= 7 / 2 * u /\ offset i = INR i * h * (1 + e).
  Proof.
    pose proof u_pos as U. pose proof u_small as U2. pose proof N_pos as NP.
    destruct Hs as [E|S].
    - exists 0. rewrite Rabs_R0. split; [lra|]. unfold h, offset, fsub. cbv zeta. rewrite <- E, Rminus_diag_eq, rnd_0 by reflexivity. unfold fquo, fmul, Rdiv. rewrite !Rmult_0_l, rnd_0. destruct Req_EM_T; [|tauto]. rewrite Rmult_0_r, rnd_0. ring.
    - destruct (fsub_error b a Db Da) as (e1 & H1 & E1).
      assert (Q : bpow radix2 (-1022) <= fsub b a / IZR (n - 1)).
      { apply (Rmult_le_reg_r (IZR (n - 1))); [lra|]. unfold Rdiv. rewrite Rmult_assoc, Rinv_l, Rmult_1_r by lra. unfold fsub. apply rnd_ge; [|exact S].
        rewrite Rmult_comm. apply double_scaled with (e := (-1022)%Z); [reflexivity|lia|lia]. }
      destruct (rnd_error_normal (fsub b a / IZR (n - 1))) as (e2 & H2 & E2).
      { rewrite Rabs_pos_eq; [exact Q|]. pose proof (bpow_gt_0 radix2 (-1022)). lra. }
      fold (fquo (fsub b a) (IZR (n - 1))) in E2.
      assert (P : 0 < fquo (fsub b a) (IZR (n - 1))).
      { eapply Rlt_le_trans; [apply (bpow_gt_0 radix2 (-1022))|]. apply rnd_ge; [apply double_bpow; lia|exact Q]. }
      destruct (int_mul_error (Z.of_nat i) (fquo (fsub b a) (IZR (n - 1)))) as (e3 & H3 & E3); [apply rnd_double|].
      rewrite <- INR_IZR_INZ in E3. fold (fmul (INR i) (fquo (fsub b a) (IZR (n - 1)))) in E3.
      unfold offset. cbv zeta. destruct Req_EM_T as [Z|_]; [lra|]. rewrite E3, E2, E1.
      exists ((1 + e1) * (1 + e2) * (1 + e3) - 1). split; [|unfold h; field; lra].
      replace ((1 + e1) * (1 + e2) * (1 + e3) - 1) with (e1 + e2 + e3 + (e1 * e2 + e1 * e3 + e2 * e3) + e1 * e2 * e3) by ring.
      assert (B : forall x y, Rabs x <= u -> Rabs y <= u -> Rabs (x * y) <= u * u) by (intros; rewrite Rabs_mult; apply Rmult_le_compat; auto using Rabs_pos).
      assert (B3 : Rabs (e1 * e2 * e3) <= u * u * u) by (rewrite Rabs_mult; apply Rmult_le_compat; auto using Rabs_pos).
      pose proof (B e1 e2 H1 H2) as B12. pose proof (B e1 e3 H1 H3) as B13. pose proof (B e2 e3 H2 H3) as B23.
      apply Rabs_le_inv in H1, H2, H3, B12, B13, B23, B3. apply Rabs_le.
      assert (T : u <= / 1024) by (eapply Rle_trans; [exact U2|]; right; simpl; field). assert (u * u <= / 1024 * u) by nra. assert (u * u * u <= / 1024 * u) by nra. lra.
  Qed.
  Lemma h_nonneg : 0 <= h.
  Proof. pose proof N_pos. apply Rmult_le_pos; [lra|]. left. apply Rinv_0_lt_compat. lra. Qed.
  Lemma h_range i : (Z.of_nat i <= n - 1)%Z -> INR i * h <= b - a.
  Proof.
    intros H. pose proof N_pos. apply IZR_le in H. rewrite <- INR_IZR_INZ in H. replace (b - a) with (IZR (n - 1) * h) by (unfold h; field; lra). apply Rmult_le_compat_r; [apply h_nonneg|exact H].
  Qed.
  Lemma offset_range i : (Z.of_nat i < n - 1)%Z -> 0 <= offset i <= b - a.
  Proof.
    intros H. split; [rewrite <- offset_0; apply offset_mono; lia|]. destruct (offset_error i) as (e & He & ->). apply Rabs_le_inv in He.
    pose proof N_pos. pose proof N_small. pose proof u_pos. assert (IZR (Z.of_nat i + 1) <= IZR (n - 1)) as K by (apply IZR_le; lia). rewrite plus_IZR, <- INR_IZR_INZ in K.
    replace (b - a) with (h * IZR (n - 1)) by (unfold h; field; lra). rewrite Rmult_comm, (Rmult_comm (INR i)), <- Rmult_assoc, (Rmult_comm _ h), Rmult_assoc. apply Rmult_le_compat_l; [apply h_nonneg|].
    pose proof (pos_INR i). nra.
  Qed.
  Lemma point_range i : (Z.of_nat i < n - 1)%Z -> a <= flinspace_point a b n i <= b.
  Proof. intros H. destruct (offset_range i H). rewrite point_offset. split; [apply rnd_ge; [exact Da|lra]|apply rnd_le_d; [exact Db|lra]]. Qed.
  Lemma point_error i : (Z.of_nat i < n - 1)%Z -> Rabs (flinspace_point a b n i - (a + INR i * h)) <= 8 * u * Rmax (Rabs a) (Rabs b).
  Proof.
    intros H. destruct (offset_range i H) as [O1 O2]. assert (H' : (Z.of_nat i <= n - 1)%Z) by lia. pose proof (h_range i H') as R1. rewrite point_offset.
    assert (Do : double (offset i)) by (unfold offset; cbv zeta; destruct Req_EM_T; apply rnd_double).
    destruct (fadd_error (offset i) a Do Da) as (e & He & ->). destruct (offset_error i) as (e' & He' & E').
    assert (M : Rabs (offset i + a) <= Rmax (Rabs a) (Rabs b)).
    { apply Rabs_le. pose proof (Rmax_l (Rabs a) (Rabs b)). pose proof (Rmax_r (Rabs a) (Rabs b)). pose proof (Rle_abs b). pose proof (Rle_abs (- a)) as K. rewrite Rabs_Ropp in K. lra. }
    assert (M2 : b - a <= 2 * Rmax (Rabs a) (Rabs b)).
    { pose proof (Rmax_l (Rabs a) (Rabs b)). pose proof (Rmax_r (Rabs a) (Rabs b)). pose proof (Rle_abs b). pose proof (Rle_abs (- a)) as K. rewrite Rabs_Ropp in K. lra. }
    replace ((offset i + a) * (1 + e) - (a + INR i * h)) with (e * (offset i + a) + (offset i - INR i * h)) by ring. rewrite E' at 2.
    replace (INR i * h * (1 + e') - INR i * h) with (e' * (INR i * h)) by ring.
    eapply Rle_trans; [apply Rabs_triang|]. rewrite !Rabs_mult.
    assert (R0 : 0 <= INR i * h) by (apply Rmult_le_pos; [apply pos_INR|apply h_nonneg]).
    rewrite <- (Rabs_mult (INR i) h), (Rabs_pos_eq (INR i * h)) by exact R0. pose proof u_pos.
    assert (Rabs e * Rabs (offset i + a) <= u * Rmax (Rabs a) (Rabs b)) by (apply Rmult_le_compat; auto using Rabs_pos).
    assert (Rabs e' * (INR i * h) <= 7 / 2 * u * (2 * Rmax (Rabs a) (Rabs b))) by (apply Rmult_le_compat; [apply Rabs_pos|exact R0|exact He'|lra]).
    lra.
  Qed.
End Points.

(** ** The grid *)
Lemma flinspace_ok a b n : (2 <= n)%Z ->
  flinspace a b n = Ok (map (flinspace_point a b n) (seq 0 (Z.to_nat (n - 1))) ++ [b]).
Proof.
  intros H. unfold flinspace. destruct (Z.ltb_spec n 0); [lia|]. destruct (Z.eqb_spec n 0); [lia|]. destruct (Z.eqb_spec n 1); [lia|].
  replace (Z.to_nat n) with (Z.to_nat (n - 1) + 1)%nat by lia. rewrite seq_app, map_app. cbn [seq map].
  unfold set_last. rewrite removelast_last. destruct (map _ _); reflexivity.
Qed.
Lemma linspace_split a b n : (2 <= n)%Z ->
  linspace a b n = Ok (map (fun i => a + INR i * ((b - a) / IZR (n - 1))) (seq 0 (Z.to_nat (n - 1))) ++ [b]).
Proof.
  intros H. rewrite linspace_ok by exact H. replace (Z.to_nat n) with (Z.to_nat (n - 1) + 1)%nat by lia. rewrite seq_app, map_app. cbn [seq map]. do 3 f_equal.
  rewrite Nat.add_0_l, INR_IZR_INZ, Z2Nat.id by lia. assert (1 <= IZR (n - 1)) by (apply IZR_le; lia). field. lra.
Qed.
Lemma sorted_map_seq (P : R -> R -> Prop) f m : (forall i j, (i < j < m)%nat -> P (f i) (f j)) -> StronglySorted P (map f (seq 0 m)).
Proof.
  intros H. assert (X : forall k s, (forall i j, (s <= i)%nat -> (i < j < s + k)%nat -> P (f i) (f j)) -> StronglySorted P (map f (seq s k))).
  { induction k as [|k IH]; cbn; intros s K; [constructor|]. constructor; [apply IH; intros; apply K; lia|].
    apply Forall_forall. intros y I. apply in_map_iff in I. destruct I as (j & <- & I). apply in_seq in I. apply K; lia. }
  apply X. intros. apply H. lia.
Qed.
Lemma sorted_snoc (P : R -> R -> Prop) l b : StronglySorted P l -> Forall (fun x => P x b) l -> StronglySorted P (l ++ [b]).
Proof.
  intros S F. induction S as [|x l S IH K]; cbn; [repeat constructor|]. inversion F; subst. constructor; [now apply IH|]. apply Forall_app. split; [exact K|]. repeat constructor. assumption.
Qed.
Lemma flinspace_grid a b n : double a -> double b -> a <= b -> (2 <= n <= 2 ^ 50)%Z -> no_underflow a b n ->
  exists xs ys, flinspace a b n = Ok xs /\ linspace a b n = Ok ys /\
    length xs = Z.to_nat n /\ ascending xs /\ Forall (fun x => double x /\ a <= x <= b) xs /\ first xs = a /\ final xs = b /\
    Forall2 (fun x y => Rabs (x - y) <= 8 * unit_roundoff * Rmax (Rabs a) (Rabs b)) xs ys.
Proof.
  intros Da Db H Hn Hs. rewrite flinspace_ok, linspace_split by lia. do 2 eexists. split; [reflexivity|]. split; [reflexivity|].
  assert (K : forall i, (i < Z.to_nat (n - 1))%nat -> (Z.of_nat i < n - 1)%Z) by lia.
  split; [rewrite app_length, map_length, seq_length; cbn; lia|]. split; [|split; [|split; [|split]]].
  - apply sorted_snoc; [apply sorted_map_seq; intros; apply point_mono; auto; lia|]. apply Forall_forall. intros y I. apply in_map_iff in I. destruct I as (i & <- & I). apply in_seq in I.
    apply (point_range a b n); auto. apply K. lia.
  - apply Forall_app. split; [|constructor; [split; [exact Db|lra]|constructor]]. apply Forall_forall. intros y I. apply in_map_iff in I. destruct I as (i & <- & I). apply in_seq in I.
    split; [apply rnd_double|]. apply (point_range a b n); auto. apply K. lia.
  - destruct (Z.to_nat (n - 1)) eqn:E; [lia|]. unfold first. cbn [seq map app hd]. now apply point_0.
  - unfold final. apply last_last.
  - apply Forall2_app.
    + assert (X : forall l, (forall i, In i l -> (i < Z.to_nat (n - 1))%nat) -> Forall2 (fun x y => Rabs (x - y) <= 8 * unit_roundoff * Rmax (Rabs a) (Rabs b))
        (map (flinspace_point a b n) l) (map (fun i => a + INR i * ((b - a) / IZR (n - 1))) l)).
      { induction l as [|i l IH]; intros Hl; cbn; constructor; [|apply IH; intros; apply Hl; now right]. apply point_error; auto. apply K. apply Hl. now left. }
      apply X. intros i I. apply in_seq in I. lia.
    + constructor; [|constructor]. rewrite Rminus_diag_eq, Rabs_R0 by reflexivity. pose proof u_pos. change unit_roundoff with u. apply Rmult_le_pos; [lra|]. eapply Rle_trans; [apply Rabs_pos|apply Rmax_l].
Qed.
Lemma flinspace_strict a b n xs : double a -> double b -> a <= b -> (2 <= n <= 2 ^ 50)%Z -> no_underflow a b n ->
  16 * unit_roundoff * Rmax (Rabs a) (Rabs b) < (b - a) / IZR (n - 1) -> flinspace a b n = Ok xs -> StronglySorted Rlt xs.
Proof.
  intros Da Db H Hn Hs G E. rewrite flinspace_ok in E by lia. injection E as <-. change unit_roundoff with u in G.
  assert (K : forall i, (i < Z.to_nat (n - 1))%nat -> (Z.of_nat i < n - 1)%Z) by lia. pose proof (h_nonneg a b n H Hn) as Hh.
  apply sorted_snoc.
  - apply sorted_map_seq. intros i j [I1 I2]. pose proof (point_error a b n Da Db H Hn Hs i (K i ltac:(lia))) as E1. pose proof (point_error a b n Da Db H Hn Hs j (K j ltac:(lia))) as E2.
    apply Rabs_le_inv in E1, E2. assert (INR i + 1 <= INR j) by (rewrite <- S_INR; apply le_INR; lia). nra.
  - apply Forall_forall. intros y I. apply in_map_iff in I. destruct I as (i & <- & I). apply in_seq in I.
    pose proof (point_error a b n Da Db H Hn Hs i (K i ltac:(lia))) as E1. apply Rabs_le_inv in E1.
    assert (P : 1 <= IZR (n - 1)) by (apply IZR_le; lia). assert (INR i + 1 <= IZR (n - 1)) as Q. { rewrite INR_IZR_INZ, <- plus_IZR. apply IZR_le. lia. }
    replace b with (a + IZR (n - 1) * ((b - a) / IZR (n - 1))) at 2 by (field; lra). assert (0 <= Rmax (Rabs a) (Rabs b)) by (eapply Rle_trans; [apply Rabs_pos|apply Rmax_l]). pose proof u_pos. nra.
Qed.

(** *** Counterexamples *)
(** [np.linspace(1, 1 + 2^-52, 4)]: there are no doubles in between. *)
Lemma repeated_points : exists a b n xs, double a /\ double b /\ a < b /\ (2 <= n <= 2 ^ 50)%Z /\ no_underflow a b n /\
  flinspace a b n = Ok xs /\ ~ NoDup xs.
Proof.
  set (b := 4503599627370497 / 4503599627370496).
  assert (Db : double b) by (apply (double_scaled 4503599627370497 (-52) (/ 4503599627370496)); [reflexivity|lia|lia]).
  exists 1, b, 4%Z. eexists. split; [apply double_1|]. split; [exact Db|]. split; [unfold b; lra|]. split; [lia|].
  split.
  { right. apply Rle_trans with (bpow radix2 (-60) * 3).
    - apply Rmult_le_compat; [apply bpow_ge_0|apply IZR_le; lia|apply bpow_le; lia|apply IZR_le; lia].
    - change (bpow radix2 (-60)) with (/ 1152921504606846976). unfold b. lra. }
  split; [apply flinspace_ok; lia|]. change (Z.to_nat (4 - 1)) with 3%nat. cbn [seq map app].
  assert (E : flinspace_point 1 b 4 1 = 1).
  { rewrite point_offset. unfold offset. cbv zeta.
    assert (D : fsub b 1 = / 4503599627370496).
    { unfold fsub. replace (b - 1) with (1 * / 4503599627370496) by (unfold b; lra). rewrite rnd_id; [lra|]. apply (double_scaled 1 (-52)); [reflexivity|lia|lia]. }
    rewrite D. change (IZR (4 - 1)) with 3. change (INR 1) with 1. set (s := fquo (/ 4503599627370496) 3).
    assert (S : 0 < s <= 3 / 8 * / 4503599627370496).
    { unfold s, fquo. split.
      - apply Rlt_le_trans with (1 * / 18014398509481984); [lra|]. apply rnd_ge; [apply (double_scaled 1 (-54)); [reflexivity|lia|lia]|lra].
      - apply rnd_le_d; [|lra]. replace (3 / 8 * / 4503599627370496) with (3 * / 36028797018963968) by lra. apply (double_scaled 3 (-55)); [reflexivity|lia|lia]. }
    destruct Req_EM_T; [lra|]. rewrite fmul_1_l by apply rnd_double. unfold fadd. rewrite (rnd_lit _ 4503599627370496 (-52) (/ 4503599627370496)); [lra|lia|lia|lia|reflexivity|lra..]. }
  rewrite E, (point_0 1 b 4 double_1). intros N. inversion N as [|? ? N1 N2]. apply N1. now left.
Qed.
(** Subnormal steps: with [s] the smallest positive number, [np.linspace(0, 3 s, 6)] is [0, s, 2 s, 3 s, 4 s, 3 s]. *)
Lemma rnd_sub x m : (0 < x) -> (Z.abs m < 2 ^ 52)%Z -> x < bpow radix2 (-1022) ->
  (IZR m - / 2) * bpow radix2 (-1074) < x -> x < (IZR m + / 2) * bpow radix2 (-1074) -> rnd x = IZR m * bpow radix2 (-1074).
Proof.
  intros Px Hm H1 Hl Hh. pose proof (bpow_gt_0 radix2 (-1074)) as Pe.
  assert (M : (mag radix2 x <= -1022)%Z) by (apply mag_le_bpow; [lra|rewrite Rabs_pos_eq by lra; exact H1]).
  unfold rnd, round, scaled_mantissa, cexp. replace (fexp64 (mag radix2 x)) with (-1074)%Z by (unfold fexp64, FLT_exp; lia).
  rewrite (Znearest_imp _ _ m); [reflexivity|]. rewrite bpow_opp.
  replace (x * / bpow radix2 (-1074) - IZR m) with ((x - IZR m * bpow radix2 (-1074)) * / bpow radix2 (-1074)) by (field; lra).
  rewrite Rabs_mult, (Rabs_pos_eq (/ _)) by (left; now apply Rinv_0_lt_compat).
  apply (Rmult_lt_reg_r (bpow radix2 (-1074))); [exact Pe|]. rewrite Rmult_assoc, Rinv_l by lra. rewrite Rmult_1_r. apply Rabs_def1; lra.
Qed.
Lemma descending_points : exists a b n xs, double a /\ double b /\ a < b /\ (2 <= n <= 2 ^ 50)%Z /\
  flinspace a b n = Ok xs /\ ~ ascending xs.
Proof.
  set (s := bpow radix2 (-1074)). pose proof (bpow_gt_0 radix2 (-1074)) as Ps. fold s in Ps.
  assert (Ds : forall m, (Z.abs m < 2 ^ 53)%Z -> double (IZR m * s)) by (intros; apply double_scaled with (e := (-1074)%Z); [reflexivity|lia|assumption]).
  exists 0, (3 * s), 6%Z. eexists. split; [apply double_0|]. split; [apply (Ds 3%Z); lia|]. split; [lra|]. split; [lia|].
  split; [apply flinspace_ok; lia|]. change (Z.to_nat (6 - 1)) with 5%nat. cbn [seq map app].
  assert (E : flinspace_point 0 (3 * s) 6 4 = 4 * s).
  { rewrite point_offset. unfold offset. cbv zeta. change (IZR (6 - 1)) with 5.
    assert (D : fsub (3 * s) 0 = 3 * s) by (unfold fsub; rewrite Rminus_0_r; apply rnd_id, (Ds 3%Z); lia).
    assert (Q : fquo (3 * s) 5 = s).
    { unfold fquo. rewrite (rnd_sub _ 1); fold s; [lra|lra|lia| |lra|lra]. apply Rlt_le_trans with (bpow radix2 (-1073)); [|apply bpow_le; lia].
      replace (bpow radix2 (-1073)) with (2 * s) by (unfold s; change (-1073)%Z with (1 + -1074)%Z; rewrite bpow_plus; reflexivity). lra. }
    rewrite D, Q. destruct Req_EM_T; [lra|]. replace (INR 4) with 4 by (simpl; ring). unfold fmul. rewrite (rnd_id (4 * s)) by (apply (Ds 4%Z); lia). apply fadd_0_r. apply (Ds 4%Z); lia. }
  rewrite E. intros A. do 4 (inversion A as [|? ? A' _]; subst; clear A; rename A' into A). inversion A as [|? ? _ F]; subst. inversion F; subst. lra.
Qed.
