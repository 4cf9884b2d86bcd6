(** The dictionaries of tables with rounding. *)
From Coq Require Import Reals List ZArith Lra Lia Psatz Bool String Permutation.
From Flocq Require Import Core.
From Verif Require Import Py PyNum Spec M_Num M_Readers M_Constituents M_Xrmac M_XrmacTables M_Float S_Float M_Float7 M_Float9 S_Decimal S_Natural S_XrmacTables S_Float7 S_Float9
  L_Decimal L_Natural L_XrmacReader L_XrmacTables L_Float L_Float2 L_Float5 L_Float7 L_Float8 L_Float34 L_Float36 L_Float37.
Import ListNotations.
Open Scope R_scope.
Open Scope py_scope.

(** ** Masses *)
Definition zero_or_more (n : nat) (x : R) : Prop := x = 0 \/ / 10 ^ n <= x.
Lemma ten_inv_pos n : 0 < / 10 ^ n. Proof. apply Rinv_0_lt_compat, pow_lt. lra. Qed.
Lemma zom_nonneg n x : zero_or_more n x -> 0 <= x.
Proof. pose proof (ten_inv_pos n). intros [->|H1]; lra. Qed.
Lemma zom_mul n k x y : zero_or_more n x -> zero_or_more k y -> zero_or_more (n + k) (x * y).
Proof.
  pose proof (ten_inv_pos n). pose proof (ten_inv_pos k). intros [->|X]; [left; ring|]. intros [->|Y]; [left; ring|]. right. rewrite pow_add, Rinv_mult. apply Rmult_le_compat; lra.
Qed.
Lemma zom_weaken n k x : (n <= k)%nat -> zero_or_more n x -> zero_or_more k x.
Proof. intros H [->|X]; [now left|right]. eapply Rle_trans; [|exact X]. apply Rinv_le_contravar; [apply pow_lt; lra|]. apply Rle_pow; [lra|exact H]. Qed.
Lemma zom_add n x y : zero_or_more n x -> zero_or_more n y -> zero_or_more n (x + y).
Proof. pose proof (ten_inv_pos n). intros [->|X] [->|Y]; [left; ring|right; lra..]. Qed.
Lemma zom_sum n xs : List.Forall (zero_or_more n) xs -> zero_or_more n (Rsum xs).
Proof. induction 1 as [|x xs H F IH]; [now left|]. rewrite Rsum_cons'. now apply zom_add. Qed.
Lemma ordinary_read v : ordinary v -> exists x, worth v x /\ fnum v = Ok (rnd x) /\ roundings 1 (rnd x) x /\ zero_or_more 99 x.
Proof.
  intros (x & W & H). exists x. split; [exact W|]. split; [now apply fnum_worth|]. assert (Z : zero_or_more 99 x) by (destruct H as [H|[H _]]; [now left|now right]). split; [|exact Z]. split; [apply rnd_double|]. change unit_roundoff with u.
  destruct Z as [->|Z]; [rewrite rnd_0, Rminus_0_r, Rabs_R0; lra|]. pose proof (ten_inv_pos 99). rewrite Rmult_1_l. apply rnd_rel_any. rewrite Rabs_pos_eq by lra.
  pose proof (normal_300 x) as N. assert (/ 10 ^ 300 <= / 10 ^ 99) by (apply Rinv_le_contravar; [apply pow_lt; lra|apply Rle_pow; [lra|lia]]). specialize (N ltac:(lra)). lra.
Qed.
Lemma product_read m a : ordinary m -> ordinary a -> exists v y y', num_mul m a = v /\ worth v y /\ (let! x := fnum m in let! z := fnum a in Ok (fmul x z)) = Ok y' /\ roundings 4 y' y /\ zero_or_more 198 y.
Proof.
  intros Om Oa. destruct (ordinary_read m Om) as (x & Wx & Ex & Rx & Zx). destruct (ordinary_read a Oa) as (z & Wz & Ez & Rz & Zz). exists (num_mul m a), (x * z), (fmul (rnd x) (rnd z)).
  split; [reflexivity|]. split; [now apply num_mul_worth|]. split; [rewrite Ex; cbn [bind]; rewrite Ez; reflexivity|]. pose proof (zom_mul 99 99 x z Zx Zz) as Z. split; [|exact Z].
  replace 4 with (1 + 1 + 2) by ring. apply rounding_mul; try lra; try (eapply zom_nonneg; eassumption); try assumption. apply (zom_weaken _ 300) in Z; [exact Z|lia].
Qed.
Lemma products_read (e : natural_element) sub : NoDup (dkeys (el_isotopes e)) -> incl sub (el_isotopes e) ->
  List.Forall (fun ki => exists m a, iso_mass (snd ki) = Some m /\ ordinary m /\ dget (el_abundances e) (fst ki) = Some (Some a) /\ ordinary a) sub ->
  exists vs ys ys',
    traverse (fun iso => let! i := dgetE (el_isotopes e) iso in let! a := dgetE (el_abundances e) iso in entry_mul (iso_mass i) a) (map fst sub) = Ok (map Some vs) /\
    traverse (fun k => let! i := dgetE (el_isotopes e) k in let! a := dgetE (el_abundances e) k in
      match iso_mass i, a with Some m, Some a => let! m := fnum m in let! a := fnum a in Ok (fmul m a) | _, _ => Raise TypeError end) (map fst sub) = Ok ys' /\
    Forall2 worth vs ys /\ Forall2 (fun y' y => roundings 4 y' y /\ 0 <= y) ys' ys /\ List.Forall (zero_or_more 198) ys /\ List.length ys' = List.length sub.
Proof.
  intros ND. induction sub as [|[k i] sub IH]; intros I F.
  - exists [], [], []. repeat split; constructor.
  - apply List.Forall_cons_iff in F. destruct F as [(m & a & Em & Om & Ea & Oa) F]. cbn [fst snd] in *. destruct (IH (fun x h => I x (or_intror h)) F) as (vs & ys & ys' & T1 & T2 & F1 & F2 & F3 & L).
    pose proof (dget_in _ k i ND (I _ (or_introl eq_refl))) as Di. destruct (product_read m a Om Oa) as (v & y & y' & Ev & Wv & Ey & Ry & Zy).
    exists (v :: vs), (y :: ys), (y' :: ys'). cbn [map fst]. rewrite !traverse_cons. unfold dgetE in T1, T2 |- *. rewrite Di, Ea. cbn [bind]. rewrite Em. cbn [entry_mul bind] in *. rewrite T1, Ev. rewrite Ey. cbn [bind]. rewrite T2. cbn [bind].
    repeat split; try constructor; try assumption; try (split; [assumption|eapply zom_nonneg; eassumption]). cbn. now rewrite L.
Qed.
Lemma mass_read n t e m : (n <= 100)%nat -> ordinary_element n e -> orders t -> has_mass e m ->
  exists m', fmass t e = Ok m' /\ roundings (INR n + 4) m' m /\ zero_or_more 198 m.
Proof.
  intros Hn (EA & Ln & ND & F) OT (v & Ev & Wv). destruct (products_read e (el_isotopes e) ND (fun x h => h) F) as (vs & ys & ys' & T1 & T2 & F1 & F2 & F3 & L).
  unfold amu_from_isotopic_composition in EA. unfold dkeys in EA. rewrite T1 in EA. cbn [bind] in EA. injection EA as EA. rewrite Ev in EA. injection EA as EA. rewrite map_map, map_id in EA.
  pose proof (num_sum_worth vs ys F1) as W. rewrite EA in W. change (fold_left Rplus ys 0) with (py_sum_R ys) in W. assert (SE : py_sum_R ys = Rsum ys) by (unfold py_sum_R; rewrite L_Constituents.py_sum_Rsum_acc; ring). rewrite SE in W.
  pose proof (worth_fun _ _ _ Wv W) as ->. exists (np_sum (t (List.length ys')) ys'). split; [unfold fmass, dkeys; now rewrite T2|].
  split; [|now apply zom_sum]. destruct (sum_roundings 4 (t (List.length ys')) ys' ys ltac:(lra) (OT _) ltac:(lia) F2) as [Q _]. eapply rounding_weaken; [|exact Q]. rewrite L. assert (INR (List.length (el_isotopes e)) <= INR n) by (apply le_INR; lia). lra.
Qed.
Lemma zom_300 x k : (k <= 300)%nat -> zero_or_more k x -> x = 0 \/ / 10 ^ 300 <= x.
Proof. intros H Z. exact (zom_weaken k 300 x H Z). Qed.
Lemma conversion_read n t sq amc g c c' m : (n <= 100)%nat -> orders t -> conversion_factors sq amc -> (forall x e, dget (g_natural_elements g) x = Some e -> ordinary_element n e) ->
  mass_now g m -> zero_or_more 99 c -> roundings 1 c' c -> exists y', ffm2_per_atom t sq amc g c' = Ok y' /\ roundings (INR n + 15) y' (c * per_atom amc m).
Proof.
  intros Hn OT (Rsq & Da & Ba) OE (x & e & E1 & E2 & Hm) Zc Rc. destruct (mass_read n t e m Hn (OE x e E2) OT Hm) as (m' & Em & Rm & Zm).
  unfold ffm2_per_atom. rewrite E1. cbn [bind]. unfold dgetE. rewrite E2. cbn [bind]. rewrite Em. cbn [bind]. eexists. split; [reflexivity|].
  assert (NB : 0 <= INR n <= 100). { split; [apply pos_INR|]. replace 100 with (INR 100) by (rewrite INR_IZR_INZ; reflexivity). now apply le_INR. }
  assert (Z0 : 0 <= 10 ^ 26) by (apply pow_le; lra).
  assert (Pa : / 10 ^ 27 <= amc) by lra. assert (Za : zero_or_more 27 amc) by now right. assert (Ra : roundings 0 amc amc). { split; [exact Da|]. unfold Rminus. rewrite Rplus_opp_r, Rabs_R0, !Rmult_0_l. lra. }
  assert (Zk : zero_or_more 0 kg_to_g). { right. unfold kg_to_g. simpl. lra. } assert (Rk : roundings 0 kg_to_g kg_to_g). { split; [|unfold Rminus; rewrite Rplus_opp_r, Rabs_R0, !Rmult_0_l; lra]. unfold kg_to_g. replace (10 ^ 3) with (IZR 1000) by (simpl; ring). apply double_IZR. lia. }
  assert (Z1 : zero_or_more 73 (c * 10 ^ 26)).
  { destruct Zc as [->|Zc]; [left; ring|right]. apply Rle_trans with (/ 10 ^ 99 * 10 ^ 26); [|apply Rmult_le_compat_r; assumption]. replace 99%nat with (73 + 26)%nat by reflexivity. rewrite pow_add, Rinv_mult, Rmult_assoc, Rinv_l, Rmult_1_r; [lra|apply pow_nonzero; lra]. }
  pose proof (zom_mul _ _ _ _ Z1 Zm) as Z2. pose proof (zom_mul _ _ _ _ Z2 Za) as Z3. pose proof (zom_mul _ _ _ _ Z3 Zk) as Z4. cbn [Nat.add] in Z1, Z2, Z3, Z4.
  apply (zom_300 _ 73 ltac:(lia)) in Z1 as N1. apply (zom_300 _ 271 ltac:(lia)) in Z2 as N2. apply (zom_300 _ 298 ltac:(lia)) in Z3 as N3. apply (zom_300 _ 298 ltac:(lia)) in Z4 as N4.
  pose proof (rounding_mul 1 2 c' c sq (10 ^ 26) ltac:(lra) ltac:(lra) (zom_nonneg _ _ Zc) Z0 N1 Rc Rsq) as R1.
  pose proof (rounding_mul (1 + 2 + 2) (INR n + 4) _ _ m' m ltac:(lra) ltac:(lra) (zom_nonneg _ _ Z1) (zom_nonneg _ _ Zm) N2 R1 Rm) as R2.
  pose proof (rounding_mul (1 + 2 + 2 + (INR n + 4) + 2) 0 _ _ amc amc ltac:(lra) ltac:(lra) (zom_nonneg _ _ Z2) (zom_nonneg _ _ Za) N3 R2 Ra) as R3.
  pose proof (rounding_mul (1 + 2 + 2 + (INR n + 4) + 2 + 0 + 2) 0 _ _ kg_to_g kg_to_g ltac:(lra) ltac:(lra) (zom_nonneg _ _ Z3) (zom_nonneg _ _ Zk) N4 R3 Rk) as R4.
  replace (c * per_atom amc m) with (c * 10 ^ 26 * m * amc * kg_to_g) by (unfold per_atom, kg_to_g; ring). eapply rounding_weaken; [|exact R4]. lra.
Qed.

(** ** One object *)
Lemma rows_read g xc fxc k rows data : 1 <= k ->
  (forall v x c, ordinary v -> worth v x -> xc g x = Ok c -> exists c', fxc g (rnd x) = Ok c' /\ roundings k c' c) -> List.Forall ordinary_row rows ->
  Forall2 (row_conv (fun v => let! x := num_R v in no_conversion g x) (fun v => let! x := num_R v in xc g x)) rows data ->
  exists data', Forall2 (row_conv (fun v => let! x := fnum v in no_conversion g x) (fun v => let! x := fnum v in fxc g x)) rows data' /\
    Forall2 (fun r' r => fst (fst r') = rnd (fst (fst r)) /\ roundings k (snd (fst r')) (snd (fst r)) /\ roundings k (snd r') (snd r)) data' data.
Proof.
  intros Hk H F FF. induction FF as [|r d rows data (C0 & C1 & C2) FF IH]; [exists []; split; constructor|]. apply List.Forall_cons_iff in F. destruct F as [(O0 & O1 & O2) F]. destruct (IH F) as (data' & F1 & F2).
  apply bind_ok_iff in C0. destruct C0 as (x0 & W0 & C0). apply bind_ok_iff in C1. destruct C1 as (x1 & W1 & C1). apply bind_ok_iff in C2. destruct C2 as (x2 & W2 & C2). apply num_R_worth in W0, W1, W2.
  destruct (H _ _ _ O1 W1 C1) as (c1 & E1 & R1). destruct (H _ _ _ O2 W2 C2) as (c2 & E2 & R2). unfold no_conversion in C0. injection C0 as C0.
  exists ((rnd x0, c1, c2) :: data'). split; constructor; try assumption.
  - unfold row_conv. cbn [fst snd]. rewrite (fnum_worth _ _ W0), (fnum_worth _ _ W1), (fnum_worth _ _ W2). cbn [bind]. repeat split; [exact E1|exact E2].
  - cbn [fst snd]. rewrite <- C0. repeat split; try reflexivity; try apply R1; apply R2.
Qed.
Lemma finterpolate_no_raise l minval (data' data : list (R * R)) : List.length data' = List.length data -> (forall e, interpolate_log_log minval data <> Raise e) -> forall e, finterpolate_log_log l minval data' <> Raise e.
Proof.
  intros L H e. unfold interpolate_log_log in H. unfold finterpolate_log_log. destruct data as [|d data]; [exfalso; now apply (H IndexError)|]. destruct data' as [|d' data']; [discriminate|]. rewrite L.
  destruct (_ <? minval)%nat; [exfalso; now apply (H ValueError)|]. clear H. destruct (forallb _ _); discriminate.
Qed.
Lemma object_read l minval g xc fxc k file o : 1 <= k ->
  (forall v x c, ordinary v -> worth v x -> xc g x = Ok c -> exists c', fxc g (rnd x) = Ok c' /\ roundings k c' c) ->
  (forall rows, read_nist_xrmac Ok Ok file = Ok rows -> List.Forall ordinary_row rows) ->
  XRMAC_file minval g no_conversion xc file = Ok o -> exists o', fXRMAC_file l minval g no_conversion fxc file = Ok o' /\ read_object l minval k o' o.
Proof.
  intros Hk H FO HO. apply object_iff in HO. destruct HO as (rows & Rr & F & NR & _ & _ & I). destruct (rows_read g xc fxc k rows (xo_data o) Hk H (FO rows Rr) F) as (data' & F1 & F2).
  assert (RC : read_nist_xrmac (fun v => let! x := fnum v in no_conversion g x) (fun v => let! x := fnum v in fxc g x) file = Ok data') by (apply read_conv; now exists rows).
  assert (L : List.length (map fst data') = List.length (map fst (xo_data o))) by (rewrite !map_length; exact (F2_length _ _ _ F2)).
  pose proof (finterpolate_no_raise l minval _ _ L NR) as NR'. exists {| fo_data := data'; fo_interpolation := finterpolate_log_log l minval (map fst data') |}. split.
  - unfold fXRMAC_file. rewrite RC. cbn [bind]. destruct (finterpolate_log_log l minval (map fst data')) as [i| |e] eqn:E; [reflexivity|reflexivity|now elim (NR' e)].
  - split; [exact F2|]. split; [reflexivity|exact I].
Qed.
(** ** The loop *)
Definition same_dict {A B} (Q : A -> B -> Prop) (d : dict A) (d' : dict B) : Prop := Forall2 (fun a b => fst a = fst b /\ Q (snd a) (snd b)) d d'.
Lemma same_dset {A B} (Q : A -> B -> Prop) d d' k v v' : same_dict Q d d' -> Q v v' -> same_dict Q (dset d k v) (dset d' k v').
Proof.
  intros F H. induction F as [|[a x] [b y] d d' (E & E2) F IH]; cbn [dset]; [repeat constructor; exact H|]. cbn [fst snd] in *. subst b. destruct (String.eqb k a); constructor; try assumption; split; (reflexivity || assumption).
Qed.
Lemma same_dget {A B} (Q : A -> B -> Prop) d d' k v : same_dict Q d d' -> dget d k = Some v -> exists v', dget d' k = Some v' /\ Q v v'.
Proof.
  intros F. induction F as [|[a x] [b y] d d' (E & E2) F IH]; cbn [dget]; [discriminate|]. cbn [fst snd] in *. subst b. destruct (String.eqb k a); [|exact IH]. intros H. injection H as <-. now exists y.
Qed.
Lemma same_keys {A B} (Q : A -> B -> Prop) d d' : same_dict Q d d' -> dkeys d' = dkeys d.
Proof. induction 1 as [|a b d d' (E & _) F IH]; [reflexivity|]. cbn. unfold dkeys in IH. now rewrite E, IH. Qed.
Section Module.
Variables (l : llib) (minval n : nat) (t : nat -> option order) (sq amc : R) (file : Z -> string) (els : dict natural_element).
Hypothesis (Hn : (n <= 100)%nat) (OT : orders t) (CF : conversion_factors sq amc) (OE : forall x e, dget els x = Some e -> ordinary_element n e).
Lemma loop_read zs : (forall z, In z zs -> forall rows, read_nist_xrmac Ok Ok (file z) = Ok rows -> List.Forall ordinary_row rows) ->
  forall g cm2 fm2 fcm2 ffm2 g' cm2' fm2', g_natural_elements g = els ->
  same_dict (fun o o' => read_object l minval 1 o' o) cm2 fcm2 -> same_dict (fun o o' => read_object l minval (INR n + 15) o' o) fm2 ffm2 ->
  xrmac_tables_loop minval amc file zs g cm2 fm2 = Ok (g', cm2', fm2') ->
  exists fcm2' ffm2', fxrmac_tables_loop l minval t sq amc file zs g fcm2 ffm2 = Ok (g', fcm2', ffm2') /\
    same_dict (fun o o' => read_object l minval 1 o' o) cm2' fcm2' /\ same_dict (fun o o' => read_object l minval (INR n + 15) o' o) fm2' ffm2'.
Proof.
  induction zs as [|z zs IH]; intros FO g cm2 fm2 fcm2 ffm2 g' cm2' fm2' EG S1 S2 L.
  - cbn in L |- *. injection L as <- <- <-. exists fcm2, ffm2. now repeat split.
  - cbn [xrmac_tables_loop fxrmac_tables_loop] in L |- *. set (g1 := set_Z g z) in *. apply bind_ok in L. destruct L as (o1 & E1 & L). apply bind_ok in L. destruct L as (x & Ex & L). apply bind_ok in L. destruct L as (o2 & E2 & L).
    assert (EG1 : g_natural_elements g1 = els) by exact EG. pose proof (FO z (or_introl eq_refl)) as FZ.
    destruct (object_read l minval g1 no_conversion no_conversion 1 (file z) o1 ltac:(lra)) as (o1' & E1' & R1); [|exact FZ|exact E1|].
    { intros v w c Ov W Hc. injection Hc as <-. destruct (ordinary_read v Ov) as (w' & W' & _ & Rw & _). rewrite (worth_fun _ _ _ W W'). exists (rnd w'). split; [reflexivity|exact Rw]. }
    destruct (object_read l minval g1 (fm2_per_atom amc) (ffm2_per_atom t sq amc) (INR n + 15) (file z) o2 ltac:(pose proof (pos_INR n); lra)) as (o2' & E2' & R2); [|exact FZ|exact E2|].
    { intros v w c Ov W Hc. apply conversion_iff in Hc. destruct Hc as (m & Hm & ->). destruct (ordinary_read v Ov) as (w' & W' & _ & Rw & Zw). rewrite (worth_fun _ _ _ W W').
      apply (conversion_read n t sq amc g1 w' (rnd w') m Hn OT CF); [rewrite EG1; exact OE|exact Hm|exact Zw|exact Rw]. }
    rewrite E1'. cbn [bind]. rewrite Ex. cbn [bind]. rewrite E2'. cbn [bind]. eapply IH; [intros z' I; apply FO; now right|exact EG| | |exact L]; now apply same_dset.
Qed.
End Module.
Lemma module_read l minval n t sq amc file X els g cm2 fm2 : (n <= 100)%nat -> orders t -> conversion_factors sq amc -> (forall x e, dget els x = Some e -> ordinary_element n e) ->
  (forall z, In z xrmac_Z -> forall rows, read_nist_xrmac Ok Ok (file z) = Ok rows -> List.Forall ordinary_row rows) ->
  xrmac_module minval amc file X els = Ok (g, cm2, fm2) -> exists fcm2 ffm2, fxrmac_module l minval t sq amc file X els = Ok (g, fcm2, ffm2) /\ dkeys fcm2 = dkeys cm2 /\ dkeys ffm2 = dkeys fm2 /\
    (forall x o, dget cm2 x = Some o -> exists o', dget fcm2 x = Some o' /\ read_object l minval 1 o' o) /\
    (forall x o, dget fm2 x = Some o -> exists o', dget ffm2 x = Some o' /\ read_object l minval (INR n + 15) o' o).
Proof.
  intros Hn OT CF OE FO M. destruct (loop_read l minval n t sq amc file els Hn OT CF OE xrmac_Z FO {| g_Z := 0; g_X := X; g_natural_elements := els |} [] [] [] [] g cm2 fm2 eq_refl (Forall2_nil _) (Forall2_nil _) M) as (fcm2 & ffm2 & E & S1 & S2).
  exists fcm2, ffm2. split; [exact E|]. split; [exact (same_keys _ _ _ S1)|]. split; [exact (same_keys _ _ _ S2)|]. split; intros x o D; [exact (same_dget _ _ _ _ _ S1 D)|exact (same_dget _ _ _ _ _ S2 D)].
Qed.
