(** The supplied files and elements with rounding. *)
From Coq Require Import Reals Ascii String List ZArith Lra Lia Psatz Bool.
From Flocq Require Import Core.
From Verif Require Import Py PyNum Spec M_Num M_Readers M_Constituents M_Xrmac M_XrmacTables M_Float S_Float M_Float7 M_Float9 S_Decimal S_Natural S_Readers S_Elements S_XrmacTables S_Float7 S_Float9
  L_Decimal L_Natural L_Objects L_NistData L_NatData L_Xrmac L_XrmacTables L_XrmacData L_XrmacSupplied L_Float L_Float2 L_Float34 L_Float35 L_Float36 L_Float37 L_Float38 L_Float39 L_Float26 L_Float7 D_Xrmac D_Elements D_Densities.
Import ListNotations.
Open Scope R_scope.
Open Scope py_scope.

Lemma log10_pow x n : 0 < x -> log10 (x ^ n) = INR n * log10 x.
Proof. intros H. unfold log10. rewrite ln_pow by exact H. unfold Rdiv. ring. Qed.
Lemma log10_le x y : 0 < x -> x <= y -> log10 x <= log10 y.
Proof.
  intros P H. unfold log10. assert (0 < ln 10) by (rewrite <- ln_1; apply ln_increasing; lra). unfold Rdiv. apply Rmult_le_compat_r; [left; now apply Rinv_0_lt_compat|].
  destruct H as [H|H]; [left; now apply ln_increasing|now rewrite H; right].
Qed.
Lemma slope_ok n a b c d e0 c0 e1 c1 : worth a e0 -> worth b c0 -> worth c e1 -> worth d c1 -> 0 < e0 -> 0 < c0 -> 0 < e1 -> 0 < c1 -> slope n a b c d = true ->
  Rabs (log10 c1 - log10 c0) <= INR n * (log10 e1 - log10 e0).
Proof.
  intros Wa Wb Wc Wd P0 Q0 P1 Q1 H. apply andb_true_iff in H. destruct H as [H1 H2].
  apply (num_le_worth _ _ _ _ (num_mul_worth _ _ _ _ Wd (num_pow_worth a e0 n Wa)) (num_mul_worth _ _ _ _ Wb (num_pow_worth c e1 n Wc))) in H1.
  apply (num_le_worth _ _ _ _ (num_mul_worth _ _ _ _ Wb (num_pow_worth a e0 n Wa)) (num_mul_worth _ _ _ _ Wd (num_pow_worth c e1 n Wc))) in H2.
  pose proof (pow_lt e0 n P0) as R0. pose proof (pow_lt e1 n P1) as R1. apply log10_le in H1, H2; try now apply Rmult_lt_0_compat. rewrite !log10_mul, !log10_pow in H1, H2 by assumption.
  apply Rabs_le. lra.
Qed.
Lemma bernoulli t n : 0 <= t -> 1 + INR n * t + INR n * (INR n - 1) / 2 * t ^ 2 <= (1 + t) ^ n.
Proof.
  intros T. induction n as [|n IH]; [cbn; lra|]. rewrite S_INR. cbn [pow] in *. pose proof (pos_INR n) as P. assert (Q : 0 <= INR n * (INR n - 1)).
  { destruct n as [|n]; [cbn; lra|]. rewrite S_INR. pose proof (pos_INR n). nra. }
  assert (C : 0 <= INR n * (INR n - 1) * (t * t * t)) by (apply Rmult_le_pos; [exact Q|repeat apply Rmult_le_pos; assumption]). apply (Rmult_le_compat_l (1 + t)) in IH; [|lra]. eapply Rle_trans; [|exact IH]. nra.
Qed.
Lemma steep_ok a b c d e0 c0 e1 c1 : worth a e0 -> worth b c0 -> worth c e1 -> worth d c1 -> 0 < e0 -> 0 < c0 -> e0 <= e1 -> 0 < c1 -> steep a b c d = true -> log10 c0 - log10 c1 <= 82 * (log10 e1 - log10 e0).
Proof.
  intros Wa Wb Wc Wd P0 Q0 L Q1 H. assert (W : forall z, worth (Fin z 0) (IZR z)) by (intros z; cbn; ring). assert (P1 : 0 < e1) by lra.
  apply (num_le_worth _ _ _ _ (num_add_worth _ _ _ _ (num_mul_worth _ _ _ _ Wb (num_mul_worth _ _ _ _ Wa Wa)) (num_mul_worth _ _ _ _ (W 6560%Z) (num_mul_worth _ _ _ _ Wd (num_mul_worth _ _ _ _ Wa Wc))))
    (num_mul_worth _ _ _ _ Wd (num_add_worth _ _ _ _ (num_mul_worth _ _ _ _ (W 3240%Z) (num_mul_worth _ _ _ _ Wa Wa)) (num_mul_worth _ _ _ _ (W 3321%Z) (num_mul_worth _ _ _ _ Wc Wc))))) in H.
  set (t := e1 / e0 - 1). assert (E1 : e1 = e0 * (1 + t)) by (unfold t; field; lra). assert (T : 0 <= t). { assert (e0 * 0 <= e0 * t) by lra. apply Rmult_le_reg_l with e0; assumption. }
  pose proof (bernoulli t 82 T) as B. replace (INR 82) with 82 in B by (rewrite INR_IZR_INZ; reflexivity).
  assert (C : c0 <= c1 * (1 + t) ^ 82). { apply Rle_trans with (c1 * (1 + 82 * t + 82 * (82 - 1) / 2 * t ^ 2)); [|apply Rmult_le_compat_l; lra]. apply Rmult_le_reg_l with (e0 * e0); [nra|]. rewrite E1 in H. nra. }
  apply log10_le in C; [|exact Q0]. assert (Pt : 0 < 1 + t) by lra. rewrite log10_mul, log10_pow in C by (try apply pow_lt; assumption). replace (INR 82) with 82 in C by (rewrite INR_IZR_INZ; reflexivity).
  rewrite E1, log10_mul by assumption. lra.
Qed.
Lemma between_ok v x : worth v x -> between v = true -> 0 < x /\ Rabs (log10 x) <= 5.
Proof.
  intros W H. apply andb_true_iff in H. destruct H as [H1 H2]. assert (W1 : worth (Fin 1 (-5)) (/ 10 ^ 5)) by (unfold worth; change (powerRZ 10 (-5)) with (/ 10 ^ 5); lra). assert (W2 : worth (Fin 1 5) (10 ^ 5)) by (unfold worth; change (powerRZ 10 5) with (10 ^ 5); lra).
  apply (num_le_worth _ _ _ _ W1 W) in H1. apply (num_le_worth _ _ _ _ W W2) in H2. assert (P : 0 < / 10 ^ 5) by (apply Rinv_0_lt_compat, pow_lt; lra). assert (PX : 0 < x) by lra. split; [exact PX|].
  assert (L : log10 10 = 1). { unfold log10. field. assert (0 < ln 10) by (rewrite <- ln_1; apply ln_increasing; lra). lra. }
  apply log10_le in H1; [|exact P]. apply log10_le in H2; [|exact PX]. rewrite log10_pow, L in H2 by lra. assert (L5 : log10 (/ 10 ^ 5) = - 5).
  { assert (Q : log10 (/ 10 ^ 5 * 10 ^ 5) = log10 1) by (f_equal; apply Rinv_l, pow_nonzero; lra). rewrite log10_mul, log10_pow, L in Q by (try apply pow_lt; lra). unfold log10 at 2 in Q. rewrite ln_1 in Q. cbn [INR] in Q. lra. }
  cbn [INR] in H2. apply Rabs_le. lra.
Qed.
Lemma ordb_ok v : ordb v = true -> ordinary v.
Proof.
  destruct v as [m e| | |]; try discriminate. cbn [ordb]. intros H. exists (IZR m * powerRZ 10 e). split; [reflexivity|]. apply orb_true_iff in H. destruct H as [H|H].
  - apply Z.eqb_eq in H. left. rewrite H. ring.
  - rewrite !andb_true_iff in H. destruct H as (((H1 & H2) & H3) & H4). apply Z.ltb_lt in H1. apply Z.leb_le in H2, H3, H4. right.
    assert (P : forall k, 0 < powerRZ 10 k) by (intros k; apply powerRZ_lt; lra). assert (M1 : 1 <= IZR m) by (apply IZR_le; lia).
    assert (M2 : IZR m <= 10 ^ 49). { change (10 ^ 49) with (IZR 10 ^ 49). rewrite pow_IZR. apply IZR_le. exact H2. }
    assert (E1 : powerRZ 10 (-99) <= powerRZ 10 e). { replace e with (-99 + Z.of_nat (Z.to_nat (e + 99)))%Z by lia. rewrite powerRZ_add by lra. rewrite <- (Rmult_1_r (powerRZ 10 (-99))) at 1. apply Rmult_le_compat_l; [left; apply P|]. rewrite <- pow_powerRZ. apply pow_R1_Rle. lra. }
    assert (E2 : powerRZ 10 e <= powerRZ 10 50). { replace 50%Z with (e + Z.of_nat (Z.to_nat (50 - e)))%Z by lia. rewrite powerRZ_add by lra. rewrite <- (Rmult_1_r (powerRZ 10 e)) at 1. apply Rmult_le_compat_l; [left; apply P|]. rewrite <- pow_powerRZ. apply pow_R1_Rle. lra. }
    change (powerRZ 10 (-99)) with (/ 10 ^ 99) in E1. change (powerRZ 10 50) with (10 ^ 50) in E2. pose proof (P e). split.
    + apply Rle_trans with (powerRZ 10 e); [exact E1|]. rewrite <- (Rmult_1_l (powerRZ 10 e)) at 1. apply Rmult_le_compat_r; lra.
    + replace (10 ^ 99) with (10 ^ 49 * 10 ^ 50) by (rewrite <- pow_add; reflexivity). apply Rmult_le_compat; lra.
Qed.
Lemma lines_check_ok p q d d' : row_worth p d -> row_worth q d' -> 0 < fst (fst d) -> 0 < snd (fst d) -> 0 < fst (fst d') -> 0 < snd (fst d') -> lines_check p q = true -> decimal_lines 82 (fst d) (fst d').
Proof.
  intros (W1 & W2 & _) (W3 & W4 & _) P1 P2 P3 P4. unfold lines_check. destruct (num_eqb (fst (fst p)) (fst (fst q))) eqn:E; [intros _; left; exact (num_eqb_worth _ _ _ _ W1 W3 E)|].
  destruct (num_le (num_mul (fst (fst p)) (Fin 100000001 (-8))) (fst (fst q))) eqn:G; [|discriminate]. intros H. right.
  assert (WG : worth (Fin 100000001 (-8)) (1 + / 10 ^ 8)). { unfold worth. change (powerRZ 10 (-8)) with (/ 10 ^ 8). simpl pow. lra. }
  apply (num_le_worth _ _ _ _ (num_mul_worth _ _ _ _ W1 WG) W3) in G. split; [exact G|]. assert (E8 : 0 <= / 10 ^ 8) by (left; apply Rinv_0_lt_compat, pow_lt; lra).
  assert (LL : log10 (fst (fst d)) <= log10 (fst (fst d'))) by (apply log10_le; [exact P1|nra]).
  assert (I4 : INR 4 = 4) by (cbn; lra).
  destruct (slope 4 _ _ _ _) eqn:S4 in H.
  - pose proof (slope_ok 4 _ _ _ _ _ _ _ _ W1 W2 W3 W4 P1 P2 P3 P4 S4) as Q. rewrite I4 in Q. lra.
  - destruct (steep _ (snd (fst p)) _ _) eqn:S1 in H; [|discriminate]. assert (LE : fst (fst d) <= fst (fst d')) by nra.
    pose proof (steep_ok _ _ _ _ _ _ _ _ W1 W2 W3 W4 P1 P2 LE P4 S1). pose proof (steep_ok _ _ _ _ _ _ _ _ W1 W4 W3 W2 P1 P4 LE P2 H). apply Rabs_le. lra.
Qed.
Lemma decimal_check_ok file : decimal_check file = true -> forall rows data, read_nist_xrmac Ok Ok file = Ok rows -> Forall2 row_worth rows data -> List.Forall ordinary_row rows /\ decimal_table 5 82 (map fst data).
Proof.
  intros H rows data Rr F. unfold decimal_check in H. rewrite Rr in H. apply andb_true_iff in H. destruct H as [HL HF]. rewrite forallb_forall in HF. split.
  - apply List.Forall_forall. intros r I. specialize (HF r I). rewrite !andb_true_iff in HF. destruct HF as (((_ & O1) & O2) & O3). repeat split; now apply ordb_ok.
  - assert (Q : List.Forall (fun p => 0 < fst p /\ Rabs (log10 (fst p)) <= 5 /\ 0 < snd p /\ Rabs (log10 (snd p)) <= 5) (map fst data)).
    { clear - F HF. induction F as [|r d rows data (W1 & W2 & W3) F IH]; [constructor|]. cbn [map]. constructor; [|apply IH; intros x I; apply HF; now right]. specialize (HF r (or_introl eq_refl)). rewrite !andb_true_iff in HF. destruct HF as ((((B1 & B2) & _) & _) & _).
      destruct (between_ok _ _ W1 B1), (between_ok _ _ W2 B2). now repeat split. }
    split; [exact Q|]. clear HF Rr file. induction F as [|r d rows data W F IH]; [exact I|]. cbn [map] in Q |- *. apply List.Forall_cons_iff in Q. destruct Q as [(P1 & _ & P2 & _) Q].
    destruct F as [|r' d' rows data W' F]; [exact I|]. cbn [lines_checks] in HL. apply andb_true_iff in HL. destruct HL as [H1 H2]. specialize (IH H2 Q). cbn [map] in Q, IH |- *. apply List.Forall_cons_iff in Q. destruct Q as [(P3 & _ & P4 & _) Q].
    split; [|exact IH]. exact (lines_check_ok r r' d d' W W' P1 P2 P3 P4 H1).
Qed.
Lemma supplied_decimal z : In z xrmac_Z -> forall rows data, read_nist_xrmac Ok Ok (supplied_xrmac z) = Ok rows -> Forall2 row_worth rows data -> List.Forall ordinary_row rows /\ decimal_table 5 82 (map fst data).
Proof.
  intros I. apply decimal_check_ok. apply seq_range in I. unfold supplied_xrmac. pose proof decimal_checked as H. rewrite forallb_forall in H. apply H. apply nth_In. rewrite files_length. lia.
Qed.

(** ** Checking the elements *)
Definition mass_made (e : natural_element) : Prop := amu_from_isotopic_composition entry_mul entry_sum (el_abundances e) (el_isotopes e) = Ok (el_amu e).
Lemma element_made f g X z e : natural_element_of f g X z = Ok e -> mass_made e.
Proof.
  unfold natural_element_of. destruct (read_nist_element_data f z) as [[ab iso]| |]; try discriminate. cbn [bind]. destruct (match zget X (Some z) with Some s => Ok s | None => Raise KeyError end) as [x| |]; try discriminate. cbn [bind].
  destruct (match x with Some s => Ok s | None => Raise TypeError end) as [s| |]; try discriminate. cbn [bind]. destruct (read_density_data g (fun v => Ok v) s) as [dn| |]; try discriminate. cbn [bind]. unfold Element.
  destruct (amu_from_isotopic_composition _ _ _ _) as [m| |] eqn:E; try discriminate. cbn [bind]. intros H. injection H as <-. exact E.
Qed.
Lemma elements_made f g X zs d r : natural_elements_loop f g X zs d = Ok r -> (forall k e, dget d k = Some e -> mass_made e) -> forall k e, dget r k = Some e -> mass_made e.
Proof.
  revert d. induction zs as [|z zs IH]; intros d; cbn [natural_elements_loop]; [intros H; now injection H as <-|]. destruct (natural_element_of f g X z) as [e0| |] eqn:E; try discriminate. cbn [bind]. intros H D.
  apply (IH _ H). intros k e. rewrite dget_dset'. destruct (String.eqb k (el_X e0)); [intros Q; injection Q as <-; exact (element_made _ _ _ _ _ E)|apply D].
Qed.
Lemma all_made f g els : make_natural_elements f g = Ok els -> forall k e, dget els k = Some e -> mass_made e.
Proof. unfold make_natural_elements. destruct (read_nist_element_symbols f) as [X| |]; try discriminate. cbn [bind]. intros H. apply (elements_made _ _ _ _ _ _ H). discriminate. Qed.
Lemma element_okb_ok ps z X e : describes ps z X e -> NoDup (map isotope_name (of_Z z ps)) -> paragraphs_okb ps (z, X) = true -> mass_made e -> ordinary_element 10 e /\ forall m, has_mass e m -> m = 0 \/ 1 <= m <= 300.
Proof.
  intros D ND H MM. unfold paragraphs_okb in H. cbn [fst] in H. rewrite !andb_true_iff in H. destruct H as (((H2 & H3) & H5) & H6). apply Nat.leb_le in H2, H3. destruct (one_keys ps z X e D) as [K1 K2].
  assert (A : el_amu e = Some (amu_num (of_Z z ps))) by exact (one_amu ps z X e D). pose proof D as (_ & _ & F1 & F2 & _). split.
  - split; [exact MM|]. split; [|split; [rewrite K1; exact ND|]].
    + assert (Q : List.length (el_isotopes e) = List.length (of_Z z ps)) by (clear - F1; induction F1; cbn; congruence). lia.
    + apply List.Forall_forall. intros [k i] I. destruct (Forall2_in_r _ _ _ (k, i) F1 I) as (p & Ip & Q1 & Q2 & m & Q3 & Q4). destruct (Forall2_in_l _ _ _ p F2 Ip) as ([k' a] & I2 & Q5 & c & Q6 & Q7). cbn [fst snd] in *.
      rewrite forallb_forall in H5. specialize (H5 p Ip). apply andb_true_iff in H5. destruct H5 as [O1 O2]. rewrite (mass_num_eq _ _ Q3) in O1. rewrite (count_num_eq _ _ Q6) in O2. exists m, c. split; [exact Q4|]. split; [now apply ordb_ok|]. split; [|now apply ordb_ok].
      apply dget_in; [rewrite K2; exact ND|]. rewrite Q1, <- Q5, <- Q7. exact I2.
  - intros m (v & Ev & W). rewrite A in Ev. injection Ev as <-. destruct (amu_num (of_Z z ps)) as [k x| | |]; try discriminate. apply orb_true_iff in H6. destruct H6 as [H6|H6].
    + left. apply Z.eqb_eq in H6. subst k. cbn in W. rewrite W. ring.
    + right. apply andb_true_iff in H6. destruct H6 as [L1 L2]. assert (W1 : worth (Fin 1 0) 1) by (cbn; lra). assert (W3 : worth (Fin 3 2) 300) by (unfold worth; change (powerRZ 10 2) with (10 ^ 2); lra). apply (num_le_worth _ _ _ _ W1 W) in L1. apply (num_le_worth _ _ _ _ W W3) in L2. lra.
Qed.
Lemma ok_in ps l z X : all_okb ps l = true -> In (z, X) l -> paragraphs_okb ps (z, X) = true.
Proof. unfold all_okb. rewrite forallb_forall. intros H I. now apply H. Qed.
Lemma supplied_elements els : make_natural_elements elements_txt element_densities_txt = Ok els -> forall x e, dget els x = Some e -> ordinary_element 10 e /\ forall m, has_mass e m -> m = 0 \/ 1 <= m <= 300.
Proof.
  intros H x e D. destruct (described els H) as [Ks F]. assert (I : In x symbols) by (rewrite <- Ks; exact (dget_In _ _ _ D)). destruct (symbol_number x I) as [z Iz]. destruct (F z x Iz) as (e' & E' & De). rewrite D in E'. injection E' as <-.
  apply (element_okb_ok supplied_paragraphs z x e De (supplied_names z) (ok_in _ _ _ _ elements_checked Iz)).
  exact (all_made _ _ _ H x e D).
Qed.

(** ** The supplied dictionaries *)
Section Supplied.
Variables (l : llib) (minval : nat) (t : nat -> option order) (sq amc : R) (X : list (option Z * option string)) (els : dict natural_element).
Hypothesis (K : llib_ok l) (Hm : (minval <= 10)%nat) (OT : orders t) (CF : conversion_factors sq amc).
Hypothesis HX : read_nist_element_symbols elements_txt = Ok X.
Hypothesis He : make_natural_elements elements_txt element_densities_txt = Ok els.
Lemma supplied_read : exists g cm2 fm2 fcm2 ffm2, xrmac_module minval amc supplied_xrmac X els = Ok (g, cm2, fm2) /\ fxrmac_module l minval t sq amc supplied_xrmac X els = Ok (g, fcm2, ffm2) /\
  (forall x, In x xrmac_symbols -> exists o o', dget cm2 x = Some o /\ dget fcm2 x = Some o' /\ forall E, E = 0 \/ S_Float7.digits 100 E -> not_below_edge (map fst (xo_data o)) E ->
     exists v V, xrmac_object_call o E = Ok V /\ fxrmac_object_call l o' E = Ok v /\ 0 < V /\ Rabs (v - V) <= 5 / 10 ^ 12 * V) /\
  (forall x, In x xrmac_symbols -> ~ In x massless -> exists o o', dget fm2 x = Some o /\ dget ffm2 x = Some o' /\ forall E, E = 0 \/ S_Float7.digits 100 E -> not_below_edge (map fst (xo_data o)) E ->
     exists v V, xrmac_object_call o E = Ok V /\ fxrmac_object_call l o' E = Ok v /\ 0 < V /\ Rabs (v - V) <= 11 / 10 ^ 12 * V).
Proof.
  destruct (module_completes X els minval amc HX He Hm) as (g & cm2 & fm2 & M).
  destruct (module_read l minval 10 t sq amc supplied_xrmac X els g cm2 fm2 ltac:(lia) OT CF) as (fcm2 & ffm2 & FM & _ & _ & R1 & R2).
  { intros x e D. apply (supplied_elements els He x e D). }
  { intros z I rows Rr. destruct (supplied_table z (seq_range z I)) as (rows' & data & Rr' & F & _). rewrite Rr in Rr'. injection Rr' as <-. exact (proj1 (supplied_decimal z I rows data Rr F)). }
  { exact M. }
  exists g, cm2, fm2, fcm2, ffm2. split; [exact M|]. split; [exact FM|].
  assert (UB : u <= 1111 / 10 ^ 19). { pose proof u_small. unfold u. simpl. lra. }
  pose proof u_pos as Pu. split.
  - intros x I. destruct (supplied_objects X els minval amc HX g cm2 fm2 M x I) as (z & o1 & o2 & rows & e & m & Iz & D1 & D2 & Rr & F & De & Me & Sc & I1 & I2 & A & T).
    destruct (R1 x o1 D1) as (o' & D' & RO). exists o1, o'. split; [exact D1|]. split; [exact D'|]. intros E HE NB. destruct T as (_ & L & _).
    destruct (object_calls l minval 1 5 82 o' o1 E K ltac:(lra) ltac:(lra) ltac:(lra) ltac:(simpl; lra) RO) as (v & V & C1 & C2 & P & B); try assumption; [|intros N; rewrite N in L; cbn in L; lia|lia|].
    { exact (proj2 (supplied_decimal z (in_combine_l _ _ _ _ Iz) rows _ Rr F)). }
    exists v, V. repeat split; try assumption. eapply Rle_trans; [exact B|]. apply Rmult_le_compat_r; [lra|]. change unit_roundoff with u. simpl pow in *. lra.
  - intros x I NM. destruct (supplied_objects X els minval amc HX g cm2 fm2 M x I) as (z & o1 & o2 & rows & e & m & Iz & D1 & D2 & Rr & F & De & Me & Sc & I1 & I2 & A & T).
    destruct (R2 x o2 D2) as (o' & D' & RO). exists o2, o'. split; [exact D2|]. split; [exact D'|]. intros E HE NB. destruct T as (_ & L & _).
    destruct (element_mass els He x (xrmac_in_symbols x I)) as (e' & m' & De' & Me' & _ & Pm). rewrite De in De'. injection De' as <-. specialize (Pm NM).
    assert (Em : m = m') by (destruct Me as (a & A1 & A2), Me' as (b & B1 & B2); rewrite A1 in B1; injection B1 as <-; exact (worth_fun _ _ _ A2 B2)). subst m'.
    destruct (proj2 (supplied_elements els He x e De) m Me) as [->|BM]; [lra|]. destruct CF as (_ & _ & BA).
    assert (PA : 10 ^ 2 <= per_atom amc m <= 10 ^ 5).
    { unfold per_atom. replace (10 ^ 26 * m * amc * 10 ^ 3) with (m * (amc * 10 ^ 27) * 10 ^ 2) by ring. assert (T27 : 1 <= amc * 10 ^ 27 <= 2) by (simpl pow in BA |- *; lra). assert (0 < 10 ^ 2) by (apply pow_lt; lra). replace (10 ^ 5) with (1000 * 10 ^ 2) by (simpl; ring). 
      assert (1 <= m * (amc * 10 ^ 27) <= 1000) by nra. split; [|apply Rmult_le_compat_r; lra]. rewrite <- (Rmult_1_l (10 ^ 2)) at 1. apply Rmult_le_compat_r; lra. }
    assert (L10 : log10 10 = 1). { unfold log10. field. assert (0 < ln 10) by (rewrite <- ln_1; apply ln_increasing; lra). lra. }
    assert (PP : 0 < per_atom amc m) by (assert (0 < 10 ^ 2) by (apply pow_lt; lra); lra).
    assert (LA : Rabs (log10 (per_atom amc m)) <= 5). { assert (P2 : 0 < 10 ^ 2) by (apply pow_lt; lra). pose proof (log10_le _ _ P2 (proj1 PA)) as B1. pose proof (log10_le _ _ PP (proj2 PA)) as B2. rewrite log10_pow, L10 in B1, B2 by lra. cbn [INR] in B1, B2. apply Rabs_le. lra. }
    pose proof (scaled_table 5 5 82 _ _ _ PP LA ltac:(lra) Sc (proj2 (supplied_decimal z (in_combine_l _ _ _ _ Iz) rows _ Rr F))) as DT. replace (5 + 5) with 10 in DT by ring.
    pose proof (F2_length _ _ _ Sc) as L2. assert (I25 : INR 10 + 15 = 25) by (rewrite INR_IZR_INZ; change (IZR (Z.of_nat 10)) with 10; lra). rewrite I25 in RO.
    destruct (object_calls l minval 25 10 82 o' o2 E K ltac:(lra) ltac:(lra) ltac:(lra) ltac:(simpl; lra) RO DT) as (v & V & C1 & C2 & P & B); try assumption; [intros N; rewrite N in L2; cbn in L2; lia|lia|].
    exists v, V. repeat split; try assumption. eapply Rle_trans; [exact B|]. apply Rmult_le_compat_r; [lra|]. change unit_roundoff with u. simpl pow in *. lra.
Qed.
End Supplied.

(** ** Order of decimal numbers *)
Lemma ordinary_normal v x : ordinary v -> worth v x -> normal_or_zero x.
Proof.
  intros (y & W & H) Wx. rewrite (worth_fun _ _ _ Wx W). destruct H as [H|[H _]]; [now left|right]. assert (P : 0 < / 10 ^ 99) by (apply Rinv_0_lt_compat, pow_lt; lra). rewrite Rabs_pos_eq by lra.
  assert (/ 10 ^ 300 <= / 10 ^ 99) by (apply Rinv_le_contravar; [apply pow_lt; lra|apply Rle_pow; [lra|lia]]). pose proof (normal_300 y ltac:(lra)). lra.
Qed.
Lemma order_kept a b x y : significant 15 a -> significant 15 b -> ordinary a -> ordinary b -> worth a x -> worth b y -> x < y -> exists x' y', fnum a = Ok x' /\ fnum b = Ok y' /\ x' < y'.
Proof.
  intros Sa Sb Oa Ob Wa Wb L. exists (rnd x), (rnd y). split; [now apply fnum_worth|]. split; [now apply fnum_worth|]. exact (read_strict a b x y Sa Sb Wa Wb (ordinary_normal a x Oa Wa) (ordinary_normal b y Ob Wb) L).
Qed.
Lemma order_refuted : exists a b x y v, significant 17 a /\ significant 17 b /\ ordinary a /\ ordinary b /\ worth a x /\ worth b y /\ x < y /\ fnum a = Ok v /\ fnum b = Ok v.
Proof.
  destruct long_decimals as (Sa & Sb & _ & E). exists (Fin 10000000000000000 (-17)), (Fin 10000000000000001 (-17)), (10000000000000000 * powerRZ 10 (-17)), (10000000000000001 * powerRZ 10 (-17)), (rnd (10000000000000000 * powerRZ 10 (-17))).
  split; [exact Sa|]. split; [exact Sb|]. split; [apply ordb_ok; reflexivity|]. split; [apply ordb_ok; reflexivity|]. split; [reflexivity|]. split; [reflexivity|]. split; [|split; [reflexivity|now rewrite <- E]].
  assert (0 < powerRZ 10 (-17)) by (apply powerRZ_lt; lra). nra.
Qed.
(** ** Examples *)
Fixpoint left_order (n : nat) : order := match n with O => Index 0 | Datatypes.S k => Plus (left_order k) (Index (Datatypes.S k)) end.
Definition from_left (n : nat) : option order := match n with O => None | Datatypes.S k => Some (left_order k) end.
Lemma left_indices n : indices (left_order n) = seq 0 (Datatypes.S n).
Proof. induction n as [|n IH]; [reflexivity|]. cbn [left_order indices]. rewrite IH, (seq_S (Datatypes.S n)). reflexivity. Qed.
Lemma from_left_orders : orders from_left.
Proof. intros [|n]; [reflexivity|]. cbn. rewrite left_indices. apply Permutation.Permutation_refl. Qed.
Lemma factors_ex : conversion_factors (rnd (10 ^ 26)) (rnd (166053906660 / 10 ^ 38)).
Proof.
  assert (N : forall x, / 10 ^ 300 <= x -> Rabs (rnd x - x) <= u * x). { intros x H. assert (P : 0 < / 10 ^ 300) by (apply Rinv_0_lt_compat, pow_lt; lra). rewrite <- (Rabs_pos_eq x) at 3 by lra. apply rnd_rel_any. rewrite Rabs_pos_eq by lra. pose proof (normal_300 x H). lra. }
  pose proof u_small as US. simpl in US. pose proof u_pos as Pu.
  assert (B : 1 <= 10 ^ 26) by (apply pow_R1_Rle; lra). assert (B3 : / 10 ^ 300 <= 1) by (rewrite <- Rinv_1; apply Rinv_le_contravar; [lra|apply pow_R1_Rle; lra]).
  split; [split; [apply rnd_double|]|split; [apply rnd_double|]].
  - change unit_roundoff with u. rewrite (Rabs_pos_eq (10 ^ 26)) by lra. pose proof (N (10 ^ 26) ltac:(lra)). nra.
  - set (a := 166053906660 / 10 ^ 38). assert (A : 16 / 10 ^ 28 <= a <= 17 / 10 ^ 28).
    { unfold a, Rdiv. replace (10 ^ 38) with (10 ^ 28 * 10 ^ 10) by (rewrite <- pow_add; reflexivity). rewrite Rinv_mult. assert (0 < / 10 ^ 28) by (apply Rinv_0_lt_compat, pow_lt; lra). replace (166053906660 * (/ 10 ^ 28 * / 10 ^ 10)) with (166053906660 * / 10 ^ 10 * / 10 ^ 28) by ring.
      assert (16 <= 166053906660 * / 10 ^ 10 <= 17) by (simpl; lra). split; apply Rmult_le_compat_r; lra. }
    assert (P28 : 0 < / 10 ^ 28) by (apply Rinv_0_lt_compat, pow_lt; lra). assert (E27 : / 10 ^ 27 = 10 * / 10 ^ 28). { replace (10 ^ 28) with (10 * 10 ^ 27) by reflexivity. rewrite Rinv_mult. lra. }
    assert (E300 : / 10 ^ 300 <= / 10 ^ 28) by (apply Rinv_le_contravar; [apply pow_lt; lra|apply Rle_pow; [lra|lia]]).
    unfold Rdiv in *. rewrite E27. pose proof (N a ltac:(lra)) as Q. apply Rabs_le_inv in Q. nra.
Qed.
Lemma above_all data E : List.Forall (fun p : R * R => fst p <= E) data -> not_below_edge data E.
Proof. intros F pre e c c' post -> L. apply List.Forall_app in F. destruct F as [_ F]. apply List.Forall_cons_iff in F. destruct F as [F _]. cbn in F. lra. Qed.
