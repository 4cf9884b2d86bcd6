(** The module with the supplied data. *)
From Coq Require Import Reals Ascii String List ZArith Bool Lia Lra.
From Verif Require Import Py PyStr PyNum M_Readers M_Constituents M_Xrmac M_XrmacTables Spec S_Readers S_Elements S_Decimal S_Natural S_XrmacTables S_Xrmac L_Decimal L_Natural L_Nist3 L_NistData L_NatData L_Xrmac L_Xrmac2 L_XrmacTables L_XrmacTables2 L_XrmacData D_Elements D_Densities.
Import ListNotations.
Open Scope string_scope.
Open Scope R_scope.
Open Scope py_scope.

Definition xrmac_symbols : list string := firstn 92 symbols.
Lemma symbol_table_gen ps (X : list (option Z * option string)) zs Xs : (forall k, zget X (Some k) = option_map (fun p => Some (p_X p)) (find (fun p => spelled (p_Z p) =? k)%Z ps)) ->
  Forall2 (first_symbol ps) zs Xs -> symbol_table X zs Xs.
Proof. intros H F. induction F as [|z x zs Xs (p & E & Q) F IH]; constructor; [|exact IH]. now rewrite H, E, <- Q. Qed.
Lemma Forall2_firstn {A B} (P : A -> B -> Prop) n l m : Forall2 P l m -> Forall2 P (firstn n l) (firstn n m).
Proof. intros F. revert n. induction F as [|a b l m H F IH]; intros [|n]; cbn; constructor; [exact H|apply IH]. Qed.
Lemma supplied_symbol_table X : read_nist_element_symbols elements_txt = Ok X -> symbol_table X all_Z symbols.
Proof.
  destruct (read_symbols false supplied_header supplied_paragraphs supplied_header_ok supplied_paragraphs_ok supplied_ending) as (X' & E & HX). rewrite supplied_nist in E. rewrite E. intros H. apply Ok_inj in H. subst X'.
  exact (symbol_table_gen supplied_paragraphs X all_Z symbols HX supplied_symbols).
Qed.
Lemma xrmac_Z_firstn : xrmac_Z = firstn 92 all_Z. Proof. reflexivity. Qed.
Lemma xrmac_table X : read_nist_element_symbols elements_txt = Ok X -> symbol_table X xrmac_Z xrmac_symbols.
Proof. intros H. rewrite xrmac_Z_firstn. apply Forall2_firstn. now apply supplied_symbol_table. Qed.
Lemma xrmac_symbols_nodup : NoDup xrmac_symbols.
Proof. assert (E : nodup string_dec xrmac_symbols = xrmac_symbols) by (vm_compute; reflexivity). rewrite <- E. apply NoDup_nodup. Qed.
Lemma firstn_In' {A} n (l : list A) x : In x (firstn n l) -> In x l.
Proof. revert n. induction l as [|a l IH]; intros [|n]; cbn; try tauto. intros [H|H]; [now left|right; now apply (IH n)]. Qed.
Lemma xrmac_in_symbols x : In x xrmac_symbols -> In x symbols.
Proof. apply firstn_In'. Qed.
Lemma seq_range z : In z xrmac_Z -> (1 <= z <= 92)%Z.
Proof. unfold xrmac_Z. rewrite in_map_iff. intros (n & <- & I). apply in_seq in I. lia. Qed.

Lemma rows_fun rows d1 d2 : Forall2 row_worth rows d1 -> Forall2 row_worth rows d2 -> d1 = d2.
Proof.
  intros F1. revert d2. induction F1 as [|r d rows d1 (W1 & W2 & W3) F1 IH]; intros data F2; inversion F2 as [|? d' ? data' (V1 & V2 & V3) F2']; subst; [reflexivity|].
  f_equal; [|now apply IH]. destruct d as [[? ?] ?], d' as [[? ?] ?]. cbn [fst snd] in *. rewrite (worth_fun _ _ _ V1 W1), (worth_fun _ _ _ V2 W2), (worth_fun _ _ _ V3 W3). reflexivity.
Qed.
Lemma table_nth X n zs xs : symbol_table X zs xs -> forall z x, nth_error zs n = Some z -> nth_error xs n = Some x -> zget X (Some z) = Some (Some x).
Proof.
  unfold symbol_table. intros F. revert n. induction F as [|a b zs xs H F IH]; intros [|n] z x; cbn [nth_error]; intros E1 E2; try discriminate E1; [injection E1 as <-; injection E2 as <-; exact H|exact (IH n z x E1 E2)].
Qed.
Section Supplied.
  Variables (X : list (option Z * option string)) (els : dict natural_element) (minval : nat) (amc : R).
  Hypothesis HX : read_nist_element_symbols elements_txt = Ok X.
  Hypothesis He : make_natural_elements elements_txt element_densities_txt = Ok els.
  Hypothesis Hm : (minval <= 10)%nat.
  Lemma element_mass x : In x symbols -> exists e m, dget els x = Some e /\ has_mass e m /\ (In x massless -> m = 0) /\ (~ In x massless -> 0 < m).
  Proof.
    intros I. destruct (symbol_number x I) as [z Iz]. destruct (lookups els He z x Iz) as (e & De & _ & _ & _ & _ & _ & Q). exists e. destruct (masses_data els He x e De) as [M1 M2].
    destruct (in_dec string_dec x massless) as [J|J].
    - exists 0. split; [exact De|]. split; [now apply M1|]. split; [reflexivity|contradiction].
    - destruct (M2 J) as (m & lo & hi & Hmass & (k & i & ml & a & y & Ii & Ei & Wl & _) & _ & L & _). exists m. split; [exact De|]. split; [exact Hmass|]. split; [contradiction|]. intros _.
      destruct (Q k i Ii) as (_ & _ & m1 & w & E1 & W1 & P1). rewrite Ei in E1. injection E1 as <-. rewrite (worth_fun _ _ _ Wl W1) in L. lra.
  Qed.
  Lemma module_completes : exists g cm2 fm2, xrmac_module minval amc supplied_xrmac X els = Ok (g, cm2, fm2).
  Proof.
    destruct (loop_completes minval amc supplied_xrmac xrmac_Z {| g_Z := 0; g_X := X; g_natural_elements := els |} [] [] xrmac_symbols) as [[[g cm2] fm2] H]; [exact (xrmac_table X HX)| |].
    - pose proof (xrmac_table X HX) as T. cbn [g_natural_elements].
      assert (G : forall zs xs, symbol_table X zs xs -> (forall z, In z zs -> (1 <= z <= 92)%Z) -> (forall x, In x xs -> In x symbols) ->
        Forall2 (fun z x => exists rows e m, read_nist_xrmac Ok Ok (supplied_xrmac z) = Ok rows /\ (minval <= List.length rows)%nat /\ List.Forall (fun r => exists d, row_worth r d) rows /\
          dget els x = Some e /\ has_mass e m) zs xs).
      { intros zs xs F. induction F as [|z x zs xs H F IH]; intros Hz Hx; constructor; [|apply IH; intros; [apply Hz|apply Hx]; now right].
        destruct (supplied_table z (Hz z (or_introl eq_refl))) as (rows & data & Rr & Fr & _ & (_ & L & _)). destruct (element_mass x (Hx x (or_introl eq_refl))) as (e & m & De & Me & _).
        exists rows, e, m. split; [exact Rr|]. split; [rewrite (F2_length _ _ _ Fr); lia|]. split; [|now split].
        clear - Fr. induction Fr as [|r d rows data W Fr IH]; constructor; [now exists d|exact IH]. }
      apply G; [exact T|exact seq_range|exact xrmac_in_symbols].
    - now exists g, cm2, fm2.
  Qed.
  Variables (g : globals) (cm2 fm2 : dict xrmac_object).
  Hypothesis M : xrmac_module minval amc supplied_xrmac X els = Ok (g, cm2, fm2).
  Lemma supplied_objects x : In x xrmac_symbols -> exists z o1 o2 rows e m, In (z, x) (combine xrmac_Z xrmac_symbols) /\ dget cm2 x = Some o1 /\ dget fm2 x = Some o2 /\
    read_nist_xrmac Ok Ok (supplied_xrmac z) = Ok rows /\ Forall2 row_worth rows (xo_data o1) /\ dget els x = Some e /\ has_mass e m /\ Forall2 (scaled (per_atom amc m)) (xo_data o1) (xo_data o2) /\
    xo_interpolation o1 = interpolate_log_log minval (map fst (xo_data o1)) /\ xo_interpolation o2 = interpolate_log_log minval (map fst (xo_data o2)) /\
    ascending (map (fun r => fst (fst r)) (xo_data o1)) /\ table_1keV_20MeV (xo_data o1).
  Proof.
    intros I. destruct (module_made minval amc supplied_xrmac X els xrmac_symbols g cm2 fm2 M (xrmac_table X HX) xrmac_symbols_nodup) as (_ & _ & _ & _ & _ & F).
    destruct (Forall2_in_snd _ _ _ x F I) as (z & Iz & o1 & o2 & D1 & D2 & (rows & e & m & Rr & Fr & De & Me & S) & _ & _ & I1 & I2).
    exists z, o1, o2, rows, e, m. split; [exact Iz|]. split; [exact D1|]. split; [exact D2|]. split; [exact Rr|]. split; [exact Fr|]. split; [exact De|]. split; [exact Me|]. split; [exact S|]. split; [exact I1|]. split; [exact I2|].
    assert (Hz : (1 <= z <= 92)%Z) by (apply seq_range; exact (in_combine_l _ _ _ _ Iz)).
    destruct (supplied_table z Hz) as (rows' & data & Rr' & Fr' & A & T). rewrite Rr in Rr'. injection Rr' as <-.
    rewrite <- (rows_fun _ _ _ Fr' Fr). split; assumption.
  Qed.
  Lemma table_positive data : table_1keV_20MeV data -> List.Forall (fun r : R * R * R => 0 < fst (fst r) /\ 0 < snd (fst r)) data.
  Proof. intros (P & _). apply List.Forall_forall. intros r I. rewrite List.Forall_forall in P. destruct (P r I) as (A & B & _). now split. Qed.
  Lemma table_is_ok data : table_1keV_20MeV data -> table_ok (map fst data).
  Proof.
    intros T. split; [destruct T as (_ & L & _); destruct data; [cbn in L; lia|discriminate]|]. apply List.Forall_forall. intros p I. apply in_map_iff in I. destruct I as (r & <- & I).
    pose proof (table_positive data T) as P. rewrite List.Forall_forall in P. now apply P.
  Qed.
  Lemma cm2_positive x E : In x xrmac_symbols -> 0 <= E -> exists o v, dget cm2 x = Some o /\ xrmac_object_call o E = Ok v /\ 0 < v.
  Proof.
    intros I HE. destruct (supplied_objects x I) as (z & o1 & o2 & rows & e & m & _ & D1 & _ & _ & _ & _ & _ & _ & I1 & _ & A & T). pose proof (table_is_ok _ T) as TO.
    assert (L : (minval <= List.length (map fst (xo_data o1)))%nat) by (rewrite map_length; destruct T as (_ & L & _); lia).
    destruct (constructs minval _ TO L) as [i Hi]. unfold XRMAC in Hi. destruct (positive minval (map fst (xo_data o1)) i E TO) as (v & Cv & Pv); [now rewrite map_map|exact Hi|exact HE|].
    exists o1, v. split; [exact D1|]. split; [|exact Pv]. unfold xrmac_object_call. rewrite I1, Hi. exact Cv.
  Qed.
  Lemma fm2_positive x E : In x xrmac_symbols -> ~ In x massless -> 0 < amc -> 0 <= E -> exists o v, dget fm2 x = Some o /\ xrmac_object_call o E = Ok v /\ 0 < v.
  Proof.
    intros I N Pa HE. destruct (supplied_objects x I) as (z & o1 & o2 & rows & e & m & _ & D1 & D2 & _ & _ & De & Me & _ & _ & _ & A & T). 
    destruct (element_mass x (xrmac_in_symbols x I)) as (e' & m' & De' & Me' & _ & Pm). rewrite De in De'. injection De' as <-. specialize (Pm N).
    destruct (cm2_positive x E I HE) as (o1' & v & D1' & Cv & Pv). rewrite D1 in D1'. injection D1' as <-. exists o2, (v * per_atom amc m'). split; [exact D2|]. split.
    - rewrite (module_calls minval amc supplied_xrmac X els xrmac_symbols g cm2 fm2 M (xrmac_table X HX) xrmac_symbols_nodup x o1 o2 e m' D1 D2 De Me' Pm Pa (table_positive _ T) E). now rewrite Cv.
    - apply Rmult_lt_0_compat; [exact Pv|]. now apply per_atom_pos.
  Qed.
  Lemma fm2_massless x : In x xrmac_symbols -> In x massless -> exists o, dget fm2 x = Some o /\ xo_data o <> [] /\ List.Forall (fun r => snd (fst r) = 0 /\ snd r = 0) (xo_data o) /\
    forall E v, xrmac_object_call o E = Ok v -> ~ 0 < v.
  Proof.
    intros I J. destruct (supplied_objects x I) as (z & o1 & o2 & rows & e & m & _ & D1 & D2 & _ & _ & De & Me & S & _ & I2 & A & T).
    destruct (element_mass x (xrmac_in_symbols x I)) as (e' & m' & De' & Me' & Zm & _). rewrite De in De'. injection De' as <-. specialize (Zm J). subst m'.
    assert (Em : m = 0) by (destruct Me as (a & A1 & A2), Me' as (b & B1 & B2); rewrite A1 in B1; injection B1 as <-; exact (worth_fun _ _ _ A2 B2)). subst m.
    assert (Z0 : List.Forall (fun r : R * R * R => snd (fst r) = 0 /\ snd r = 0) (xo_data o2)).
    { clear - S. unfold per_atom in S. induction S as [|a b l l' (_ & H1 & H2) S IH]; constructor; [|exact IH]. rewrite H1, H2. split; ring. }
    assert (N : xo_data o2 <> []) by (intros E; rewrite E in S; inversion S as [E'|]; destruct T as (_ & L & _); rewrite <- E' in L; cbn in L; lia).
    exists o2. split; [exact D2|]. split; [exact N|]. split; [exact Z0|]. intros E v. unfold xrmac_object_call. rewrite I2. unfold interpolate_log_log.
    destruct (xo_data o2) as [|r data]; [congruence|]. cbn [map]. destruct (_ <? _)%nat; [discriminate|]. cbn [forallb]. inversion Z0 as [|? ? [Zr _] _]; subst.
    assert (F : is_pos (snd (fst r)) = false) by (rewrite Zr; unfold is_pos; destruct (Rlt_dec 0 0); [lra|reflexivity]). rewrite F, andb_false_r. cbn [andb bind]. discriminate.
  Qed.
  Lemma uranium : exists e m, dget els "U" = Some e /\ has_mass e m /\ 0 < m /\ zget X (Some 92%Z) = Some (Some "U").
  Proof.
    assert (I : In "U" symbols) by (apply (nth_error_In _ 91); reflexivity). destruct (element_mass "U" I) as (e & m & De & Me & _ & P). exists e, m. split; [exact De|]. split; [exact Me|].
    split; [apply P; vm_compute; intuition discriminate|]. pose proof (supplied_symbol_table X HX) as T. 
    exact (table_nth X 91%nat _ _ T 92%Z "U" eq_refl eq_refl).
  Qed.
End Supplied.

(** ** The documented claims that do not hold *)
Lemma aluminium : In "Al" xrmac_symbols /\ In "Al" massless.
Proof. split; [apply (nth_error_In _ 12)|apply (nth_error_In _ 3)]; reflexivity. Qed.
Lemma symbols_read : exists X, read_nist_element_symbols elements_txt = Ok X.
Proof.
  destruct (read_symbols false supplied_header supplied_paragraphs supplied_header_ok supplied_paragraphs_ok supplied_ending) as (X & E & _). rewrite supplied_nist in E. now exists X.
Qed.
Lemma later_refuted : ~ forall X els minval amc g cm2 fm2, read_nist_element_symbols elements_txt = Ok X -> make_natural_elements elements_txt element_densities_txt = Ok els ->
  0 < amc -> xrmac_module minval amc supplied_xrmac X els = Ok (g, cm2, fm2) ->
  forall x o e m v, dget fm2 x = Some o -> dget els x = Some e -> has_mass e m -> xo_xrmac_conversion o g v = Ok (v * per_atom amc m).
Proof.
  intros H. destruct symbols_read as [X HX]. destruct supplied_dictionary as (els & He & _). destruct (module_completes X els 2 1 HX He ltac:(lia)) as (g & cm2 & fm2 & M).
  destruct aluminium as [A1 A2]. destruct (fm2_massless X els 2 1 HX He ltac:(lia) g cm2 fm2 M "Al" A1 A2) as (o & Do & _).
  destruct (element_mass els He "Al" (xrmac_in_symbols _ A1)) as (e & m & De & Me & Zm & _). specialize (Zm A2). subst m.
  specialize (H X els 2%nat 1 g cm2 fm2 HX He ltac:(lra) M "Al" o e 0 1 Do De Me).
  destruct (uranium X els HX He) as (eU & mU & DU & MU & PU & TU).
  rewrite (module_later 2 1 supplied_xrmac X els xrmac_symbols g cm2 fm2 M (xrmac_table X HX) xrmac_symbols_nodup "Al" o "U" eU mU 1 Do TU DU MU) in H.
  injection H as H. pose proof (per_atom_pos 1 mU ltac:(lra) PU) as P. unfold per_atom at 2 in H. lra.
Qed.
Lemma positive_refuted : ~ forall X els minval amc g cm2 fm2, read_nist_element_symbols elements_txt = Ok X -> make_natural_elements elements_txt element_densities_txt = Ok els ->
  0 < amc -> xrmac_module minval amc supplied_xrmac X els = Ok (g, cm2, fm2) ->
  forall x o E, dget fm2 x = Some o -> 0 <= E -> exists v, xrmac_object_call o E = Ok v /\ 0 < v.
Proof.
  intros H. destruct symbols_read as [X HX]. destruct supplied_dictionary as (els & He & _). destruct (module_completes X els 2 1 HX He ltac:(lia)) as (g & cm2 & fm2 & M).
  destruct aluminium as [A1 A2]. destruct (fm2_massless X els 2 1 HX He ltac:(lia) g cm2 fm2 M "Al" A1 A2) as (o & Do & _ & _ & N).
  destruct (H X els 2%nat 1 g cm2 fm2 HX He ltac:(lra) M "Al" o 1 Do ltac:(lra)) as (v & Cv & Pv). exact (N 1 v Cv Pv).
Qed.
