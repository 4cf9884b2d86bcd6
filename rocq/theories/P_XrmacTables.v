(** C57, C58, C59: the dictionaries xrmac_cm2_per_g and xrmac_fm2_per_atom. *)
From Coq Require Import Reals Ascii String List ZArith Bool Lia Lra.
From Verif Require Import Py PyStr PyNum M_Readers M_Constituents M_Xrmac M_XrmacTables Spec S_Readers S_Elements S_Decimal S_Natural S_XrmacTables L_XrmacTables L_XrmacTables2 L_XrmacData L_XrmacSupplied D_Elements D_Densities.
Import ListNotations.
Open Scope string_scope.
Open Scope R_scope.
Open Scope py_scope.

(** ** C57 *)
(** Any files, elements and symbols for which the module is executed without an exception: the tables per gram contain the numbers
    of the files, the tables per atom these numbers times the mass of the right element. *)
Theorem C57_data : forall minval amc file X els Xs g cm2 fm2, xrmac_module minval amc file X els = Ok (g, cm2, fm2) ->
  symbol_table X xrmac_Z Xs -> NoDup Xs -> dkeys cm2 = Xs /\ dkeys fm2 = Xs /\
  Forall2 (fun z x => exists o1 o2, dget cm2 x = Some o1 /\ dget fm2 x = Some o2 /\ converted_table amc (file z) els x o1 o2) xrmac_Z Xs.
Proof. exact module_data. Qed.
(** The interpolated cross sections are related in the same way at all energies. *)
Theorem C57_calls : forall minval amc file X els Xs g cm2 fm2, xrmac_module minval amc file X els = Ok (g, cm2, fm2) ->
  symbol_table X xrmac_Z Xs -> NoDup Xs ->
  forall x o1 o2 e m, dget cm2 x = Some o1 -> dget fm2 x = Some o2 -> dget els x = Some e -> has_mass e m -> 0 < m -> 0 < amc ->
  List.Forall (fun r => 0 < fst (fst r) /\ 0 < snd (fst r)) (xo_data o1) ->
  forall E, xrmac_object_call o2 E = let! v := xrmac_object_call o1 E in Ok (v * per_atom amc m).
Proof. exact module_calls. Qed.
(** A conversion function that is called after the module has been executed uses another mass. *)
Theorem C57_later_refuted : ~ forall X els minval amc g cm2 fm2, read_nist_element_symbols elements_txt = Ok X ->
  make_natural_elements elements_txt element_densities_txt = Ok els -> 0 < amc -> xrmac_module minval amc supplied_xrmac X els = Ok (g, cm2, fm2) ->
  forall x o e m v, dget fm2 x = Some o -> dget els x = Some e -> has_mass e m -> xo_xrmac_conversion o g v = Ok (v * per_atom amc m).
Proof. exact later_refuted. Qed.
(** It is always the mass of the last element. *)
Theorem C57_later : forall minval amc file X els Xs g cm2 fm2, xrmac_module minval amc file X els = Ok (g, cm2, fm2) ->
  symbol_table X xrmac_Z Xs -> NoDup Xs ->
  forall x o U e m v, dget fm2 x = Some o -> zget X (Some 92%Z) = Some (Some U) -> dget els U = Some e -> has_mass e m ->
  xo_xrmac_conversion o g v = Ok (v * per_atom amc m).
Proof. exact module_later. Qed.
(** The supplied data meet the hypotheses. *)
Example tables_ex : forall X els minval amc, read_nist_element_symbols elements_txt = Ok X -> make_natural_elements elements_txt element_densities_txt = Ok els ->
  (minval <= 10)%nat -> (exists g cm2 fm2, xrmac_module minval amc supplied_xrmac X els = Ok (g, cm2, fm2)) /\ symbol_table X xrmac_Z xrmac_symbols /\ NoDup xrmac_symbols /\
  exists e m, dget els "U" = Some e /\ has_mass e m /\ 0 < m /\ zget X (Some 92%Z) = Some (Some "U").
Proof. exact (fun X els minval amc HX He Hm => conj (module_completes X els minval amc HX He Hm) (conj (xrmac_table X HX) (conj xrmac_symbols_nodup (uranium X els HX He)))). Qed.

(** ** C58 *)
Theorem C58_tables : forall z, (1 <= z <= 92)%Z -> exists rows data, read_nist_xrmac Ok Ok (supplied_xrmac z) = Ok rows /\ Forall2 row_worth rows data /\
  ascending (map (fun r => fst (fst r)) data) /\ table_1keV_20MeV data.
Proof. exact supplied_table. Qed.
(** The module is executed without an exception (scipy demands at most two lines). *)
Theorem C58_module : forall X els minval amc, read_nist_element_symbols elements_txt = Ok X -> make_natural_elements elements_txt element_densities_txt = Ok els ->
  (minval <= 10)%nat -> exists g cm2 fm2, xrmac_module minval amc supplied_xrmac X els = Ok (g, cm2, fm2).
Proof. exact module_completes. Qed.
(** All coefficients per gram are positive at all energies. *)
Theorem C58_positive : forall X els minval amc, read_nist_element_symbols elements_txt = Ok X ->
  (minval <= 10)%nat -> forall g cm2 fm2, xrmac_module minval amc supplied_xrmac X els = Ok (g, cm2, fm2) ->
  forall x E, In x xrmac_symbols -> 0 <= E -> exists o v, dget cm2 x = Some o /\ xrmac_object_call o E = Ok v /\ 0 < v.
Proof. exact cm2_positive. Qed.

(** ** C59 *)
Theorem C59_positive_refuted : ~ forall X els minval amc g cm2 fm2, read_nist_element_symbols elements_txt = Ok X ->
  make_natural_elements elements_txt element_densities_txt = Ok els -> 0 < amc -> xrmac_module minval amc supplied_xrmac X els = Ok (g, cm2, fm2) ->
  forall x o E, dget fm2 x = Some o -> 0 <= E -> exists v, xrmac_object_call o E = Ok v /\ 0 < v.
Proof. exact positive_refuted. Qed.
(** For elements without a mass (C55) all coefficients per atom are zero. *)
Theorem C59_massless : forall X els minval amc, read_nist_element_symbols elements_txt = Ok X -> make_natural_elements elements_txt element_densities_txt = Ok els ->
  (minval <= 10)%nat -> forall g cm2 fm2, xrmac_module minval amc supplied_xrmac X els = Ok (g, cm2, fm2) ->
  forall x, In x xrmac_symbols -> In x massless -> exists o, dget fm2 x = Some o /\ xo_data o <> [] /\
    List.Forall (fun r => snd (fst r) = 0 /\ snd r = 0) (xo_data o) /\ forall E v, xrmac_object_call o E = Ok v -> ~ 0 < v.
Proof. exact fm2_massless. Qed.
Theorem C59_positive : forall X els minval amc, read_nist_element_symbols elements_txt = Ok X -> make_natural_elements elements_txt element_densities_txt = Ok els ->
  (minval <= 10)%nat -> forall g cm2 fm2, xrmac_module minval amc supplied_xrmac X els = Ok (g, cm2, fm2) ->
  forall x E, In x xrmac_symbols -> ~ In x massless -> 0 < amc -> 0 <= E -> exists o v, dget fm2 x = Some o /\ xrmac_object_call o E = Ok v /\ 0 < v.
Proof. exact fm2_positive. Qed.
Print Assumptions C57_data.
Print Assumptions C57_calls.
Print Assumptions C57_later_refuted.
Print Assumptions C57_later.
Print Assumptions C58_tables.
Print Assumptions C58_module.
Print Assumptions C58_positive.
Print Assumptions C59_positive_refuted.
Print Assumptions C59_massless.
Print Assumptions C59_positive.
