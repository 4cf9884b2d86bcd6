(** C22, C55: natural elements and Debye temperatures. *)
From Coq Require Import Reals Ascii String List ZArith Bool Lia.
From Verif Require Import Py PyStr PyNum M_Readers M_Constituents S_Readers S_Elements S_Decimal S_Natural L_NistData L_DensityData L_Natural L_NatData L_NatData2 L_Natural2 D_Elements D_Densities D_Debye.
Import ListNotations.
Open Scope string_scope.

(** ** C55 *)
(** Any files in the formats of NIST and Geant4 in which each atomic number from 1 to 118 occurs. *)
Theorem C55_general : forall final header ps dfinal comments entries Xs, Forall other_ok header -> Forall paragraph_ok ps -> ending_ok final header ps ->
  ordered_Z ps -> Forall comment_ok comments -> Forall dentry_ok entries -> Forall (fun p => exists t u, p_mass p = VUncertain t u) ps ->
  Forall2 (first_symbol ps) all_Z Xs -> NoDup Xs -> Forall (fun z => NoDup (map isotope_name (of_Z z ps))) all_Z ->
  exists d, make_natural_elements (nist_file final header ps) (dfile dfinal comments entries) = Ok d /\ dkeys d = Xs /\
    Forall2 (fun z X => exists e, dget d X = Some e /\ describes ps z X e) all_Z Xs.
Proof.
  exact (fun final header ps dfinal comments entries Xs H1 H2 H3 H4 H5 H6 H7 =>
    natural_elements_general final header ps dfinal comments entries H1 H2 H3 H4 H5 H6 H7 Xs).
Qed.
(** The supplied files are such files. *)
Example general_ex : Forall2 (first_symbol supplied_paragraphs) all_Z symbols /\ NoDup symbols /\
  Forall (fun p => exists t u, p_mass p = VUncertain t u) supplied_paragraphs /\
  Forall (fun z => NoDup (map isotope_name (of_Z z supplied_paragraphs))) all_Z.
Proof. exact (conj supplied_symbols (conj symbols_nodup (conj supplied_masses (proj2 (Forall_forall _ _) (fun z _ => supplied_names z))))). Qed.

(** If a mass is missing or has no uncertainty, the module cannot even be imported. *)
Theorem C55_without_mass : forall final header ps dfinal comments entries Xs z p, Forall other_ok header -> Forall paragraph_ok ps -> ending_ok final header ps ->
  ordered_Z ps -> Forall comment_ok comments -> Forall dentry_ok entries ->
  Forall2 (first_symbol ps) all_Z Xs -> Forall (fun z => NoDup (map isotope_name (of_Z z ps))) all_Z ->
  In z all_Z -> In p (of_Z z ps) -> match p_mass p with VUncertain _ _ => False | _ => True end ->
  make_natural_elements (nist_file final header ps) (dfile dfinal comments entries) = Raise TypeError.
Proof.
  exact (fun final header ps dfinal comments entries Xs z p H1 H2 H3 H4 H5 H6 =>
    without_mass final header ps dfinal comments entries H1 H2 H3 H4 H5 H6 Xs z p).
Qed.
Example without_mass_ex : Forall paragraph_ok (map without supplied_paragraphs) /\ ending_ok true supplied_header (map without supplied_paragraphs) /\
  ordered_Z (map without supplied_paragraphs) /\ Forall2 (first_symbol (map without supplied_paragraphs)) all_Z symbols /\
  Forall (fun z => NoDup (map isotope_name (of_Z z (map without supplied_paragraphs)))) all_Z /\
  exists p, In p (of_Z 1 (map without supplied_paragraphs)) /\ match p_mass p with VUncertain _ _ => False | _ => True end.
Proof. exact massless_example. Qed.

(** The supplied files. *)
Theorem C55_constructs : exists d, make_natural_elements elements_txt element_densities_txt = Ok d.
Proof. exact (match supplied_dictionary with ex_intro _ d H => ex_intro _ d (proj1 H) end). Qed.
Theorem C55_keys : forall d, make_natural_elements elements_txt element_densities_txt = Ok d -> dkeys d = symbols /\ NoDup (dkeys d).
Proof. exact keys. Qed.
Theorem C55_lookup : forall d, make_natural_elements elements_txt element_densities_txt = Ok d -> forall z X, In (z, X) elements ->
  exists e, dget d X = Some e /\ el_Z e = z /\ el_X e = X /\ dkeys (el_isotopes e) = dkeys (el_abundances e) /\ el_isotopes e <> [] /\ NoDup (dkeys (el_isotopes e)) /\
  forall k i, In (k, i) (el_isotopes e) -> iso_name i = k /\ (exists a, k = a ++ X /\ a <> "" /\ every (fun c => match digit_val c with Some _ => true | None => false end) a = true) /\
    exists m x, iso_mass i = Some m /\ worth m x /\ (0 < x)%R.
Proof. exact lookups. Qed.
(** Not every element that occurs in nature has a mass between its isotopes: beryllium has the mass zero. *)
Theorem C55_mass_refuted : ~ forall d, make_natural_elements elements_txt element_densities_txt = Ok d ->
  forall z X e, In (z, X) elements -> occurs supplied_paragraphs z -> dget d X = Some e -> mass_between e.
Proof. exact mass_refuted. Qed.
(** Exactly these elements have no mass; the mass of all others lies between two isotopes that have an abundance. *)
Theorem C55_mass : forall d, make_natural_elements elements_txt element_densities_txt = Ok d -> forall X e, dget d X = Some e ->
  (In X massless -> has_mass e 0) /\
  (~ In X massless -> exists x lo hi, has_mass e x /\ natural_isotope_mass e lo /\ natural_isotope_mass e hi /\ (lo <= x <= hi)%R).
Proof. exact masses_data. Qed.

(** ** C22 *)
(** Manganese and vanadium are listed with keys that are not their symbols. *)
Theorem C22_keys_refuted : ~ forall X, In X (map fst room_temperature_T_D) -> In X symbols.
Proof. exact debye_refuted. Qed.
Theorem C22_keys : forall X, In X (map fst room_temperature_T_D) -> (~ In X symbols <-> In X ["Ma"; "Va"]).
Proof. exact debye_keys. Qed.
Theorem C22_values : forall X t, In (X, Some t) room_temperature_T_D -> (0 < t)%Z.
Proof. exact debye_values. Qed.
Theorem C22_missing : dget room_temperature_T_D "Mn" = None /\ dget room_temperature_T_D "V" = None.
Proof. exact (conj eq_refl eq_refl). Qed.
Print Assumptions C55_general.
Print Assumptions C55_constructs.
Print Assumptions C55_keys.
Print Assumptions C55_lookup.
Print Assumptions C55_mass_refuted.
Print Assumptions C55_mass.
Print Assumptions C22_keys_refuted.
Print Assumptions C22_keys.
Print Assumptions C22_values.
Print Assumptions C22_missing.
Print Assumptions C55_without_mass.
