(** C92: NIST paragraphs with missing data. *)
From Coq Require Import Ascii String List ZArith.
From Verif Require Import Py PyStr PyNum M_Readers S_Readers S_Incomplete L_Str L_Incomplete.
Import ListNotations.
Open Scope string_scope.

Example C92_ex : paragraph_ok li6 /\ paragraph_ok li7 /\ spelled (p_Z li6) = 3%Z /\ spelled (p_Z li7) = 3%Z /\ p_X li6 = p_X li7 /\
  with_uncertainty (p_mass li7) /\ with_uncertainty (p_composition li7).
Proof. exact li_ok. Qed.

(** No mass number behind the equality sign. *)
Theorem C92_blank_mass_number : forall header ps p rest Z0, Forall other_ok header -> Forall paragraph_ok ps -> Forall (fun q => (spelled (p_Z q) <= Z0)%Z) ps ->
  paragraph_ok p -> spelled (p_Z p) = Z0 -> Forall (lacks nl) rest ->
  read_nist_element_data (damaged_file header ps (blank_A p) rest) Z0 = Raise TypeError.
Proof. exact missing_mass_number. Qed.
(** No line with the mass number in the first paragraph of the element. *)
Theorem C92_no_mass_number : forall header ps p rest Z0, Forall other_ok header -> Forall paragraph_ok ps -> Forall (fun q => (spelled (p_Z q) < Z0)%Z) ps ->
  paragraph_ok p -> spelled (p_Z p) = Z0 -> Forall (lacks nl) rest ->
  read_nist_element_data (damaged_file header ps (without_A p) rest) Z0 = Raise UnboundLocalError.
Proof. exact missing_mass_line. Qed.
(** No symbol behind the equality sign. *)
Theorem C92_blank_symbol : forall header ps p Z0, Forall other_ok header -> Forall paragraph_ok ps -> Forall (fun q => (spelled (p_Z q) <= Z0)%Z) ps ->
  paragraph_ok p -> spelled (p_Z p) = Z0 -> with_uncertainty (p_mass p) /\ with_uncertainty (p_composition p) ->
  exists ab iso x y, read_nist_element_data (damaged_file header ps (blank_X p) []) Z0 = Ok (ab, iso) /\
    dget ab (text (p_A p) ++ "None") = Some y /\ abundance_spelled (p_composition p) y /\
    dget iso (text (p_A p) ++ "None") = Some {| iso_AX := text (p_A p) ++ "None"; iso_amu := x |} /\ value_spells (p_mass p) x.
Proof. exact symbol_missing. Qed.
(** No line with the mass number in a later paragraph: the data replace those of the isotope before. *)
Theorem C92_leftover : forall header ps q p Z0, Forall other_ok header -> Forall paragraph_ok ps -> Forall (fun q => (spelled (p_Z q) <= Z0)%Z) ps ->
  paragraph_ok q -> spelled (p_Z q) = Z0 -> paragraph_ok p -> spelled (p_Z p) = Z0 -> p_X p = p_X q -> with_uncertainty (p_mass p) /\ with_uncertainty (p_composition p) ->
  exists ab iso x y, read_nist_element_data (damaged_file header (ps ++ [q]) (without_A p) []) Z0 = Ok (ab, iso) /\
    dget ab (isotope_name q) = Some y /\ abundance_spelled (p_composition p) y /\
    dget iso (isotope_name q) = Some {| iso_AX := isotope_name q; iso_amu := x |} /\ value_spells (p_mass p) x.
Proof. exact leftover. Qed.
Theorem C92_leftover_refuted : ~ forall q p Z0 ab iso, paragraph_ok q -> spelled (p_Z q) = Z0 -> paragraph_ok p -> spelled (p_Z p) = Z0 -> spelled (p_A p) <> spelled (p_A q) ->
  with_uncertainty (p_composition q) -> read_nist_element_data (damaged_file [] [q] (without_A p) []) Z0 = Ok (ab, iso) ->
  exists y, dget ab (isotope_name q) = Some y /\ abundance_spelled (p_composition q) y.
Proof. exact leftover_refuted. Qed.
Print Assumptions C92_blank_mass_number.
Print Assumptions C92_no_mass_number.
Print Assumptions C92_blank_symbol.
Print Assumptions C92_leftover.
Print Assumptions C92_leftover_refuted.
