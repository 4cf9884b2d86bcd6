(** Paragraphs of NIST files with missing data (C92). *)
From Coq Require Import String List ZArith.
From Verif Require Import PyStr PyNum S_Readers.
Import ListNotations.
Open Scope string_scope.

Definition line_Z_of (p : paragraph) : string := "Atomic Number = " ++ text (p_Z p).
Definition line_X_of (p : paragraph) : string := "Atomic Symbol = " ++ p_X p.
Definition line_A_of (p : paragraph) : string := "Mass Number = " ++ text (p_A p).
Definition line_amu_of (p : paragraph) : string := "Relative Atomic Mass = " ++ value_text (p_mass p).
Definition line_composition_of (p : paragraph) : string := "Isotopic Composition = " ++ value_text (p_composition p).
(** No mass number behind the equality sign, no symbol, no line with the mass number. *)
Definition blank_A (p : paragraph) : list string := [line_Z_of p; line_X_of p; "Mass Number = "; line_amu_of p; line_composition_of p].
Definition blank_X (p : paragraph) : list string := [line_Z_of p; "Atomic Symbol = "; line_A_of p; line_amu_of p; line_composition_of p].
Definition without_A (p : paragraph) : list string := [line_Z_of p; line_X_of p; line_amu_of p; line_composition_of p].
(** A file of complete paragraphs and one that is not. *)
Definition damaged_file (header : list string) (ps : list paragraph) (damaged rest : list string) : string :=
  text_file true (header ++ flat_map paragraph_lines ps ++ damaged ++ rest).
