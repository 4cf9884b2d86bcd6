(** C53, C54: NIST element data. *)
From Coq Require Import Ascii String List ZArith Bool Lia.
From Verif Require Import Py PyStr PyNum M_Readers S_Readers D_Elements L_Nist L_Nist3 L_NistData L_Nist4.
Import ListNotations.
Open Scope string_scope.

(** The supplied file is of the form considered here. *)
Example nist_ex : nist_file false supplied_header supplied_paragraphs = elements_txt /\
  Forall other_ok supplied_header /\ Forall paragraph_ok supplied_paragraphs /\ ending_ok false supplied_header supplied_paragraphs /\
  ordered_Z supplied_paragraphs /\ (forall Z0, NoDup (map isotope_name (of_Z Z0 supplied_paragraphs))) /\
  List.length supplied_paragraphs = 353 /\
  Forall (fun p => with_uncertainty (p_mass p) /\ with_uncertainty (p_composition p)) (of_Z 6 supplied_paragraphs).
Proof.
  exact (conj supplied_nist (conj supplied_header_ok (conj supplied_paragraphs_ok (conj supplied_ending (conj supplied_ordered
    (conj supplied_names (conj eq_refl (no_plain_in 6 ltac:(vm_compute; intuition discriminate))))))))).
Qed.

(** ** C53 *)
(** Exactly the isotopes of the element, in file order, with their masses and abundances. *)
Theorem C53_reads : forall final header ps Z0, Forall other_ok header -> Forall paragraph_ok ps -> ending_ok final header ps -> ordered_Z ps ->
  NoDup (map isotope_name (of_Z Z0 ps)) -> Forall (fun p => with_uncertainty (p_mass p) /\ with_uncertainty (p_composition p)) (of_Z Z0 ps) ->
  exists ab iso, read_nist_element_data (nist_file final header ps) Z0 = Ok (ab, iso) /\
    Forall2 (fun p e => fst e = isotope_name p /\ abundance_spelled (p_composition p) (snd e)) (of_Z Z0 ps) ab /\
    Forall2 (fun p e => fst e = isotope_name p /\ iso_AX (snd e) = isotope_name p /\ value_spells (p_mass p) (iso_amu (snd e))) (of_Z Z0 ps) iso.
Proof. exact reads_uncertain. Qed.
(** Each atomic number gets the symbol of its first paragraph. *)
Theorem C53_symbols : forall final header ps, Forall other_ok header -> Forall paragraph_ok ps -> ending_ok final header ps ->
  exists d, read_nist_element_symbols (nist_file final header ps) = Ok d /\
  forall k, zget d (Some k) = option_map (fun p => Some (p_X p)) (find (fun p => spelled (p_Z p) =? k)%Z ps).
Proof. exact read_symbols. Qed.

(** ** C54 *)
(** The abundances of a file are not always read as they are written: beryllium in the supplied file. *)
Theorem C54_values_refuted : ~ forall final header ps Z0, Forall other_ok header -> Forall paragraph_ok ps -> ending_ok final header ps ->
  ordered_Z ps -> NoDup (map isotope_name (of_Z Z0 ps)) ->
  exists ab iso, read_nist_element_data (nist_file final header ps) Z0 = Ok (ab, iso) /\
    Forall2 (fun p e => fst e = isotope_name p /\ abundance_spelled (p_composition p) (snd e)) (of_Z Z0 ps) ab.
Proof. exact plain_refuted. Qed.
(** A line without an opening parenthesis is never read, whatever it says. *)
Theorem C54_default : forall line prefix d, lacks "(" line -> read_nist_element_property_with_uncertainty line prefix d = Ok d.
Proof. exact no_parenthesis. Qed.
(** Every abundance without uncertainty is read as zero, every mass without uncertainty as [None]. *)
Theorem C54_zero : forall final header ps Z0 p t, Forall other_ok header -> Forall paragraph_ok ps -> ending_ok final header ps -> ordered_Z ps ->
  NoDup (map isotope_name (of_Z Z0 ps)) -> In p (of_Z Z0 ps) ->
  exists ab iso, read_nist_element_data (nist_file final header ps) Z0 = Ok (ab, iso) /\
  (p_composition p = VPlain t -> In (isotope_name p, Some (Fin 0 0)) ab) /\
  (p_mass p = VPlain t -> In (isotope_name p, {| iso_AX := isotope_name p; iso_amu := None |}) iso).
Proof. exact reads_plain. Qed.
(** The isotopes of the supplied file with such an abundance; all masses have an uncertainty. *)
Theorem C54_supplied :
  map isotope_name (filter (fun p => match p_composition p with VPlain _ => true | _ => false end) supplied_paragraphs) =
  ["9Be"; "19F"; "23Na"; "27Al"; "31P"; "45Sc"; "55Mn"; "59Co"; "75As"; "89Y"; "93Nb"; "103Rh"; "127I"; "133Cs"; "141Pr"; "159Tb";
   "165Ho"; "169Tm"; "197Au"; "209Bi"; "232Th"; "231Pa"] /\
  filter (fun p => match p_mass p with VUncertain _ _ => false | _ => true end) supplied_paragraphs = [].
Proof. exact supplied_plain. Qed.
Print Assumptions C53_reads.
Print Assumptions C53_symbols.
Print Assumptions C54_values_refuted.
Print Assumptions C54_default.
Print Assumptions C54_zero.
Print Assumptions C54_supplied.
