(** C56: lookup of densities. *)
From Coq Require Import Ascii String List ZArith Bool Lia.
From Verif Require Import Py PyStr PyNum M_Readers S_Readers S_Elements D_Densities L_Density2 L_DensityData.
Import ListNotations.
Open Scope string_scope.

(** The supplied file is of the form considered here. *)
Example density_ex : dfile false supplied_comments supplied_entries = element_densities_txt /\
  Forall comment_ok supplied_comments /\ Forall dentry_ok supplied_entries /\ List.length supplied_entries = 98.
Proof. exact (conj supplied_file (conj supplied_comments_ok (conj supplied_entries_ok eq_refl))). Qed.

(** Not every lookup finds the line of its element: boron in the supplied file. *)
Theorem C56_lookup_refuted : ~ forall final cs es X t v, Forall comment_ok cs -> Forall dentry_ok es -> NoDup (map fst es) ->
  In (X, t) es -> py_float t = Ok v -> read_density_data (dfile final cs es) Ok X = Ok (Some v).
Proof. exact supplied_lookup_refuted. Qed.
(** The first entry whose symbol contains X is returned. *)
Theorem C56_first_match : forall {A} (conv : num -> out A) final cs pre Y t post X v, symbol_ok X -> Forall comment_ok cs ->
  Forall dentry_ok (pre ++ (Y, t) :: post) -> Forall (fun e => ~ contains X (fst e)) pre -> contains X Y -> py_float t = Ok v ->
  read_density_data (dfile final cs (pre ++ (Y, t) :: post)) conv X = omap Some (conv v).
Proof. exact @first_match. Qed.
Theorem C56_no_match : forall {A} (conv : num -> out A) final cs es X, symbol_ok X -> Forall comment_ok cs -> Forall dentry_ok es ->
  Forall (fun e => ~ contains X (fst e)) es -> read_density_data (dfile final cs es) conv X = Ok None.
Proof. exact @no_match. Qed.
(** Symbols with two letters are always found correctly. *)
Theorem C56_two_letters : forall {A} (conv : num -> out A) final cs es X t v, symbol_ok X -> Forall comment_ok cs -> Forall dentry_ok es ->
  NoDup (map fst es) -> String.length X = 2 -> In (X, t) es -> py_float t = Ok v ->
  read_density_data (dfile final cs es) conv X = omap Some (conv v).
Proof. exact @two_letters. Qed.
Theorem C56_two_letters_absent : forall {A} (conv : num -> out A) final cs es X, symbol_ok X -> Forall comment_ok cs -> Forall dentry_ok es ->
  2 <= String.length X -> ~ In X (map fst es) -> read_density_data (dfile final cs es) conv X = Ok None.
Proof. exact @two_letters_absent. Qed.
(** The supplied file: exactly boron, sulfur and iodine get a wrong density, namely that of beryllium, silicon and indium. *)
Theorem C56_supplied : forall X, In X symbols -> read_density_data element_densities_txt Ok X =
  match dget supplied_entries X with Some t => omap Some (py_float t) | None => Ok None end <-> ~ In X ["B"; "S"; "I"].
Proof. exact supplied_right. Qed.
Theorem C56_supplied_wrong : read_density_data element_densities_txt Ok "B" = expected "Be" /\
  read_density_data element_densities_txt Ok "S" = expected "Si" /\ read_density_data element_densities_txt Ok "I" = expected "In".
Proof. exact supplied_wrong. Qed.
Print Assumptions C56_lookup_refuted.
Print Assumptions C56_first_match.
Print Assumptions C56_no_match.
Print Assumptions C56_two_letters.
Print Assumptions C56_two_letters_absent.
Print Assumptions C56_supplied.
Print Assumptions C56_supplied_wrong.
