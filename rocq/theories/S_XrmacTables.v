(** The dictionaries of attenuation coefficients (C57, C58, C59). *)
From Coq Require Import Reals String List ZArith.
From Verif Require Import Py PyNum M_Readers M_Constituents M_XrmacTables S_Decimal S_Natural.
Import ListNotations.
Open Scope R_scope.

(** A line of a table: energy, coefficient, absorption coefficient. *)
Definition row_worth (r : num * num * num) (x : R * R * R) : Prop :=
  worth (fst (fst r)) (fst (fst x)) /\ worth (snd (fst r)) (snd (fst x)) /\ worth (snd r) (snd x).
(** Square centimetres per gram in square femtometres per atom, for the atomic mass m (in u) and the unit u in kilograms. *)
Definition per_atom (u m : R) : R := 10 ^ 26 * m * u * 10 ^ 3.
Definition scaled (c : R) (x y : R * R * R) : Prop := fst (fst y) = fst (fst x) /\ snd (fst y) = snd (fst x) * c /\ snd y = snd x * c.
(** [table] lists the symbols of the atomic numbers [zs]. *)
Definition symbol_table (X : list (option Z * option string)) (zs : list Z) (Xs : list string) : Prop :=
  Forall2 (fun z x => zget X (Some z) = Some (Some x)) zs Xs.
(** Both objects of one element: the first one has the data of the file, the second one these data converted_table with the mass of the
    element. *)
Definition converted_table (u : R) (file : string) (els : dict natural_element) (x : string) (o1 o2 : xrmac_object) : Prop :=
  exists rows e m, read_nist_xrmac Ok Ok file = Ok rows /\ Forall2 row_worth rows (xo_data o1) /\
    dget els x = Some e /\ has_mass e m /\ Forall2 (scaled (per_atom u m)) (xo_data o1) (xo_data o2).
(** A table of attenuation coefficients from 1 keV to 20 MeV (energies in MeV). *)
Definition table_1keV_20MeV (data : list (R * R * R)) : Prop :=
  List.Forall (fun r => 0 < fst (fst r) /\ 0 < snd (fst r) /\ 0 < snd r) data /\ (10 <= List.length data)%nat /\
  (forall d, fst (fst (hd d data)) = 1 / 1000 /\ fst (fst (last data d)) = 20).
