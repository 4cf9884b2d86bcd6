(** Natural elements (C55). *)
From Coq Require Import Reals String List ZArith.
From Verif Require Import Py PyNum M_Readers M_Constituents S_Readers S_Decimal.
Import ListNotations.
Open Scope R_scope.
Open Scope string_scope.

(** The mass of an element lies between the masses of two of its isotopes that have an abundance. *)
Definition has_mass (e : natural_element) (x : R) : Prop := exists m, el_amu e = Some m /\ worth m x.
Definition natural_isotope_mass (e : natural_element) (x : R) : Prop :=
  exists k i m a y, In (k, i) (el_isotopes e) /\ iso_mass i = Some m /\ worth m x /\ dget (el_abundances e) k = Some (Some a) /\ worth a y /\ 0 < y.
Definition isotope_mass (e : natural_element) (x : R) : Prop := exists k i m, In (k, i) (el_isotopes e) /\ iso_mass i = Some m /\ worth m x.
(** The documented mass of an element with natural isotopes. *)
Definition mass_between (e : natural_element) : Prop := exists x lo hi, has_mass e x /\ isotope_mass e lo /\ isotope_mass e hi /\ lo <= x <= hi.
(** An element of which at least one isotope occurs in nature: the file contains a composition. *)
Definition occurs (ps : list paragraph) (z : Z) : Prop := exists p, In p (of_Z z ps) /\ p_composition p <> VEmpty.

(** The abundance with which a paragraph enters the mass of its element: without an uncertainty it is zero. *)
Definition counted (v : value) (x : num) : Prop := match v with VUncertain t _ => py_float t = Ok x | _ => x = Fin 0 0 end.
Definition mass_of (v : value) (x : num) : Prop := match v with VUncertain t _ => py_float t = Ok x | _ => False end.

(** The entry of the element with atomic number z, symbol X in a dictionary made from a file with these paragraphs: its isotopes
    with masses and abundances in the order of the file, and the sum of mass times abundance. *)
Definition describes (ps : list paragraph) (z : Z) (X : string) (e : natural_element) : Prop :=
  el_Z e = z /\ el_X e = X /\
  Forall2 (fun p ki => fst ki = isotope_name p /\ iso_name (snd ki) = isotope_name p /\ exists m, mass_of (p_mass p) m /\ iso_mass (snd ki) = Some m) (of_Z z ps) (el_isotopes e) /\
  Forall2 (fun p ka => fst ka = isotope_name p /\ exists c, counted (p_composition p) c /\ snd ka = Some c) (of_Z z ps) (el_abundances e) /\
  exists ms cs, Forall2 (fun p m => mass_of (p_mass p) m) (of_Z z ps) ms /\ Forall2 (fun p c => counted (p_composition p) c) (of_Z z ps) cs /\
    el_amu e = Some (num_sum (map (fun p => num_mul (fst p) (snd p)) (combine ms cs))).
(** X is the symbol in the first paragraph of z. *)
Definition first_symbol (ps : list paragraph) (z : Z) (X : string) : Prop := exists p, find (fun p => spelled (p_Z p) =? z)%Z ps = Some p /\ p_X p = X.

(** The elements for which the supplied files yield no mass: mono-isotopic ones, the composition of which is given without
    uncertainty, and those without any natural isotope. *)
Definition massless : list string :=
  ["Be"; "F"; "Na"; "Al"; "P"; "Sc"; "Mn"; "Co"; "As"; "Y"; "Nb"; "Tc"; "Rh"; "I"; "Cs"; "Pr"; "Pm"; "Tb"; "Ho"; "Tm"; "Au"; "Bi"; "Po"; "At"; "Rn"; "Fr"; "Ra"; "Ac"; "Th"; "Pa";
   "Np"; "Pu"; "Am"; "Cm"; "Bk"; "Cf"; "Es"; "Fm"; "Md"; "No"; "Lr"; "Rf"; "Db"; "Sg"; "Bh"; "Hs"; "Mt"; "Ds"; "Rg"; "Cn"; "Nh"; "Fl"; "Mc"; "Lv"; "Ts"; "Og"].
