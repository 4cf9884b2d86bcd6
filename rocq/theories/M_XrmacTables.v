(** xrmac.py:117-127 [XRMAC.__init__] with a file name and conversion functions, and the module-level
    loop xrmac.py:228-246 that creates [xrmac_cm2_per_g] and [xrmac_fm2_per_atom]. *)
From Coq Require Import Reals List String ZArith.
From Verif Require Import Py PyNum M_Readers M_Constituents M_Xrmac.
Import ListNotations.
Open Scope R_scope.
Open Scope py_scope.

(** The module-level variables that the conversion functions refer to: the loop variable [Z], and [X]
    and [natural_elements] imported from element.py.  Python looks them up whenever the function is
    called. *)
Record globals := { g_Z : Z; g_X : list (option Z * option string); g_natural_elements : dict natural_element }.
Definition set_Z (g : globals) (z : Z) : globals := {| g_Z := z; g_X := g_X g; g_natural_elements := g_natural_elements g |}.
(** A function that may read module-level variables. *)
Definition closure := globals -> R -> out R.

(** A float literal as a real number.  Simplification: infinities and nan are [NaN]. *)
Definition num_R (n : num) : out R := match n with Fin m e => Ok (IZR m * powerRZ 10 e) | _ => NaN end.

(** xrmac.py:117-127, attributes of an [XRMAC] object.  [xo_interpolation] is [NaN] if the data contain
    numbers that are not positive (see [interpolate_log_log]): creating the object does not fail then,
    only calls of the object return nan (or zero, depending on the numpy release). *)
Record xrmac_object := {
  xo_energy_conversion : closure;
  xo_xrmac_conversion : closure;
  xo_data : list (R * R * R);
  xo_interpolation : out interp1d }.

(** xrmac.py:103-127, [__init__] with a file with content [file], evaluated with the module-level
    variables [g]. *)
Definition XRMAC_file (minval : nat) (g : globals) (econv xconv : closure) (file : string) : out xrmac_object :=
  let! data := read_nist_xrmac (fun v => let! x := num_R v in econv g x) (fun v => let! x := num_R v in xconv g x) file in
  match interpolate_log_log minval (map fst data) with
  | Raise e => Raise e
  | i => Ok {| xo_energy_conversion := econv; xo_xrmac_conversion := xconv; xo_data := data; xo_interpolation := i |}
  end.
(** xrmac.py:129-142, [__call__] of such an object. *)
Definition xrmac_object_call (o : xrmac_object) (E : R) : out R := let! i := xo_interpolation o in xrmac_call i E.

(** xrmac.py:106-107, the default conversions. *)
Definition no_conversion : closure := fun _ x => Ok x.

(** xrmac.py:234-235 *)
Definition cm_to_fm : R := 10 ^ 13.
Definition kg_to_g : R := 10 ^ 3.

(** [X[Z]] with the current value of the variable [Z]; [None] is not a key of [natural_elements]. *)
Definition current_symbol (g : globals) : out string :=
  match zget (g_X g) (Some (g_Z g)) with Some (Some s) => Ok s | _ => Raise KeyError end.

(** xrmac.py:241-245, the lambda expression; [amc] is [physical_constants["atomic mass constant"][0]]. *)
Definition fm2_per_atom (amc : R) : closure := fun g xrmac =>
  let! x := current_symbol g in
  let! e := dgetE (g_natural_elements g) x in
  let! amu := match el_amu e with Some a => num_R a | None => Raise TypeError end in
  Ok (xrmac * cm_to_fm ^ 2 * amu * amc * kg_to_g).

(** xrmac.py:237-246, the loop; [file z] is the content of the file with the name ["{:02d}.txt".format(z)]. *)
Fixpoint xrmac_tables_loop (minval : nat) (amc : R) (file : Z -> string) (zs : list Z) (g : globals) (cm2 fm2 : dict xrmac_object)
    : out (globals * dict xrmac_object * dict xrmac_object) :=
  match zs with
  | [] => Ok (g, cm2, fm2)
  | z :: r =>
      let g := set_Z g z in
      let! o1 := XRMAC_file minval g no_conversion no_conversion (file z) in
      let! x := current_symbol g in
      let! o2 := XRMAC_file minval g no_conversion (fm2_per_atom amc) (file z) in
      xrmac_tables_loop minval amc file r g (dset cm2 x o1) (dset fm2 x o2)
  end.
(** xrmac.py:237, [range(1, 93)]. *)
Definition xrmac_Z : list Z := map Z.of_nat (seq 1 92).
(** The module after its execution: its variables and both dictionaries. *)
Definition xrmac_module (minval : nat) (amc : R) (file : Z -> string) (X : list (option Z * option string)) (elements : dict natural_element)
    : out (globals * dict xrmac_object * dict xrmac_object) :=
  xrmac_tables_loop minval amc file xrmac_Z {| g_Z := 0; g_X := X; g_natural_elements := elements |} [] [].
