(** XRMAC tables that are read from files into binary64 numbers, see [M_Float], [M_Float7] and [M_XrmacTables]. *)
From Coq Require Import Reals List String ZArith.
From Verif Require Import Py PyNum M_Num M_Readers M_Constituents M_Xrmac M_XrmacTables M_Float M_Float7.
Import ListNotations.
Open Scope R_scope.
Open Scope py_scope.

(** [float(s)]: the float that is closest to the decimal number that [s] spells (see [PyNum.py_float]); Python rounds correctly.
    Simplifications: infinities and nan are [NaN], there is no overflow. *)
Definition fnum (n : num) : out R := match n with Fin m e => Ok (rnd (IZR m * powerRZ 10 e)) | _ => NaN end.

(** element.py:90-104 for an element of [natural_elements], see [M_Constituents.amu_from_isotopic_composition]: its masses and
    abundances have been read by [float] (natural_element_data.py:177-179); [None] raises.  [t n] is the order in which numpy adds
    n numbers. *)
Definition fmass (t : nat -> option order) (e : natural_element) : out R :=
  let! l := traverse (fun k => let! i := dgetE (el_isotopes e) k in
                               let! a := dgetE (el_abundances e) k in
                               match iso_mass i, a with
                               | Some m, Some a => let! m := fnum m in let! a := fnum a in Ok (fmul m a)
                               | _, _ => Raise TypeError
                               end) (dkeys (el_isotopes e)) in
  Ok (np_sum (t (List.length l)) l).

(** xrmac.py:241-245, the lambda expression, from left to right, see [M_XrmacTables.fm2_per_atom]; [sq] is the float
    [cm_to_fm ** 2], [amc] is [physical_constants["atomic mass constant"][0]]. *)
Definition ffm2_per_atom (t : nat -> option order) (sq amc : R) : closure := fun g xrmac =>
  let! x := current_symbol g in
  let! e := dgetE (g_natural_elements g) x in
  let! amu := fmass t e in
  Ok (fmul (fmul (fmul (fmul xrmac sq) amu) amc) kg_to_g).

(** xrmac.py:117-127, see [M_XrmacTables.xrmac_object]; the conversion functions are left out. *)
Record fxrmac_object := { fo_data : list (R * R * R); fo_interpolation : out interp1d }.
(** xrmac.py:103-127 with the name of a file, see [M_XrmacTables.XRMAC_file]. *)
Definition fXRMAC_file (l : llib) (minval : nat) (g : globals) (econv xconv : closure) (file : string) : out fxrmac_object :=
  let! data := read_nist_xrmac (fun v => let! x := fnum v in econv g x) (fun v => let! x := fnum v in xconv g x) file in
  match finterpolate_log_log l minval (map fst data) with
  | Raise e => Raise e
  | i => Ok {| fo_data := data; fo_interpolation := i |}
  end.
(** xrmac.py:129-142, see [M_XrmacTables.xrmac_object_call]. *)
Definition fxrmac_object_call (l : llib) (o : fxrmac_object) (E : R) : out R := let! i := fo_interpolation o in fxrmac_call l i E.

(** xrmac.py:237-246, see [M_XrmacTables.xrmac_tables_loop]. *)
Fixpoint fxrmac_tables_loop (l : llib) (minval : nat) (t : nat -> option order) (sq amc : R) (file : Z -> string) (zs : list Z) (g : globals)
    (cm2 fm2 : dict fxrmac_object) : out (globals * dict fxrmac_object * dict fxrmac_object) :=
  match zs with
  | [] => Ok (g, cm2, fm2)
  | z :: r =>
      let g := set_Z g z in
      let! o1 := fXRMAC_file l minval g no_conversion no_conversion (file z) in
      let! x := current_symbol g in
      let! o2 := fXRMAC_file l minval g no_conversion (ffm2_per_atom t sq amc) (file z) in
      fxrmac_tables_loop l minval t sq amc file r g (dset cm2 x o1) (dset fm2 x o2)
  end.
(** xrmac.py:228-246, see [M_XrmacTables.xrmac_module]. *)
Definition fxrmac_module (l : llib) (minval : nat) (t : nat -> option order) (sq amc : R) (file : Z -> string) (X : list (option Z * option string))
    (elements : dict natural_element) : out (globals * dict fxrmac_object * dict fxrmac_object) :=
  fxrmac_tables_loop l minval t sq amc file xrmac_Z {| g_Z := 0; g_X := X; g_natural_elements := elements |} [] [].
