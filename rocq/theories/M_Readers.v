(** Model of the file readers:
    ries/constituents/natural_element_data.py and ries/nonresonant/xrmac.py:171-225. *)
From Coq Require Import Ascii String List ZArith Bool.
From Verif Require Import Py PyStr PyNum.
Import ListNotations.
Open Scope string_scope.
Open Scope py_scope.

(** ** NISTElementDataReader *)

(** natural_element_data.py:79-83 *)
Definition Z_prefix := "Atomic Number = ".
Definition A_prefix := "Mass Number = ".
Definition X_prefix := "Atomic Symbol = ".
Definition amu_prefix := "Relative Atomic Mass = ".
Definition abundance_prefix := "Isotopic Composition = ".

(** natural_element_data.py:131-153, [read_nist_element_property]: cut the prefix length off the
    front and one character off the end, cast unless empty.  [cast] is the [property_type]. *)
Definition read_nist_element_property {A} (line prefix : string) (cast : string -> out A)
    (default : option A) : out (option A) :=
  let prop := py_slice line (slen prefix) (-1) in
  if negb (String.eqb prop "") then omap Some (cast prop) else Ok default.

(** natural_element_data.py:155-179, [read_nist_element_property_with_uncertainty]. *)
Definition read_nist_element_property_with_uncertainty (line prefix : string)
    (default : option num) : out (option num) :=
  read_nist_element_property (py_slice line 0 (py_find line "(" + 1)) prefix py_float default.

(** The [Isotope] objects created by the reader (ries/constituents/isotope.py:44-61 with the
    default states): name and mass; the mass may be [None]. *)
Record isotope_entry := { iso_AX : string; iso_amu : option num }.

(** Local variables of [read_nist_element_data]; the outer [option] is "not yet bound", the inner
    one Python's [None]. *)
Record nist_vars := {
  v_current_Z : option (option Z);
  v_X : option (option string);
  v_A : option (option Z);
  v_amu : option (option num);
  v_abundances : dict (option num);
  v_isotopes : dict isotope_entry }.

Definition nist_vars0 : nist_vars :=
  {| v_current_Z := None; v_X := None; v_A := None; v_amu := None;
     v_abundances := []; v_isotopes := [] |}.

Definition bound {A} (x : option A) : out A :=
  match x with Some a => Ok a | None => Raise UnboundLocalError end.

(** ["{:d}".format(A)]: [None] raises TypeError. *)
Definition format_d (A : option Z) : out string :=
  match A with Some n => Ok (show_Z n) | None => Raise TypeError end.
(** ["{}".format(X)] *)
Definition format_s (X : option string) : string :=
  match X with Some s => s | None => "None" end.

(** One iteration of the loop natural_element_data.py:104-127.  The boolean is [true] after
    [break].  [current_Z == Z] with [current_Z = None] is False, [current_Z < Z] raises. *)
Definition nist_line (Z0 : Z) (s : nist_vars) (line : string) : out (nist_vars * bool) :=
  let at_Z := let! cz := bound (v_current_Z s) in
              Ok (match cz with Some z => (z =? Z0)%Z | None => false end) in
  (* [p in line and current_Z == Z] *)
  let test (p : string) := if py_in p line then at_Z else Ok false in
  if py_in Z_prefix line then                                                (* 105 *)
    let! cz := read_nist_element_property line Z_prefix py_int None in        (* 106-108 *)
    let s' := {| v_current_Z := Some cz; v_X := v_X s; v_A := v_A s; v_amu := v_amu s;
                 v_abundances := v_abundances s; v_isotopes := v_isotopes s |} in
    match cz with
    | None => Raise TypeError                                                (* None < Z *)
    | Some z => if (z <? Z0)%Z then Ok (s', false)                            (* 109-110 *)
                else if (z >? Z0)%Z then Ok (s', true)                        (* 111-112 *)
                else Ok (s', false)
    end
  else
  let! bX := test X_prefix in
  if bX then                                                                 (* 113-114 *)
    let! x := read_nist_element_property line X_prefix (fun t => Ok t) None in
    Ok ({| v_current_Z := v_current_Z s; v_X := Some x; v_A := v_A s; v_amu := v_amu s;
           v_abundances := v_abundances s; v_isotopes := v_isotopes s |}, false)
  else
  let! bA := test A_prefix in
  if bA then                                                                 (* 115-116 *)
    let! a := read_nist_element_property line A_prefix py_int None in
    Ok ({| v_current_Z := v_current_Z s; v_X := v_X s; v_A := Some a; v_amu := v_amu s;
           v_abundances := v_abundances s; v_isotopes := v_isotopes s |}, false)
  else
  let! bM := test amu_prefix in
  if bM then                                                                 (* 117-120 *)
    let! m := read_nist_element_property_with_uncertainty line amu_prefix None in
    Ok ({| v_current_Z := v_current_Z s; v_X := v_X s; v_A := v_A s; v_amu := Some m;
           v_abundances := v_abundances s; v_isotopes := v_isotopes s |}, false)
  else
  let! bC := test abundance_prefix in
  if bC then                                                                 (* 121-127 *)
    let! ab := read_nist_element_property_with_uncertainty line abundance_prefix
                 (Some (Fin 0 0)) in
    let! a := bound (v_A s) in
    let! x := bound (v_X s) in
    let! sa := format_d a in
    let AX := (sa ++ format_s x)%string in
    let! m := bound (v_amu s) in
    Ok ({| v_current_Z := v_current_Z s; v_X := v_X s; v_A := v_A s; v_amu := v_amu s;
           v_abundances := dset (v_abundances s) AX ab;
           v_isotopes := dset (v_isotopes s) AX {| iso_AX := AX; iso_amu := m |} |}, false)
  else Ok (s, false).

Fixpoint nist_loop (Z0 : Z) (s : nist_vars) (lines : list string) : out nist_vars :=
  match lines with
  | [] => Ok s
  | l :: r =>
      let! (s', stop) := nist_line Z0 s l in
      if (stop : bool) then Ok s' else nist_loop Z0 s' r
  end.

(** natural_element_data.py:85-129, [read_nist_element_data(Z)] for a file with content [file]. *)
Definition read_nist_element_data (file : string) (Z0 : Z)
    : out (dict (option num) * dict isotope_entry) :=
  let! s := nist_loop Z0 nist_vars0 (file_lines file) in
  Ok (v_abundances s, v_isotopes s).

(** Dictionaries keyed by integers (the [X] dictionary). *)
Fixpoint zget {V} (d : list (option Z * V)) (k : option Z) : option V :=
  match d with
  | [] => None
  | (k', v) :: r => if match k, k' with Some a, Some b => (a =? b)%Z | None, None => true
                       | _, _ => false end then Some v else zget r k
  end.

(** natural_element_data.py:181-205, [read_nist_element_symbols].  The state is the variable [Z]
    and the dictionary [X]; both tests are plain [if]s. *)
Definition symbols_line (s : option (option Z) * list (option Z * option string)) (line : string)
    : out (option (option Z) * list (option Z * option string)) :=
  let! z := if py_in Z_prefix line                                            (* 201-202 *)
            then omap Some (read_nist_element_property line Z_prefix py_int None)
            else Ok (fst s) in
  if py_in X_prefix line then                                                (* 203 *)
    let! zz := bound z in
    match zget (snd s) zz with
    | Some _ => Ok (z, snd s)
    | None => let! x := read_nist_element_property line X_prefix (fun t => Ok t) None in  (* 204 *)
              Ok (z, (snd s ++ [(zz, x)])%list)
    end
  else Ok (z, snd s).

Fixpoint symbols_loop (s : option (option Z) * list (option Z * option string))
    (lines : list string) : out (option (option Z) * list (option Z * option string)) :=
  match lines with
  | [] => Ok s
  | l :: r => let! s' := symbols_line s l in symbols_loop s' r
  end.

Definition read_nist_element_symbols (file : string) : out (list (option Z * option string)) :=
  omap snd (symbols_loop (None, []) (file_lines file)).

(** ** Geant4DensityDataReader *)

(** natural_element_data.py:242-265, [read_density_data(X)]; [conv] is [density_conversion]. *)
Fixpoint density_loop {A} (conv : num -> out A) (X : string) (lines : list string)
    : out (option A) :=
  match lines with
  | [] => Ok None                                                            (* 265 *)
  | line :: r =>
      if py_in X (py_slice line 0 2) then                                    (* 262 *)
        let! v := py_float (py_slice_from line 2) in                          (* 263 *)
        omap Some (conv v)
      else density_loop conv X r
  end.
Definition read_density_data {A} (file : string) (conv : num -> out A) (X : string)
    : out (option A) := density_loop conv X (file_lines file).

(** ** XRMAC.read_nist_xrmac *)

(** xrmac.py:212-214: whether the label column is to be skipped. *)
Definition xrmac_skip (file : string) : out Z :=
  match file_lines file with
  | String c _ :: _ => Ok (if is_digit c then 0%Z else 3%Z)
  | _ => Raise IndexError                                    (* ""[0] *)
  end.

Definition list_get {A} (l : list A) (i : nat) : out A :=
  match nth_error l i with Some a => Ok a | None => Raise IndexError end.

(** xrmac.py:217-224, one line.  [econv] and [xconv] are the conversion functions. *)
Definition xrmac_line {A} (econv xconv : num -> out A) (skip : Z) (line : string)
    : out (A * A * A) :=
  let fields := py_split "  " (py_slice line skip (-2)) in
  let! f0 := list_get fields 0 in let! v0 := py_float f0 in let! e := econv v0 in
  let! f1 := list_get fields 1 in let! v1 := py_float f1 in let! x := xconv v1 in
  let! f2 := list_get fields 2 in let! v2 := py_float f2 in let! y := xconv v2 in
  Ok (e, x, y).

(** xrmac.py:171-225. *)
Definition read_nist_xrmac {A} (econv xconv : num -> out A) (file : string)
    : out (list (A * A * A)) :=
  let! skip := xrmac_skip file in
  traverse (xrmac_line econv xconv skip) (file_lines file).
