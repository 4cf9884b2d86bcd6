(** States, isotopes and elements (ries/constituents/{state,isotope,element}.py). *)
From Coq Require Import Reals List String ZArith.
From Verif Require Import Py PyStr PyNum M_Readers.
Import ListNotations.
Open Scope R_scope.
Open Scope py_scope.

(** ** state.py *)
(** state.py:52-113: [GroundState] and [State] objects.  [st_decays] is [None] for a [GroundState],
    which has neither [partial_widths] nor [width]; for a [State] it holds both. *)
Record state := {
  st_J_pi : string;
  st_two_J : Z;
  st_parity : Z;
  st_excitation_energy : R;
  st_decays : option (dict R * R)
}.

(** state.py:64-76 *)
Definition GroundState (J_pi : string) (two_J parity : Z) : state :=
  {| st_J_pi := J_pi; st_two_J := two_J; st_parity := parity; st_excitation_energy := 0;
     st_decays := None |}.

(** Python's [sum] of a list of floats: from left to right, starting with 0. *)
Definition py_sum_R (l : list R) : R := fold_left Rplus l 0.

(** state.py:95-113; line 113: [sum([self.partial_widths[state] for state in self.partial_widths])];
    the keys of a dictionary are present by construction. *)
Definition State (J_pi : string) (two_J parity : Z) (excitation_energy : R) (partial_widths : dict R) : out state :=
  let! l := traverse (fun j => dgetE partial_widths j) (dkeys partial_widths) in
  Ok {| st_J_pi := J_pi; st_two_J := two_J; st_parity := parity;
        st_excitation_energy := excitation_energy;
        st_decays := Some (partial_widths, py_sum_R l) |}.

(** Attribute access: [AttributeError] for a ground state. *)
Definition partial_widths (s : state) : out (dict R) :=
  match st_decays s with Some (d, _) => Ok d | None => Raise AttributeError end.
Definition width (s : state) : out R :=
  match st_decays s with Some (_, w) => Ok w | None => Raise AttributeError end.

(** ** isotope.py *)
(** isotope.py:44-61; [excited_states or []] is the empty list for [None].  The type [A] of masses is
    [R] in general statements and the exact decimals [num] for the supplied data. *)
Record isotope (A : Type) := {
  iso_name : string;
  iso_mass : A;
  iso_ground_state : option state;
  iso_excited_states : list state
}.
Arguments iso_name {A}. Arguments iso_mass {A}. Arguments iso_ground_state {A}. Arguments iso_excited_states {A}.
Definition Isotope {A} (AX : string) (amu : A) (ground_state : option state)
    (excited_states : option (list state)) : isotope A :=
  {| iso_name := AX; iso_mass := amu; iso_ground_state := ground_state;
     iso_excited_states := match excited_states with Some l => l | None => [] end |}.

(** ** element.py *)
Record element (A : Type) := {
  el_Z : Z;
  el_X : string;
  el_isotopes : dict (isotope A);
  el_abundances : dict A;
  el_density : option A;
  el_amu : A
}.
Arguments el_Z {A}. Arguments el_X {A}. Arguments el_isotopes {A}. Arguments el_abundances {A}.
Arguments el_density {A}. Arguments el_amu {A}.

(** element.py:90-104, [amu_from_isotopic_composition], for any multiplication (which may raise) and
    summation of the carrier. *)
Definition amu_from_isotopic_composition {A} (mul : A -> A -> out A) (sum : list A -> A)
    (abundances : dict A) (isotopes : dict (isotope A)) : out A :=
  let! l := traverse (fun iso => let! i := dgetE isotopes iso in
                                 let! a := dgetE abundances iso in
                                 mul (iso_mass i) a) (dkeys isotopes) in
  Ok (sum l).

(** element.py:69-88 *)
Definition Element {A} (mul : A -> A -> out A) (sum : list A -> A)
    (Z : Z) (X : string) (isotopes : dict (isotope A)) (abundances : dict A) (density : option A)
    : out (element A) :=
  let! amu := amu_from_isotopic_composition mul sum abundances isotopes in
  Ok {| el_Z := Z; el_X := X; el_isotopes := isotopes; el_abundances := abundances;
        el_density := density; el_amu := amu |}.

(** Real masses: [np.sum] of floats. *)
Definition Element_R := Element (fun a b => Ok (a * b)) py_sum_R.

(** ** Exact decimal arithmetic for the supplied data *)
Definition num_mul (a b : num) : num :=
  match a, b with Fin m e, Fin m' e' => Fin (m * m') (e + e') | _, _ => NotNum end.
Definition num_add (a b : num) : num :=
  match a, b with
  | Fin m e, Fin m' e' => let f := Z.min e e' in
                          Fin (m * 10 ^ (e - f) + m' * 10 ^ (e' - f)) f
  | _, _ => NotNum
  end.
Definition num_sum (l : list num) : num := fold_left num_add l (Fin 0 0).
(** Comparison of finite decimals; anything else is not comparable. *)
Definition num_le (a b : num) : bool :=
  match a, b with
  | Fin m e, Fin m' e' => let f := Z.min e e' in (m * 10 ^ (e - f) <=? m' * 10 ^ (e' - f))%Z
  | _, _ => false
  end.
Definition num_lt (a b : num) : bool :=
  match a, b with
  | Fin m e, Fin m' e' => let f := Z.min e e' in (m * 10 ^ (e - f) <? m' * 10 ^ (e' - f))%Z
  | _, _ => false
  end.

(** Product of two entries of the NIST data, [None * x] raises. *)
Definition entry_mul (a b : option num) : out (option num) :=
  match a, b with Some x, Some y => Ok (Some (num_mul x y)) | _, _ => Raise TypeError end.
Definition entry_sum (l : list (option num)) : option num :=
  Some (num_sum (map (fun x => match x with Some v => v | None => Fin 0 0 end) l)).

(** Elements of [natural_elements]; masses and abundances as read. *)
Definition natural_element := element (option num).

(** element.py:118-121, the body of the module-level loop; [X] is the dictionary of symbols. *)
Definition natural_element_of (elements_file density_file : string)
    (X : list (option Z * option string)) (z : Z) : out natural_element :=
  let! (abundances, isotopes) := read_nist_element_data elements_file z in
  let! x := match zget X (Some z) with Some s => Ok s | None => Raise KeyError end in
  let! sym := match x with Some s => Ok s | None => Raise TypeError end in   (* None in line[0:2] raises *)
  let! density := read_density_data density_file (fun v => Ok v) sym in
  Element entry_mul entry_sum z sym
    (map (fun ki => (fst ki, Isotope (iso_AX (snd ki)) (iso_amu (snd ki)) None None)) isotopes)
    abundances (match density with Some d => Some (Some d) | None => None end).

(** element.py:115-121: the dictionary [natural_elements] after the loop over [range(1, 119)]. *)
Fixpoint natural_elements_loop (elements_file density_file : string)
    (X : list (option Z * option string)) (zs : list Z) (d : dict natural_element) : out (dict natural_element) :=
  match zs with
  | [] => Ok d
  | z :: r => let! e := natural_element_of elements_file density_file X z in
              natural_elements_loop elements_file density_file X r (dset d (el_X e) e)
  end.
Definition all_Z : list Z := map Z.of_nat (seq 1 118).
Definition make_natural_elements (elements_file density_file : string) : out (dict natural_element) :=
  let! X := read_nist_element_symbols elements_file in
  natural_elements_loop elements_file density_file X all_Z [].
