(** The same code with IEEE 754 binary64 arithmetic instead of exact real numbers: every operation is
    followed by rounding to nearest, ties to even, with gradual underflow.  Simplification: there is no
    overflow (no largest number), hence no infinities. *)
From Coq Require Import Reals List ZArith String.
From Flocq Require Import Core.
From Verif Require Import Py M_Num M_Grid M_CrossSection M_Constituents M_Darboux.
Import ListNotations.
Open Scope R_scope.
Open Scope py_scope.

(** ** Arithmetic *)
Definition fexp64 : Z -> Z := FLT_exp (-1074) 53.
Definition rnd (x : R) : R := round radix2 fexp64 ZnearestE x.
(** The numbers that a float can hold. *)
Definition double (x : R) : Prop := generic_format radix2 fexp64 x.
Definition fadd (x y : R) : R := rnd (x + y).
Definition fsub (x y : R) : R := rnd (x - y).
Definition fmul (x y : R) : R := rnd (x * y).
(** Division of numpy floats or of Python floats with a divisor other than 0. *)
Definition fquo (x y : R) : R := rnd (x / y).

(** Python's [sum] of floats (before Python 3.12): from left to right, starting with 0. *)
Definition fsum (l : list R) : R := fold_left fadd l 0.

(** [np.sum] of an array of length n: numpy adds the elements in an order that depends on n only (blocks
    with eight accumulators, which are combined pairwise).  The order is left open: a binary tree, the
    leaves of which are the indices 0, ..., n-1. *)
Inductive order := Index (i : nat) | Plus (l r : order).
Fixpoint indices (t : order) : list nat :=
  match t with Index i => [i] | Plus l r => indices l ++ indices r end.
Fixpoint height (t : order) : nat :=
  match t with Index _ => 0 | Plus l r => S (Nat.max (height l) (height r)) end.
Fixpoint np_sum_in (t : order) (f : nat -> R) : R :=
  match t with Index i => f i | Plus l r => fadd (np_sum_in l f) (np_sum_in r f) end.
Definition np_sum (t : option order) (l : list R) : R :=
  match t with None => 0 | Some t => np_sum_in t (fun i => nth i l 0) end.

(** ** cross_section.py *)
Definition foadd (x y : out R) : out R :=
  match x, y with
  | Raise e, _ => Raise e
  | _, Raise e => Raise e
  | Ok a, Ok b => Ok (fadd a b)
  | _, _ => NaN
  end.
Definition foscale (c : R) (x : out R) : out R :=
  match x with Ok a => Ok (fmul c a) | NaN => NaN | Raise e => Raise e end.

(** cross_section.py:304-323, see [M_CrossSection.call]; [l_call] of a cross section gives the float that
    it returns. *)
Fixpoint fcall (v : value) (E : R) {struct v} : out R :=
  match v with
  | VNum _ | VOther _ => Raise TypeError
  | VLeaf c => l_call c E
  | VConst r => Ok r
  | VSum rs ss =>
      (fix loop (rs : list value) (i : nat) (acc : out R) : out R :=
         match rs with
         | [] => acc
         | r :: rs' =>
             loop rs' (S i)
               (match acc with
                | Raise e => Raise e
                | _ => match get ss i with
                       | Ok s => foadd acc (foscale s (fcall r E))
                       | NaN => NaN
                       | Raise e => Raise e
                       end
                end)
         end) rs 0%nat (Ok 0)
  end.

(** cross_section.py:276-295, 95-102: products of a cross section and a number. *)
Definition fws_mul (rs : list value) (ss : list R) (c : R) : out value :=
  let! ss1 := copy_factors (fun s => fmul c s) rs ss in
  new_sum (Some rs) (Some ss1).
Definition fpy_mul (a : value) (c : R) : out value :=
  match a with
  | VNum r => Ok (VNum (fmul r c))
  | VOther r => Ok (VOther (fmul r c))
  | VLeaf _ | VConst _ => cs_mul a c
  | VSum rs ss => fws_mul rs ss c
  end.
(** Sums of cross sections involve no arithmetic, see [M_CrossSection.py_add]; sums of numbers do. *)
Definition fpy_add (a b : value) : out value :=
  match a, b with
  | VNum r, VNum r' | VNum r, VOther r' | VOther r, VNum r' | VOther r, VOther r' => Ok (VNum (fadd r r'))
  | _, _ => py_add a b
  end.

(** ** darboux.py:55-82 *)
(** The products with [dx] for a callable or array with as many values as [x]; [t] is the order of
    summation for [len(x) - 1] elements.  [np.min] and [np.max] do not round. *)
Definition fdifferences (x : list R) : list R := tl (map2 fsub x (roll1 x)).
Definition fdarboux (t : option order) (fx x : list R) : R * R :=
  let dx := fdifferences x in
  let lower_sum := np_sum t (map2 fmul (map2 Rmin (removelast fx) (tl fx)) dx) in
  let upper_sum := np_sum t (map2 fmul (map2 Rmax (removelast fx) (tl fx)) dx) in
  (lower_sum, Rabs (fsub upper_sum lower_sum)).

(** ** numpy.linspace (cross_section.py:132, 200, 341)
    [delta = stop - start; step = delta / div; y = arange(0, num) * step + start; y[-1] = stop];
    if the step is 0: [y = arange(0, num) / div * delta + start]; see [M_Grid.linspace]. *)
Definition flinspace_point (a b : R) (n : Z) (i : nat) : R :=
  let delta := fsub b a in
  let step := fquo delta (IZR (n - 1)) in
  fadd (if Req_EM_T step 0 then fmul (fquo (INR i) (IZR (n - 1))) delta else fmul (INR i) step) a.
Definition flinspace (a b : R) (n : Z) : out (list R) :=
  if (n <? 0)%Z then Raise ValueError
  else if (n =? 0)%Z then Ok []
  else if (n =? 1)%Z then Ok [a]
  else set_last (map (flinspace_point a b n) (seq 0 (Z.to_nat n))) b.

(** ** state.py:95-113, see [M_Constituents.State] *)
Definition fState (J_pi : string) (two_J parity : Z) (excitation_energy : R) (partial_widths : dict R) : out state :=
  let! l := traverse (fun j => dgetE partial_widths j) (dkeys partial_widths) in
  Ok {| st_J_pi := J_pi; st_two_J := two_J; st_parity := parity;
        st_excitation_energy := excitation_energy;
        st_decays := Some (partial_widths, fsum l) |}.

(** ** resonance.py:377-387, see [M_Resonance.get_final_state_branching_ratio] *)
Definition fget_final_state_branching_ratio (intermediate : state) (final : option state) : out R :=
  match final with
  | None => Ok 1
  | Some f =>
      let! d := partial_widths intermediate in
      let! g := dgetE d (st_J_pi f) in
      let! w := width intermediate in
      if Req_EM_T w 0 then Raise ZeroDivisionError else Ok (fquo g w)
  end.

(** ** element.py:90-104, see [M_Constituents.amu_from_isotopic_composition] *)
Definition famu (t : option order) (abundances : dict R) (isotopes : dict (isotope R)) : out R :=
  amu_from_isotopic_composition (fun m a => Ok (fmul m a)) (np_sum t) abundances isotopes.
