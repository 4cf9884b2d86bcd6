(** Cross sections and weighted sums: ries/cross_section.py. *)
From Coq Require Import Reals List ZArith.
From Coquelicot Require Import Rbar.
From Verif Require Import Py M_Num M_Grid.
Import ListNotations.
Open Scope R_scope.

(** An instance of a subclass of CrossSection (cross_section.py:69-171) that is not a
    ConstantCrossSection: how it answers a call with one energy and a request for a probability
    grid.  Simplification: subclasses act elementwise on arrays (they consist of numpy ufuncs), so
    a call with an array is derived from calls with its elements, see [call_arr]. *)
Record leaf := {
  l_call : R -> out R;
  l_pgrid : grid_arg -> Z -> pgrid_result
}.

(** cross_section.py:72-77, 134-171: the abstract class itself. *)
Definition abstract_leaf : leaf :=
  {| l_call := fun _ => Raise NotImplementedError;
     l_pgrid := fun _ _ => Raise NotImplementedError |}.

(** Python objects that occur as operands of + and *. *)
Inductive value :=
  | VNum (r : R)                              (* an int or float *)
  | VOther (r : R)                            (* a number that is neither, e.g. numpy.int64 *)
  | VLeaf (c : leaf)                          (* CrossSection *)
  | VConst (r : R)                            (* ConstantCrossSection, cross_section.py:174-200 *)
  | VSum (rs : list value) (ss : list R).     (* CrossSectionWeightedSum, cross_section.py:203-363 *)

(** [l[i]] for a nonnegative index. *)
Definition get {A} (l : list A) (i : nat) : out A :=
  match nth_error l i with Some a => Ok a | None => Raise IndexError end.

(** One pass of the loop in __call__, cross_section.py:320-321:
    [cross_section += self.scale_factors[i] * reaction(energy)].
    [self.scale_factors[i]] is evaluated before [reaction(energy)]. *)
Definition sum_step (call : value -> out R) (ss : list R) (acc : out R) (ir : nat * value) : out R :=
  match acc with
  | Raise e => Raise e
  | _ => match get ss (fst ir) with
         | Ok s => oadd acc (oscale s (call (snd ir)))
         | NaN => NaN
         | Raise e => Raise e
         end
  end.

(** [enumerate(l)]. *)
Definition enumerate {A} (l : list A) : list (nat * A) := combine (seq 0 (length l)) l.

(** Calling an object with an energy: numbers are not callable; cross_section.py:188-193
    (ConstantCrossSection) and 304-323 (CrossSectionWeightedSum). The loop is the structural
    version of [fold_left (sum_step ..) (enumerate rs) (Ok 0)], see [call_VSum] in L_CrossSection. *)
Fixpoint call (v : value) (E : R) {struct v} : out R :=
  match v with
  | VNum _ | VOther _ => Raise TypeError
  | VLeaf c => l_call c E
  | VConst r => Ok r
  | VSum rs ss =>
      (fix loop (rs : list value) (i : nat) (acc : out R) : out R :=
         match rs with
         | [] => acc
         | r :: rs' =>
             loop rs' (S i)
               (match acc with
                | Raise e => Raise e
                | _ => match get ss i with
                       | Ok s => oadd acc (oscale s (call r E))
                       | NaN => NaN
                       | Raise e => Raise e
                       end
                end)
         end) rs 0%nat (Ok 0)
  end.

(** cross_section.py:215-226: CrossSectionWeightedSum.__init__; [None] for an omitted argument.
    [reactions or []] turns None into an empty list, but [len(reactions)] is taken of the original
    argument. *)
Definition new_sum (reactions : option (list value)) (scale_factors : option (list R)) : out value :=
  let rs := match reactions with Some l => l | None => [] end in
  match scale_factors with
  | Some ss => Ok (VSum rs ss)
  | None => match reactions with
            | None => Raise TypeError                                  (* len(None) *)
            | Some l => Ok (VSum rs (repeat 1 (length l)))
            end
  end.

(** cross_section.py:79-86: CrossSection.__add__ (also of ConstantCrossSection). *)
Definition cs_add (self other : value) : out value :=
  match other with
  | VNum r => new_sum (Some [self; VConst r]) None
  | _ => new_sum (Some [self; other]) None
  end.

(** cross_section.py:95-102: CrossSection.__mul__ with a number. *)
Definition cs_mul (self : value) (c : R) : out value := new_sum (Some [self]) (Some [c]).

(** The copying loops of cross_section.py:250-254, 263-265 and 290-294: every reaction is appended
    together with f(scale_factors[i]). *)
Definition copy_factors (f : R -> R) (rs : list value) (ss : list R) : out (list R) :=
  traverse (fun ir => let! s := get ss (fst ir) in Ok (f s)) (enumerate rs).

(** cross_section.py:228-267: CrossSectionWeightedSum.__add__; [rs], [ss] are the attributes of
    self.  An [other] that is neither a number, a CrossSection nor a weighted sum has no attribute
    [reactions]. *)
Definition ws_add (rs : list value) (ss : list R) (other : value) : out value :=
  let! ss1 := copy_factors (fun s => s) rs ss in
  match other with
  | VNum r => new_sum (Some (rs ++ [VConst r])) (Some (ss1 ++ [1]))
  | VLeaf _ | VConst _ => new_sum (Some (rs ++ [other])) (Some (ss1 ++ [1]))
  | VSum rs' ss' =>
      let! ss2 := copy_factors (fun s => s) rs' ss' in
      new_sum (Some (rs ++ rs')) (Some (ss1 ++ ss2))
  | VOther _ => Raise AttributeError
  end.

(** cross_section.py:276-295: CrossSectionWeightedSum.__mul__ with a number. *)
Definition ws_mul (rs : list value) (ss : list R) (c : R) : out value :=
  let! ss1 := copy_factors (fun s => c * s) rs ss in
  new_sum (Some rs) (Some ss1).

(** Dispatch of [a + b].  A number on the left hands over to __radd__ of the right operand
    (cross_section.py:88-93, 269-274); numpy numbers on the left are converted to Python numbers by
    numpy first (numpy behaviour, not code of the repository). *)
Definition py_add (a b : value) : out value :=
  match a with
  | VNum r | VOther r =>
      match b with
      | VNum r' | VOther r' => Ok (VNum (r + r'))
      | VLeaf _ | VConst _ => cs_add b (VNum r)
      | VSum rs ss => ws_add rs ss (VNum r)
      end
  | VLeaf _ | VConst _ => cs_add a b
  | VSum rs ss => ws_add rs ss b
  end.

(** Dispatch of [a * c] and [c * a] with a number c (cross_section.py:104-109, 297-302: __rmul__
    calls __mul__). *)
Definition py_mul (a : value) (c : R) : out value :=
  match a with
  | VNum r => Ok (VNum (r * c))
  | VOther r => Ok (VOther (r * c))
  | VLeaf _ | VConst _ => cs_mul a c
  | VSum rs ss => ws_mul rs ss c
  end.
Definition py_rmul (c : R) (a : value) : out value :=
  match a with
  | VNum r => Ok (VNum (c * r))
  | VOther r => Ok (VOther (c * r))
  | VLeaf _ | VConst _ => cs_mul a c
  | VSum rs ss => ws_mul rs ss c
  end.

(** The builtin sum(): starts with the int 0 and adds from the left. *)
Definition py_sum (l : list value) : out value :=
  fold_left (fun acc v => let! a := acc in py_add a v) l (Ok (VNum 0)).

(** numpy's in-place addition [acc += y] for numbers and 1d arrays: the right operand must
    broadcast to the shape of the left one if that is an array. *)
Definition iadd (x y : pyval) : out pyval :=
  match x, y with
  | Scalar a, Scalar b => Ok (Scalar (a + b))
  | Scalar a, Array m => Ok (Array (map (Rplus a) m))
  | Array l, Scalar b => Ok (Array (map (fun a => a + b) l))
  | Array l, Array m =>
      if Nat.eqb (length l) (length m) then Ok (Array (map2 Rplus l m))
      else match m with
           | [b] => Ok (Array (map (fun a => a + b) l))
           | _ => Raise ValueError
           end
  end.
Definition vscale (c : R) (x : pyval) : pyval :=
  match x with Scalar a => Scalar (c * a) | Array l => Array (map (Rmult c) l) end.

(** Calling an object with an array of energies; a ConstantCrossSection returns its number whatever
    it is called with (cross_section.py:188-193).  [NaN] stands for an array containing nan. *)
Fixpoint call_arr (v : value) (Es : list R) {struct v} : out pyval :=
  match v with
  | VNum _ | VOther _ => Raise TypeError
  | VLeaf c => omap Array (traverse (l_call c) Es)
  | VConst r => Ok (Scalar r)
  | VSum rs ss =>
      (fix loop (rs : list value) (i : nat) (acc : pyval) : out pyval :=
         match rs with
         | [] => Ok acc
         | r :: rs' =>
             let! s := get ss i in
             let! y := call_arr r Es in
             let! acc' := iadd acc (vscale s y) in
             loop rs' (S i) acc'
         end) rs 0%nat (Scalar 0)
  end.

(** cross_section.py:343-363: the probability grid of an object; numbers have no such method.
    [chain( *grid)] over a None raises TypeError. *)
Fixpoint pgrid (v : value) (g : grid_arg) (n : Z) {struct v} : pgrid_result :=
  match v with
  | VNum _ | VOther _ => Raise AttributeError
  | VLeaf c => l_pgrid c g n
  | VConst _ => constant_probability_grid g n
  | VSum rs _ =>
      let! grids :=
        (fix each (rs : list value) : out (list (option (list Rbar))) :=
           match rs with
           | [] => Ok []
           | r :: rs' => let! x := pgrid r g n in let! y := each rs' in Ok (x :: y)
           end) rs in
      let! grids := traverse (fun o => match o with Some l => Ok l | None => Raise TypeError end) grids in
      Ok (Some (np_unique (concat grids)))
  end.
