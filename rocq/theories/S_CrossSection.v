(** Vocabulary for the properties of cross section arithmetic (C01-C06). *)
From Coq Require Import Reals List ZArith Bool.
From Coquelicot Require Import Rbar.
From Verif Require Import Py M_Num M_Grid M_CrossSection.
Import ListNotations.
Open Scope R_scope.

(** The value of an operand at an energy: a number counts as a constant cross section. *)
Definition at_energy (v : value) (E : R) : out R :=
  match v with VNum r => Ok r | _ => call v E end.

(** Left-to-right sum of outcomes. *)
Definition osum (l : list (out R)) : out R := fold_right oadd (Ok 0) l.

(** A weighted sum has (at least) one scale factor per reaction; everything else is fine. *)
Definition enough_factors (v : value) : Prop :=
  match v with VSum rs ss => (length rs <= length ss)%nat | _ => True end.
Definition is_foreign (v : value) : Prop :=
  match v with VOther _ => True | _ => False end.
Definition is_number (v : value) : Prop :=
  match v with VNum _ => True | _ => False end.

(** Arithmetic expressions of user code over cross sections and numbers. *)
Inductive expr :=
  | ENum (r : R)                                   (* 2.5 *)
  | EAtom (c : leaf)                               (* any cross section object *)
  | EConst (r : R)                                 (* ConstantCrossSection(r) *)
  | EAdd (a b : expr)                              (* a + b *)
  | EMul (a : expr) (c : R)                        (* a * c *)
  | ERMul (c : R) (a : expr)                       (* c * a *)
  | ESum (l : list expr)                           (* sum([...]) *)
  | EWeighted (l : list expr) (ss : list R).       (* CrossSectionWeightedSum([...], [...]) *)

(** Executing an expression with the model of the code. *)
Fixpoint run (e : expr) : out value :=
  let runs := fix runs (l : list expr) : out (list value) :=
    match l with
    | [] => Ok []
    | x :: r => let! v := run x in let! vs := runs r in Ok (v :: vs)
    end in
  match e with
  | ENum r => Ok (VNum r)
  | EAtom c => Ok (VLeaf c)
  | EConst r => Ok (VConst r)
  | EAdd a b => let! x := run a in let! y := run b in py_add x y
  | EMul a c => let! x := run a in py_mul x c
  | ERMul c a => let! x := run a in py_rmul c x
  | ESum l => let! vs := runs l in py_sum vs
  | EWeighted l ss => let! vs := runs l in new_sum (Some vs) (Some ss)
  end.

(** What the expression spells, pointwise. *)
Fixpoint denote (e : expr) (E : R) : out R :=
  match e with
  | ENum r => Ok r
  | EAtom c => l_call c E
  | EConst r => Ok r
  | EAdd a b => oadd (denote a E) (denote b E)
  | EMul a c => oscale c (denote a E)
  | ERMul c a => oscale c (denote a E)
  | ESum l => osum (map (fun x => denote x E) l)
  | EWeighted l ss => osum (map2 (fun x s => oscale s x) (map (fun x => denote x E) l) ss)
  end.

(** Expressions without a cross section in them: plain numbers. *)
Fixpoint numeric (e : expr) : bool :=
  match e with
  | ENum _ => true
  | EAtom _ | EConst _ => false
  | EAdd a b => numeric a && numeric b
  | EMul a _ | ERMul _ a => numeric a
  | ESum l => forallb numeric l
  | EWeighted _ _ => false
  end.

(** CrossSectionWeightedSum is given cross sections (not numbers) and enough scale factors. *)
Fixpoint well_formed (e : expr) : bool :=
  match e with
  | ENum _ | EAtom _ | EConst _ => true
  | EAdd a b => well_formed a && well_formed b
  | EMul a _ | ERMul _ a => well_formed a
  | ESum l => forallb well_formed l
  | EWeighted l ss => forallb (fun x => well_formed x && negb (numeric x)) l
                      && Nat.leb (length l) (length ss)
  end.

(** The linear combination an expression spells: weights and members (constants included). *)
Fixpoint combination (e : expr) : list (R * (R -> out R)) :=
  match e with
  | ENum r | EConst r => [(r, fun _ => Ok 1)]
  | EAtom c => [(1, l_call c)]
  | EAdd a b => combination a ++ combination b
  | EMul a c | ERMul c a => map (fun t => (c * fst t, snd t)) (combination a)
  | ESum l => flat_map combination l
  | EWeighted l ss =>
      concat (map2 (fun ts s => map (fun t => (s * fst t, snd t)) ts) (map combination l) ss)
  end.

(** Energies in the probability grids of the cross sections a value is made of; sums are looked
    through. *)
Fixpoint members (v : value) : list value :=
  match v with
  | VSum rs _ => flat_map members rs
  | _ => [v]
  end.

(** Element [i] of a result; a number stands for an array of equal elements. *)
Definition element (x : pyval) (i : nat) : option R :=
  match x with Scalar a => Some a | Array l => nth_error l i end.

(** Values that consist of constants only. *)
Fixpoint constants_only (v : value) : bool :=
  match v with
  | VConst _ => true
  | VSum rs _ => forallb constants_only rs
  | _ => false
  end.
