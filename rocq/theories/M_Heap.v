(** Object identity and mutation of weighted sums (cross_section.py:203-302).

    The reactions and scale_factors attributes of a CrossSectionWeightedSum are Python lists, i.e.
    objects with identity that can be modified in place and shared.  This model keeps them in a heap.
    Numbers and ConstantCrossSection / other CrossSection objects are values here (user code that
    modifies attributes of such objects is not modelled). *)
From Coq Require Import Reals List ZArith.
From Coquelicot Require Import Rbar.
From Verif Require Import Py M_Num M_Grid M_CrossSection.
Import ListNotations.
Open Scope R_scope.

(** References to operands: a number, a cross section, a constant one, or a weighted sum object. *)
Inductive ref :=
  | RNum (r : R)
  | RLeaf (c : leaf)
  | RConst (r : R)
  | RSum (o : nat).

(** A weighted sum object: addresses of its two list objects. *)
Record sum_obj := { o_reactions : nat; o_factors : nat }.

(** Objects are addressed by their position; new ones are appended. *)
Record heap := {
  h_reactions : list (list ref);      (* list objects holding cross sections *)
  h_factors : list (list R);          (* list objects holding numbers *)
  h_sums : list sum_obj
}.

Definition empty_heap : heap := {| h_reactions := []; h_factors := []; h_sums := [] |}.

Definition reactions_at (h : heap) (a : nat) : list ref := nth a (h_reactions h) [].
Definition factors_at (h : heap) (a : nat) : list R := nth a (h_factors h) [].
Definition sum_at (h : heap) (o : nat) : sum_obj := nth o (h_sums h) {| o_reactions := 0; o_factors := 0 |}.

(** The lists of a weighted sum object. *)
Definition reactions_of (h : heap) (o : nat) : list ref := reactions_at h (o_reactions (sum_at h o)).
Definition factors_of (h : heap) (o : nat) : list R := factors_at h (o_factors (sum_at h o)).

(** Calling an object (cross_section.py:304-323); [fuel] is the recursion limit of the interpreter. *)
Fixpoint hcall (fuel : nat) (h : heap) (r : ref) (E : R) : out R :=
  match fuel with
  | O => Raise RecursionError
  | S fuel =>
      match r with
      | RNum _ => Raise TypeError
      | RLeaf c => l_call c E
      | RConst c => Ok c
      | RSum o =>
          (fix loop (rs : list ref) (i : nat) (acc : out R) : out R :=
             match rs with
             | [] => acc
             | r :: rs' =>
                 loop rs' (S i)
                   (match acc with
                    | Raise e => Raise e
                    | _ => match get (factors_of h o) i with
                           | Ok s => oadd acc (oscale s (hcall fuel h r E))
                           | NaN => NaN
                           | Raise e => Raise e
                           end
                    end)
             end) (reactions_of h o) 0%nat (Ok 0)
      end
  end.

(** A new weighted sum object with two newly created list objects. *)
Definition alloc (h : heap) (rs : list ref) (ss : list R) : heap * nat :=
  ({| h_reactions := h_reactions h ++ [rs];
      h_factors := h_factors h ++ [ss];
      h_sums := h_sums h ++ [{| o_reactions := length (h_reactions h); o_factors := length (h_factors h) |}] |},
   length (h_sums h)).

(** The loop copying factors (cross_section.py:250-254, 263-265, 290-294). *)
Definition hcopy (f : R -> R) (rs : list ref) (ss : list R) : out (list R) :=
  traverse (fun ir => let! s := get ss (fst ir) in Ok (f s)) (enumerate rs).

(** CrossSection.__add__ (cross_section.py:79-86): the new object refers to [other] itself. *)
Definition hcs_add (h : heap) (self other : ref) : out (heap * nat) :=
  match other with
  | RNum r => Ok (alloc h [self; RConst r] [1; 1])
  | _ => Ok (alloc h [self; other] [1; 1])
  end.

(** CrossSectionWeightedSum.__add__ (cross_section.py:228-267): lists are copied. *)
Definition hws_add (h : heap) (o : nat) (other : ref) : out (heap * nat) :=
  let rs := reactions_of h o in
  let! ss := hcopy (fun s => s) rs (factors_of h o) in
  match other with
  | RNum r => Ok (alloc h (rs ++ [RConst r]) (ss ++ [1]))
  | RLeaf _ | RConst _ => Ok (alloc h (rs ++ [other]) (ss ++ [1]))
  | RSum o' =>
      let rs' := reactions_of h o' in
      let! ss' := hcopy (fun s => s) rs' (factors_of h o') in
      Ok (alloc h (rs ++ rs') (ss ++ ss'))
  end.

(** [a + b], at least one operand not a number. *)
Definition hadd (h : heap) (a b : ref) : out (heap * nat) :=
  match a with
  | RNum r => match b with
              | RNum _ => Raise TypeError              (* plain number arithmetic: not modelled here *)
              | RLeaf _ | RConst _ => hcs_add h b a
              | RSum o => hws_add h o a
              end
  | RLeaf _ | RConst _ => hcs_add h a b
  | RSum o => hws_add h o b
  end.

(** [a * c] (cross_section.py:95-102, 276-295). *)
Definition hmul (h : heap) (a : ref) (c : R) : out (heap * nat) :=
  match a with
  | RNum _ => Raise TypeError                          (* plain number arithmetic *)
  | RLeaf _ | RConst _ => Ok (alloc h [a] [c])
  | RSum o => let rs := reactions_of h o in
              let! ss := hcopy (fun s => c * s) rs (factors_of h o) in
              Ok (alloc h rs ss)
  end.

Definition set_nth {A} (l : list A) (i : nat) (x : A) : list A :=
  firstn i l ++ match skipn i l with [] => [] | _ :: r => x :: r end.

(** Steps of user code.  In-place modifications of a list ([append], [l[i] = x], [clear], ...) replace
    its contents by any other contents; [SNew] passes fresh lists to the constructor, [SNewShared]
    the lists of existing objects (cross_section.py:215-226 stores the lists it is given). *)
Inductive step :=
  | SNew (rs : list ref) (ss : list R)
  | SNewShared (o_r o_s : nat)
  | SAdd (a b : ref)
  | SMul (a : ref) (c : R)
  | SModifyReactions (o : nat) (rs : list ref)         (* object o: o.reactions[:] = rs *)
  | SModifyFactors (o : nat) (ss : list R)             (* o.scale_factors[:] = ss *)
  | SRebindReactions (o o' : nat)                      (* o.reactions = o'.reactions *)
  | SRebindFactors (o o' : nat).                       (* o.scale_factors = o'.scale_factors *)

Definition exec (h : heap) (s : step) : heap :=
  match s with
  | SNew rs ss => fst (alloc h rs ss)
  | SNewShared o_r o_s =>
      match reactions_of h o_r with
      | [] =>                       (* [reactions or []] (line 223): an empty list is not shared *)
          {| h_reactions := h_reactions h ++ [[]]; h_factors := h_factors h;
             h_sums := h_sums h ++ [{| o_reactions := length (h_reactions h);
                                       o_factors := o_factors (sum_at h o_s) |}] |}
      | _ :: _ =>
          {| h_reactions := h_reactions h; h_factors := h_factors h;
             h_sums := h_sums h ++ [{| o_reactions := o_reactions (sum_at h o_r);
                                       o_factors := o_factors (sum_at h o_s) |}] |}
      end
  | SAdd a b => match hadd h a b with Ok (h', _) => h' | _ => h end
  | SMul a c => match hmul h a c with Ok (h', _) => h' | _ => h end
  | SModifyReactions o rs =>
      {| h_reactions := set_nth (h_reactions h) (o_reactions (sum_at h o)) rs;
         h_factors := h_factors h; h_sums := h_sums h |}
  | SModifyFactors o ss =>
      {| h_reactions := h_reactions h;
         h_factors := set_nth (h_factors h) (o_factors (sum_at h o)) ss; h_sums := h_sums h |}
  | SRebindReactions o o' =>
      {| h_reactions := h_reactions h; h_factors := h_factors h;
         h_sums := set_nth (h_sums h) o {| o_reactions := o_reactions (sum_at h o');
                                           o_factors := o_factors (sum_at h o) |} |}
  | SRebindFactors o o' =>
      {| h_reactions := h_reactions h; h_factors := h_factors h;
         h_sums := set_nth (h_sums h) o {| o_reactions := o_reactions (sum_at h o);
                                           o_factors := o_factors (sum_at h o') |} |}
  end.
Definition execs (h : heap) (l : list step) : heap := fold_left exec l h.

(** References that exist in a heap; steps that only use existing objects. *)
Definition ref_ok (h : heap) (r : ref) : Prop :=
  match r with RSum o => (o < length (h_sums h))%nat | _ => True end.
Definition step_ok (h : heap) (s : step) : Prop :=
  match s with
  | SNew rs _ => Forall (ref_ok h) rs
  | SNewShared a b => (a < length (h_sums h) /\ b < length (h_sums h))%nat
  | SAdd a b => ref_ok h a /\ ref_ok h b
  | SMul a _ => ref_ok h a
  | SModifyReactions o rs => (o < length (h_sums h))%nat /\ Forall (ref_ok h) rs
  | SModifyFactors o _ => (o < length (h_sums h))%nat
  | SRebindReactions a b | SRebindFactors a b => (a < length (h_sums h) /\ b < length (h_sums h))%nat
  end.
Fixpoint steps_ok (h : heap) (l : list step) : Prop :=
  match l with [] => True | s :: r => step_ok h s /\ steps_ok (exec h s) r end.

(** The step neither modifies the lists of object [o] through [o] nor hands them to another object.
    (Reading [o], adding it to something, scaling it is allowed.) *)
Definition spares (o : nat) (s : step) : Prop :=
  match s with
  | SModifyReactions o' _ | SModifyFactors o' _ => o' <> o
  | SNewShared a b | SRebindReactions a b | SRebindFactors a b => a <> o /\ b <> o
  | _ => True
  end.
(** A plain cross section, not a weighted sum. *)
Definition plain (r : ref) : Prop := match r with RSum _ => False | _ => True end.
