(** Specification vocabulary for cross sections as mutable objects (property C04). *)
From Coq Require Import Reals List.
From Verif Require Import Py M_Heap.
Import ListNotations.
Open Scope R_scope.

(** A heap that some program can produce, starting from nothing. *)
Definition reachable (h : heap) : Prop := exists l, steps_ok empty_heap l /\ h = execs empty_heap l.

(** Does the sum of [a] and [b] copy the lists of its operands (rather than refer to a sum)? *)
Definition copying (a b : ref) : Prop :=
  match a with RLeaf _ | RConst _ => plain b | RNum _ | RSum _ => True end.


(** [r] is a sum of plain cross sections (or no sum at all). *)
Definition flat (h : heap) (r : ref) : Prop :=
  match r with RSum q => Forall plain (reactions_of h q) | _ => True end.

(** No recursion deeper than [n]. *)
Fixpoint depth_le (n : nat) (h : heap) (r : ref) : Prop :=
  match n with
  | O => False
  | S n => match r with RSum o => Forall (depth_le n h) (reactions_of h o) | _ => True end
  end.
(** The value of an operand: a number counts as itself. *)
Definition hat (n : nat) (h : heap) (r : ref) (E : R) : out R :=
  match r with RNum c => Ok c | _ => hcall n h r E end.

