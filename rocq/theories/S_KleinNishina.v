(** Vocabulary for the properties of the Compton cross section (C42-C49). *)
From Coq Require Import Reals List.
From Coquelicot Require Import Coquelicot.
From Verif Require Import Py.
Open Scope R_scope.

(** [f] returns numbers on [a,b] and has the integral [I] over it. *)
Definition integrates (f : R -> out R) (a b I : R) : Prop :=
  a <= b /\ exists g, (forall x, a <= x <= b -> f x = Ok (g x)) /\ is_RInt g a b I.

(** The same for a function of two arguments, integrated over the second one first. *)
Definition integrates2 (f : R -> R -> out R) (a b c d I : R) : Prop :=
  a <= b /\ exists inner, (forall x, a <= x <= b -> integrates (f x) c d (inner x)) /\ is_RInt inner a b I.
