(** Vocabulary of the property statements, independent of the model. *)
From Coq Require Import Reals List Sorted.
From Coquelicot Require Import Coquelicot.
Import ListNotations.
Open Scope R_scope.

(** Sum of a list of numbers. *)
Definition Rsum (l : list R) : R := fold_right Rplus 0 l.

(** The consecutive pairs (x_0,x_1), (x_1,x_2), ... of a list. *)
Definition cells {A} (x : list A) : list (A * A) := combine x (tl x).

(** Ascending and strictly ascending lists. *)
Definition ascending (x : list R) : Prop := StronglySorted Rle x.
Definition strictly_ascending (x : list R) : Prop := StronglySorted Rlt x.
Definition descending (x : list R) : Prop := StronglySorted Rge x.

(** First and last element of a list that is known to be nonempty. *)
Definition first (x : list R) : R := hd 0 x.
Definition final (x : list R) : R := last x 0.

(** Monotone (in either direction) on the closed interval [a,b]. *)
Definition monotone_on (f : R -> R) (a b : R) : Prop :=
  (forall s t, a <= s -> s <= t -> t <= b -> f s <= f t) \/
  (forall s t, a <= s -> s <= t -> t <= b -> f t <= f s).

(** [m] is the infimum / supremum of [f] on [a,b]. *)
Definition is_inf_on (f : R -> R) (a b m : R) : Prop :=
  (forall t, a <= t <= b -> m <= f t) /\
  (forall m', (forall t, a <= t <= b -> m' <= f t) -> m' <= m).
Definition is_sup_on (f : R -> R) (a b m : R) : Prop :=
  (forall t, a <= t <= b -> f t <= m) /\
  (forall m', (forall t, a <= t <= b -> f t <= m') -> m <= m').

(** A function defined on the whole axis has the improper integral [I]. *)
Definition integral_over_axis (f : R -> R) (I : R) : Prop :=
  filterlim (fun ab => RInt f (fst ab) (snd ab))
            (filter_prod (Rbar_locally m_infty) (Rbar_locally p_infty)) (locally I) /\
  forall a b, ex_RInt f a b.
