(** Vocabulary for arrays and broadcasting. *)
From Coq Require Import List Arith ZArith.
From Verif Require Import Py M_Ieee M_Array S_Ieee3.
Import ListNotations.

(** Index [k] of the dimension [n] of a shape (from the last dimension); missing dimensions have the size 1. *)
Definition size (s : list nat) (n : nat) : nat := nth n s 1%nat.
(** The shape of the result of an operation with arrays of the shapes [ss]: every size is 1 or that of the result, and the
    result has no more dimensions than one of them, and no size but theirs. *)
Definition broadcast (ss : list (list nat)) (u : list nat) : Prop :=
  (forall s n, In s ss -> size s n = 1%nat \/ size s n = size u n) /\
  (forall n, size u n = 1%nat \/ exists s, In s ss /\ size s n = size u n) /\
  (forall s, In s ss -> (length s <= length u)%nat) /\
  (u = [] \/ exists s, In s ss /\ length s = length u).
(** Two arrays that do not fit. *)
Definition clash (ss : list (list nat)) : Prop :=
  exists s t n, In s ss /\ In t ss /\ size s n <> 1%nat /\ size t n <> 1%nat /\ size s n <> size t n.

Definition shape (x : arg) : list nat := nd_shape (asarray x).
(** The element of an argument that contributes to the element [i] of the result. *)
Definition element (x : arg) (i : list nat) : b64 :=
  nd_at (asarray x) (map (fun n => if (size (shape x) n =? 1)%nat then 0%nat else nth n i 0%nat) (seq 0 (length (shape x)))).
(** The indices of an array of the shape [s]. *)
Definition index_of (s i : list nat) : Prop := length i = length s /\ forall n, (n < length s)%nat -> (nth n i 0 < size s n)%nat.

(** The function [f] of all elements of the arguments [xs], as an array. *)
Definition elementwise (f : list b64 -> out b64) (xs : list arg) (o : out arg) : Prop :=
  (clash (map shape xs) /\ o = Raise ValueError) \/
  exists a, o = Ok (Nd a) /\ broadcast (map shape xs) (nd_shape a) /\
    forall i, index_of (nd_shape a) i -> f (map (fun x => element x i) xs) = Ok (nd_at a i).

Definition is_array (x : arg) : Prop := exists a, x = Nd a.
Definition is_list (x : arg) : Prop := exists a, x = Seq a.
(** The same for a function of Python floats: an infinity or nan where it raises an exception. *)
Definition elementwise_python (f : list b64 -> out b64) (xs : list arg) (o : out arg) : Prop :=
  (clash (map shape xs) /\ o = Raise ValueError) \/
  exists a, o = Ok (Nd a) /\ broadcast (map shape xs) (nd_shape a) /\
    forall i, index_of (nd_shape a) i -> instead_of_raising (f (map (fun x => element x i) xs)) (Ok (nd_at a i)).
(** Functions of one, two or three numbers. *)
Definition fn1 (f : b64 -> out b64) (es : list b64) : out b64 := match es with [e] => f e | _ => NaN end.
Definition fn2 (f : b64 -> b64 -> out b64) (es : list b64) : out b64 := match es with [e; x] => f e x | _ => NaN end.
Definition fn3 (f : b64 -> b64 -> b64 -> out b64) (es : list b64) : out b64 := match es with [e; x; p] => f e x p | _ => NaN end.
(** Refused because of its type or its shape. *)
Definition refused (o : out arg) : Prop := o = Raise TypeError \/ o = Raise ValueError.
(** The numpy float of a number. *)
Definition numpy_float (o : out b64) : out arg := bind o (fun b => Ok (Nd (nd0 b))).
(** The array of the numbers [l]. *)
Definition vector (l : list b64) : nd := {| nd_shape := [length l]; nd_at := fun i => nth (hd 0%nat i) l (of_Z 0%Z) |}.
(** The array with one column of the numbers [l]. *)
Definition column (l : list b64) : nd := {| nd_shape := [1%nat; length l]; nd_at := fun i => nth (nth 1 i 0%nat) l (of_Z 0%Z) |}.
