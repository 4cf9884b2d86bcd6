(** Vocabulary for objects that are called with arrays, lists or floats. *)
From Coq Require Import List Bool Arith ZArith.
From Verif Require Import Py M_CrossSection M_Ieee M_Ieee2 M_Ieee3 M_Array M_Array2 S_Array.
Import ListNotations.

(** The density of a distribution at one number. *)
Definition density (d : distribution) (x : b64) : b64 :=
  match d with
  | Scipy pdf => pdf x
  | Pseudo eta n c => bmix eta (n x) (c x)
  | Semi profile resonance_energy => profile (bsub x resonance_energy)
  end.
(** The same cross section for numbers of the kind [t], see [M_Ieee]. *)
Fixpoint numbers (t : kind) (v : source) : bvalue :=
  match v with
  | Compton L c => BLeaf (bkn_cs_total t L c)
  | Line d E_r Ir => BLeaf (fun x => Ok (bres_call (density d) E_r Ir x true))
  | Table t => BLeaf (fun x => Ok (t_power t (t_interpolate t (t_log10 t x))))
  | Constant r => BConst r
  | Weighted rs ss => BSum (map (numbers t) rs) ss
  end.
(** Only constants. *)
Fixpoint constants_only (v : source) : bool :=
  match v with Constant _ => true | Weighted rs _ => forallb constants_only rs | _ => false end.
(** Some member applies an operator to its argument: a Klein-Nishina cross section or a Voigt line. *)
Fixpoint calculates (v : source) : bool :=
  match v with Compton _ _ | Line (Semi _ _) _ _ => true | Weighted rs _ => existsb calculates rs | _ => false end.
(** All sums have a scale factor for each reaction. *)
Fixpoint weighted (v : source) : bool :=
  match v with Weighted rs ss => (length rs <=? length ss)%nat && forallb weighted rs | _ => true end.

(** A Python float or a numpy float with the value [p], or the same exception. *)
Definition is_number (o : out arg) (p : out b64) : Prop :=
  match o with
  | Ok (Float r) => p = Ok r
  | Ok (Nd a) => nd_shape a = [] /\ p = Ok (nd_at a [])
  | Raise e => p = Raise e
  | _ => False
  end.
(** The function [f] of all elements of an array, or an exception that does not depend on them. *)
Definition elementwise_or_raise (f : b64 -> out b64) (a : nd) (o : out arg) : Prop :=
  (exists e, o = Raise e /\ forall x, f x = Raise e) \/ elementwise (fn1 f) [Nd a] o.
Definition python_float (o : out b64) : out arg := bind o (fun b => Ok (Float b)).
Definition empty (x : arg) : Prop := In 0%nat (shape x).
(** The function [f] of all pairs of elements, the exception of one of them, or no value for arrays that do not fit or
    are empty. *)
Definition vectorized (f : b64 -> b64 -> out b64) (x y : arg) (o : out arg) : Prop :=
  ((empty x \/ empty y \/ clash [shape x; shape y]) /\ o = Raise ValueError) \/
  (~ empty x /\ ~ empty y /\ elementwise (fn2 f) [x; y] o) \/
  (exists u i, broadcast [shape x; shape y] u /\ index_of u i /\ o = bind (f (element x i) (element y i)) (fun b => Ok (Float b)) /\
     forall r, o <> Ok r).
