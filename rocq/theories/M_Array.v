(** Arrays of any dimension, lists and Python floats as arguments of Klein-Nishina cross sections, see [M_Ieee3]. *)
From Coq Require Import List ZArith Bool Arith.
From Flocq Require Import Core BinarySingleNaN.
From Verif Require Import Py M_Num M_Ieee M_Ieee2 M_Ieee3.
Import ListNotations.
Open Scope py_scope.

(** *** numpy arrays *)
(** An array of binary64 numbers: the sizes of its dimensions, from the last to the first, and its elements by their
    indices, in the same order.  A numpy float is an array without dimensions.  Simplification: all numbers are binary64,
    also those of lists and of integer arrays. *)
Record nd := { nd_shape : list nat; nd_at : list nat -> b64 }.
Definition nd0 (b : b64) : nd := {| nd_shape := []; nd_at := fun _ => b |}.

(** Broadcasting: dimensions are aligned at the last one, sizes 1 are stretched. *)
Definition join_size (d e : nat) : option nat :=
  if d =? 1 then Some e else if e =? 1 then Some d else if d =? e then Some d else None.
Fixpoint join_shape (s t : list nat) : option (list nat) :=
  match s, t with
  | [], _ => Some t
  | _, [] => Some s
  | d :: s, e :: t => match join_size d e, join_shape s t with Some n, Some u => Some (n :: u) | _, _ => None end
  end.
Fixpoint stretch (s i : list nat) : list nat :=
  match s, i with d :: s, k :: i => (if d =? 1 then 0%nat else k) :: stretch s i | _, _ => [] end.

Definition nd_map (f : b64 -> b64) (a : nd) : nd := {| nd_shape := nd_shape a; nd_at := fun i => f (nd_at a i) |}.
Definition nd_map2 (f : b64 -> b64 -> b64) (a b : nd) : out nd :=
  match join_shape (nd_shape a) (nd_shape b) with
  | Some s => Ok {| nd_shape := s; nd_at := fun i => f (nd_at a (stretch (nd_shape a) i)) (nd_at b (stretch (nd_shape b) i)) |}
  | None => Raise ValueError
  end.

(** *** Python objects *)
(** A float, an array, or a (nested, rectangular) list or tuple, given by the array that numpy makes of it. *)
Inductive arg := Float (b : b64) | Nd (a : nd) | Seq (a : nd).
Definition asarray (x : arg) : nd := match x with Float b => nd0 b | Nd a | Seq a => a end.

(** Binary operators: floats with the operation [f] of Python; with at least one array, the operation [g] of numpy for all
    elements; lists cannot be combined with floats or lists (no operator here is [+] of two lists or [*] of a list and an
    integer or a numpy float). *)
Definition operator (f : b64 -> b64 -> out b64) (g : b64 -> b64 -> b64) (x y : out arg) : out arg :=
  let! x := x in
  let! y := y in
  match x, y with
  | Float a, Float b => let! c := f a b in Ok (Float c)
  | Nd _, _ | _, Nd _ => let! c := nd_map2 g (asarray x) (asarray y) in Ok (Nd c)
  | _, _ => Raise TypeError
  end.
Definition plus := operator (fun a b => Ok (badd a b)) badd.
Definition minus := operator (fun a b => Ok (bsub a b)) bsub.
Definition times := operator (fun a b => Ok (bmul a b)) bmul.
Definition over := operator (bdivide PythonFloat) bquo.
(** [x ** 2], [x ** -3] with the power [p] of the library. *)
Definition raised (f : b64 -> out b64) (p : b64 -> b64) (x : out arg) : out arg :=
  let! x := x in
  match x with
  | Float b => let! c := f b in Ok (Float c)
  | Nd a => Ok (Nd (nd_map p a))
  | Seq _ => Raise TypeError
  end.
Definition squared (L : klib) := raised (bpower PythonFloat (k_square L)) (k_square L).
Definition cubed_m (L : klib) := raised (bpower_m PythonFloat (k_pow_m3 L)) (k_pow_m3 L).
(** Functions of numpy accept lists and return arrays or numpy floats. *)
Definition ufunc (f : b64 -> b64) (x : out arg) : out arg := let! x := x in Ok (Nd (nd_map f (asarray x))).
Definition float (b : b64) : out arg := Ok (Float b).
Definition int (z : Z) : out arg := Ok (Float (of_Z z)).

(** *** Klein-Nishina cross sections *)
(** klein_nishina.py:301-322 *)
Definition akn_cs_total (L : klib) (c : bkn) (E : arg) : out arg :=
  let! x := over (Ok E) (float (bk_mc2 c)) in
  let x := Ok x in
  times (times (times (float bpi) (float (bk_scale_factor c))) (cubed_m L x))
        (plus (over (times (times (int 2) x)
                           (plus (int 2) (times (times x (plus (int 1) x)) (plus (int 8) x))))
                    (squared L (plus (int 1) (times (int 2) x))))
              (times (minus (times (minus x (int 2)) x) (int 2))
                     (ufunc (k_log L) (plus (int 1) (times (int 2) x))))).

(** klein_nishina.py:177-195 *)
Definition akn_Ep_over_E (L : klib) (me : b64) (E theta : arg) : out arg :=
  over (int 1) (plus (int 1) (times (over (Ok E) (float me)) (minus (int 1) (ufunc (k_cos L) (Ok theta))))).

(** klein_nishina.py:136-156 *)
Definition akn_compton_edge (L : klib) (me : b64) (E : arg) : out arg :=
  times (akn_Ep_over_E L me E (Float bpi)) (Ok E).

(** klein_nishina.py:158-175 *)
Definition akn_theta (L : klib) (me : b64) (E Ep : arg) : out arg :=
  ufunc (k_acos L) (minus (int 1) (over (times (minus (over (Ok E) (Ok Ep)) (int 1)) (float me)) (Ok E))).

(** klein_nishina.py:197-221 *)
Definition akn_cs_diff_dOmega (L : klib) (me : b64) (c : bkn) (E theta phi : arg) : out arg :=
  let! r := akn_Ep_over_E L me E theta in
  let r := Ok r in
  times (times (times (times (float (literal 1 2)) (float (bk_scale_factor c))) r) r)
        (minus (plus r (over (int 1) r))
               (times (times (int 2) (squared L (ufunc (k_sin L) (Ok theta)))) (squared L (ufunc (k_cos L) (Ok phi))))).

(** klein_nishina.py:223-247 *)
Definition akn_cs_diff_dOmega_unpolarized (L : klib) (me : b64) (c : bkn) (E theta : arg) : out arg :=
  let! r := akn_Ep_over_E L me E theta in
  let r := Ok r in
  times (times (times (times (float bpi) (float (bk_scale_factor c))) r) r)
        (minus (plus r (over (int 1) r)) (squared L (ufunc (k_sin L) (Ok theta)))).

(** klein_nishina.py:249-266 *)
Definition akn_cs_diff_dEp_dphi (L : klib) (me : b64) (c : bkn) (E Ep phi : arg) : out arg :=
  over (times (let! a := akn_theta L me E Ep in akn_cs_diff_dOmega L me c E a phi) (float me)) (times (Ok Ep) (Ok Ep)).

(** klein_nishina.py:268-284 *)
Definition akn_cs_diff_dEp (L : klib) (me : b64) (c : bkn) (E Ep : arg) : out arg :=
  over (times (let! a := akn_theta L me E Ep in akn_cs_diff_dOmega_unpolarized L me c E a) (float me)) (times (Ok Ep) (Ok Ep)).

(** klein_nishina.py:286-299 *)
Definition akn_cs_diff_dtheta (L : klib) (me : b64) (c : bkn) (E theta : arg) : out arg :=
  times (akn_cs_diff_dOmega_unpolarized L me c E theta) (ufunc (k_sin L) (Ok theta)).
