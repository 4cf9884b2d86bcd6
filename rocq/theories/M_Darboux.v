(** ries/integration/darboux.py. *)
From Coq Require Import Reals List ZArith.
From Coquelicot Require Import Rbar.
From Verif Require Import Py Spec M_Num M_Grid M_CrossSection.
Import ListNotations.
Open Scope R_scope.

(** [np.roll(x, 1)]: the last element comes first. *)
Definition roll1 (x : list R) : list R :=
  match x with [] => [] | _ => last x 0 :: removelast x end.

(** Elementwise product of two 1d arrays with numpy broadcasting: equal lengths, or one of them has
    length one. *)
Definition broadcast_mul (a b : list R) : out (list R) :=
  if Nat.eqb (length a) (length b) then Ok (map2 Rmult a b)
  else match a, b with
       | [x], _ => Ok (map (Rmult x) b)
       | _, [y] => Ok (map (fun x => x * y) a)
       | _, _ => Raise ValueError
       end.

(** First argument of darboux: a callable or an array of values. *)
Inductive f_or_values :=
  | Callable (f : list R -> out pyval)
  | Values (l : list R).

(** darboux.py:70 [dx = (x - np.roll(x, 1))[1:]]. *)
Definition differences (x : list R) : list R := tl (map2 Rminus x (roll1 x)).

(** darboux.py:55-82.  A callable that returns a number instead of an array has no [len];
    [np.zeros((2, -1))] raises ValueError. *)
Definition darboux (f_or_fx : f_or_values) (x : list R) : out (R * R) :=
  let dx := differences x in
  let! fx := match f_or_fx with
             | Callable f => let! v := f x in
                             match v with Array l => Ok l | Scalar _ => Raise TypeError end
             | Values l => Ok l
             end in
  match fx with
  | [] => Raise ValueError
  | _ =>
      let lo := removelast fx in                    (* fx[:-1] *)
      let hi := tl fx in                            (* fx[1:] *)
      let! lower := broadcast_mul (map2 Rmin lo hi) dx in
      let! upper := broadcast_mul (map2 Rmax lo hi) dx in
      let lower_sum := Rsum lower in
      let upper_sum := Rsum upper in
      Ok (lower_sum, Rabs (upper_sum - lower_sum))
  end.

(** A real function applied to an array elementwise, as numpy does. *)
Definition vectorized (f : R -> R) : f_or_values := Callable (fun xs => Ok (Array (map f xs))).

(** A cross section passed as callable. *)
Definition of_value (v : value) : f_or_values := Callable (call_arr v).
