(** Grids: numpy.linspace and numpy.unique as used by the grid methods. *)
From Coq Require Import Reals List ZArith.
From Coquelicot Require Import Rbar.
From Verif Require Import Py M_Num.
Import ListNotations.
Open Scope R_scope.

(** Replace the last element ([y[-1] = v]); the empty list has none. *)
Definition set_last {A} (l : list A) (v : A) : out (list A) :=
  match l with [] => Raise IndexError | _ => Ok (removelast l ++ [v]) end.
(** [y[0] = v]. *)
Definition set_first {A} (l : list A) (v : A) : out (list A) :=
  match l with [] => Raise IndexError | _ :: r => Ok (v :: r) end.

(** [np.linspace(a, b, n)]: step (b-a)/(n-1), the last point is set to [b]. *)
Definition linspace (a b : R) (n : Z) : out (list R) :=
  if (n <? 0)%Z then Raise ValueError
  else if (n =? 0)%Z then Ok []
  else if (n =? 1)%Z then Ok [a]
  else let step := (b - a) / IZR (n - 1) in
       set_last (map (fun i => a + INR i * step) (seq 0 (Z.to_nat n))) b.

(** [np.unique] of a list of energies (possibly infinite): sorted, each value once. *)
Fixpoint insert_unique (x : Rbar) (l : list Rbar) : list Rbar :=
  match l with
  | [] => [x]
  | y :: r => if Rbar_lt_dec x y then x :: l
              else if Rbar_eq_dec x y then l
              else y :: insert_unique x r
  end.
Definition np_unique (l : list Rbar) : list Rbar := fold_right insert_unique [] l.

(** Argument of the grid methods: a coverage (int or float) or a pair of limits. *)
Inductive grid_arg :=
  | Coverage (c : R)
  | Limits (a b : R).

(** cross_section.py:111-132 [CrossSection.equidistant_energy_grid] and
    cross_section.py:325-341 [CrossSectionWeightedSum.equidistant_energy_grid]; a plain number is
    not subscriptable. *)
Definition equidistant_energy_grid (limits : grid_arg) (n : Z) : out (list R) :=
  match limits with
  | Limits a b => linspace a b n
  | Coverage _ => Raise TypeError
  end.

(** Grids of probability methods may contain infinite energies, and a quantile function may return
    [None] (see M_PseudoVoigt). *)
Definition pgrid_result := out (option (list Rbar)).

Definition finite_grid (g : out (list R)) : pgrid_result :=
  omap (fun l => Some (map Finite l)) g.

(** cross_section.py:195-200 [ConstantCrossSection.equidistant_probability_grid]:
    [np.linspace( *limits, n_points)]. *)
Definition constant_probability_grid (limits : grid_arg) (n : Z) : pgrid_result :=
  finite_grid (match limits with
               | Limits a b => linspace a b n
               | Coverage _ => Raise TypeError      (* *float is not iterable *)
               end).

(** nonresonant.py:29-37 [Nonresonant.equidistant_probability_grid]. *)
Definition nonresonant_probability_grid (limits : grid_arg) (n : Z) : pgrid_result :=
  finite_grid (equidistant_energy_grid limits n).
