(** IEEE 754 binary64 numbers with infinities and nan (Flocq's [BinarySingleNaN]; the sign bit and the payload
    of a nan are left out, no code in /repo reads them).  The same functions as in [M_Float], [M_Float2],
    [M_Float4] and [M_Float8], where numbers have no upper limit. *)
From Coq Require Import Reals List ZArith String Bool.
From Flocq Require Import Core BinarySingleNaN.
From Verif Require Import Py M_Num M_Constituents M_Grid M_CrossSection M_Float.
Import ListNotations.
Open Scope py_scope.

(** ** Arithmetic: round to nearest, ties to even *)
Definition b64 : Type := binary_float 53 1024.
Global Instance prec_53 : Prec_gt_0 53. Proof. reflexivity. Qed.
Global Instance emax_1024 : Prec_lt_emax 53 1024. Proof. reflexivity. Qed.
Definition badd : b64 -> b64 -> b64 := Bplus mode_NE.
Definition bsub : b64 -> b64 -> b64 := Bminus mode_NE.
Definition bmul : b64 -> b64 -> b64 := Bmult mode_NE.
(** Division of numpy floats, or of Python floats with a divisor other than 0. *)
Definition bquo : b64 -> b64 -> b64 := Bdiv mode_NE.
Definition bsqrt : b64 -> b64 := Bsqrt mode_NE.
Definition bopp : b64 -> b64 := Bopp.
Definition babs : b64 -> b64 := Babs.
Definition bnan : b64 := B754_nan.
(** An integer as a float, and the float nearest to a literal (integers below 2^53 are exact, and division
    rounds correctly). *)
Definition of_Z (z : Z) : b64 := binary_normalize 53 1024 prec_53 emax_1024 mode_NE z 0 false.
Definition literal (n d : Z) : b64 := bquo (of_Z n) (of_Z d).
Definition bzero (x : b64) : bool := match x with B754_zero _ => true | _ => false end.
Definition bnanb (x : b64) : bool := match x with B754_nan => true | _ => false end.

(** ** [np.sum] and cross_section.py:304-323, see [M_Float] *)
Fixpoint bnp_sum_in (t : order) (f : nat -> b64) : b64 :=
  match t with Index i => f i | Plus l r => badd (bnp_sum_in l f) (bnp_sum_in r f) end.
Definition bnp_sum (t : option order) (l : list b64) : b64 :=
  match t with None => of_Z 0 | Some t => bnp_sum_in t (fun i => nth i l (of_Z 0)) end.

(** Cross sections: other objects than sums are functions of the energy. *)
Inductive bvalue :=
  | BLeaf (f : b64 -> out b64)
  | BConst (r : b64)
  | BSum (rs : list bvalue) (ss : list b64)
  | BNum (r : b64).
(** cross_section.py:304-323, see [M_Float.fcall]; a nan is a number here. *)
Fixpoint bcall (v : bvalue) (E : b64) {struct v} : out b64 :=
  match v with
  | BNum _ => Raise TypeError
  | BLeaf f => f E
  | BConst r => Ok r
  | BSum rs ss =>
      (fix loop (rs : list bvalue) (i : nat) (acc : out b64) : out b64 :=
         match rs with
         | [] => acc
         | r :: rs' =>
             loop rs' (S i)
               (let! a := acc in let! s := get ss i in let! x := bcall r E in Ok (badd a (bmul s x)))
         end) rs 0%nat (Ok (of_Z 0))
  end.

(** ** darboux.py:55-82, see [M_Float.fdarboux].  [np.min] and [np.max] of two numbers: nan if one of them is. *)
Definition bmin (x y : b64) : b64 := if bnanb x then x else if bnanb y then y else if Bleb x y then x else y.
Definition bmax (x y : b64) : b64 := if bnanb x then x else if bnanb y then y else if Bleb x y then y else x.
(** [np.roll(x, 1)], see [M_Darboux.roll1]. *)
Definition broll1 (x : list b64) : list b64 :=
  match x with [] => [] | _ => last x (of_Z 0) :: removelast x end.
Definition bdifferences (x : list b64) : list b64 := tl (map2 bsub x (broll1 x)).
Definition bdarboux (t : option order) (fx x : list b64) : b64 * b64 :=
  let dx := bdifferences x in
  let lower_sum := bnp_sum t (map2 bmul (map2 bmin (removelast fx) (tl fx)) dx) in
  let upper_sum := bnp_sum t (map2 bmul (map2 bmax (removelast fx) (tl fx)) dx) in
  (lower_sum, babs (bsub upper_sum lower_sum)).

(** ** numpy.linspace, see [M_Float.flinspace] *)
Definition blinspace_point (a b : b64) (n : Z) (i : nat) : b64 :=
  let delta := bsub b a in
  let div := of_Z (n - 1) in
  let step := bquo delta div in
  badd (if bzero step then bmul (bquo (of_Z (Z.of_nat i)) div) delta else bmul (of_Z (Z.of_nat i)) step) a.
Definition blinspace (a b : b64) (n : Z) : out (list b64) :=
  if (n <? 0)%Z then Raise ValueError
  else if (n =? 0)%Z then Ok []
  else if (n =? 1)%Z then Ok [a]
  else set_last (map (blinspace_point a b n) (seq 0 (Z.to_nat n))) b.
