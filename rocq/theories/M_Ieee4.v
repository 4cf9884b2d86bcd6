(** XRMAC tables with binary64 numbers, infinities and nan, see [M_Ieee], [M_Float7] and [M_Xrmac]. *)
From Coq Require Import Reals List ZArith Bool.
From Flocq Require Import Core BinarySingleNaN.
From Verif Require Import Py M_Ieee.
Import ListNotations.
Open Scope py_scope.

(** [np.log10] and [10 ** y] of numpy floats. *)
Record bllib := { bg_log10 : b64 -> b64; bg_pow10 : b64 -> b64 }.

(** The order in which numpy sorts: nan is larger than all numbers. *)
Definition bless (x y : b64) : bool := if bnanb y then negb (bnanb x) else Bltb x y.
(** [np.argsort(x, kind="mergesort")] and [np.take] in [interp1d.__init__], see [M_Xrmac.sort_stable]. *)
Fixpoint binsert_stable (p : b64 * b64) (l : list (b64 * b64)) : list (b64 * b64) :=
  match l with
  | [] => [p]
  | q :: r => if bless (fst q) (fst p) then q :: binsert_stable p r else p :: l
  end.
Definition bsort_stable (l : list (b64 * b64)) : list (b64 * b64) := fold_right binsert_stable [] l.

(** A segment in [np.interp] (numpy 1.18 or later): if the line through the left point is nan, the one through the right point is
    tried; if this is nan as well and the ordinates are equal, the ordinate is returned. *)
Definition bsegment (x0 y0 x1 y1 x : b64) : b64 :=
  let slope := bquo (bsub y1 y0) (bsub x1 x0) in
  let v := badd (bmul slope (bsub x x0)) y0 in
  if bnanb v then
    let v' := badd (bmul slope (bsub x x1)) y1 in
    if bnanb v' && Beqb y0 y1 then y0 else v'
  else v.
(** [np.interp] at a number that is not below the first abscissa, see [M_Xrmac.np_interp]: the last [j] with [x >= x[j]] (0 if there is
    none); numpy finds the same [j] with a binary search, as an abscissa that is nan comes last and no comparison with it holds. *)
Fixpoint bnp_interp (l : list (b64 * b64)) (x : b64) : b64 :=
  match l with
  | [] => of_Z 0
  | [(x0, y0)] => y0
  | (x0, y0) :: (((x1, y1) :: _) as r) =>
      if Bleb x1 x then bnp_interp r x
      else if Beqb x x0 then y0 else bsegment x0 y0 x1 y1 x
  end.

(** An [interp1d] object, see [M_Xrmac.interp1d]. *)
Record binterp1d := { bi_points : list (b64 * b64); bi_below : b64; bi_above : b64 }.
(** [interp1d._evaluate], see [M_Xrmac.interp_eval]; [np.interp] at nan is nan, except for a single point ([M_Xrmac.interp_nan]). *)
Definition binterp_eval (o : binterp1d) (x : b64) : b64 :=
  if bnanb x then match bi_points o with [(_, y)] => y | _ => x end
  else if Bltb x (fst (hd (of_Z 0, of_Z 0) (bi_points o))) then bi_below o
  else if Bltb (fst (last (bi_points o) (of_Z 0, of_Z 0))) x then bi_above o
  else bnp_interp (bi_points o) x.

(** xrmac.py:146-169, see [M_Xrmac.interpolate_log_log]. *)
Definition binterpolate_log_log (L : bllib) (minval : nat) (data : list (b64 * b64)) : out binterp1d :=
  match data with
  | [] => Raise IndexError
  | d :: _ =>
      if (length data <? minval)%nat then Raise ValueError
      else Ok {| bi_points := bsort_stable (map (fun p => (bg_log10 L (fst p), bg_log10 L (snd p))) data);
                 bi_below := bg_log10 L (snd d); bi_above := bg_log10 L (snd (last data (of_Z 0, of_Z 0))) |}
  end.

(** xrmac.py:131-144 *)
Definition bxrmac_call (L : bllib) (o : binterp1d) (E : b64) : b64 := bg_pow10 L (binterp_eval o (bg_log10 L E)).
