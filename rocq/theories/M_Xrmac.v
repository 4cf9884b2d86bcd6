(** ries/nonresonant/xrmac.py: the class XRMAC (the reader of data files is in M_Readers). *)
From Coq Require Import Reals List ZArith.
From Verif Require Import Py M_Num M_Grid M_CrossSection.
Import ListNotations.
Open Scope R_scope.

(** [np.log10] of a positive number, and [10 ** y]. *)
Definition log10 (x : R) : R := ln x / ln 10.
Definition pow10 (y : R) : R := exp (y * ln 10).

(** [np.argsort(x, kind="mergesort")] and [np.take] in [interp1d.__init__]: a stable sort of the
    pairs by their first component. *)
Fixpoint insert_stable (p : R * R) (l : list (R * R)) : list (R * R) :=
  match l with
  | [] => [p]
  | q :: r => if Rle_dec (fst p) (fst q) then p :: l else q :: insert_stable p r
  end.
Definition sort_stable (l : list (R * R)) : list (R * R) := fold_right insert_stable [] l.

(** [np.interp] at an [x] not below the first abscissa: the interval j with x_j <= x < x_{j+1}; an
    abscissa that is hit returns its ordinate, so does the last one beyond the end.  The binary
    search of numpy finds the same (only) j. *)
Fixpoint np_interp (l : list (R * R)) (x : R) : R :=
  match l with
  | [] => 0
  | [(x0, y0)] => y0
  | (x0, y0) :: (((x1, y1) :: _) as r) =>
      if Rlt_dec x x1 then
        if Req_EM_T x x0 then y0 else (y1 - y0) / (x1 - x0) * (x - x0) + y0
      else np_interp r x
  end.

(** An [interp1d] object: sorted abscissae and ordinates, fill values below and above. *)
Record interp1d := { i_points : list (R * R); i_below : R; i_above : R }.

(** [interp1d._evaluate]: interpolate, then overwrite the points out of bounds. *)
Definition interp_eval (o : interp1d) (x : R) : R :=
  if Rlt_dec x (fst (hd (0, 0) (i_points o))) then i_below o
  else if Rlt_dec (fst (last (i_points o) (0, 0))) x then i_above o
  else np_interp (i_points o) x.

Definition is_pos (x : R) : bool := if Rlt_dec 0 x then true else false.

(** xrmac.py:146-170 [interpolate_log_log] for a two-dimensional array with the given rows (further
    columns are ignored).  No rows: [data[:, 0]] raises IndexError for the one-dimensional empty
    array.  [minval] is the smallest number of entries that the installed scipy accepts (2 in
    older, 1 or 0 in newer releases), otherwise ValueError.
    Simplification: logarithms of numbers that are not positive (nan or -inf) are not propagated
    through the interpolation, the result is [NaN] as a whole. *)
Definition interpolate_log_log (minval : nat) (data : list (R * R)) : out interp1d :=
  match data with
  | [] => Raise IndexError
  | d :: _ =>
      if (length data <? minval)%nat then Raise ValueError
      else if forallb (fun p => is_pos (fst p) && is_pos (snd p))%bool data then
        Ok {| i_points := sort_stable (map (fun p => (log10 (fst p), log10 (snd p))) data);
              i_below := log10 (snd d); i_above := log10 (snd (last data (0, 0))) |}
      else NaN
  end.

(** xrmac.py:105-129 [__init__] with an array. *)
Definition XRMAC (minval : nat) (data : list (R * R)) : out interp1d := interpolate_log_log minval data.

(** [np.interp] at nan: nan, except for a single point, where numpy only compares ([x < xp], [x > xp]) and returns the
    ordinate if both comparisons are false. *)
Definition interp_nan (o : interp1d) : out R := match i_points o with [(_, y)] => Ok y | _ => NaN end.

(** xrmac.py:131-144 [__call__].  [np.log10] of zero is -inf, which is below the table, of a
    negative number nan. *)
Definition xrmac_call (o : interp1d) (E : R) : out R :=
  if Rlt_dec E 0 then omap pow10 (interp_nan o)
  else if Req_EM_T E 0 then Ok (pow10 (i_below o))
  else Ok (pow10 (interp_eval o (log10 E))).

(** The object as a cross section (nonresonant.py:29-37). *)
Definition xrmac_leaf (o : interp1d) : leaf :=
  {| l_call := xrmac_call o; l_pgrid := nonresonant_probability_grid |}.
