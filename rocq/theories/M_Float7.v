(** XRMAC tables with binary64 arithmetic, see [M_Float] and [M_Xrmac]. *)
From Coq Require Import Reals List ZArith.
From Verif Require Import Py M_Num M_Grid M_CrossSection M_Xrmac M_Float.
Import ListNotations.
Open Scope R_scope.
Open Scope py_scope.

(** [np.log10] of a positive number, and [10 ** y] for an array [y] (the result of [interp1d] is an array). *)
Record llib := { g_log10 : R -> R; g_pow10 : R -> R }.

(** [np.interp], see [M_Xrmac.np_interp]:
    [slope = (dy[j+1] - dy[j]) / (dx[j+1] - dx[j]); slope * (x - dx[j]) + dy[j]]. *)
Fixpoint fnp_interp (l : list (R * R)) (x : R) : R :=
  match l with
  | [] => 0
  | [(x0, y0)] => y0
  | (x0, y0) :: (((x1, y1) :: _) as r) =>
      if Rlt_dec x x1 then
        if Req_EM_T x x0 then y0 else fadd (fmul (fquo (fsub y1 y0) (fsub x1 x0)) (fsub x x0)) y0
      else fnp_interp r x
  end.

(** [interp1d._evaluate], see [M_Xrmac.interp_eval]. *)
Definition finterp_eval (o : interp1d) (x : R) : R :=
  if Rlt_dec x (fst (hd (0, 0) (i_points o))) then i_below o
  else if Rlt_dec (fst (last (i_points o) (0, 0))) x then i_above o
  else fnp_interp (i_points o) x.

(** xrmac.py:147-169, see [M_Xrmac.interpolate_log_log]. *)
Definition finterpolate_log_log (g : llib) (minval : nat) (data : list (R * R)) : out interp1d :=
  match data with
  | [] => Raise IndexError
  | d :: _ =>
      if (length data <? minval)%nat then Raise ValueError
      else if forallb (fun p => is_pos (fst p) && is_pos (snd p))%bool data then
        Ok {| i_points := sort_stable (map (fun p => (g_log10 g (fst p), g_log10 g (snd p))) data);
              i_below := g_log10 g (snd d); i_above := g_log10 g (snd (last data (0, 0))) |}
      else NaN
  end.

(** xrmac.py:131-144, see [M_Xrmac.xrmac_call]. *)
Definition fxrmac_call (g : llib) (o : interp1d) (E : R) : out R :=
  if Rlt_dec E 0 then omap (g_pow10 g) (interp_nan o)
  else if Req_EM_T E 0 then Ok (g_pow10 g (i_below o))
  else Ok (g_pow10 g (finterp_eval o (g_log10 g E))).
