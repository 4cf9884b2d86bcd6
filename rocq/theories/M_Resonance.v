(** ries/resonance/resonance.py, breit_wigner.py, gauss.py. *)
From Coq Require Import Reals List ZArith String.
From Coquelicot Require Import Coquelicot.
From Verif Require Import Py M_Num M_Grid M_Constituents M_Thermal M_Dist M_CrossSection.
Import ListNotations.
Open Scope R_scope.
Open Scope py_scope.

(** Attributes of a [Resonance] (resonance.py:181-202). *)
Record resonance := {
  r_initial : state;
  r_intermediate : state;
  r_final : option state;
  r_energy : R;
  r_constant : R;
  r_statistical_factor : R;
  r_branching : R;
  r_integrated : R;
  r_dist : distribution;
  r_params : list R
}.

(** resonance.py:389-393 *)
Definition get_statistical_factor (initial intermediate : state) : out R :=
  fdiv (IZR (st_two_J intermediate) + 1) (IZR (st_two_J initial) + 1).

(** resonance.py:377-387 *)
Definition get_final_state_branching_ratio (intermediate : state) (final : option state) : out R :=
  match final with
  | None => Ok 1
  | Some f =>
      let! d := partial_widths intermediate in
      let! g := dgetE d (st_J_pi f) in
      let! w := width intermediate in
      fdiv g w
  end.

(** resonance.py:368-375: the division comes first, then the look-up of the partial width. *)
Definition get_energy_integrated_cross_section (c E_r g br : R) (initial intermediate : state) : out R :=
  let! x := fdiv c (E_r ^ 2) in
  let! d := partial_widths intermediate in
  let! w := dgetE d (st_J_pi initial) in
  Ok (x * g * w * br).

(** resonance.py:205-239 *)
Definition Resonance (k : constants) (initial intermediate : state) (final : option state)
    (recoil_correction : recoil) : out resonance :=
  let! E_r := recoil_correction (st_excitation_energy intermediate - st_excitation_energy initial) in
  let c := (PI * k_hbarc k) ^ 2 in
  let! g := get_statistical_factor initial intermediate in
  let! br := get_final_state_branching_ratio intermediate final in
  let! Ir := get_energy_integrated_cross_section c E_r g br initial intermediate in
  Ok {| r_initial := initial; r_intermediate := intermediate; r_final := final;
        r_energy := E_r; r_constant := c; r_statistical_factor := g; r_branching := br;
        r_integrated := Ir; r_dist := uniform; r_params := [E_r - 1 / 2; 1] |}.

(** Replace distribution and parameters, as the subclasses do. *)
Definition with_dist (r : resonance) (d : distribution) (p : list R) : resonance :=
  {| r_initial := r_initial r; r_intermediate := r_intermediate r; r_final := r_final r;
     r_energy := r_energy r; r_constant := r_constant r; r_statistical_factor := r_statistical_factor r;
     r_branching := r_branching r; r_integrated := r_integrated r; r_dist := d; r_params := p |}.

(** breit_wigner.py:85-96; no recoil correction is passed on. *)
Definition BreitWigner (k : constants) (initial intermediate : state) (final : option state) : out resonance :=
  let! r := Resonance k initial intermediate final NoRecoil in
  let! w := width intermediate in
  Ok (with_dist r cauchy [r_energy r; 1 / 2 * w]).

(** gauss.py:48-74.  A nan Doppler width (negative effective temperature) gives an object all of whose
    values are nan, represented by the outcome [NaN]. *)
Definition Gauss (k : constants) (initial intermediate : state) (amu effective_temperature : R)
    (final : option state) : out resonance :=
  let! r := Resonance k initial intermediate final NoRecoil in
  let! d := get_doppler_width k {| mb_amu := amu; mb_effective_temperature := effective_temperature |}
              (r_energy r) in
  Ok (with_dist r norm [r_energy r; d / sqrt 2]).

(** resonance.py:241-260 *)
Definition res_call (r : resonance) (E : R) (input_is_absolute_energy : bool) : out R :=
  let E := if input_is_absolute_energy then E else E + r_energy r in
  oscale (r_integrated r) (d_pdf (r_dist r) (r_params r) E).

Definition Rbar_is_inf (x : Rbar) : bool :=
  match x with Finite _ => false | _ => true end.
Definition Rbar_negative (x : Rbar) : bool :=
  match x with Finite r => if Rlt_dec r 0 then true else false | p_infty => false | m_infty => true end.

(** resonance.py:262-307: warnings and the pair of limits.  The CDF in the warning (line 298) is called
    without the parameters of the distribution; a [None] result of [ppf] is not subscriptable. *)
Definition coverage_interval (r : resonance) (coverage : R) : list warning * out (Rbar * Rbar) :=
  let (w, res) := d_ppf (r_dist r) (r_params r) [1 / 2 * (1 - coverage); 1 / 2 * (1 + coverage)] in
  match res with
  | Raise e => (w, Raise e)
  | NaN => (w, NaN)
  | Ok None => (w, Raise TypeError)
  | Ok (Some limits) =>
      match limits with
      | lo :: hi :: _ =>
          let rest := (if Rbar_is_inf hi then [InfiniteUpperLimit] else []) in
          if Rbar_negative lo then
            match d_cdf (r_dist r) [] 0 with
            | Ok F0 => ((w ++ NegativeLowerLimit (100 * (1 - F0)) :: rest)%list, Ok (lo, hi))
            | NaN => (w, NaN)                       (* the quoted number is nan: not needed below *)
            | Raise e => (w, Raise e)
            end
          else ((w ++ rest)%list, Ok (lo, hi))
      | _ => (w, Raise IndexError)
      end
  end.

(** resonance.py:309-327.  [np.linspace] of an infinite limit gives nan. *)
Definition res_energy_grid (r : resonance) (arg : grid_arg) (n : Z) : list warning * out (list R) :=
  match arg with
  | Limits a b => ([], linspace a b n)
  | Coverage c =>
      let (w, x) := coverage_interval r c in
      (w, let! (lo, hi) := x in
          match lo, hi with
          | Finite a, Finite b => linspace a b n
          | _, _ => if (n <? 0)%Z then Raise ValueError
                    else if (n =? 0)%Z then Ok [] else NaN
          end)
  end.

(** resonance.py:347-366 if the probabilities at the limits are nan: all points but the first and the last, which are
    overwritten in lines 363-364, are nan. *)
Definition nan_grid (arg : grid_arg) (n : Z) : pgrid_result :=
  match arg with
  | Coverage _ => NaN
  | Limits a b =>
      if (n <? 0)%Z then Raise ValueError
      else if (n =? 0)%Z then Raise IndexError
      else if (n =? 1)%Z then Ok (Some [Finite b])
      else if (n =? 2)%Z then Ok (Some [Finite a; Finite b])
      else NaN
  end.

(** resonance.py:329-366.  [x[0] = v] and [x[-1] = v] are executed in this order; a [None] result of
    [ppf] does not support item assignment. *)
Definition res_probability_grid (r : resonance) (arg : grid_arg) (n : Z) : list warning * pgrid_result :=
  let limits := match arg with
                | Coverage c => Ok (1 / 2 * (1 - c), 1 / 2 * (1 + c))
                | Limits a b => let! p := d_cdf (r_dist r) (r_params r) a in
                                let! q := d_cdf (r_dist r) (r_params r) b in Ok (p, q)
                end in
  match (let! (p, q) := limits in linspace p q n) with
  | Raise e => ([], Raise e)
  | NaN => ([], nan_grid arg n)
  | Ok qs =>
      let (w, res) := d_ppf (r_dist r) (r_params r) qs in
      (w, match arg with
          | Coverage _ => res
          | Limits a b =>
              let! g := res in
              match g with
              | None => Raise TypeError
              | Some l => let! l1 := set_first l (Finite a) in
                          let! l2 := set_last l1 (Finite b) in Ok (Some l2)
              end
          end)
  end.

(** A resonance as a member of a weighted sum (warnings dropped). *)
Definition leaf_of (r : resonance) : leaf :=
  {| l_call := fun E => res_call r E true;
     l_pgrid := fun arg n => snd (res_probability_grid r arg n) |}.
