(** Arrays, lists and floats as arguments of resonances, tables, sums, Doppler widths and effective temperatures, see
    [M_Array]. *)
From Coq Require Import List ZArith Bool Arith.
From Flocq Require Import Core BinarySingleNaN.
From Verif Require Import Py M_Num M_CrossSection M_Ieee M_Ieee2 M_Ieee3 M_Array.
Import ListNotations.
Open Scope py_scope.

(** *** Objects that can be called with energies *)
(** [pdf]: the distributions of scipy (resonance.py, breit_wigner.py, gauss.py), which convert their argument to an array;
    pseudo_voigt.py:150-173, 188-199, where [eta] is a numpy float; voigt.py:115-128 with [scipy.special.voigt_profile] for
    the parameters of the line. *)
Inductive distribution :=
  | Scipy (pdf : b64 -> b64)
  | Pseudo (eta : b64) (norm_pdf cauchy_pdf : b64 -> b64)
  | Semi (profile : b64 -> b64) (resonance_energy : b64).
Definition apdf (d : distribution) (E : arg) : out arg :=
  match d with
  | Scipy pdf => ufunc pdf (Ok E)
  | Pseudo eta norm_pdf cauchy_pdf =>
      plus (times (minus (int 1) (Ok (Nd (nd0 eta)))) (ufunc norm_pdf (Ok E))) (times (Ok (Nd (nd0 eta))) (ufunc cauchy_pdf (Ok E)))
  | Semi profile resonance_energy => ufunc profile (minus (Ok E) (float resonance_energy))
  end.
(** resonance.py:241-260; the resonance energy and the energy-integrated cross section are Python floats. *)
Definition ares_call (d : distribution) (E_r Ir : b64) (E : arg) (input_is_absolute_energy : bool) : out arg :=
  let! E := if input_is_absolute_energy then Ok E else plus (Ok E) (float E_r) in
  times (float Ir) (apdf d E).

(** breit_wigner.py:85-96 with resonance.py:241-260, see [M_Ieee2.bBreitWigner_call]. *)
Definition aBreitWigner_call (L : blib) (k : bconstants) (initial intermediate : bstate) (final : option bstate)
    (E : arg) (input_is_absolute_energy : bool) : out arg :=
  let! (E_r, Ir) := bResonance L k initial intermediate final in
  let! w := bwidth intermediate in
  ares_call (Scipy (bcauchy_pdf E_r (bmul (literal 1 2) w))) E_r Ir E input_is_absolute_energy.
(** gauss.py:48-74 with resonance.py:241-260, see [M_Ieee2.bGauss_call]. *)
Definition aGauss_call (L : blib) (k : bconstants) (initial intermediate : bstate) (amu effective_temperature : b64)
    (final : option bstate) (E : arg) (input_is_absolute_energy : bool) : out arg :=
  let! (E_r, Ir) := bResonance L k initial intermediate final in
  let! d := bget_doppler_width k amu effective_temperature E_r in
  ares_call (Scipy (bnorm_pdf L E_r (bquo d (bsqrt (of_Z 2))))) E_r Ir E input_is_absolute_energy.
(** pseudo_voigt.py:280-305 with resonance.py:241-260, see [M_Ieee2.bPseudoVoigt_call]. *)
Definition aPseudoVoigt_call (L : blib) (k : bconstants) (initial intermediate : bstate) (amu effective_temperature : b64)
    (final : option bstate) (E : arg) (input_is_absolute_energy : bool) : out arg :=
  let! (E_r, Ir) := bResonance L k initial intermediate final in
  let! w := bwidth intermediate in
  let! p := bPseudoVoigtDistribution L k E_r w amu effective_temperature in
  ares_call (Pseudo (bp_eta p) (bnorm_pdf L (bp_energy p) (bquo (bp_gamma_G p) (bsqrt (of_Z 2))))
                    (bcauchy_pdf (bp_energy p) (bmul (literal 1 2) (bp_gamma_L p)))) E_r Ir E input_is_absolute_energy.

(** Functions of the library for tables: [np.log10], the function that [interp1d] returns (xrmac.py:146-170; it converts
    its argument to an array), [10 ** y] of arrays. *)
Record tlib := { t_log10 : b64 -> b64; t_interpolate : b64 -> b64; t_power : b64 -> b64 }.
(** xrmac.py:131-144 *)
Definition axrmac_call (t : tlib) (E : arg) : out arg := ufunc (t_power t) (ufunc (t_interpolate t) (ufunc (t_log10 t) (Ok E))).

Inductive source :=
  | Compton (L : klib) (c : bkn)
  | Line (d : distribution) (E_r Ir : b64)
  | Table (t : tlib)
  | Constant (r : b64)
  | Weighted (rs : list source) (ss : list b64).

(** [a += b]: floats and numpy floats are replaced by the sum; arrays are changed in place, which needs the shape of [a]
    to be that of the sum. *)
Definition added (x y : arg) : out arg :=
  match x with
  | Nd a =>
      match nd_shape a with
      | [] => plus (Ok x) (Ok y)
      | s => match join_shape s (nd_shape (asarray y)) with
             | Some u => if list_eq_dec Nat.eq_dec u s then let! c := nd_map2 badd a (asarray y) in Ok (Nd c) else Raise ValueError
             | None => Raise ValueError
             end
      end
  | _ => plus (Ok x) (Ok y)
  end.

(** cross_section.py:304-323, 188-193, klein_nishina.py:121-134 *)
Fixpoint acall (v : source) (E : arg) {struct v} : out arg :=
  match v with
  | Compton L c => akn_cs_total L c E
  | Line d E_r Ir => ares_call d E_r Ir E true
  | Table t => axrmac_call t E
  | Constant r => Ok (Float r)
  | Weighted rs ss =>
      (fix loop (rs : list source) (i : nat) (acc : out arg) : out arg :=
         match rs with
         | [] => acc
         | r :: rs' =>
             loop rs' (S i)
               (let! a := acc in let! s := get ss i in let! p := times (float s) (acall r E) in added a p)
         end) rs 0%nat (Ok (Float (of_Z 0)))
  end.

(** *** Doppler widths *)
(** maxwell_boltzmann.py:61-85; the mass and the temperature are Python floats.  [np.sqrt] gives a numpy float, and a list
    cannot be multiplied with one. *)
Definition aget_doppler_width (k : bconstants) (amu effective_temperature : b64) (E : arg) : out arg :=
  let d := bmul amu (b_u_MeV k) in
  if bzero d then Raise ZeroDivisionError else
  let q := bquo (bmul (bmul (bmul (of_Z 2) (b_kB_eV k)) (literal 1 1000000)) effective_temperature) d in
  match E with
  | Seq _ => Raise TypeError
  | _ => times (Ok E) (Ok (Nd (nd0 (bsqrt q))))
  end.
(** maxwell_boltzmann.py:87-116; [bget_effective_temperature] is the same for numbers, [t] their kind. *)
Definition bget_effective_temperature (t : kind) (k : bconstants) (doppler_width amu E : b64) : out b64 :=
  bdivide t (bmul (bmul (bmul doppler_width doppler_width) amu) (b_u_MeV k))
            (bmul (bmul (bmul (bmul E E) (of_Z 2)) (b_kB_eV k)) (literal 1 1000000)).
Definition aget_effective_temperature (k : bconstants) (doppler_width : arg) (amu : b64) (E : arg) : out arg :=
  over (times (times (times (Ok doppler_width) (Ok doppler_width)) (float amu)) (float (b_u_MeV k)))
       (times (times (times (times (Ok E) (Ok E)) (int 2)) (float (b_kB_eV k))) (float (literal 1 1000000))).

(** *** [np.vectorize] *)
(** All indices of an array, the last dimension varies fastest. *)
Fixpoint indices (s : list nat) : list (list nat) :=
  match s with [] => [[]] | d :: s => flat_map (fun i => map (fun k => k :: i) (seq 0 d)) (indices s) end.
Definition number_or_nan (o : out b64) : b64 := match o with Ok b => b | _ => bnan end.
(** The function is called with Python floats, one call after the other; arrays without elements are refused.
    Simplification: without the additional call with the first elements that determines the type of the result. *)
Definition vectorize (f : b64 -> b64 -> out b64) (x y : arg) : out arg :=
  let a := asarray x in
  let b := asarray y in
  if existsb (Nat.eqb 0) (nd_shape a) || existsb (Nat.eqb 0) (nd_shape b) then Raise ValueError else
  match join_shape (nd_shape a) (nd_shape b) with
  | None => Raise ValueError
  | Some u =>
      let g i := f (nd_at a (stretch (nd_shape a) i)) (nd_at b (stretch (nd_shape b) i)) in
      let! _ := traverse g (indices u) in
      Ok (Nd {| nd_shape := u; nd_at := fun i => number_or_nan (g i) |})
  end.
(** debye_model.py:62-87 for Python floats; [cube] is [x ** 3], [quad] the integral as a function of its upper limit. *)
Definition beffective_temperature (cube : b64 -> b64) (quad : b64 -> out b64) (T T_D : b64) : out b64 :=
  let! q := bdivide PythonFloat T T_D in
  let! p := bpower PythonFloat cube q in
  let! l := bdivide PythonFloat T_D T in
  let! i := quad l in
  Ok (bmul (bmul (bmul (of_Z 3) p) T) i).
(** debye_model.py:62-92 *)
Definition aeffective_temperature (cube : b64 -> b64) (quad : b64 -> out b64) : arg -> arg -> out arg :=
  vectorize (beffective_temperature cube quad).
