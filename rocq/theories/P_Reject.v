(** C85-C87: ground states, objects that have no width, abstract cross sections. *)
From Coq Require Import Reals List ZArith String Lra.
From Coquelicot Require Import Rbar.
From Verif Require Import Py Spec M_Num M_Grid M_Constituents M_Thermal M_Dist M_CrossSection M_Resonance M_PseudoVoigt S_Reject
  S_Resonance S_PseudoVoigt L_Resonance6 L_Reject.
Import ListNotations.
Open Scope R_scope.
Open Scope string_scope.

(** ** C85 *)
Theorem C85_ground_state : forall J tJ p, let g := GroundState J tJ p in
  st_J_pi g = J /\ st_two_J g = tJ /\ st_parity g = p /\ st_excitation_energy g = 0 /\
  partial_widths g = Raise AttributeError /\ width g = Raise AttributeError.
Proof. exact ground_attributes. Qed.
(** The resonance energy of an excitation from the ground state is the excitation energy. *)
Theorem C85_excitation : forall k J tJ p m fin r, Resonance k (GroundState J tJ p) m fin NoRecoil = Ok r ->
  r_energy r = st_excitation_energy m.
Proof. exact from_ground. Qed.
(** There is no resonance whose intermediate state is a ground state. *)
Theorem C85_into_ground : forall k i J tJ p fin rec, (0 <= st_two_J i)%Z ->
  let m := GroundState J tJ p in
  (forall r, Resonance k i m fin rec <> Ok r) /\
  (rec (0 - st_excitation_energy i) = Ok (0 - st_excitation_energy i) -> st_excitation_energy i <> 0 ->
   Resonance k i m fin rec = Raise AttributeError).
Proof. exact into_ground. Qed.
Theorem C85_into_ground_classes : forall k i J tJ p fin, (0 <= st_two_J i)%Z -> st_excitation_energy i <> 0 ->
  let m := GroundState J tJ p in
  Resonance k i m fin NoRecoil = Raise AttributeError /\ BreitWigner k i m fin = Raise AttributeError /\
  forall amu T modern, Gauss k i m amu T fin = Raise AttributeError /\
    PseudoVoigt modern k i m amu T fin = Raise AttributeError /\ Voigt modern k i m amu T fin = Raise AttributeError.
Proof. exact into_ground_classes. Qed.
(** The parities of the states make no difference. *)
Theorem C85_parity : forall k i m i' m' fin fin', same_but_parity i i' -> same_but_parity m m' -> same_final fin fin' ->
  (forall rec, alike_out (Resonance k i m fin rec) (Resonance k i' m' fin' rec)) /\
  alike_out (BreitWigner k i m fin) (BreitWigner k i' m' fin') /\
  forall amu T, alike_out (Gauss k i m amu T fin) (Gauss k i' m' amu T fin') /\
    forall modern, alike_out (PseudoVoigt modern k i m amu T fin) (PseudoVoigt modern k i' m' amu T fin') /\
                   alike_out (Voigt modern k i m amu T fin) (Voigt modern k i' m' amu T fin').
Proof. exact parity_irrelevant. Qed.
Theorem C85_isotope : forall (A : Type) AX (amu : A) g l,
  (let i := Isotope AX amu g (Some l) in iso_name i = AX /\ iso_mass i = amu /\ iso_ground_state i = g /\ iso_excited_states i = l) /\
  (let i := Isotope AX amu g None in iso_name i = AX /\ iso_mass i = amu /\ iso_ground_state i = g /\ iso_excited_states i = []).
Proof. exact isotope_attributes. Qed.
Example C85_ex : exists r, Resonance codata ground excited None NoRecoil = Ok r /\ r_energy r = 1.
Proof. destruct res_example as (r & H & E & _). exists r. now split. Qed.
Example C85_ex_parity : same_but_parity (GroundState "0^+" 0 1) (GroundState "0^+" 0 (-1)) /\
  GroundState "0^+" 0 1 <> GroundState "0^+" 0 (-1).
Proof. split; [repeat split|]. intros [=]. Qed.

(** ** C86 *)
(** A state whose widths add up to zero (or less), and a Gaussian without thermal motion, give nan. *)
Theorem C86_breit_wigner : forall k i m fin r w, BreitWigner k i m fin = Ok r -> width m = Ok w -> w <= 0 -> never_a_number r.
Proof. exact no_width. Qed.
Theorem C86_gauss : forall k i m amu fin r, Gauss k i m amu 0 fin = Ok r -> never_a_number r.
Proof. exact no_motion. Qed.
(** A (pseudo-)Voigt profile without any width is not a number from the beginning. *)
Theorem C86_pseudo_voigt : forall modern k i m amu fin w, width m = Ok w -> w = 0 ->
  (forall r, PseudoVoigt modern k i m amu 0 fin <> Ok r) /\ (forall r, Voigt modern k i m amu 0 fin <> Ok r).
Proof. exact no_broadening. Qed.
(** Coverages above 1 (or below -1) give nan; a negative coverage gives the limits in descending order. *)
Theorem C86_coverage : forall r l s c, scipy_model r l s -> 1 < Rabs c ->
  coverage_interval r c = ([], NaN) /\ (forall n, res_energy_grid r (Coverage c) n = ([], NaN)) /\
  (forall n, (1 <= n)%Z -> res_probability_grid r (Coverage c) n = ([], NaN)).
Proof. exact too_much. Qed.
Theorem C86_negative_coverage : forall r l s c ws lo hi, scipy_model r l s -> 0 <= c <= 1 ->
  coverage_interval r c = (ws, Ok (lo, hi)) -> exists ws', coverage_interval r (- c) = (ws', Ok (hi, lo)).
Proof. exact reversed. Qed.
(** The approximation of the outermost quantiles of a pseudo-Voigt distribution with only one width is nan. *)
Theorem C86_outermost : forall k E w amu T p qs, pv_params k E w amu T -> PseudoVoigtDistribution k E w amu T = Ok p -> w = 0 \/ T = 0 ->
  List.Forall (fun q => 0 <= q <= 1) qs -> In 0 qs \/ In 1 qs -> pseudo_voigt_ppf_expression p qs = NaN.
Proof. exact fallback_nan. Qed.
(** [narrow] is like [excited], with a width of zero. *)
Example C86_ex : State "1^-" 2 (-1) 1 [("0^+", 0)] = Ok narrow /\ width narrow = Ok 0 /\
  (exists r, BreitWigner codata ground narrow None = Ok r) /\ exists r, Gauss codata ground excited 12 0 None = Ok r.
Proof. exact narrow_example. Qed.
Example C86_ex_coverage : 1 < Rabs 2 /\ exists r, BreitWigner codata ground excited None = Ok r /\ scipy_model r 1 (1 / 2 * 2).
Proof.
  split; [rewrite Rabs_pos_eq; lra|]. destruct bw_example as (r & H & W & E & _). exists r. split; [exact H|].
  pose proof (proj1 (L_Resonance5.bw_scipy codata ground excited None r 2 H W ltac:(lra))) as S. now rewrite E in S.
Qed.
Example C86_ex_outermost : pv_params codata 1 2 12 0.
Proof. split; [exact codata_ok|]. lra. Qed.

(** ** C87 *)
Theorem C87_call : forall v E, uses_abstract v -> exists e, call v E = Raise e.
Proof. exact abstract_raises. Qed.
Theorem C87_exception : forall E g n v, uses_abstract v -> others_answer E g n v -> call v E = Raise NotImplementedError.
Proof. exact abstract_exact. Qed.
Theorem C87_grid : forall E g n v, uses_abstract v -> others_answer E g n v -> pgrid v g n = Raise NotImplementedError.
Proof. exact grid_abstract. Qed.
Example C87_ex E : let v := VSum [VConst 2; VSum [VLeaf abstract_leaf] [3]] [1; 1] in
  uses_abstract v /\ others_answer E (Limits 0 1) 3 v.
Proof.
  cbn. split.
  - eapply abstract_member; [right; left; reflexivity|]. eapply abstract_member; [left; reflexivity|]. constructor.
  - apply a_sum; [cbn; auto|]. intros r [<-|[<-|[]]]; [eapply a_constant; [reflexivity|discriminate]|].
    apply a_sum; [cbn; auto|]. intros r [<-|[]]. constructor.
Qed.
Print Assumptions C85_ground_state.
Print Assumptions C85_excitation.
Print Assumptions C85_into_ground.
Print Assumptions C85_into_ground_classes.
Print Assumptions C85_parity.
Print Assumptions C85_isotope.
Print Assumptions C86_breit_wigner.
Print Assumptions C86_gauss.
Print Assumptions C86_pseudo_voigt.
Print Assumptions C86_coverage.
Print Assumptions C86_negative_coverage.
Print Assumptions C86_outermost.
Print Assumptions C87_call.
Print Assumptions C87_exception.
Print Assumptions C87_grid.
