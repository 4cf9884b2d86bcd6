(** C23 and C24: states and elements. *)
From Coq Require Import Reals List String ZArith Lra Permutation.
From Verif Require Import Py Spec M_Num M_Constituents M_Resonance L_Constituents.
Import ListNotations.
Open Scope R_scope.
Open Scope string_scope.

(** Every dictionary of partial widths gives a state; its width is the sum of the values. *)
Theorem C23_width_is_sum : forall J two_J parity E (pw : dict R), dict_ok pw ->
  exists s, State J two_J parity E pw = Ok s /\ partial_widths s = Ok pw /\
    width s = Ok (Rsum (dvalues pw)) /\
    st_J_pi s = J /\ st_two_J s = two_J /\ st_parity s = parity /\ st_excitation_energy s = E.
Proof. exact state_total. Qed.

Theorem C23_width_order : forall J two_J parity E (pw pw' : dict R) s s', dict_ok pw ->
  Permutation pw pw' ->
  State J two_J parity E pw = Ok s -> State J two_J parity E pw' = Ok s' -> width s = width s'.
Proof. exact width_order. Qed.

Theorem C23_width_bounds : forall J two_J parity E (pw : dict R) s w, dict_ok pw ->
  Forall (fun g => 0 <= g) (dvalues pw) ->
  State J two_J parity E pw = Ok s -> width s = Ok w ->
  0 <= w /\ forall j g, In (j, g) pw -> g <= w.
Proof. exact width_bounds. Qed.

(** Final states [fs], one for each key of the partial widths: the branching ratios used by the
    resonance classes add up to 1. *)
Theorem C23_branching_ratios : forall J two_J parity E (pw : dict R) s w fs, dict_ok pw ->
  State J two_J parity E pw = Ok s -> width s = Ok w -> w <> 0 ->
  Permutation (map st_J_pi fs) (dkeys pw) ->
  exists brs, traverse (fun f => get_final_state_branching_ratio s (Some f)) fs = Ok brs /\ Rsum brs = 1.
Proof. exact branching_ratios. Qed.

(** The order of the partial widths and negative widths do not matter for the sum; a concrete case. *)
Example C23_ex : exists s, State "1^-" 2 (-1) 6 [("0^+", 2); ("2^+", 3)] = Ok s /\ width s = Ok 5 /\
  dict_ok [("0^+", 2); ("2^+", 3)] /\ Forall (fun g => 0 <= g) (dvalues [("0^+", 2); ("2^+", 3)]) /\
  get_final_state_branching_ratio s (Some (GroundState "2^+" 4 1)) = Ok (3 / 5).
Proof.
  assert (OK : dict_ok [("0^+", 2); ("2^+", 3)]).
  { unfold dict_ok; cbn. constructor; [cbn; intuition congruence|]. constructor; [cbn; tauto|constructor]. }
  destruct (state_total "1^-" 2 (-1) 6 _ OK) as (s & H & P & W & _).
  exists s. split; [exact H|]. assert (W5 : width s = Ok 5) by (rewrite W; f_equal; cbn; lra).
  split; [exact W5|]. split; [exact OK|]. split; [cbn; constructor; [lra|constructor; [lra|constructor]]|].
  eapply branching_ok; [exact P|exact W5|lra|reflexivity].
Qed.

(** [ab] is any function that reproduces the dictionary of abundances. *)
Theorem C24_mass_is_weighted_sum : forall Z X (isotopes : dict (isotope R)) abundances density ab,
  dict_ok isotopes -> dict_ok abundances ->
  (forall k, In k (dkeys isotopes) -> In k (dkeys abundances)) ->
  (forall k a, In (k, a) abundances -> ab k = a) ->
  exists e, Element_R Z X isotopes abundances density = Ok e /\
    el_amu e = Rsum (map (fun ki => iso_mass (snd ki) * ab (fst ki)) isotopes) /\
    el_Z e = Z /\ el_X e = X /\ el_isotopes e = isotopes /\ el_abundances e = abundances /\
    el_density e = density.
Proof. exact element_mass. Qed.

Theorem C24_missing_abundance : forall Z X (isotopes : dict (isotope R)) abundances density,
  dict_ok isotopes -> dict_ok abundances ->
  (Element_R Z X isotopes abundances density = Raise KeyError <->
   exists k, In k (dkeys isotopes) /\ ~ In k (dkeys abundances)).
Proof. exact element_missing. Qed.

Theorem C24_surplus_abundance : forall Z X (isotopes : dict (isotope R)) abundances density k a e,
  ~ In k (dkeys isotopes) -> Element_R Z X isotopes abundances density = Ok e ->
  exists e', Element_R Z X isotopes (abundances ++ [(k, a)])%list density = Ok e' /\ el_amu e' = el_amu e.
Proof. exact element_surplus. Qed.

Theorem C24_mass_between : forall Z X (isotopes : dict (isotope R)) abundances density ab lo hi e,
  dict_ok isotopes -> dict_ok abundances ->
  (forall k, In k (dkeys isotopes) -> In k (dkeys abundances)) ->
  (forall k a, In (k, a) abundances -> ab k = a) ->
  (forall ki, In ki isotopes -> 0 <= ab (fst ki)) ->
  Rsum (map (fun ki => ab (fst ki)) isotopes) = 1 ->
  (forall ki, In ki isotopes -> lo <= iso_mass (snd ki) <= hi) ->
  Element_R Z X isotopes abundances density = Ok e -> lo <= el_amu e <= hi.
Proof. exact element_between. Qed.

Example C24_ex : exists e,
  Element_R 5 "B" [("10B", Isotope "10B" 10 None None); ("11B", Isotope "11B" 11 None None)]
    [("10B", 1 / 5); ("11B", 4 / 5)] None = Ok e /\ el_amu e = 54 / 5.
Proof. eexists; split; [reflexivity|]. cbn. lra. Qed.
Print Assumptions C23_width_is_sum.
Print Assumptions C23_width_order.
Print Assumptions C23_width_bounds.
Print Assumptions C23_branching_ratios.
Print Assumptions C24_mass_is_weighted_sum.
Print Assumptions C24_missing_abundance.
Print Assumptions C24_surplus_abundance.
Print Assumptions C24_mass_between.
