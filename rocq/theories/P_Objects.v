(** Properties C69, C70, C71: what happens to states, isotopes and elements when the dictionaries, lists
    and objects they were created from are modified. *)
From Coq Require Import Reals List String ZArith Permutation Lra.
From Verif Require Import Py Spec M_Num M_Constituents M_Resonance M_Objects S_Objects L_Objects2 L_Objects3 L_Objects4.
Import ListNotations.
Open Scope R_scope.
Open Scope string_scope.

(** *** C69: width of a state *)
(** A new state refers to the dictionary, and its width is the sum of the partial widths. *)
Theorem C69_created : forall w J two_J p E a w',
  reachable_world w -> step w (SState J two_J p E a) = Ok w' ->
  exists st d, at_address (w_dicts w) a = Ok d /\ state_of w' (List.length (w_states w)) = Ok st /\
    partial_widths st = Ok d /\ width st = Ok (Rsum (dvalues d)).
Proof. exact width_created. Qed.

(** Programs that do not modify a dictionary and do not assign to [partial_widths] keep all widths right. *)
Theorem C69_consistent : forall w p w',
  reachable_world w -> widths_consistent w -> Forall (fun s => ~ changes_widths s) p ->
  run_program w p = Ok w' -> widths_consistent w'.
Proof. exact widths_stay. Qed.
Theorem C69_never_changed : forall p w,
  run_program nothing p = Ok w -> Forall (fun s => ~ changes_widths s) p -> widths_consistent w.
Proof. exact widths_never_changed. Qed.

(** No program changes the width (or J_pi, two_J, parity) of an existing state. *)
Theorem C69_frozen : forall w p w' s st,
  reachable_world w -> run_program w p = Ok w' -> state_of w s = Ok st ->
  exists st', state_of w' s = Ok st' /\ width st' = width st /\
    st_J_pi st' = st_J_pi st /\ st_two_J st' = st_two_J st /\ st_parity st' = st_parity st.
Proof. exact width_frozen. Qed.

(** [d[k] = v] is seen by all states that were created with d, and by no others. *)
Theorem C69_shared : forall w a k v w' s st,
  reachable_world w -> step w (SSet a k v) = Ok w' -> state_of w s = Ok st ->
  exists st', state_of w' s = Ok st' /\
    (widths_ref w s <> Some a -> st' = st) /\
    (widths_ref w s = Some a -> exists d x, partial_widths st = Ok d /\ width st = Ok x /\
       partial_widths st' = Ok (dset d k v) /\ width st' = Ok x /\
       st_J_pi st' = st_J_pi st /\ st_two_J st' = st_two_J st /\ st_parity st' = st_parity st /\
       st_excitation_energy st' = st_excitation_energy st /\
       (forall old, dget d k = Some old -> x = Rsum (dvalues d) -> Rsum (dvalues (dset d k v)) - x = v - old)).
Proof. exact set_width. Qed.

(** Hence the width is wrong after every real change of a partial width. *)
Theorem C69_stale : forall w a k v w' s st d old x,
  reachable_world w -> widths_consistent w -> step w (SSet a k v) = Ok w' ->
  state_of w s = Ok st -> widths_ref w s = Some a -> partial_widths st = Ok d -> dget d k = Some old -> v <> old ->
  width st = Ok x ->
  exists st', state_of w' s = Ok st' /\ partial_widths st' = Ok (dset d k v) /\ width st' = Ok x /\
    x <> Rsum (dvalues (dset d k v)).
Proof. exact changed_width. Qed.
Theorem C69_width_refuted : ~ (forall w, reachable_world w -> widths_consistent w).
Proof. exact width_refuted. Qed.

(** The branching ratios to the final states then add up to (sum of the partial widths) / width. *)
Theorem C69_branching : forall st d x fs,
  st_decays st = Some (d, x) -> NoDup (dkeys d) -> x <> 0 -> Permutation (map st_J_pi fs) (dkeys d) ->
  exists brs, traverse (fun f => get_final_state_branching_ratio st (Some f)) fs = Ok brs /\ Rsum brs = Rsum (dvalues d) / x.
Proof. exact stale_branching. Qed.

(** d = {"0^+": 1}; s = State("2^+", 4, 1, 1000, d); d["0^+"] = 2: the branching ratio is 2. *)
Example C69_ex : exists w st, run_program nothing prog_width = Ok w /\ state_of w 0 = Ok st /\
  partial_widths st = Ok [("0^+", 2)] /\ width st = Ok 1 /\
  get_final_state_branching_ratio st (Some (GroundState "0^+" 0 1)) = Ok 2.
Proof. exact width_witness. Qed.
Example C69_ex_hyp : exists w st w', run_program nothing [SDict [("0^+", 1)]; SState "2^+" 4 1 1000 0] = Ok w /\
  step w (SSet 0 "0^+" 2) = Ok w' /\ state_of w 0 = Ok st /\ widths_ref w 0 = Some 0%nat /\ partial_widths st = Ok [("0^+", 1)] /\
  widths_consistent w.
Proof.
  do 3 eexists. split; [reflexivity|]. split; [reflexivity|]. split; [reflexivity|]. split; [reflexivity|]. split; [reflexivity|].
  apply (widths_never_changed [SDict [("0^+", 1)]; SState "2^+" 4 1 1000 0]); [reflexivity|]. repeat constructor; auto.
Qed.

(** *** C70: mass of an element *)
Theorem C70_consistent : forall w p w',
  reachable_world w -> masses_consistent w -> Forall (fun s => ~ changes_masses s) p ->
  run_program w p = Ok w' -> masses_consistent w'.
Proof. exact masses_stay. Qed.
Theorem C70_never_changed : forall p w,
  run_program nothing p = Ok w -> Forall (fun s => ~ changes_masses s) p -> masses_consistent w.
Proof. exact masses_never_changed. Qed.
(** No program changes the mass (or Z, X, density) of an existing element. *)
Theorem C70_frozen : forall w p w' e el,
  reachable_world w -> run_program w p = Ok w' -> element_of w e = Ok el ->
  exists el', element_of w' e = Ok el' /\ el_amu el' = el_amu el /\ el_Z el' = el_Z el /\ el_X el' = el_X el /\
    el_density el' = el_density el.
Proof. exact mass_frozen. Qed.
(** The isotopes of an element are the isotope objects themselves, so that [i.amu = v] is seen in
    [e.isotopes], but not in [e.amu]. *)
Theorem C70_shared : forall w e el k i,
  element_of w e = Ok el -> isotope_ref w e k = Some i ->
  exists x, iso_of w i = Ok x /\ dget (el_isotopes el) k = Some x.
Proof. exact element_shares. Qed.
Theorem C70_isotope_mass : forall w i v w' e el,
  reachable_world w -> step w (SAmu i v) = Ok w' -> element_of w e = Ok el ->
  exists el', element_of w' e = Ok el' /\ el_amu el' = el_amu el /\ el_abundances el' = el_abundances el /\
    forall k, isotope_ref w e k = Some i -> exists x', dget (el_isotopes el') k = Some x' /\ iso_mass x' = v.
Proof. exact amu_changed. Qed.
Theorem C70_mass_refuted : ~ (forall w, reachable_world w -> masses_consistent w).
Proof. exact mass_refuted. Qed.
(** i = Isotope("12C", 12); e = Element(6, "C", {"12C": i}, {"12C": 1}); i.amu = 13: e.amu is 12. *)
Example C70_ex : exists w el, run_program nothing prog_mass = Ok w /\ element_of w 0 = Ok el /\
  omap iso_mass (dgetE (el_isotopes el) "12C") = Ok 13 /\ el_abundances el = [("12C", 1)] /\ el_amu el = 12.
Proof. exact mass_witness. Qed.

(** *** C71: excited states of an isotope *)
(** A list with at least one state is used as it is; for None and for an empty list a new list is
    created, which belongs to no other isotope and is not the list that was passed. *)
Theorem C71_new : forall w AX amu g ex w',
  reachable_world w -> step w (SIsotope AX amu g ex) = Ok w' ->
  exists a, excited_ref w' (List.length (w_isos w)) = Some a /\
    (forall b l, ex = Some b -> at_address (w_lists w) b = Ok l -> l <> [] -> a = b) /\
    (ex = None \/ (exists b, ex = Some b /\ at_address (w_lists w) b = Ok []) ->
      at_address (w_lists w') a = Ok [] /\ (forall b l, at_address (w_lists w) b = Ok l -> a <> b) /\
      (forall i, (i < List.length (w_isos w))%nat -> excited_ref w' i <> Some a)).
Proof. exact new_isotope. Qed.
(** The list of an isotope stays the same object. *)
Theorem C71_kept : forall w p w' i a,
  run_program w p = Ok w' -> excited_ref w i = Some a -> excited_ref w' i = Some a.
Proof. exact excited_ref_kept. Qed.
(** A state that is appended to a list is seen by exactly the isotopes with this list. *)
Theorem C71_append : forall w a s w' i x,
  reachable_world w -> step w (SAppend a s) = Ok w' -> iso_of w i = Ok x ->
  exists x' st, iso_of w' i = Ok x' /\ state_of w s = Ok st /\ iso_name x' = iso_name x /\ iso_mass x' = iso_mass x /\
    (excited_ref w i = Some a -> iso_excited_states x' = (iso_excited_states x ++ [st])%list) /\
    (excited_ref w i <> Some a -> x' = x).
Proof. exact append_seen. Qed.
(** An isotope that was created without excited states has none until they are appended to its own list. *)
Theorem C71_default : forall w AX amu g ex w1 p w2 x,
  reachable_world w -> step w (SIsotope AX amu g ex) = Ok w1 ->
  ex = None \/ (exists b, ex = Some b /\ at_address (w_lists w) b = Ok []) ->
  run_program w1 p = Ok w2 ->
  (forall a, excited_ref w1 (List.length (w_isos w)) = Some a -> Forall (fun s => ~ appends_to a s) p) ->
  iso_of w2 (List.length (w_isos w)) = Ok x -> iso_excited_states x = [].
Proof. exact default_not_shared. Qed.
(** l = []; i = Isotope("12C", 12, None, l); l.append(s): the isotope does not have the state,
    although l has it. *)
Theorem C71_empty_refuted : exists w x,
  run_program nothing [SList []; SIsotope "12C" 12 None (Some 0%nat); SGround "0^+" 0 1; SAppend 0 0] = Ok w /\
  iso_of w 0 = Ok x /\ iso_excited_states x = [] /\ at_address (w_lists w) 0 = Ok [0%nat].
Proof. exact empty_refuted. Qed.
(** With a list of one state the appended state is seen. *)
Example C71_ex : exists w x,
  run_program nothing [SGround "0^+" 0 1; SList [0%nat]; SIsotope "12C" 12 None (Some 0%nat); SAppend 0 0] = Ok w /\
  iso_of w 0 = Ok x /\ List.length (iso_excited_states x) = 2%nat.
Proof. exact full_example. Qed.

Print Assumptions C69_created.
Print Assumptions C69_consistent.
Print Assumptions C69_never_changed.
Print Assumptions C69_frozen.
Print Assumptions C69_shared.
Print Assumptions C69_stale.
Print Assumptions C69_width_refuted.
Print Assumptions C69_branching.
Print Assumptions C70_consistent.
Print Assumptions C70_never_changed.
Print Assumptions C70_frozen.
Print Assumptions C70_shared.
Print Assumptions C70_isotope_mass.
Print Assumptions C70_mass_refuted.
Print Assumptions C71_new.
Print Assumptions C71_kept.
Print Assumptions C71_append.
Print Assumptions C71_default.
Print Assumptions C71_empty_refuted.
