(** Witness programs. *)
From Coq Require Import Reals List String ZArith Lra Lia Permutation.
From Verif Require Import Py Spec M_Num M_Constituents M_Resonance M_Objects S_Objects L_Constituents L_Objects L_Objects2 L_Objects3.
Import ListNotations.
Open Scope R_scope.
Open Scope string_scope.

(** d = {"0^+": 1}; s = State("2^+", 4, 1, 1000, d); d["0^+"] = 2 *)
Definition prog_width : list stmt := [SDict [("0^+", 1)]; SState "2^+" 4 1 1000 0; SSet 0 "0^+" 2].
(** i = Isotope("12C", 12); e = Element(6, "C", {"12C": i}, {"12C": 1}); i.amu = 13 *)
Definition prog_mass : list stmt :=
  [SIsotope "12C" 12 None None; SIsoDict [("12C", 0%nat)]; SDict [("12C", 1)]; SElement 6 "C" 0 0 None; SAmu 0 13].
(** l = []; i = Isotope("12C", 12, None, l); s = GroundState("0^+", 0, 1); l.append(s) *)
Definition prog_empty : list stmt := [SList []; SIsotope "12C" 12 None (Some 0%nat); SGround "0^+" 0 1; SAppend 0 0].
(** s = GroundState("0^+", 0, 1); l = [s]; i = Isotope("12C", 12, None, l); l.append(s) *)
Definition prog_full : list stmt := [SGround "0^+" 0 1; SList [0%nat]; SIsotope "12C" 12 None (Some 0%nat); SAppend 0 0].

Lemma width_witness : exists w st, run_program nothing prog_width = Ok w /\ state_of w 0 = Ok st /\
  partial_widths st = Ok [("0^+", 2)] /\ width st = Ok 1 /\
  get_final_state_branching_ratio st (Some (GroundState "0^+" 0 1)) = Ok 2.
Proof.
  do 2 eexists. split; [reflexivity|]. split; [reflexivity|]. split; [reflexivity|].
  assert (E : forall d : dict R, width {| st_J_pi := "2^+"; st_two_J := 4; st_parity := 1; st_excitation_energy := 1000; st_decays := Some (d, py_sum_R [1]) |} = Ok 1).
  { intros d. unfold width. cbn [st_decays]. f_equal. unfold py_sum_R. cbn [fold_left]. ring. }
  split; [apply E|].
  unfold get_final_state_branching_ratio. rewrite E. cbn. unfold fdiv. destruct (Req_EM_T 1 0); [lra|]. f_equal. field.
Qed.
Lemma width_refuted : ~ (forall w, reachable_world w -> widths_consistent w).
Proof.
  destruct width_witness as (w & st & H & S & P & Wd & _). intros C.
  unfold partial_widths, width in *. destruct (st_decays st) as [[d x]|] eqn:D; [|discriminate]. injection P as ->. injection Wd as ->.
  pose proof (C w (ex_intro _ _ H) 0%nat st _ _ S D) as E. cbn in E. lra.
Qed.
Lemma changed_width w a k v w' s st d old x : reachable_world w -> widths_consistent w -> step w (SSet a k v) = Ok w' ->
  state_of w s = Ok st -> widths_ref w s = Some a -> partial_widths st = Ok d -> dget d k = Some old -> v <> old ->
  width st = Ok x ->
  exists st', state_of w' s = Ok st' /\ partial_widths st' = Ok (dset d k v) /\ width st' = Ok x /\ x <> Rsum (dvalues (dset d k v)).
Proof.
  intros Rw C H S Ra Pd Ho N Wd. destruct (set_width _ _ _ _ _ _ _ Rw H S) as (st' & S' & _ & K). destruct (K Ra) as (d' & x' & P1 & W1 & P2 & W2 & _ & _ & _ & _ & Q).
  rewrite Pd in P1. injection P1 as <-. rewrite Wd in W1. injection W1 as <-. exists st'. split; [exact S'|]. split; [exact P2|]. split; [exact W2|].
  assert (E : x = Rsum (dvalues d)).
  { unfold partial_widths, width in *. destruct (st_decays st) as [[d0 x0]|] eqn:D; [|discriminate]. injection Pd as ->. injection Wd as ->. exact (C s st _ _ S D). }
  specialize (Q old Ho E). lra.
Qed.
Lemma widths_never_changed p w : run_program nothing p = Ok w -> Forall (fun s => ~ changes_widths s) p -> widths_consistent w.
Proof. intros H F. exact (widths_stay nothing p w (ex_intro _ [] eq_refl) widths_start F H). Qed.

Lemma mass_witness : exists w el, run_program nothing prog_mass = Ok w /\ element_of w 0 = Ok el /\
  omap iso_mass (dgetE (el_isotopes el) "12C") = Ok 13 /\ el_abundances el = [("12C", 1)] /\ el_amu el = 12.
Proof.
  do 2 eexists. split; [reflexivity|]. split; [reflexivity|]. split; [reflexivity|]. split; [reflexivity|]. cbn. ring.
Qed.
Lemma mass_refuted : ~ (forall w, reachable_world w -> masses_consistent w).
Proof.
  intros C. assert (exists w el, run_program nothing prog_mass = Ok w /\ element_of w 0 = Ok el /\
    el_amu el = 12 /\ exists i, el_isotopes el = [("12C", i)] /\ iso_mass i = 13 /\ el_abundances el = [("12C", 1)]) as (w & el & H & S & M & i & Ei & Em & Ea).
  { do 2 eexists. split; [reflexivity|]. split; [reflexivity|]. split; [cbn; ring|]. eexists. split; [reflexivity|]. split; reflexivity. }
  destruct (C w (ex_intro _ _ H) 0%nat el S) as (ts & F & E). rewrite Ei in F.
  inversion F as [|? t ? l (a & Ga & ->) F']; subst. inversion F'; subst. rewrite Ea in Ga. cbn in Ga. injection Ga as <-. cbn in E. rewrite Em, M in E. lra.
Qed.
Lemma masses_never_changed p w : run_program nothing p = Ok w -> Forall (fun s => ~ changes_masses s) p -> masses_consistent w.
Proof. intros H F. exact (masses_stay nothing p w (ex_intro _ [] eq_refl) masses_start F H). Qed.
(** The isotopes of an element are the isotope objects themselves. *)
Lemma isos_get w d m k i : isos_of w d = Ok m -> dget d k = Some i -> exists x, iso_of w i = Ok x /\ dget m k = Some x.
Proof.
  intros H. apply traverse_F2 in H. induction H as [|[k' j] [k2 x] d m E F IH]; [discriminate|].
  cbn [fst snd] in E. inv_binds. injection E as <- <-. cbn [dget]. destruct (String.eqb k k'); [intros [= <-]; eauto|exact IH].
Qed.
Lemma isotope_ref_inv w e k i : isotope_ref w e k = Some i <->
  exists o d, at_address (w_els w) e = Ok o /\ at_address (w_isodicts w) (eo_isotopes o) = Ok d /\ dget d k = Some i.
Proof.
  unfold isotope_ref, at_address. destruct (nth_error (w_els w) e) as [o|].
  - destruct (nth_error (w_isodicts w) (eo_isotopes o)) as [d|] eqn:E.
    + split; [intros G; exists o, d; rewrite E; auto|intros (o' & d' & [= <-] & E' & G)]. rewrite E in E'. now injection E' as <-.
    + split; [discriminate|intros (o' & d' & [= <-] & E' & G)]. now rewrite E in E'.
  - split; [discriminate|intros (o' & d' & [=] & _)].
Qed.
Lemma element_shares w e el k i : element_of w e = Ok el -> isotope_ref w e k = Some i ->
  exists x, iso_of w i = Ok x /\ dget (el_isotopes el) k = Some x.
Proof.
  intros S G. apply isotope_ref_inv in G. destruct G as (o & d & Eo & Ed & G). destruct (element_of_inv _ _ _ S) as (o' & d' & Eo' & Ed' & Ei & _).
  rewrite Eo in Eo'. injection Eo' as <-. rewrite Ed in Ed'. injection Ed' as <-. eapply isos_get; eassumption.
Qed.
Lemma amu_changed w i v w' e el : reachable_world w -> step w (SAmu i v) = Ok w' -> element_of w e = Ok el ->
  exists el', element_of w' e = Ok el' /\ el_amu el' = el_amu el /\ el_abundances el' = el_abundances el /\
    forall k, isotope_ref w e k = Some i -> exists x', dget (el_isotopes el') k = Some x' /\ iso_mass x' = v.
Proof.
  intros Rw H S.
  assert (Hr : run_program w [SAmu i v] = Ok w') by (cbn [run_program]; rewrite H; reflexivity).
  destruct (mass_frozen _ _ _ _ _ Rw Hr S) as (el' & S' & M & _). exists el'. split; [exact S'|]. split; [exact M|].
  destruct (element_of_inv _ _ _ S) as (o & d & Eo & Ed & Ei & Ea & _). destruct (element_of_inv _ _ _ S') as (o' & d' & Eo' & Ed' & Ei' & Ea' & _).
  cbn [step] in H. inv_binds. injection H as <-. set (w' := with_isos w _) in *.
  change (w_els w') with (w_els w) in Eo'. change (w_dicts w') with (w_dicts w) in Ea'.
  rewrite Eo in Eo'. injection Eo' as <-. rewrite Ea in Ea'. injection Ea' as ->. split; [reflexivity|].
  intros k G. destruct (element_shares w' e el' k i S') as (x' & X' & G'); [exact G|]. exists x'. split; [exact G'|].
  destruct (iso_of_inv _ _ _ X') as (q & l & Eq & _ & Em & _). rewrite Em. unfold w' in Eq. simpl_world.
  rewrite at_update in Eq by (eapply at_lt; eassumption). rewrite Nat.eqb_refl in Eq. injection Eq as <-. reflexivity.
Qed.

Lemma empty_refuted : exists w x, run_program nothing prog_empty = Ok w /\ iso_of w 0 = Ok x /\ iso_excited_states x = [] /\
  at_address (w_lists w) 0 = Ok [0%nat].
Proof. do 2 eexists. repeat (split; [reflexivity|]). reflexivity. Qed.
Lemma full_example : exists w x, run_program nothing prog_full = Ok w /\ iso_of w 0 = Ok x /\ List.length (iso_excited_states x) = 2%nat.
Proof. do 2 eexists. repeat (split; [reflexivity|]). reflexivity. Qed.
