(** Masses of elements, lists of excited states. *)
From Coq Require Import Reals List String ZArith Lra Lia Permutation.
From Verif Require Import Py Spec M_Num M_Constituents M_Resonance M_Objects S_Objects L_Constituents L_Objects L_Objects2.
Import ListNotations.
Open Scope R_scope.

(** ** C70 *)
Lemma iso_of_inv w i x : iso_of w i = Ok x -> exists o l, at_address (w_isos w) i = Ok o /\ iso_name x = io_AX o /\ iso_mass x = io_amu o /\
  at_address (w_lists w) (io_excited o) = Ok l /\ traverse (state_of w) l = Ok (iso_excited_states x).
Proof. unfold iso_of. intros H. inv_binds. injection H as <-. exists x0, x2. cbn. auto. Qed.
Lemma element_of_inv w e el : element_of w e = Ok el -> exists o d, at_address (w_els w) e = Ok o /\
  at_address (w_isodicts w) (eo_isotopes o) = Ok d /\ isos_of w d = Ok (el_isotopes el) /\
  at_address (w_dicts w) (eo_abundances o) = Ok (el_abundances el) /\ el_amu el = eo_amu o /\
  el_Z el = eo_Z o /\ el_X el = eo_X o /\ el_density el = eo_density o.
Proof. unfold element_of. intros H. inv_binds. injection H as <-. exists x, x0. cbn. auto 10. Qed.

Lemma mass_frozen w p w' e el : reachable_world w -> run_program w p = Ok w' -> element_of w e = Ok el ->
  exists el', element_of w' e = Ok el' /\ el_amu el' = el_amu el /\ el_Z el' = el_Z el /\ el_X el' = el_X el /\ el_density el' = el_density el.
Proof.
  intros Rw H S. pose proof (wf_reachable _ Rw) as W. pose proof (wf_run p _ _ W H) as W'. pose proof (extends_run p _ _ H) as [_ _ _ X].
  destruct (element_of_inv _ _ _ S) as (o & d & Eo & _ & _ & _ & E1 & E2 & E3 & E4). pose proof (X e o Eo) as Eo'.
  destruct (element_of_ok w' e W' (at_lt _ _ _ Eo')) as [el' S']. exists el'. split; [exact S'|].
  destruct (element_of_inv _ _ _ S') as (o' & d' & Eo2 & _ & _ & _ & F1 & F2 & F3 & F4). rewrite Eo' in Eo2. injection Eo2 as <-.
  repeat split; congruence.
Qed.

(** The terms of the weighted sum, for the objects. *)
Definition terms (isos : list iso_obj) (ab : dict R) (d : dict nat) (ts : list R) : Prop :=
  Forall2 (fun ki t => exists o a, at_address isos (snd ki) = Ok o /\ dget ab (fst ki) = Some a /\ t = io_amu o * a) d ts.
Definition mc (w : world) : Prop := forall e o, at_address (w_els w) e = Ok o -> exists d ab ts,
  at_address (w_isodicts w) (eo_isotopes o) = Ok d /\ at_address (w_dicts w) (eo_abundances o) = Ok ab /\
  terms (w_isos w) ab d ts /\ eo_amu o = Rsum ts.

Lemma F2_imp {A B} (P Q : A -> B -> Prop) l m : (forall x y, P x y -> Q x y) -> Forall2 P l m -> Forall2 Q l m.
Proof. intros H. induction 1; constructor; auto. Qed.
Lemma F2_comp {A B C} (P : A -> B -> Prop) (Q : A -> C -> Prop) (T : B -> C -> Prop) l m n :
  (forall x y z, P x y -> Q x z -> T y z) -> Forall2 P l m -> Forall2 Q l n -> Forall2 T m n.
Proof.
  intros H F. revert n. induction F as [|x y l m Px F IH]; intros n G; inversion G; subst; constructor; eauto.
Qed.
Lemma isos_F2 w d m : isos_of w d = Ok m ->
  Forall2 (fun ki kx => fst kx = fst ki /\ exists o, at_address (w_isos w) (snd ki) = Ok o /\ iso_mass (snd kx) = io_amu o) d m.
Proof.
  intros H. apply traverse_F2 in H. revert H. apply F2_imp. intros [k i] [k' x] E. cbn [fst snd] in *. inv_binds. injection E as <- <-.
  split; [reflexivity|]. destruct (iso_of_inv _ _ _ H) as (o & l & Eo & _ & Em & _). eauto.
Qed.
Lemma F2_flip {A B} (P : A -> B -> Prop) l m : Forall2 P l m -> Forall2 (fun y x => P x y) m l.
Proof. induction 1; constructor; auto. Qed.
Lemma isos_keys w d m : isos_of w d = Ok m -> dkeys m = dkeys d.
Proof. intros H. apply isos_F2 in H. unfold dkeys. induction H as [|x y l l' [E _] F IH]; cbn; congruence. Qed.

Lemma mc_iff w : wf w -> masses_consistent w <-> mc w.
Proof.
  intros W. split.
  - intros H e o Eo. destruct (element_of_ok w e W (at_lt _ _ _ Eo)) as [el S].
    destruct (element_of_inv _ _ _ S) as (o' & d & Eo' & Ed & Ei & Ea & Em & _). rewrite Eo in Eo'. injection Eo' as <-.
    destruct (H e el S) as (ts & F & E). exists d, (el_abundances el), ts. split; [exact Ed|]. split; [exact Ea|]. split; [|congruence].
    apply (F2_comp (fun y x => fst y = fst x /\ exists o, at_address (w_isos w) (snd x) = Ok o /\ iso_mass (snd y) = io_amu o)
      (fun ki t => exists a, dget (el_abundances el) (fst ki) = Some a /\ t = iso_mass (snd ki) * a) _ (el_isotopes el) d ts).
    + intros y x t (Ek & io & E1 & E2) (a & E3 & E4). exists io, a. split; [exact E1|]. rewrite <- Ek, <- E2. auto.
    + apply F2_flip. now apply isos_F2.
    + exact F.
  - intros H e el S. destruct (element_of_inv _ _ _ S) as (o & d & Eo & Ed & Ei & Ea & Em & _).
    destruct (H e o Eo) as (d' & ab & ts & Ed' & Ea' & T & E). rewrite Ed in Ed'. injection Ed' as <-. rewrite Ea in Ea'. injection Ea' as <-.
    exists ts. split; [|congruence].
    apply (F2_comp (fun x y => fst y = fst x /\ exists o, at_address (w_isos w) (snd x) = Ok o /\ iso_mass (snd y) = io_amu o) _ _ d _ _) with (2 := isos_F2 _ _ _ Ei) (3 := T).
    intros x y t (Ek & io & E1 & E2) (io' & a & E3 & E4 & E5). exists a. rewrite Ek. split; [exact E4|]. rewrite E2. congruence.
Qed.

Lemma amu_terms (isos : dict (isotope R)) ab x : dict_ok isos ->
  amu_from_isotopic_composition (fun a b => Ok (a * b)) py_sum_R ab isos = Ok x ->
  exists ts, Forall2 (fun ki t => exists a, dget ab (fst ki) = Some a /\ t = iso_mass (snd ki) * a) isos ts /\ x = Rsum ts.
Proof.
  intros OK H. unfold amu_from_isotopic_composition in H. inv_binds. injection H as <-. exists x0. rewrite py_sum_Rsum. split; [|reflexivity].
  apply traverse_F2 in H0. unfold dkeys in H0.
  assert (G : forall l m, (forall ki, In ki l -> In ki isos) ->
    Forall2 (fun k t => bind (dgetE isos k) (fun i => bind (dgetE ab k) (fun a => Ok (iso_mass i * a))) = Ok t) (map fst l) m ->
    Forall2 (fun ki t => exists a, dget ab (fst ki) = Some a /\ t = iso_mass (snd ki) * a) l m).
  { induction l as [|[k i] l IH]; intros m I F; inversion F as [|? t ? m' E F']; subst; constructor.
    - inv_binds. injection E as <-. cbn [fst snd] in *. unfold dgetE in H. rewrite (In_dget isos k i OK (I (k, i) (or_introl eq_refl))) in H. injection H as <-.
      unfold dgetE in H1. destruct (dget ab k) as [a|]; [|discriminate]. injection H1 as <-. eauto.
    - apply IH; [intros; apply I; now right|exact F']. }
  apply G; auto.
Qed.

Lemma mc_step w s w' : wf w -> mc w -> ~ changes_masses s -> step w s = Ok w' -> mc w'.
Proof.
  intros W C N H.
  assert (Keep : forall ds is os, (forall a d, at_address (w_dicts w) a = Ok d -> at_address ds a = Ok d) ->
    (forall a d, at_address (w_isodicts w) a = Ok d -> at_address is a = Ok d) ->
    (forall a d, at_address (w_isos w) a = Ok d -> at_address os a = Ok d) ->
    forall e o, at_address (w_els w) e = Ok o -> exists d ab ts,
      at_address is (eo_isotopes o) = Ok d /\ at_address ds (eo_abundances o) = Ok ab /\ terms os ab d ts /\ eo_amu o = Rsum ts).
  { intros ds is os K1 K2 K3 e o Eo. destruct (C e o Eo) as (d & ab & ts & E1 & E2 & T & E). exists d, ab, ts.
    split; [auto|]. split; [auto|]. split; [|exact E]. revert T. apply F2_imp. intros x t (io & a & F1 & F2). exists io, a. split; [auto|exact F2]. }
  destruct s; cbn [changes_masses] in N; try (exfalso; exact (N Logic.I)); cbn [step] in H; inv_binds; try (injection H as <-); try exact C.
  - intros e o Eo. simpl_world. eapply Keep; try exact Eo; auto using at_app.
  - intros e o Eo. simpl_world. eapply Keep; try exact Eo; auto using at_app.
  - destruct x0 as [w1 b]. injection H as <-.
    assert (Q : w_dicts w1 = w_dicts w /\ w_isodicts w1 = w_isodicts w /\ w_isos w1 = w_isos w /\ w_els w1 = w_els w).
    { destruct excited as [b'|]; [inv_binds; destruct x0|]; injection H1 as <- <-; auto. }
    destruct Q as (Q1 & Q2 & Q3 & Q4). unfold mc. simpl_world. rewrite Q1, Q2, Q3, Q4. intros e o Eo. eapply Keep; try exact Eo; auto using at_app.
  - intros e o Eo. simpl_world. destruct (at_snoc _ _ _ _ Eo) as [[_ Eo']|[_ ->]]; [now apply C in Eo'|].
    unfold Element_R, Element in H3. inv_binds. injection H3 as <-. cbn [eo_isotopes eo_abundances eo_amu el_amu].
    destruct (wf_isodicts w W _ _ H0) as [OK _].
    destruct (amu_terms x0 x1 x3) as (ts & F & E); [unfold dict_ok; rewrite (isos_keys _ _ _ H1); exact OK|exact H|].
    exists x, x1, ts. split; [exact H0|]. split; [exact H2|]. split; [|exact E].
    apply (F2_comp (fun y x => fst y = fst x /\ exists o, at_address (w_isos w) (snd x) = Ok o /\ iso_mass (snd y) = io_amu o)
      (fun ki t => exists a, dget x1 (fst ki) = Some a /\ t = iso_mass (snd ki) * a) _ x0 x ts).
    + intros y z t (Ek & io & E1 & E2) (a & E3 & E4). exists io, a. split; [exact E1|]. rewrite <- Ek, <- E2. auto.
    + apply F2_flip. now apply isos_F2.
    + exact F.
Qed.
Lemma masses_stay w p w' : reachable_world w -> masses_consistent w -> Forall (fun s => ~ changes_masses s) p ->
  run_program w p = Ok w' -> masses_consistent w'.
Proof.
  intros Rw C N H. apply wf_reachable in Rw. apply mc_iff in C; [|exact Rw].
  apply mc_iff; [eapply wf_run; eassumption|]. revert w Rw C H. induction N as [|s p Ns N IH]; cbn [run_program]; intros w Rw C H.
  - now injection H as <-.
  - inv_binds. apply (IH x); [eapply wf_step; eassumption|eapply mc_step; eassumption|exact H].
Qed.
Lemma masses_start : masses_consistent nothing.
Proof. intros e el H. unfold element_of in H. inv_binds. apply at_lt in H0. cbn in H0. lia. Qed.

(** ** C71 *)
Lemma excited_ref_at w i a : excited_ref w i = Some a <-> exists o, at_address (w_isos w) i = Ok o /\ io_excited o = a.
Proof.
  unfold excited_ref, at_address. destruct (nth_error (w_isos w) i) as [o|]; cbn; split.
  - intros [= <-]; eauto. - intros (o' & [= <-] & <-); reflexivity. - discriminate. - intros (o' & [=] & _).
Qed.
Lemma excited_ref_kept w p w' i a : run_program w p = Ok w' -> excited_ref w i = Some a -> excited_ref w' i = Some a.
Proof.
  intros H E. apply excited_ref_at in E. destruct E as (o & Eo & <-). destruct (ex_isos _ _ (extends_run p _ _ H) i o Eo) as (o' & Eo' & _ & _ & E).
  apply excited_ref_at. eauto.
Qed.
(** Which list a new isotope refers to. *)
Lemma new_isotope w AX amu g ex w' : reachable_world w -> step w (SIsotope AX amu g ex) = Ok w' ->
  exists a, excited_ref w' (List.length (w_isos w)) = Some a /\
    (forall b l, ex = Some b -> at_address (w_lists w) b = Ok l -> l <> [] -> a = b) /\
    (ex = None \/ (exists b, ex = Some b /\ at_address (w_lists w) b = Ok []) ->
      at_address (w_lists w') a = Ok [] /\ (forall b l, at_address (w_lists w) b = Ok l -> a <> b) /\
      (forall i, (i < List.length (w_isos w))%nat -> excited_ref w' i <> Some a)).
Proof.
  intros Rw H. pose proof (wf_reachable _ Rw) as W. cbn [step] in H. inv_binds. destruct x0 as [w1 a]. injection H as <-.
  assert (Fresh : forall i, (i < List.length (w_isos w))%nat -> excited_ref w i <> Some (List.length (w_lists w))).
  { intros i Hi Q. apply excited_ref_at in Q. destruct Q as (o & Eo & E). destruct (wf_isos w W i o Eo) as [L _]. lia. }
  assert (Old : forall i o os, (i < List.length (w_isos w))%nat -> w_isos os = (w_isos w ++ [o])%list -> excited_ref os i = excited_ref w i).
  { intros i o os Hi E. unfold excited_ref. rewrite E, nth_error_app1 by exact Hi. reflexivity. }
  assert (New : (w1, a) = (with_lists w (w_lists w ++ [[]]), List.length (w_lists w)) -> 
    excited_ref (with_isos w1 (w_isos w1 ++ [{| io_AX := AX; io_amu := amu; io_ground := g; io_excited := a |}])) (List.length (w_isos w)) = Some a /\
    at_address (w_lists w1) a = Ok [] /\ (forall b l, at_address (w_lists w) b = Ok l -> a <> b) /\
      (forall i, (i < List.length (w_isos w))%nat -> excited_ref (with_isos w1 (w_isos w1 ++ [{| io_AX := AX; io_amu := amu; io_ground := g; io_excited := a |}])) i <> Some a)).
  { intros [= -> ->]. split; [apply excited_ref_at; simpl_world; eexists; split; [apply at_new|reflexivity]|]. split; [simpl_world; apply at_new|]. split.
    - intros b l K. apply at_lt in K. lia.
    - intros i Hi. match goal with |- excited_ref ?W i <> _ => rewrite (Old i _ W Hi ltac:(reflexivity)) end. now apply Fresh. }
  destruct ex as [b|].
  - inv_binds. destruct x0 as [|y l].
    + injection H1 as E1 E2. symmetry in E1, E2. destruct New as (P & Q); [congruence|]. exists a. split; [exact P|]. split; [|intros _; exact Q].
      intros b' l [= <-] K N. congruence.
    + injection H1 as <- <-. exists b. split; [apply excited_ref_at; simpl_world; eexists; split; [apply at_new|reflexivity]|]. split; [intros b' l' [= <-] _ _; reflexivity|].
      intros [Q|(b' & [= <-] & Q)]; congruence.
  - injection H1 as E1 E2. symmetry in E1, E2. destruct New as (P & Q); [congruence|]. exists a. split; [exact P|]. split; [discriminate|intros _; exact Q].
Qed.

(** What happens to an isotope when a state is appended to a list. *)
Lemma append_seen w a s w' i x : reachable_world w -> step w (SAppend a s) = Ok w' -> iso_of w i = Ok x ->
  exists x' st, iso_of w' i = Ok x' /\ state_of w s = Ok st /\ iso_name x' = iso_name x /\ iso_mass x' = iso_mass x /\
    (excited_ref w i = Some a -> iso_excited_states x' = (iso_excited_states x ++ [st])%list) /\
    (excited_ref w i <> Some a -> x' = x).
Proof.
  intros Rw H S. pose proof (wf_reachable _ Rw) as W. cbn [step] in H. inv_binds. injection H as <-. pose proof (at_lt _ _ _ H0) as La.
  destruct (state_of_ok w s W (at_lt _ _ _ H1)) as [st Hs].
  assert (So : forall q, state_of (with_lists w (update (w_lists w) a (x0 ++ [s]))) q = state_of w q) by reflexivity.
  pose proof S as S'. unfold iso_of in S. inv_binds. injection S as <-.
  set (W' := with_lists w (update (w_lists w) a (x0 ++ [s]))).
  unfold iso_of at 1. change (state_of W') with (state_of w). change (w_isos W') with (w_isos w).
  change (w_lists W') with (update (w_lists w) a (x0 ++ [s])). rewrite H. cbn [bind].
  rewrite H2. cbn [bind]. rewrite at_update by exact La. destruct (Nat.eqb_spec a (io_excited x2)) as [E|N].
  - cbn [bind]. rewrite <- E, H0 in H3. injection H3 as <-.
    assert (T : traverse (state_of w) (x0 ++ [s]) = Ok (x5 ++ [st])%list).
    { apply F2_traverse. apply Forall2_app; [|constructor; [exact Hs|constructor]]. apply traverse_F2 in H4. exact H4. }
    rewrite T. cbn [bind]. do 2 eexists. split; [reflexivity|]. split; [exact Hs|]. split; [reflexivity|]. split; [reflexivity|]. split; [reflexivity|].
    intros C. exfalso. apply C. apply excited_ref_at. eauto.
  - rewrite H3. cbn [bind]. rewrite H4. cbn [bind].
    do 2 eexists. split; [reflexivity|]. split; [exact Hs|]. split; [reflexivity|]. split; [reflexivity|]. split; [|reflexivity].
    intros C. apply excited_ref_at in C. destruct C as (o & Eo & C). congruence.
Qed.
(** A list only changes by appending to it. *)
Lemma list_kept w s w' a l : step w s = Ok w' -> at_address (w_lists w) a = Ok l -> ~ appends_to a s -> at_address (w_lists w') a = Ok l.
Proof.
  intros H E N. destruct s; cbn [step] in H; inv_binds; try (injection H as <-); simpl_world; try exact E; try (now apply at_app).
  - destruct x0 as [w1 b]. injection H as <-. simpl_world. destruct excited as [b'|]; [inv_binds; destruct x0|]; injection H1 as <- <-; simpl_world; try exact E; now apply at_app.
  - cbn in N. rewrite at_update by (eapply at_lt; eassumption). destruct (Nat.eqb_spec l0 a); [contradiction|exact E].
Qed.
Lemma lists_kept p : forall w w' a l, run_program w p = Ok w' -> at_address (w_lists w) a = Ok l -> Forall (fun s => ~ appends_to a s) p -> at_address (w_lists w') a = Ok l.
Proof.
  induction p as [|s p IH]; cbn [run_program]; intros w w' a l H E F; [now injection H as <-|].
  inv_binds. inversion F; subst. eapply IH; [eassumption| |assumption]. eapply list_kept; eassumption.
Qed.
(** An isotope created without states keeps none, whatever happens to other lists. *)
Lemma default_not_shared w AX amu g ex w1 p w2 x : reachable_world w -> step w (SIsotope AX amu g ex) = Ok w1 ->
  ex = None \/ (exists b, ex = Some b /\ at_address (w_lists w) b = Ok []) ->
  run_program w1 p = Ok w2 -> (forall a, excited_ref w1 (List.length (w_isos w)) = Some a -> Forall (fun s => ~ appends_to a s) p) ->
  iso_of w2 (List.length (w_isos w)) = Ok x -> iso_excited_states x = [].
Proof.
  intros Rw H Ex Hr F S. destruct (new_isotope _ _ _ _ _ _ Rw H) as (a & Ea & _ & K). destruct (K Ex) as (El & _ & _).
  pose proof (lists_kept p _ _ _ _ Hr El (F a Ea)) as El2. pose proof (excited_ref_kept _ _ _ _ _ Hr Ea) as Ea2.
  destruct (iso_of_inv _ _ _ S) as (o & l & Eo & _ & _ & E1 & E2). apply excited_ref_at in Ea2. destruct Ea2 as (o' & Eo' & <-).
  rewrite Eo in Eo'. injection Eo' as <-. rewrite El2 in E1. injection E1 as <-. cbn in E2. congruence.
Qed.
