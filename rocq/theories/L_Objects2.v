(** Consistency of derived attributes, sharing of dictionaries and lists. *)
From Coq Require Import Reals List String ZArith Lra Lia Permutation.
From Verif Require Import Py Spec M_Num M_Constituents M_Resonance M_Objects S_Objects L_Constituents L_Objects.
Import ListNotations.
Open Scope R_scope.

Lemma traverse_F2 {A B} (f : A -> out B) l : forall m, traverse f l = Ok m -> Forall2 (fun x y => f x = Ok y) l m.
Proof.
  unfold traverse. induction l as [|a l IH]; cbn [map sequence]; intros m H; [injection H as <-; constructor|].
  inv_binds. injection H as <-. constructor; auto.
Qed.
Lemma F2_traverse {A B} (f : A -> out B) l m : Forall2 (fun x y => f x = Ok y) l m -> traverse f l = Ok m.
Proof. unfold traverse. induction 1 as [|x y l m E H IH]; [reflexivity|]. cbn [map sequence]. rewrite E. cbn [bind]. now rewrite IH. Qed.

(** ** Existing objects stay, and keep what is not modified *)
Record extends (w w' : world) : Prop := {
  ex_dicts : forall a d, at_address (w_dicts w) a = Ok d -> exists d', at_address (w_dicts w') a = Ok d';
  ex_states : forall s o, at_address (w_states w) s = Ok o -> exists o', at_address (w_states w') s = Ok o' /\
    so_J_pi o' = so_J_pi o /\ so_two_J o' = so_two_J o /\ so_parity o' = so_parity o /\
    option_map snd (so_decays o') = option_map snd (so_decays o);
  ex_isos : forall i o, at_address (w_isos w) i = Ok o -> exists o', at_address (w_isos w') i = Ok o' /\
    io_AX o' = io_AX o /\ io_ground o' = io_ground o /\ io_excited o' = io_excited o;
  ex_els : forall e o, at_address (w_els w) e = Ok o -> at_address (w_els w') e = Ok o
}.
Lemma extends_refl w : extends w w.
Proof. split; eauto 10. Qed.
Lemma extends_trans w1 w2 w3 : extends w1 w2 -> extends w2 w3 -> extends w1 w3.
Proof.
  intros [A B C D] [A' B' C' D']. split.
  - intros a d H. destruct (A a d H) as [d' H']. eauto.
  - intros s o H. destruct (B s o H) as (o' & H' & E1 & E2 & E3 & E4). destruct (B' s o' H') as (o2 & H2 & F1 & F2 & F3 & F4).
    exists o2. repeat split; congruence.
  - intros s o H. destruct (C s o H) as (o' & H' & E1 & E2 & E3). destruct (C' s o' H') as (o2 & H2 & F1 & F2 & F3).
    exists o2. repeat split; congruence.
  - eauto.
Qed.
Ltac keep := first [eassumption | solve [eauto using at_app] | solve [let x := fresh in let o := fresh in let H := fresh in
   intros x o H; exists o; eauto 10 using at_app]].
Lemma extends_step w s w' : step w s = Ok w' -> extends w w'.
Proof.
  intros H. destruct s; cbn [step] in H; inv_binds; try (injection H as <-);
    try (split; simpl_world; keep).
  - (* SIsotope *) destruct x0 as [w1 a]. injection H as <-.
    assert (Q : w_dicts w1 = w_dicts w /\ w_states w1 = w_states w /\ w_isos w1 = w_isos w /\ w_els w1 = w_els w).
    { destruct excited as [b|]; [inv_binds; destruct x0|]; injection H1 as <- <-; auto. }
    destruct Q as (Q1 & Q2 & Q3 & Q4). split; simpl_world; rewrite ?Q1, ?Q2, ?Q3, ?Q4; keep.
  - assert (Ld := at_lt _ _ _ H0). split; simpl_world; try keep.
    intros a d' K. rewrite at_update by exact Ld. destruct (Nat.eqb d a); eauto.
  - assert (Ld := at_lt _ _ _ H0). split; simpl_world; try keep.
    intros a d' K. rewrite at_update by exact Ld. destruct (Nat.eqb d a); eauto.
  - assert (Ld := at_lt _ _ _ H0). split; simpl_world; try keep.
    intros j o K. rewrite at_update by exact Ld. destruct (Nat.eqb_spec i j) as [->|]; [|keep]. rewrite H0 in K. injection K as ->.
    eexists. split; [reflexivity|]. auto.
  - assert (Ld := at_lt _ _ _ H0). split; simpl_world; try keep.
    intros j o K. rewrite at_update by exact Ld. destruct (Nat.eqb_spec s j) as [->|]; [|exists o; auto]. rewrite H0 in K. injection K as ->.
    eexists. split; [reflexivity|]. auto.
  - assert (Ld := at_lt _ _ _ H0). split; simpl_world; try keep.
    intros j o K. rewrite at_update by exact Ld. destruct (Nat.eqb_spec s j) as [->|]; [|exists o; auto]. rewrite H0 in K. injection K as ->.
    eexists. split; [reflexivity|]. cbn. destruct (so_decays o) as [[b y]|]; [|discriminate]. injection H2 as ->. auto.
Qed.
Lemma extends_run p : forall w w', run_program w p = Ok w' -> extends w w'.
Proof.
  induction p as [|s p IH]; cbn [run_program]; intros w w' H; [injection H as <-; apply extends_refl|].
  inv_binds. eapply extends_trans; [eapply extends_step; eassumption|eauto].
Qed.

Lemma state_of_inv w s st : state_of w s = Ok st -> exists o, at_address (w_states w) s = Ok o /\
  st_J_pi st = so_J_pi o /\ st_two_J st = so_two_J o /\ st_parity st = so_parity o /\ st_excitation_energy st = so_energy o /\
  match so_decays o with
  | None => st_decays st = None
  | Some (a, x) => exists d, at_address (w_dicts w) a = Ok d /\ st_decays st = Some (d, x)
  end.
Proof.
  unfold state_of. intros H. inv_binds. injection H as <-. exists x. cbn. destruct (so_decays x) as [[a y]|].
  - inv_binds. injection H1 as <-. repeat split; eauto.
  - injection H1 as <-. auto 10.
Qed.

(** ** C69 *)
Lemma width_frozen w p w' s st : reachable_world w -> run_program w p = Ok w' -> state_of w s = Ok st ->
  exists st', state_of w' s = Ok st' /\ width st' = width st /\
    st_J_pi st' = st_J_pi st /\ st_two_J st' = st_two_J st /\ st_parity st' = st_parity st.
Proof.
  intros Rw H S. pose proof (wf_reachable _ Rw) as W. pose proof (wf_run p _ _ W H) as W'. pose proof (extends_run p _ _ H) as [_ X _ _].
  destruct (state_of_inv _ _ _ S) as (o & Eo & E1 & E2 & E3 & E4 & E5). destruct (X s o Eo) as (o' & Eo' & F1 & F2 & F3 & F4).
  destruct (state_of_ok w' s W' (at_lt _ _ _ Eo')) as [st' S']. exists st'. split; [exact S'|].
  destruct (state_of_inv _ _ _ S') as (o2 & Eo2 & G1 & G2 & G3 & G4 & G5). rewrite Eo' in Eo2. injection Eo2 as <-.
  split; [|repeat split; congruence]. unfold width.
  destruct (so_decays o) as [[a x]|], (so_decays o') as [[a' x']|]; cbn in F4; try discriminate.
  - destruct E5 as (d & _ & ->), G5 as (d' & _ & ->). congruence.
  - now rewrite E5, G5.
Qed.
Lemma width_created w J two_J p E a w' : reachable_world w -> step w (SState J two_J p E a) = Ok w' ->
  exists st d, at_address (w_dicts w) a = Ok d /\ state_of w' (List.length (w_states w)) = Ok st /\
    partial_widths st = Ok d /\ width st = Ok (Rsum (dvalues d)).
Proof.
  intros Rw H. pose proof (wf_reachable _ Rw) as W. cbn [step] in H. inv_binds. injection H as <-.
  destruct (state_inv _ _ _ _ _ _ (wf_dicts w W _ _ H0) H1) as (P & Wd & _). rewrite Wd in H2. injection H2 as <-.
  do 2 eexists. split; [exact H0|]. unfold state_of. simpl_world. rewrite at_new. cbn [bind so_decays]. rewrite H0. cbn [bind].
  split; [reflexivity|]. split; reflexivity.
Qed.

(** Consistency of the objects themselves. *)
Definition wc (w : world) : Prop := forall s o a x, at_address (w_states w) s = Ok o -> so_decays o = Some (a, x) ->
  exists d, at_address (w_dicts w) a = Ok d /\ x = Rsum (dvalues d).
Lemma wc_iff w : wf w -> widths_consistent w <-> wc w.
Proof.
  intros W. split.
  - intros H s o a x Eo Ed. destruct (state_of_ok w s W (at_lt _ _ _ Eo)) as [st S].
    destruct (state_of_inv _ _ _ S) as (o' & Eo' & _ & _ & _ & _ & K). rewrite Eo in Eo'. injection Eo' as <-. rewrite Ed in K.
    destruct K as (d & Hd & Hs). exists d. split; [exact Hd|]. exact (H s st d x S Hs).
  - intros H s st d x S Hs. destruct (state_of_inv _ _ _ S) as (o & Eo & _ & _ & _ & _ & K).
    destruct (so_decays o) as [[a y]|] eqn:Ed; [|congruence]. destruct K as (d' & Hd' & K). rewrite Hs in K. injection K as <- <-.
    destruct (H s o a x Eo Ed) as (d' & Hd & E). congruence.
Qed.
Lemma wc_step w s w' : wf w -> wc w -> ~ changes_widths s -> step w s = Ok w' -> wc w'.
Proof.
  intros W C N H. 
  assert (Keep : forall ds, (forall a d, at_address (w_dicts w) a = Ok d -> at_address ds a = Ok d) ->
    forall s o a x, at_address (w_states w) s = Ok o -> so_decays o = Some (a, x) -> exists d, at_address ds a = Ok d /\ x = Rsum (dvalues d)).
  { intros ds K q o a x Eo Ed. destruct (C q o a x Eo Ed) as (d & Hd & E). eauto. }
  destruct s; cbn [changes_widths] in N; try (exfalso; exact (N Logic.I)); cbn [step] in H; inv_binds; try (injection H as <-); try exact C.
  - intros q o a x Eo Ed. simpl_world. apply (Keep (w_dicts w ++ [ddisplay d])%list ltac:(intros; now apply at_app) q o a x Eo Ed).
  - intros q o a x Eo Ed. simpl_world. destruct (at_snoc _ _ _ _ Eo) as [[_ Eo']|[_ ->]]; [eauto|discriminate].
  - intros q o a x' Eo Ed. simpl_world. destruct (at_snoc _ _ _ _ Eo) as [[_ Eo']|[_ ->]]; [eauto|]. cbn in Ed. injection Ed as <- <-.
    destruct (state_inv _ _ _ _ _ _ (wf_dicts w W _ _ H0) H1) as (P & Wd & _). rewrite Wd in H2. injection H2 as <-. eauto.
  - destruct x0 as [w1 b]. injection H as <-.
    assert (Q : w_dicts w1 = w_dicts w /\ w_states w1 = w_states w).
    { destruct excited as [b'|]; [inv_binds; destruct x0|]; injection H1 as <- <-; auto. }
    destruct Q as (Q1 & Q2). unfold wc. simpl_world. rewrite Q1, Q2. exact C.
  - intros q o a x' Eo Ed. simpl_world. rewrite at_update in Eo by (eapply at_lt; eassumption).
    destruct (Nat.eqb s q); [|eauto]. injection Eo as <-. cbn in Ed. eauto.
Qed.
Lemma widths_stay w p w' : reachable_world w -> widths_consistent w -> Forall (fun s => ~ changes_widths s) p ->
  run_program w p = Ok w' -> widths_consistent w'.
Proof.
  intros Rw C N H. apply wf_reachable in Rw. apply wc_iff in C; [|exact Rw].
  apply wc_iff; [eapply wf_run; eassumption|]. revert w Rw C H. induction N as [|s p Ns N IH]; cbn [run_program]; intros w Rw C H.
  - now injection H as <-.
  - inv_binds. apply (IH x); [eapply wf_step; eassumption|eapply wc_step; eassumption|exact H].
Qed.
Lemma widths_start : widths_consistent nothing.
Proof. intros s st d x H. unfold state_of in H. inv_binds. apply at_lt in H0. cbn in H0. lia. Qed.

Lemma widths_ref_inv w s a : widths_ref w s = Some a <-> exists o x, at_address (w_states w) s = Ok o /\ so_decays o = Some (a, x).
Proof.
  unfold widths_ref, at_address. destruct (nth_error (w_states w) s) as [o|].
  - destruct (so_decays o) as [[b x]|] eqn:E; cbn.
    + split; [intros [= <-]; eauto|intros (o' & x' & [= <-] & E'); congruence].
    + split; [discriminate|intros (o' & x' & [= <-] & E'); congruence].
  - split; [discriminate|intros (o' & x' & [=] & _)].
Qed.

(** After [d[k] = v] every state that was built with [d] has the new partial widths and the old width. *)
Lemma set_width w a k v w' s st : reachable_world w -> step w (SSet a k v) = Ok w' -> state_of w s = Ok st ->
  exists st', state_of w' s = Ok st' /\
    (widths_ref w s <> Some a -> st' = st) /\
    (widths_ref w s = Some a -> exists d x, partial_widths st = Ok d /\ width st = Ok x /\
       partial_widths st' = Ok (dset d k v) /\ width st' = Ok x /\
       st_J_pi st' = st_J_pi st /\ st_two_J st' = st_two_J st /\ st_parity st' = st_parity st /\
       st_excitation_energy st' = st_excitation_energy st /\
       (forall old, dget d k = Some old -> x = Rsum (dvalues d) -> Rsum (dvalues (dset d k v)) - x = v - old)).
Proof.
  intros Rw H S. cbn [step] in H. inv_binds. injection H as <-. pose proof (at_lt _ _ _ H0) as La.
  destruct (state_of_inv _ _ _ S) as (o & Eo & _). unfold state_of in *. simpl_world. rewrite Eo in *. cbn [bind] in *.
  destruct (so_decays o) as [[b y]|] eqn:Ed.
  - rewrite at_update by exact La. destruct (Nat.eqb_spec a b) as [<-|N].
    + rewrite H0 in S. cbn [bind] in *. injection S as <-. eexists. split; [reflexivity|]. split.
      * intros C. exfalso. apply C. apply widths_ref_inv. eauto.
      * intros _. exists x, y. repeat (split; [reflexivity|]). intros old Ho ->. rewrite (dset_sum _ _ _ _ Ho). ring.
    + exists st. split; [exact S|]. split; [reflexivity|]. intros C. apply widths_ref_inv in C. destruct C as (o' & x' & Eo' & E'). congruence.
  - exists st. split; [exact S|]. split; [reflexivity|]. intros C. apply widths_ref_inv in C. destruct C as (o' & x' & Eo' & E'). congruence.
Qed.

(** The branching ratios that the resonance classes compute. *)
Lemma stale_branching (st : state) d x fs : st_decays st = Some (d, x) -> dict_ok d -> x <> 0 ->
  Permutation (map st_J_pi fs) (dkeys d) ->
  exists brs, traverse (fun f => get_final_state_branching_ratio st (Some f)) fs = Ok brs /\ Rsum brs = Rsum (dvalues d) / x.
Proof.
  intros E OK Nx P.
  set (g := fun j => match dget d j with Some v => v | None => 0 end).
  exists (map (fun f => g (st_J_pi f) / x) fs). split.
  - apply traverse_ok. intros f Hf. unfold get_final_state_branching_ratio, partial_widths, width. rewrite E. cbn [bind].
    assert (I : In (st_J_pi f) (dkeys d)) by (eapply Permutation_in; [exact P|now apply in_map]).
    unfold dgetE, g. destruct (dget d (st_J_pi f)) as [v|] eqn:G; [|now apply dget_None in G]. cbn [bind]. unfold fdiv.
    destruct (Req_EM_T x 0); [contradiction|reflexivity].
  - transitivity (Rsum (map (fun j => / x * g j) (map st_J_pi fs))).
    { f_equal. rewrite map_map. apply map_ext. intros f. unfold Rdiv. ring. }
    rewrite Rsum_scale. rewrite (Rsum_perm _ (map g (dkeys d))) by now apply Permutation_map.
    replace (map g (dkeys d)) with (dvalues d); [unfold Rdiv; ring|].
    unfold dkeys, dvalues. rewrite map_map. apply map_ext_in. intros [j v] I. unfold g. cbn [fst snd]. now rewrite (In_dget _ _ _ OK I).
Qed.
