(** Programs that create and modify states, isotopes and elements: invariants. *)
From Coq Require Import Reals List String ZArith Lra Lia.
From Verif Require Import Py Spec M_Num M_Constituents M_Objects S_Objects L_Constituents.
Import ListNotations.
Open Scope R_scope.

Lemma bind_ok {A B} (x : out A) (f : A -> out B) b : bind x f = Ok b -> exists a, x = Ok a /\ f a = Ok b.
Proof. destruct x as [a| |]; cbn; intros H; try discriminate. eauto. Qed.
Ltac inv_binds :=
  repeat match goal with
  | H : bind _ _ = Ok _ |- _ => apply bind_ok in H; destruct H as (? & ? & H)
  end.

(** ** Lists of objects *)
Lemma at_ok {A} (l : list A) a x : at_address l a = Ok x <-> nth_error l a = Some x.
Proof. unfold at_address. destruct (nth_error l a); split; congruence. Qed.
Lemma at_lt {A} (l : list A) a x : at_address l a = Ok x -> (a < List.length l)%nat.
Proof. rewrite at_ok. intros H. apply nth_error_Some. congruence. Qed.
Lemma at_ex {A} (l : list A) a : (a < List.length l)%nat -> exists x, at_address l a = Ok x.
Proof. intros H. apply nth_error_Some in H. unfold at_address. destruct (nth_error l a); [eauto|congruence]. Qed.
Lemma at_app {A} (l r : list A) a x : at_address l a = Ok x -> at_address (l ++ r) a = Ok x.
Proof. rewrite !at_ok. intros H. rewrite nth_error_app1; [exact H|]. apply nth_error_Some. congruence. Qed.
Lemma at_new {A} (l : list A) x : at_address (l ++ [x]) (List.length l) = Ok x.
Proof. rewrite at_ok, nth_error_app2, Nat.sub_diag; [reflexivity|lia]. Qed.
Lemma at_snoc {A} (l : list A) y a x : at_address (l ++ [y]) a = Ok x ->
  (a < List.length l)%nat /\ at_address l a = Ok x \/ a = List.length l /\ x = y.
Proof.
  rewrite !at_ok. intros H. destruct (Nat.lt_ge_cases a (List.length l)) as [L|L].
  - left. rewrite nth_error_app1 in H by exact L. auto.
  - right. rewrite nth_error_app2 in H by exact L. destruct (a - List.length l)%nat as [|n] eqn:E.
    + cbn in H. split; [lia|congruence]. + destruct n; discriminate.
Qed.
Lemma update_length {A} (l : list A) a x : (a < List.length l)%nat -> List.length (update l a x) = List.length l.
Proof. intros H. unfold update. rewrite app_length, firstn_length. cbn [List.length]. rewrite skipn_length. lia. Qed.
Lemma at_update {A} (l : list A) a x b : (a < List.length l)%nat ->
  at_address (update l a x) b = if Nat.eqb a b then Ok x else at_address l b.
Proof.
  intros H. unfold update, at_address. revert a b H. induction l as [|y l IH]; cbn [List.length]; intros a b H; [lia|].
  destruct a as [|a]; destruct b as [|b]; cbn [firstn skipn app nth_error Nat.eqb]; try reflexivity.
  apply IH. lia.
Qed.

(** ** Dictionaries *)
Lemma dset_keys {V} (d : dict V) k v : In k (dkeys d) /\ dkeys (dset d k v) = dkeys d \/ ~ In k (dkeys d) /\ dkeys (dset d k v) = (dkeys d ++ [k])%list.
Proof.
  unfold dkeys. induction d as [|[k' v'] d IH]; cbn [dset map fst app]; [right; split; [intros []|reflexivity]|].
  destruct (String.eqb_spec k k') as [->|N]; [left; split; [now left|reflexivity]|]. cbn [map fst].
  destruct IH as [[I ->]|[I ->]]; [left; split; [now right|reflexivity]|right; split; [intros [E|J]; [congruence|tauto]|reflexivity]].
Qed.
Lemma dset_ok {V} (d : dict V) k v : dict_ok d -> dict_ok (dset d k v).
Proof.
  unfold dict_ok. destruct (dset_keys d k v) as [[_ ->]|[N ->]]; [auto|].
  intros H. apply NoDup_rev in H. rewrite <- (rev_involutive (dkeys d ++ [k])). apply NoDup_rev. rewrite rev_app_distr. cbn.
  constructor; [|exact H]. now rewrite <- in_rev.
Qed.
Lemma ddel_ok {V} (d : dict V) k : dict_ok d -> dict_ok (ddel d k).
Proof.
  unfold dict_ok, ddel, dkeys. induction d as [|[k' v'] d IH]; cbn [map filter fst]; intros H; [exact H|].
  inversion H as [|? ? N H']; subst. destruct (String.eqb k k'); cbn [negb map fst]; [auto|]. constructor; [|auto].
  intros I. apply N. apply in_map_iff in I. destruct I as (x & E & I). apply filter_In in I. apply in_map_iff. exists x. tauto.
Qed.
Lemma ddisplay_ok {V} (d : dict V) : dict_ok (ddisplay d).
Proof.
  unfold ddisplay. assert (H : dict_ok (@nil (string * V))) by constructor. revert H. generalize (@nil (string * V)).
  induction d as [|kv d IH]; intros acc H; [exact H|]. cbn [fold_left]. apply IH. now apply dset_ok.
Qed.
Lemma dset_in {V} (d : dict V) k v x : In x (dset d k v) -> x = (k, v) \/ In x d.
Proof.
  induction d as [|[k' v'] d IH]; cbn [dset]; [intros [<-|[]]; now left|].
  destruct (String.eqb_spec k k') as [->|N]; intros [<-|I]; cbn; auto. destruct (IH I); auto.
Qed.
Lemma ddisplay_in {V} (d : dict V) x : In x (ddisplay d) -> In x d.
Proof.
  unfold ddisplay. assert (H : forall acc, In x (fold_left (fun acc kv => dset acc (fst kv) (snd kv)) d acc) -> In x acc \/ In x d).
  { induction d as [|kv d IH]; intros acc; cbn [fold_left]; [auto|]. intros I. destruct (IH _ I) as [J|J]; [|cbn; tauto].
    destruct (dset_in _ _ _ _ J) as [->|J']; [right; left; now destruct kv|auto]. }
  intros I. destruct (H [] I) as [[]|J]. exact J.
Qed.
Lemma dget_dset' {V} (d : dict V) k v k' : dget (dset d k v) k' = if String.eqb k' k then Some v else dget d k'.
Proof.
  induction d as [|[q u] d IH]; cbn [dset dget].
  - destruct (String.eqb k' k); reflexivity.
  - destruct (String.eqb_spec k q) as [->|N]; cbn [dget].
    + destruct (String.eqb_spec k' q); reflexivity.
    + destruct (String.eqb_spec k' q) as [->|N']; [|exact IH]. destruct (String.eqb_spec q k); [congruence|reflexivity].
Qed.
Lemma dset_sum (d : dict R) k v old : dget d k = Some old -> Rsum (dvalues (dset d k v)) = Rsum (dvalues d) + (v - old).
Proof.
  unfold dvalues. induction d as [|[k' v'] d IH]; cbn [dget dset]; [discriminate|].
  destruct (String.eqb_spec k k') as [->|N]; intros H.
  - injection H as ->. cbn [map snd]. rewrite !Rsum_cons. lra.
  - cbn [map snd]. rewrite !Rsum_cons, (IH H). lra.
Qed.

(** ** Well-formed references *)
Record wf (w : world) : Prop := {
  wf_dicts : forall a d, at_address (w_dicts w) a = Ok d -> dict_ok d;
  wf_isodicts : forall a d, at_address (w_isodicts w) a = Ok d ->
    dict_ok d /\ forall ki, In ki d -> (snd ki < List.length (w_isos w))%nat;
  wf_lists : forall a l, at_address (w_lists w) a = Ok l -> forall s, In s l -> (s < List.length (w_states w))%nat;
  wf_states : forall s o, at_address (w_states w) s = Ok o -> forall a x, so_decays o = Some (a, x) -> (a < List.length (w_dicts w))%nat;
  wf_isos : forall i o, at_address (w_isos w) i = Ok o -> (io_excited o < List.length (w_lists w))%nat /\
    forall s, io_ground o = Some s -> (s < List.length (w_states w))%nat;
  wf_els : forall e o, at_address (w_els w) e = Ok o ->
    (eo_isotopes o < List.length (w_isodicts w))%nat /\ (eo_abundances o < List.length (w_dicts w))%nat
}.
Lemma wf_nothing : wf nothing.
Proof. split; intros a x H; apply at_lt in H; cbn in H; lia. Qed.

Ltac simpl_world := cbn [w_dicts w_isodicts w_lists w_states w_isos w_els with_dicts with_isodicts with_lists with_states with_isos with_els] in *.
Ltac lens := rewrite ?app_length, ?update_length in * by assumption; cbn [List.length] in *; try lia.

Lemma traverse_addr {A B} (f : A -> nat) (l : list B) d m : traverse (fun k => at_address l (f k)) d = Ok m ->
  forall x, In x d -> (f x < List.length l)%nat.
Proof. intros H x I. destruct (traverse_inv _ _ _ H x I) as [y E]. eapply at_lt; eassumption. Qed.

Lemma wf_step w s w' : wf w -> step w s = Ok w' -> wf w'.
Proof.
  intros [D I L S O E] H. destruct s; cbn [step] in H; inv_binds; try (injection H as <-).
  - (* SDict *) split; simpl_world; try assumption.
    + intros a d' K. destruct (at_snoc _ _ _ _ K) as [[_ K']|[_ ->]]; [eauto|apply ddisplay_ok].
    + intros s o K a x Q. specialize (S s o K a x Q). lens.
    + intros e o K. destruct (E e o K). split; lens.
  - (* SIsoDict *) split; simpl_world; try assumption.
    + intros a d' K. destruct (at_snoc _ _ _ _ K) as [[_ K']|[_ ->]]; [eauto|]. split; [apply ddisplay_ok|].
      intros ki Q. apply ddisplay_in in Q. eapply (traverse_addr snd); eassumption.
    + intros e o K. destruct (E e o K). split; lens.
  - (* SList *) split; simpl_world; try assumption.
    + intros a l' K. destruct (at_snoc _ _ _ _ K) as [[_ K']|[_ ->]]; [eauto|].
      intros s Q. exact (traverse_addr (fun s => s) _ _ _ H0 s Q).
    + intros i o K. destruct (O i o K) as [O1 O2]. split; [lens|exact O2].
  - (* SGround *) split; simpl_world; try assumption.
    + intros a l K s Q. specialize (L a l K s Q). lens.
    + intros s o K a x Q. destruct (at_snoc _ _ _ _ K) as [[_ K']|[_ ->]]; [eauto|discriminate].
    + intros i o K. destruct (O i o K) as [O1 O2]. split; [exact O1|]. intros s Q. specialize (O2 s Q). lens.
  - (* SState *) split; simpl_world; try assumption.
    + intros a l K s Q. specialize (L a l K s Q). lens.
    + intros s o K a x' Q. destruct (at_snoc _ _ _ _ K) as [[_ K']|[_ ->]]; [eauto|]. cbn in Q. injection Q as <- _. eapply at_lt; eassumption.
    + intros i o K. destruct (O i o K) as [O1 O2]. split; [exact O1|]. intros s Q. specialize (O2 s Q). lens.
  - (* SIsotope *) destruct x0 as [w1 a].
    assert (Q : wf w1 /\ (a < List.length (w_lists w1))%nat /\ w_states w1 = w_states w).
    { assert (W : wf w) by (split; assumption).
      assert (F : wf (with_lists w (w_lists w ++ [[]]))).
      { split; simpl_world; try assumption.
        - intros b l' K. destruct (at_snoc _ _ _ _ K) as [[_ K']|[_ ->]]; [eauto|intros ? []].
        - intros i o K. destruct (O i o K) as [O1 O2]. split; [lens|exact O2]. }
      destruct excited as [b|].
      - inv_binds. destruct x0 as [|y l].
        + injection H1 as <- <-. split; [exact F|]. simpl_world. split; [lens|reflexivity].
        + injection H1 as <- <-. split; [exact W|]. split; [eapply at_lt; eassumption|reflexivity].
      - injection H1 as <- <-. split; [exact F|]. simpl_world. split; [lens|reflexivity]. }
    destruct Q as ([D1 I1 L1 S1 O1 E1] & Ha & Es). injection H as <-. split; simpl_world; try assumption.
    + intros b d K. destruct (I1 b d K) as [K1 K2]. split; [exact K1|]. intros ki Q. specialize (K2 ki Q). lens.
    + intros i o K. destruct (at_snoc _ _ _ _ K) as [[_ K']|[_ ->]]; [eauto|]. cbn. split; [exact Ha|].
      intros s ->. rewrite Es. destruct (at_address (w_states w) s) eqn:A; try discriminate. eapply at_lt; eassumption.
  - (* SElement *) split; simpl_world; try assumption.
    intros e o K. destruct (at_snoc _ _ _ _ K) as [[_ K']|[_ ->]]; [eauto|]. cbn. split; eapply at_lt; eassumption.
  - (* SSet *) assert (Ld := at_lt _ _ _ H0). split; simpl_world; try assumption.
    + intros a d' K. rewrite at_update in K by exact Ld. destruct (Nat.eqb d a); [|eauto]. injection K as <-. apply dset_ok. eauto.
    + intros s o K a x' Q. specialize (S s o K a x' Q). lens.
    + intros e o K. destruct (E e o K). split; lens.
  - (* SDel *) assert (Ld := at_lt _ _ _ H0). split; simpl_world; try assumption.
    + intros a d' K. rewrite at_update in K by exact Ld. destruct (Nat.eqb d a); [|eauto]. injection K as <-. apply ddel_ok. eauto.
    + intros s o K a x' Q. specialize (S s o K a x' Q). lens.
    + intros e o K. destruct (E e o K). split; lens.
  - (* SIsoSet *) assert (Ld := at_lt _ _ _ H0). split; simpl_world; try assumption.
    + intros a d' K. rewrite at_update in K by exact Ld. destruct (Nat.eqb d a); [|eauto]. injection K as <-.
      destruct (I d x H0) as [I1 I2]. split; [now apply dset_ok|]. intros ki Q. destruct (dset_in _ _ _ _ Q) as [->|Q']; [|auto].
      cbn. eapply at_lt; eassumption.
    + intros e o K. destruct (E e o K). split; lens.
  - (* SAppend *) assert (Ld := at_lt _ _ _ H0). split; simpl_world; try assumption.
    + intros a l' K. rewrite at_update in K by exact Ld. destruct (Nat.eqb l a); [|eauto]. injection K as <-.
      intros q Q. apply in_app_or in Q. destruct Q as [Q|[<-|[]]]; [eauto|eapply at_lt; eassumption].
    + intros i o K. destruct (O i o K) as [O1 O2]. split; [lens|exact O2].
  - (* SAmu *) assert (Ld := at_lt _ _ _ H0). split; simpl_world; try assumption.
    + intros b d K. destruct (I b d K) as [K1 K2]. split; [exact K1|]. intros ki Q. specialize (K2 ki Q). lens.
    + intros j o K. rewrite at_update in K by exact Ld. destruct (Nat.eqb i j); [|eauto]. injection K as <-. cbn. eauto.
  - (* SEnergy *) assert (Ld := at_lt _ _ _ H0). split; simpl_world; try assumption.
    + intros a l K q Q. specialize (L a l K q Q). lens.
    + intros q o K a x' Q. rewrite at_update in K by exact Ld. destruct (Nat.eqb s q); [|eauto]. injection K as <-. cbn in Q. eauto.
    + intros i o K. destruct (O i o K) as [O1 O2]. split; [exact O1|]. intros q Q. specialize (O2 q Q). lens.
  - (* SWidths *) assert (Ld := at_lt _ _ _ H0). split; simpl_world; try assumption.
    + intros a l K q Q. specialize (L a l K q Q). lens.
    + intros q o K a x' Q. rewrite at_update in K by exact Ld. destruct (Nat.eqb s q); [|eauto]. injection K as <-. cbn in Q. injection Q as <- _.
      eapply at_lt; eassumption.
    + intros i o K. destruct (O i o K) as [O1 O2]. split; [exact O1|]. intros q Q. specialize (O2 q Q). lens.
Qed.
Lemma wf_run p : forall w w', wf w -> run_program w p = Ok w' -> wf w'.
Proof.
  induction p as [|s p IH]; cbn [run_program]; intros w w' W H; [now injection H as <-|].
  inv_binds. eapply IH; [|eassumption]. eapply wf_step; eassumption.
Qed.
Lemma wf_reachable w : reachable_world w -> wf w.
Proof. intros [p H]. exact (wf_run p _ _ wf_nothing H). Qed.

(** Attribute access never fails. *)
Lemma state_of_ok w s : wf w -> (s < List.length (w_states w))%nat -> exists st, state_of w s = Ok st.
Proof.
  intros W H. destruct (at_ex _ _ H) as [o Eo]. unfold state_of. rewrite Eo. cbn [bind].
  destruct (so_decays o) as [[a x]|] eqn:Ed; [|eexists; reflexivity]. destruct (at_ex (w_dicts w) a (wf_states w W s o Eo a x Ed)) as [d E].
  rewrite E. eexists. reflexivity.
Qed.
Lemma traverse_ex {A B} (f : A -> out B) l : (forall x, In x l -> exists y, f x = Ok y) -> exists m, traverse f l = Ok m.
Proof.
  unfold traverse. induction l as [|a l IH]; intros H; [eexists; reflexivity|]. cbn [map sequence].
  destruct (H a (or_introl eq_refl)) as [y ->]. destruct IH as [m ->]; [intros; apply H; now right|]. cbn [bind]. eauto.
Qed.
Lemma iso_of_ok w i : wf w -> (i < List.length (w_isos w))%nat -> exists x, iso_of w i = Ok x.
Proof.
  intros W H. destruct (at_ex _ _ H) as [o Eo]. unfold iso_of. rewrite Eo. cbn [bind]. destruct (wf_isos w W i o Eo) as [H1 H2].
  assert (G : exists g, match io_ground o with None => Ok None | Some s => omap Some (state_of w s) end = Ok g).
  { destruct (io_ground o) as [s|]; [|eexists; reflexivity]. destruct (state_of_ok w s W (H2 s eq_refl)) as [st ->]. eexists. reflexivity. }
  destruct G as [g ->]. cbn [bind]. destruct (at_ex _ _ H1) as [l El]. rewrite El. cbn [bind].
  destruct (traverse_ex (state_of w) l) as [m ->]; [|eexists; reflexivity].
  intros s Hs. apply state_of_ok; [exact W|]. eapply wf_lists; eassumption.
Qed.
Lemma isos_of_ok w d : wf w -> (forall ki, In ki d -> (snd ki < List.length (w_isos w))%nat) -> exists m, isos_of w d = Ok m.
Proof. intros W H. apply traverse_ex. intros ki Q. destruct (iso_of_ok w (snd ki) W (H ki Q)) as [i ->]. eexists; reflexivity. Qed.
Lemma element_of_ok w e : wf w -> (e < List.length (w_els w))%nat -> exists el, element_of w e = Ok el.
Proof.
  intros W H. destruct (at_ex _ _ H) as [o Eo]. unfold element_of. rewrite Eo. cbn [bind]. destruct (wf_els w W e o Eo) as [H1 H2].
  destruct (at_ex _ _ H1) as [d Ed]. rewrite Ed. cbn [bind]. destruct (wf_isodicts w W _ d Ed) as [_ H3].
  destruct (isos_of_ok w d W H3) as [m ->]. cbn [bind]. destruct (at_ex _ _ H2) as [ab ->]. eexists. reflexivity.
Qed.
