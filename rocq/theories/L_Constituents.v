(** Lemmas on states and elements. *)
From Coq Require Import Reals List String ZArith Lra Permutation.
From Verif Require Import Py Spec M_Num M_Constituents.
Import ListNotations.
Open Scope R_scope.

(** ** Dictionaries and outcomes *)
Lemma dget_In {V} (d : dict V) k v : dget d k = Some v -> In (k, v) d.
Proof.
  induction d as [|[k' v'] r IH]; cbn; [discriminate|].
  destruct (String.eqb_spec k k') as [->|N].
  - intros [= ->]; now left.
  - intros H; right; auto.
Qed.
Lemma In_dget {V} (d : dict V) k v : dict_ok d -> In (k, v) d -> dget d k = Some v.
Proof.
  unfold dict_ok, dkeys. induction d as [|[k' v'] r IH]; cbn; [tauto|].
  intros ND [E|H].
  - injection E as -> ->. now rewrite String.eqb_refl.
  - inversion ND as [|? ? N ND']; subst.
    destruct (String.eqb_spec k k') as [->|Nk]; [|auto].
    exfalso; apply N. apply (in_map fst) in H; exact H.
Qed.
Lemma dget_None {V} (d : dict V) k : dget d k = None <-> ~ In k (dkeys d).
Proof.
  unfold dkeys. induction d as [|[k' v'] r IH]; cbn; [tauto|].
  destruct (String.eqb_spec k k') as [->|N].
  - split; [discriminate|]. intros H; exfalso; apply H; now left.
  - rewrite IH. split; intros H; [intros [E|I]; [congruence|tauto]|tauto].
Qed.

Lemma traverse_ok {A B} (f : A -> out B) (g : A -> B) l :
  (forall x, In x l -> f x = Ok (g x)) -> traverse f l = Ok (map g l).
Proof.
  unfold traverse. induction l as [|a r IH]; intros H; [reflexivity|].
  cbn [map sequence]. rewrite H by now left. cbn [bind].
  rewrite IH by (intros; apply H; now right). reflexivity.
Qed.
Lemma traverse_raise {A B} (f : A -> out B) e l :
  (forall x, In x l -> (exists y, f x = Ok y) \/ f x = Raise e) ->
  (exists x, In x l /\ f x = Raise e) -> traverse f l = Raise e.
Proof.
  unfold traverse. induction l as [|a r IH]; intros H [x [Hx Ex]]; [destruct Hx|].
  cbn [map sequence]. destruct (H a (or_introl eq_refl)) as [[y Ey]|Ea].
  - rewrite Ey; cbn [bind]. destruct Hx as [->|Hx]; [congruence|].
    rewrite IH; [reflexivity| |eauto]. intros; apply H; now right.
  - now rewrite Ea.
Qed.
Lemma traverse_inv {A B} (f : A -> out B) l m :
  traverse f l = Ok m -> forall x, In x l -> exists y, f x = Ok y.
Proof.
  unfold traverse. revert m; induction l as [|a r IH]; cbn [map sequence]; [intros ? ? ? []|].
  intros m H x Hx. destruct (f a) as [y| |] eqn:E; cbn [bind] in H; try discriminate.
  destruct (sequence (map f r)) as [s| |] eqn:E2; cbn [bind] in H; try discriminate.
  destruct Hx as [->|Hx]; eauto.
Qed.

Lemma Rsum_cons x l : Rsum (x :: l) = x + Rsum l.
Proof. reflexivity. Qed.
Lemma py_sum_Rsum_acc l a : fold_left Rplus l a = a + Rsum l.
Proof. revert a; induction l as [|x r IH]; intros a; [cbn; lra|]. rewrite Rsum_cons. cbn [fold_left]. rewrite IH. lra. Qed.
Lemma py_sum_Rsum l : py_sum_R l = Rsum l.
Proof. unfold py_sum_R. rewrite py_sum_Rsum_acc. lra. Qed.
Lemma Rsum_perm l m : Permutation l m -> Rsum l = Rsum m.
Proof. induction 1; rewrite ?Rsum_cons in *; lra. Qed.
Lemma Rsum_nonneg l : Forall (fun x => 0 <= x) l -> 0 <= Rsum l.
Proof. induction 1; rewrite ?Rsum_cons in *; try lra. cbn; lra. Qed.
Lemma Rsum_ge l x : Forall (fun x => 0 <= x) l -> In x l -> x <= Rsum l.
Proof.
  induction l as [|a r IH]; intros F I; [destruct I|].
  inversion F; subst. rewrite Rsum_cons. pose proof (Rsum_nonneg r ltac:(assumption)).
  destruct I as [->|I]; [lra|]. specialize (IH ltac:(assumption) I). lra.
Qed.
Lemma Rsum_scale {A} (f : A -> R) c l : Rsum (map (fun x => c * f x) l) = c * Rsum (map f l).
Proof. induction l; cbn [map]; rewrite ?Rsum_cons; [cbn; lra|]. rewrite IHl. lra. Qed.
Lemma Rsum_le {A} (f g : A -> R) l : (forall x, In x l -> f x <= g x) -> Rsum (map f l) <= Rsum (map g l).
Proof.
  induction l as [|a r IH]; intros H; cbn [map]; rewrite ?Rsum_cons; [cbn; lra|].
  pose proof (H a (or_introl eq_refl)). pose proof (IH ltac:(intros; apply H; now right)). lra.
Qed.

(** ** States *)
Lemma keys_values (pw : dict R) : dict_ok pw ->
  traverse (fun j => dgetE pw j) (dkeys pw) = Ok (dvalues pw).
Proof.
  intros OK.
  set (g := fun j => match dget pw j with Some v => v | None => 0 end).
  rewrite (traverse_ok _ g).
  - f_equal. unfold dkeys, dvalues. rewrite map_map. apply map_ext_in. intros [k v] Hin.
    cbn. unfold g. now rewrite (In_dget _ _ _ OK Hin).
  - intros j Hj. unfold dkeys in Hj. apply in_map_iff in Hj. destruct Hj as [[k v] [<- Hin]].
    cbn. unfold dgetE, g. now rewrite (In_dget _ _ _ OK Hin).
Qed.

Lemma state_total J tJ p E pw : dict_ok pw ->
  exists s, State J tJ p E pw = Ok s /\ partial_widths s = Ok pw /\ width s = Ok (Rsum (dvalues pw)) /\
            st_J_pi s = J /\ st_two_J s = tJ /\ st_parity s = p /\ st_excitation_energy s = E.
Proof.
  intros OK. unfold State. rewrite keys_values by assumption. cbn [bind].
  eexists; split; [reflexivity|]. cbn. rewrite py_sum_Rsum. auto 10.
Qed.

Lemma state_inv J tJ p E pw s : dict_ok pw -> State J tJ p E pw = Ok s ->
  partial_widths s = Ok pw /\ width s = Ok (Rsum (dvalues pw)) /\ st_J_pi s = J /\ st_two_J s = tJ /\
  st_parity s = p /\ st_excitation_energy s = E.
Proof.
  intros OK H. destruct (state_total J tJ p E pw OK) as (s' & H' & R). rewrite H in H'.
  injection H' as <-. exact R.
Qed.

Lemma dict_ok_perm {V} (d d' : dict V) : Permutation d d' -> dict_ok d -> dict_ok d'.
Proof. intros P. unfold dict_ok, dkeys. apply Permutation_NoDup. now apply Permutation_map. Qed.

Lemma width_order J tJ p E pw pw' s s' : dict_ok pw -> Permutation pw pw' ->
  State J tJ p E pw = Ok s -> State J tJ p E pw' = Ok s' -> width s = width s'.
Proof.
  intros OK P H H'. pose proof (dict_ok_perm _ _ P OK) as OK'.
  destruct (state_inv _ _ _ _ _ _ OK H) as (_ & -> & _).
  destruct (state_inv _ _ _ _ _ _ OK' H') as (_ & -> & _).
  f_equal. apply Rsum_perm. unfold dvalues. now apply Permutation_map.
Qed.

Lemma width_bounds J tJ p E pw s w : dict_ok pw -> Forall (fun x => 0 <= x) (dvalues pw) ->
  State J tJ p E pw = Ok s -> width s = Ok w ->
  0 <= w /\ forall j g, In (j, g) pw -> g <= w.
Proof.
  intros OK F H W. destruct (state_inv _ _ _ _ _ _ OK H) as (_ & W' & _).
  rewrite W' in W. injection W as <-. split; [now apply Rsum_nonneg|].
  intros j g I. apply Rsum_ge; [assumption|]. unfold dvalues. change g with (snd (j, g)). now apply in_map.
Qed.

(** ** Elements *)
Section El.
  Variable isotopes : dict (isotope R).
  Variable abundances : dict R.
  Hypothesis OKi : dict_ok isotopes.

  Lemma amu_ok : dict_ok abundances ->
    (forall k, In k (dkeys isotopes) -> In k (dkeys abundances)) ->
    forall ab, (forall k a, In (k, a) abundances -> ab k = a) ->
    amu_from_isotopic_composition (fun a b => Ok (a * b)) py_sum_R abundances isotopes =
    Ok (Rsum (map (fun ki => iso_mass (snd ki) * ab (fst ki)) isotopes)).
  Proof.
    intros OKa H ab Hab. unfold amu_from_isotopic_composition.
    set (g := fun k => match dget isotopes k with Some i => iso_mass i * ab k | None => 0 end).
    rewrite (traverse_ok _ g).
    - cbn [bind]. rewrite py_sum_Rsum. f_equal. f_equal.
      unfold dkeys. rewrite map_map. apply map_ext_in. intros [k i] Hin. unfold g; cbn.
      now rewrite (In_dget _ _ _ OKi Hin).
    - intros k Hk. pose proof (H k Hk) as Hk'. unfold g, dgetE.
      unfold dkeys in Hk, Hk'. apply in_map_iff in Hk. destruct Hk as [[k1 i] [E Hin]]. cbn in E; subst k1.
      apply in_map_iff in Hk'. destruct Hk' as [[k1 a] [E Hin']]. cbn in E; subst k1.
      rewrite (In_dget _ _ _ OKi Hin). rewrite (In_dget _ _ _ OKa Hin'). cbn.
      now rewrite (Hab _ _ Hin').
  Qed.

  Lemma amu_missing : (exists k, In k (dkeys isotopes) /\ ~ In k (dkeys abundances)) ->
    amu_from_isotopic_composition (fun a b => Ok (a * b)) py_sum_R abundances isotopes = Raise KeyError.
  Proof.
    intros [k [Hk Nk]]. unfold amu_from_isotopic_composition. rewrite (traverse_raise _ KeyError); [reflexivity| |].
    - intros x Hx. unfold dkeys in Hx. apply in_map_iff in Hx. destruct Hx as [[k1 i] [E Hin]]. cbn in E; subst k1.
      unfold dgetE. rewrite (In_dget _ _ _ OKi Hin). cbn.
      destruct (dget abundances x); cbn; eauto.
    - exists k; split; [assumption|]. unfold dgetE. destruct (dget isotopes k) as [i|]; cbn; [|reflexivity].
      apply dget_None in Nk. rewrite Nk. reflexivity.
  Qed.
End El.

Lemma convex_bounds (isotopes : dict (isotope R)) ab lo hi :
  (forall ki, In ki isotopes -> 0 <= ab (fst ki)) ->
  Rsum (map (fun ki => ab (fst ki)) isotopes) = 1 ->
  (forall ki, In ki isotopes -> lo <= iso_mass (snd ki) <= hi) ->
  lo <= Rsum (map (fun ki => iso_mass (snd ki) * ab (fst ki)) isotopes) <= hi.
Proof.
  intros P S B. split.
  - replace lo with (Rsum (map (fun ki => lo * ab (fst ki)) isotopes))
      by (rewrite (Rsum_scale (fun ki : string * isotope R => ab (fst ki))); rewrite S; ring).
    apply Rsum_le. intros ki I. apply Rmult_le_compat_r; [auto|]. apply B; assumption.
  - replace hi with (Rsum (map (fun ki => hi * ab (fst ki)) isotopes))
      by (rewrite (Rsum_scale (fun ki : string * isotope R => ab (fst ki))); rewrite S; ring).
    apply Rsum_le. intros ki I. apply Rmult_le_compat_r; [auto|]. apply B; assumption.
Qed.

Lemma Element_R_amu Z X isotopes abundances density :
  Element_R Z X isotopes abundances density =
  bind (amu_from_isotopic_composition (fun a b => Ok (a * b)) py_sum_R abundances isotopes)
    (fun amu => Ok {| el_Z := Z; el_X := X; el_isotopes := isotopes; el_abundances := abundances;
                      el_density := density; el_amu := amu |}).
Proof. reflexivity. Qed.

Lemma amu_surplus (isotopes : dict (isotope R)) abundances k a :
  ~ In k (dkeys isotopes) ->
  amu_from_isotopic_composition (fun a b => Ok (a * b)) py_sum_R (abundances ++ [(k, a)]) isotopes =
  amu_from_isotopic_composition (fun a b => Ok (a * b)) py_sum_R abundances isotopes.
Proof.
  intros N. unfold amu_from_isotopic_composition. f_equal. unfold traverse. f_equal.
  apply map_ext_in. intros x Hx. destruct (dgetE isotopes x); cbn; try reflexivity.
  f_equal. unfold dgetE.
  assert (x <> k) by congruence.
  assert (D : dget (abundances ++ [(k, a)]) x = dget abundances x).
  { clear - H. induction abundances as [|[k' v'] r IH]; cbn.
    - destruct (String.eqb_spec x k); congruence.
    - destruct (String.eqb x k'); auto. }
  now rewrite D.
Qed.

(** ** Branching ratios *)
From Verif Require Import M_Resonance.
Lemma branching_ok s pw w f g : partial_widths s = Ok pw -> width s = Ok w -> w <> 0 ->
  dget pw (st_J_pi f) = Some g -> get_final_state_branching_ratio s (Some f) = Ok (g / w).
Proof.
  intros P W N D. unfold get_final_state_branching_ratio. rewrite P. cbn [bind]. unfold dgetE. rewrite D.
  cbn [bind]. rewrite W. cbn [bind]. unfold fdiv. destruct (Req_EM_T w 0); [contradiction|reflexivity].
Qed.

Lemma branching_sum s pw w fs : partial_widths s = Ok pw -> width s = Ok w ->
  dict_ok pw -> w = Rsum (dvalues pw) -> w <> 0 ->
  Permutation (map st_J_pi fs) (dkeys pw) ->
  exists brs, traverse (fun f => get_final_state_branching_ratio s (Some f)) fs = Ok brs /\ Rsum brs = 1.
Proof.
  intros P W OK Ew N Perm.
  set (g := fun j => match dget pw j with Some v => v | None => 0 end).
  exists (map (fun f => / w * g (st_J_pi f)) fs). split.
  - apply traverse_ok. intros f Hf.
    assert (In (st_J_pi f) (dkeys pw)) as K
      by (eapply Permutation_in; [exact Perm|]; now apply in_map).
    unfold dkeys in K. apply in_map_iff in K. destruct K as [[k v] [E Hin]]. cbn in E. subst k.
    rewrite (branching_ok s pw w f v P W N (In_dget _ _ _ OK Hin)).
    f_equal. unfold g. rewrite (In_dget _ _ _ OK Hin). unfold Rdiv. ring.
  - rewrite (Rsum_scale (fun f => g (st_J_pi f))).
    rewrite <- (map_map st_J_pi g). rewrite (Rsum_perm _ (map g (dkeys pw))) by now apply Permutation_map.
    replace (map g (dkeys pw)) with (dvalues pw).
    + rewrite <- Ew. field. exact N.
    + unfold dkeys, dvalues. rewrite map_map. apply map_ext_in. intros [k v] Hin. cbn. unfold g.
      now rewrite (In_dget _ _ _ OK Hin).
Qed.

Lemma element_mass Z X isotopes abundances density ab :
  dict_ok isotopes -> dict_ok abundances ->
  (forall k, In k (dkeys isotopes) -> In k (dkeys abundances)) ->
  (forall k a, In (k, a) abundances -> ab k = a) ->
  exists e, Element_R Z X isotopes abundances density = Ok e /\
    el_amu e = Rsum (map (fun ki => iso_mass (snd ki) * ab (fst ki)) isotopes) /\
    el_Z e = Z /\ el_X e = X /\ el_isotopes e = isotopes /\ el_abundances e = abundances /\ el_density e = density.
Proof.
  intros A B C D. rewrite Element_R_amu, (amu_ok _ _ A B C ab D). cbn [bind].
  eexists; split; [reflexivity|]. cbn. auto 10.
Qed.
Lemma element_missing Z X isotopes abundances density :
  dict_ok isotopes -> dict_ok abundances ->
  (Element_R Z X isotopes abundances density = Raise KeyError <->
   exists k, In k (dkeys isotopes) /\ ~ In k (dkeys abundances)).
Proof.
  intros A B. split.
  - intros H. destruct (Forall_dec (fun k => In k (dkeys abundances)) (fun k => in_dec string_dec k _) (dkeys isotopes)) as [F|F].
    + rewrite Element_R_amu in H.
      rewrite (amu_ok _ _ A B (proj1 (Forall_forall _ _) F)
                (fun k => match dget abundances k with Some v => v | None => 0 end)) in H.
      * discriminate.
      * intros k a I. now rewrite (In_dget _ _ _ B I).
    + apply Exists_exists. apply neg_Forall_Exists_neg; [|exact F].
      intros k. apply in_dec, string_dec.
  - intros E. rewrite Element_R_amu, (amu_missing _ _ A E). reflexivity.
Qed.
Lemma element_surplus Z X isotopes abundances density k a e :
  ~ In k (dkeys isotopes) -> Element_R Z X isotopes abundances density = Ok e ->
  exists e', Element_R Z X isotopes (abundances ++ [(k, a)]) density = Ok e' /\ el_amu e' = el_amu e.
Proof.
  intros N. rewrite !Element_R_amu, amu_surplus by assumption.
  destruct (amu_from_isotopic_composition _ _ _ _); cbn [bind]; try discriminate.
  intros [= <-]. eexists; split; reflexivity.
Qed.
Lemma element_between Z X (isotopes : dict (isotope R)) abundances density ab lo hi e :
  dict_ok isotopes -> dict_ok abundances ->
  (forall k, In k (dkeys isotopes) -> In k (dkeys abundances)) ->
  (forall k a, In (k, a) abundances -> ab k = a) ->
  (forall ki, In ki isotopes -> 0 <= ab (fst ki)) ->
  Rsum (map (fun ki => ab (fst ki)) isotopes) = 1 ->
  (forall ki, In ki isotopes -> lo <= iso_mass (snd ki) <= hi) ->
  Element_R Z X isotopes abundances density = Ok e -> lo <= el_amu e <= hi.
Proof.
  intros A B C D P S M H. destruct (element_mass Z X _ _ density ab A B C D) as (e' & H' & E & _).
  rewrite H in H'. injection H' as <-. rewrite E. now apply convex_bounds.
Qed.

Lemma branching_ratios J two_J parity E (pw : dict R) s w fs : dict_ok pw ->
  State J two_J parity E pw = Ok s -> width s = Ok w -> w <> 0 ->
  Permutation (map st_J_pi fs) (dkeys pw) ->
  exists brs, traverse (fun f => get_final_state_branching_ratio s (Some f)) fs = Ok brs /\ Rsum brs = 1.
Proof.
  intros OK H W N P. destruct (state_inv _ _ _ _ _ _ OK H) as (Hp & Hw & _).
  apply (branching_sum s pw w fs Hp W OK); [congruence|exact N|exact P].
Qed.
