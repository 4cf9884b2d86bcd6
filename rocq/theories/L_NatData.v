(** The supplied natural elements, by the general statement about files: only the paragraphs of the file are computed with. *)
From Coq Require Import Reals Ascii String List ZArith Bool Lia Lra.
From Verif Require Import Py PyStr PyNum M_Readers M_Constituents S_Readers S_Elements S_Decimal S_Natural L_Decimal L_Str L_Density L_Density2 L_DensityData L_Nist L_Nist3 L_NistData L_Nist4 L_Natural D_Elements D_Densities D_Debye.
Import ListNotations.
Open Scope string_scope.

Lemma symbols_nodup : NoDup symbols.
Proof. assert (E : nodup string_dec symbols = symbols) by (vm_compute; reflexivity). rewrite <- E. apply NoDup_nodup. Qed.

(** The supplied file fulfils the hypotheses of the general statement. *)
Definition first_symbolb (ps : list paragraph) (z : Z) (X : string) : bool :=
  match find (fun p => spelled (p_Z p) =? z)%Z ps with Some p => String.eqb (p_X p) X | None => false end.
Fixpoint forallb2 {A B} (f : A -> B -> bool) (l : list A) (m : list B) : bool :=
  match l, m with [], [] => true | a :: l', b :: m' => f a b && forallb2 f l' m' | _, _ => false end.
Lemma forallb2_ok {A B} (f : A -> B -> bool) (P : A -> B -> Prop) l m : (forall a b, f a b = true -> P a b) -> forallb2 f l m = true -> Forall2 P l m.
Proof. intros H. revert m. induction l as [|a l IH]; destruct m as [|b m]; try discriminate; [constructor|]. cbn. rewrite andb_true_iff. intros [A1 A2]. constructor; [now apply H|now apply IH]. Qed.
Lemma supplied_symbols : Forall2 (first_symbol supplied_paragraphs) all_Z symbols.
Proof.
  apply (forallb2_ok (first_symbolb supplied_paragraphs)); [|vm_compute; reflexivity]. intros z X. unfold first_symbolb, first_symbol. generalize supplied_paragraphs. intros ps.
  destruct (find _ ps) as [p|]; [|discriminate]. intros H. exists p. split; [reflexivity|]. now apply String.eqb_eq.
Qed.
Lemma supplied_masses : Forall (fun p => exists t u, p_mass p = VUncertain t u) supplied_paragraphs.
Proof.
  assert (G : forall ps, forallb (fun p => is_uncertain (p_mass p)) ps = true -> Forall (fun p => exists t u, p_mass p = VUncertain t u) ps).
  { intros ps H. apply Forall_forall. intros p I. rewrite forallb_forall in H. specialize (H p I). destruct (p_mass p) as [|t u|t]; try discriminate. now exists t, u. }
  apply G. vm_compute. reflexivity.
Qed.

Lemma supplied_dictionary : exists d, make_natural_elements elements_txt element_densities_txt = Ok d /\ dkeys d = symbols /\
  Forall2 (fun z X => exists e, dget d X = Some e /\ describes supplied_paragraphs z X e) all_Z symbols.
Proof.
  rewrite <- supplied_nist, <- supplied_file.
  apply natural_elements_general; [exact supplied_header_ok|exact supplied_paragraphs_ok|exact supplied_ending|exact supplied_ordered|exact supplied_comments_ok|exact supplied_entries_ok|
    exact supplied_masses|exact supplied_symbols|exact symbols_nodup|]. apply Forall_forall. intros z _. apply supplied_names.
Qed.
Lemma Ok_inj {A} (a b : A) : Ok a = Ok b -> b = a.
Proof. intros E. now injection E. Qed.
Lemma Forall2_combine {A B} (P : A -> B -> Prop) l m a b : Forall2 P l m -> In (a, b) (combine l m) -> P a b.
Proof. induction 1 as [|x y l m H F IH]; [intros []|]. cbn. intros [E|I]; [now injection E as <- <-|now apply IH]. Qed.
Lemma elements_combine : elements = combine all_Z symbols. Proof. reflexivity. Qed.
Lemma described d : make_natural_elements elements_txt element_densities_txt = Ok d -> dkeys d = symbols /\
  forall z X, In (z, X) elements -> exists e, dget d X = Some e /\ describes supplied_paragraphs z X e.
Proof.
  destruct supplied_dictionary as (d' & R & K & F). rewrite R. intros E. apply Ok_inj in E. subst d. split; [exact K|].
  intros z X. rewrite elements_combine. generalize dependent symbols. intros Xs K F I. exact (Forall2_combine _ _ _ z X F I).
Qed.

(** [k] is a number followed by X. *)
Definition ends_with (X k : string) : bool :=
  let n := (String.length k - String.length X)%nat in
  (String.eqb (substring n (String.length X) k) X && negb (n =? 0)%nat && every (fun c => match digit_val c with Some _ => true | None => false end) (substring 0 n k))%bool.
Lemma split_at n k : (n <= String.length k)%nat -> k = (substring 0 n k ++ substring n (String.length k - n) k).
Proof.
  revert n. induction k as [|c k IH]; intros n H; [cbn in H; replace n with 0%nat by lia; reflexivity|]. destruct n as [|n].
  - cbn. f_equal. clear. induction k as [|c k IH]; [reflexivity|]. cbn. now f_equal.
  - cbn in H |- *. f_equal. apply IH. lia.
Qed.
Lemma ends_with_ok X k : ends_with X k = true -> exists a, k = a ++ X /\ a <> "" /\ every (fun c => match digit_val c with Some _ => true | None => false end) a = true.
Proof.
  unfold ends_with. rewrite !andb_true_iff. intros [[H1 H2] H3]. apply String.eqb_eq in H1. apply negb_true_iff, Nat.eqb_neq in H2.
  set (n := (String.length k - String.length X)%nat) in *. exists (substring 0 n k). 
  assert (L : (String.length k - n)%nat = String.length X) by (unfold n in *; lia). split; [|split; [|exact H3]].
  - rewrite (split_at n k) at 1 by (unfold n; lia). now rewrite L, H1.
  - destruct k; [cbn in n; unfold n in H2; cbn in H2; lia|]. destruct n; [lia|]. discriminate.
Qed.
Lemma positive_worth m e : (0 < m)%Z -> exists x, worth (Fin m e) x /\ (0 < x)%R.
Proof. intros H. eexists. split; [reflexivity|]. apply Rmult_lt_0_compat; [now apply IZR_lt|apply powerRZ_10_pos]. Qed.

(** What a paragraph says, as numbers. *)
Definition text_num (t : string) : num := match py_float t with Ok x => x | _ => NotNum end.
Definition mass_num (p : paragraph) : num := match p_mass p with VUncertain t _ => text_num t | _ => NotNum end.
Definition count_num (p : paragraph) : num := match p_composition p with VUncertain t _ => text_num t | _ => Fin 0 0 end.
Definition amu_num (q : list paragraph) : num := num_sum (map (fun p => num_mul (mass_num p) (count_num p)) q).
Lemma mass_num_eq p m : mass_of (p_mass p) m -> mass_num p = m.
Proof. unfold mass_num, text_num. destruct (p_mass p); cbn; try contradiction. now intros ->. Qed.
Lemma count_num_eq p c : counted (p_composition p) c -> count_num p = c.
Proof. unfold count_num, text_num. destruct (p_composition p); cbn; try congruence. now intros ->. Qed.
Lemma amu_num_eq q ms cs : Forall2 (fun p m => mass_of (p_mass p) m) q ms -> Forall2 (fun p c => counted (p_composition p) c) q cs ->
  num_sum (map (fun p => num_mul (fst p) (snd p)) (combine ms cs)) = amu_num q.
Proof.
  intros F1 F2. unfold amu_num. f_equal. revert cs F2. induction F1 as [|p m q ms Hm F1 IH]; intros cs F2; inversion F2; subst; [reflexivity|].
  cbn. rewrite (mass_num_eq p m) by assumption. erewrite count_num_eq by eassumption. f_equal. now apply IH.
Qed.

Definition positive (n : num) : bool := match n with Fin m _ => (0 <? m)%Z | _ => false end.
Lemma positive_ok n : positive n = true -> exists x, worth n x /\ (0 < x)%R.
Proof. destruct n; try discriminate. cbn [positive]. intros H. apply Z.ltb_lt in H. now apply positive_worth. Qed.
Definition side (q : list paragraph) (f : num -> bool) : bool := existsb (fun p => positive (count_num p) && f (mass_num p))%bool q.
Definition mass_check (X : string) (q : list paragraph) : bool :=
  if existsb (String.eqb X) massless then match amu_num q with Fin 0 _ => true | _ => false end
  else match amu_num q with Fin m x => side q (fun y => num_le y (Fin m x)) && side q (fun y => num_le (Fin m x) y) | _ => false end.
Definition paragraph_check (X : string) (p : paragraph) : bool := (ends_with X (isotope_name p) && positive (mass_num p))%bool.
Definition element_check (ps : list paragraph) (zX : Z * string) : bool :=
  let q := of_Z (fst zX) ps in
  (negb (match q with [] => true | _ => false end) && forallb (paragraph_check (snd zX)) q && mass_check (snd zX) q)%bool.
Definition all_checks (ps : list paragraph) (l : list (Z * string)) : bool := forallb (element_check ps) l.
Lemma supplied_checks : all_checks supplied_paragraphs elements = true.
Proof. vm_compute. reflexivity. Qed.

Lemma Forall2_in_r {A B} (P : A -> B -> Prop) l m b : Forall2 P l m -> In b m -> exists a, In a l /\ P a b.
Proof. induction 1 as [|x y l m Hxy F IH]; intros I; [destruct I|]. destruct I as [<-|I]; [exists x; split; [now left|exact Hxy]|]. destruct (IH I) as (c & Hc & Pc). exists c. split; [now right|exact Pc]. Qed.
Lemma keys_isotopes {B} (R : paragraph -> string * B -> Prop) q (d : dict B) : (forall p x, R p x -> fst x = isotope_name p) -> Forall2 R q d -> dkeys d = map isotope_name q.
Proof. intros H F. unfold dkeys. induction F as [|p e l m Hp F IH]; [reflexivity|]. cbn. now rewrite (H _ _ Hp), IH. Qed.

Section One.
  Variables (ps : list paragraph) (z : Z) (X : string) (e : natural_element).
  Hypothesis D : describes ps z X e.
  Hypothesis C : element_check ps (z, X) = true.
  Hypothesis ND : NoDup (map isotope_name (of_Z z ps)).
  Let q := of_Z z ps.
  Lemma one_keys : dkeys (el_isotopes e) = map isotope_name q /\ dkeys (el_abundances e) = map isotope_name q.
  Proof.
    destruct D as (_ & _ & F1 & F2 & _). split.
    - revert F1. apply keys_isotopes. now intros p x [H _].
    - revert F2. apply keys_isotopes. now intros p x [H _].
  Qed.
  Lemma one_checks : q <> [] /\ (forall p, In p q -> ends_with X (isotope_name p) = true /\ positive (mass_num p) = true) /\ mass_check X q = true.
  Proof.
    pose proof C as C'. unfold element_check in C'. cbn [fst snd] in C'. fold q in C'. rewrite !andb_true_iff in C'. destruct C' as [[A B] M]. split; [destruct q; discriminate|]. split; [|exact M].
    intros p I. rewrite forallb_forall in B. specialize (B p I). unfold paragraph_check in B. now rewrite andb_true_iff in B.
  Qed.
  Lemma one_lookup : el_Z e = z /\ el_X e = X /\ dkeys (el_isotopes e) = dkeys (el_abundances e) /\ el_isotopes e <> [] /\ NoDup (dkeys (el_isotopes e)) /\
    forall k i, In (k, i) (el_isotopes e) -> iso_name i = k /\ (exists a, k = a ++ X /\ a <> "" /\ every (fun c => match digit_val c with Some _ => true | None => false end) a = true) /\
      exists m x, iso_mass i = Some m /\ worth m x /\ (0 < x)%R.
  Proof.
    destruct one_keys as [K1 K2]. destruct one_checks as (N & P & _). pose proof D as (E1 & E2 & F1 & _). fold q in F1.
    split; [exact E1|]. split; [exact E2|]. split; [now rewrite K1, K2|]. split; [intros E; rewrite E in F1; inversion F1 as [E'|]; now apply N|]. split; [rewrite K1; exact ND|].
    intros k i I. destruct (Forall2_in_r _ _ _ (k, i) F1 I) as (p & Ip & Q1 & Q2 & m & Q3 & Q4). cbn [fst snd] in Q1, Q2, Q4. destruct (P p Ip) as [P1 P2].
    split; [now rewrite Q2, Q1|]. split; [apply ends_with_ok; now rewrite Q1|]. rewrite (mass_num_eq _ _ Q3) in P2. destruct (positive_ok m P2) as (x & W & L). now exists m, x.
  Qed.
  Lemma one_amu : el_amu e = Some (amu_num q).
  Proof. destruct D as (_ & _ & _ & _ & ms & cs & F1 & F2 & E). rewrite E. f_equal. now apply amu_num_eq. Qed.
  Lemma one_side f : side q f = true -> exists x m, natural_isotope_mass e x /\ worth m x /\ f m = true.
  Proof.
    intros H. apply existsb_exists in H. destruct H as (p & I & H). apply andb_true_iff in H. destruct H as [A B]. destruct one_checks as (_ & P & _). destruct (P p I) as [_ P2].
    destruct (positive_ok _ P2) as (x & W & _). destruct (positive_ok _ A) as (y & W' & L). exists x, (mass_num p). split; [|split; [exact W|exact B]].
    destruct one_keys as [_ K2]. pose proof D as (_ & _ & F1 & F2 & _). 
    destruct (Forall2_in_l _ _ _ p F1 I) as ([k i] & I1 & Q1 & Q2 & m & Q3 & Q4). destruct (Forall2_in_l _ _ _ p F2 I) as ([k' a] & I2 & Q5 & c & Q6 & Q7). cbn [fst snd] in *.
    exists k, i, m, c, y. rewrite <- (mass_num_eq _ _ Q3). rewrite <- (count_num_eq _ _ Q6) in *. split; [exact I1|]. split; [now rewrite (mass_num_eq _ _ Q3)|]. split; [exact W|]. split; [|now split].
    apply dget_in; [rewrite K2; exact ND|]. rewrite Q1, <- Q5, <- Q7. exact I2.
  Qed.
  Lemma one_mass : (In X massless -> has_mass e 0) /\
    (~ In X massless -> exists x lo hi, has_mass e x /\ natural_isotope_mass e lo /\ natural_isotope_mass e hi /\ (lo <= x <= hi)%R).
  Proof.
    destruct one_checks as (_ & _ & M). unfold mass_check in M. unfold has_mass. rewrite one_amu. generalize dependent massless. intros l M.
    assert (E : existsb (String.eqb X) l = true <-> In X l).
    { rewrite existsb_exists. split; [intros (y & I & E); apply String.eqb_eq in E; now subst|]. intros I. exists X. split; [exact I|apply String.eqb_refl]. }
    destruct (existsb (String.eqb X) l); split; intros I.
    - destruct (amu_num q) as [[|m|m] x| | |]; try discriminate. exists (Fin 0 x). split; [reflexivity|apply worth_zero].
    - exfalso. apply I, E. reflexivity.
    - exfalso. apply E in I. discriminate.
    - destruct (amu_num q) as [m x| | |]; try discriminate. apply andb_true_iff in M. destruct M as [A B]. apply one_side in A. apply one_side in B.
      destruct A as (lo & ml & Nl & Wl & Ll). destruct B as (hi & mh & Nh & Wh & Lh). assert (W : worth (Fin m x) (IZR m * powerRZ 10 x)%R) by reflexivity.
      exists (IZR m * powerRZ 10 x)%R, lo, hi. split; [now exists (Fin m x)|]. split; [exact Nl|]. split; [exact Nh|].
      split; [now apply (num_le_worth _ _ _ _ Wl W)|now apply (num_le_worth _ _ _ _ W Wh)].
  Qed.
End One.

Lemma check_in ps l z X : all_checks ps l = true -> In (z, X) l -> element_check ps (z, X) = true.
Proof. unfold all_checks. rewrite forallb_forall. intros H I. now apply H. Qed.
Lemma supplied_check z X : In (z, X) elements -> element_check supplied_paragraphs (z, X) = true.
Proof. apply check_in, supplied_checks. Qed.
Lemma dget_In {V} (d : dict V) k v : dget d k = Some v -> In k (dkeys d).
Proof. induction d as [|[a b] d IH]; [discriminate|]. cbn. destruct (String.eqb_spec k a) as [->|]; [now left|right; now apply IH]. Qed.
Lemma in_combine_snd {A B} (l : list A) (m : list B) b : List.length l = List.length m -> In b m -> exists a, In (a, b) (combine l m).
Proof.
  revert m. induction l as [|a l IH]; destruct m as [|b' m]; try discriminate; [intros _ []|]. cbn. intros L [->|I]; [exists a; now left|].
  destruct (IH m) as [a' H]; [congruence|exact I|]. exists a'. now right.
Qed.
Lemma symbol_number X : In X symbols -> exists z, In (z, X) elements.
Proof. rewrite elements_combine. assert (L : List.length all_Z = List.length symbols) by reflexivity. revert L. generalize symbols. intros l L. now apply in_combine_snd. Qed.

Lemma keys d : make_natural_elements elements_txt element_densities_txt = Ok d -> dkeys d = symbols /\ NoDup (dkeys d).
Proof. intros H. destruct (described d H) as [K _]. rewrite K. split; [reflexivity|exact symbols_nodup]. Qed.
Lemma lookups d : make_natural_elements elements_txt element_densities_txt = Ok d -> forall z X, In (z, X) elements ->
  exists e, dget d X = Some e /\ el_Z e = z /\ el_X e = X /\ dkeys (el_isotopes e) = dkeys (el_abundances e) /\ el_isotopes e <> [] /\ NoDup (dkeys (el_isotopes e)) /\
  forall k i, In (k, i) (el_isotopes e) -> iso_name i = k /\ (exists a, k = a ++ X /\ a <> "" /\ every (fun c => match digit_val c with Some _ => true | None => false end) a = true) /\
    exists m x, iso_mass i = Some m /\ worth m x /\ (0 < x)%R.
Proof.
  intros H z X I. destruct (described d H) as [_ F]. destruct (F z X I) as (e & E & De). exists e. split; [exact E|].
  exact (one_lookup supplied_paragraphs z X e De (supplied_check z X I) (supplied_names z)).
Qed.
Lemma masses_data d : make_natural_elements elements_txt element_densities_txt = Ok d -> forall X e, dget d X = Some e ->
  (In X massless -> has_mass e 0) /\
  (~ In X massless -> exists x lo hi, has_mass e x /\ natural_isotope_mass e lo /\ natural_isotope_mass e hi /\ (lo <= x <= hi)%R).
Proof.
  intros H X e E. destruct (described d H) as [K F]. pose proof (dget_In d X e E) as I. rewrite K in I. destruct (symbol_number X I) as [z Iz].
  destruct (F z X Iz) as (e' & E' & De). rewrite E in E'. injection E' as <-. exact (one_mass supplied_paragraphs z X e De (supplied_check z X Iz) (supplied_names z)).
Qed.
Lemma be_occurs : occurs supplied_paragraphs 4.
Proof. exists be. split; [rewrite be_paragraph; now left|]. discriminate. Qed.
Lemma In_elements (l : list (Z * string)) n z X : nth_error l n = Some (z, X) -> In (z, X) l.
Proof. apply nth_error_In. Qed.
Lemma be_in : In (4%Z, "Be") elements.
Proof. apply (In_elements _ 3). vm_compute. reflexivity. Qed.
Lemma mass_refuted : ~ forall d, make_natural_elements elements_txt element_densities_txt = Ok d ->
  forall z X e, In (z, X) elements -> occurs supplied_paragraphs z -> dget d X = Some e -> mass_between e.
Proof.
  intros H. destruct supplied_dictionary as (d & R & _ & _). destruct (lookups d R 4%Z "Be" be_in) as (e & G & _ & _ & _ & _ & _ & Q).
  destruct (H d R 4%Z "Be" e be_in be_occurs G) as (x & lo & hi & (m & E1 & W1) & (k & i & m' & I & E2 & W2) & _ & L & _).
  destruct (masses_data d R "Be" e G) as [M _]. destruct M as (m0 & E0 & W0); [now left|]. destruct (Q k i I) as (_ & _ & m1 & y & E3 & W3 & P).
  rewrite E0 in E1. injection E1 as <-. rewrite E2 in E3. injection E3 as <-. pose proof (worth_fun _ _ _ W0 W1). pose proof (worth_fun _ _ _ W2 W3). lra.
Qed.
