(** The module-level loop that creates the tables. *)
From Coq Require Import Reals Ascii String List ZArith Bool Lia Lra.
From Verif Require Import Py PyStr PyNum M_Readers M_Constituents M_Xrmac M_XrmacTables S_Decimal S_Natural S_XrmacTables L_Decimal L_Natural L_XrmacReader.
Import ListNotations.
Open Scope string_scope.
Open Scope R_scope.
Open Scope py_scope.

Lemma bind_ok {A B} (x : out A) (f : A -> out B) b : bind x f = Ok b -> exists a, x = Ok a /\ f a = Ok b.
Proof. destruct x; try discriminate. eauto. Qed.
Lemma bind_ok_iff {A B} (x : out A) (f : A -> out B) b : bind x f = Ok b <-> exists a, x = Ok a /\ f a = Ok b.
Proof. split; [apply bind_ok|]. intros (a & -> & H). exact H. Qed.
Lemma traverse_iff {A B} (f : A -> out B) l m : traverse f l = Ok m <-> Forall2 (fun a b => f a = Ok b) l m.
Proof.
  revert m. induction l as [|a l IH]; intros m.
  - split; [intros E; injection E as <-; constructor|]. intros F; inversion F; reflexivity.
  - rewrite traverse_cons. split.
    + intros H. apply bind_ok in H. destruct H as (b & E1 & H). apply bind_ok in H. destruct H as (m' & E2 & H). injection H as <-. constructor; [exact E1|now apply IH].
    + intros F. inversion F as [|? b ? m' E1 F']; subst. rewrite E1. cbn [bind]. apply IH in F'. rewrite F'. reflexivity.
Qed.
Definition row_conv {A} (f g : num -> out A) (r : num * num * num) (x : A * A * A) : Prop :=
  f (fst (fst r)) = Ok (fst (fst x)) /\ g (snd (fst r)) = Ok (snd (fst x)) /\ g (snd r) = Ok (snd x).
Lemma line_conv {A} (f g : num -> out A) skip line x : xrmac_line f g skip line = Ok x <-> exists r, xrmac_line Ok Ok skip line = Ok r /\ row_conv f g r x.
Proof.
  unfold xrmac_line. set (fs := py_split _ _). clearbody fs. split.
  - intros H. apply bind_ok in H. destruct H as (f0 & E0 & H). apply bind_ok in H. destruct H as (v0 & V0 & H). apply bind_ok in H. destruct H as (x0 & X0 & H).
    apply bind_ok in H. destruct H as (f1 & E1 & H). apply bind_ok in H. destruct H as (v1 & V1 & H). apply bind_ok in H. destruct H as (x1 & X1 & H).
    apply bind_ok in H. destruct H as (f2 & E2 & H). apply bind_ok in H. destruct H as (v2 & V2 & H). apply bind_ok in H. destruct H as (x2 & X2 & H). injection H as <-.
    exists (v0, v1, v2). rewrite E0. cbn [bind]. rewrite V0. cbn [bind]. rewrite E1. cbn [bind]. rewrite V1. cbn [bind]. rewrite E2. cbn [bind]. rewrite V2. cbn [bind]. repeat split; assumption.
  - intros (r & H & C0 & C1 & C2). apply bind_ok in H. destruct H as (f0 & E0 & H). apply bind_ok in H. destruct H as (v0 & V0 & H). cbn [bind] in H.
    apply bind_ok in H. destruct H as (f1 & E1 & H). apply bind_ok in H. destruct H as (v1 & V1 & H). cbn [bind] in H.
    apply bind_ok in H. destruct H as (f2 & E2 & H). apply bind_ok in H. destruct H as (v2 & V2 & H). cbn [bind] in H. injection H as <-. cbn [fst snd] in *.
    rewrite E0. cbn [bind]. rewrite V0. cbn [bind]. rewrite C0. cbn [bind]. rewrite E1. cbn [bind]. rewrite V1. cbn [bind]. rewrite C1. cbn [bind]. rewrite E2. cbn [bind]. rewrite V2. cbn [bind]. rewrite C2. cbn [bind].
    destruct x as [[? ?] ?]. reflexivity.
Qed.
Lemma Forall2_split {A B C} (P : A -> B -> Prop) (Q : B -> C -> Prop) l n :
  Forall2 (fun a c => exists b, P a b /\ Q b c) l n <-> exists m, Forall2 P l m /\ Forall2 Q m n.
Proof.
  split.
  - induction 1 as [|a c l n (b & H1 & H2) F (m & F1 & F2)]; [exists []; split; constructor|]. exists (b :: m). split; now constructor.
  - intros (m & F1 & F2). revert n F2. induction F1 as [|a b l m H F IH]; intros n F2; inversion F2; subst; constructor; [exists b; now split|now apply IH].
Qed.
Lemma Forall2_iff {A B} (P Q : A -> B -> Prop) l m : (forall a b, P a b <-> Q a b) -> Forall2 P l m <-> Forall2 Q l m.
Proof. intros H. split; intros F; induction F; constructor; try assumption; now apply H. Qed.
Lemma read_conv {A} (f g : num -> out A) file data : read_nist_xrmac f g file = Ok data <->
  exists rows, read_nist_xrmac Ok Ok file = Ok rows /\ Forall2 (row_conv f g) rows data.
Proof.
  unfold read_nist_xrmac. rewrite bind_ok_iff. split.
  - intros (skip & E & T). apply traverse_iff in T. rewrite (Forall2_iff _ _ _ _ (fun a b => line_conv f g skip a b)) in T. apply Forall2_split in T. destruct T as (rows & F1 & F2).
    exists rows. split; [|exact F2]. rewrite E. cbn [bind]. now apply traverse_iff.
  - intros (rows & H & F2). apply bind_ok in H. destruct H as (skip & E & T). exists skip. split; [exact E|]. apply traverse_iff in T. apply traverse_iff.
    apply (Forall2_iff _ _ _ _ (fun a b => line_conv f g skip a b)). apply Forall2_split. exists rows. now split.
Qed.
Lemma rows_nonempty {A} (f g : num -> out A) file data : read_nist_xrmac f g file = Ok data -> data <> [].
Proof.
  unfold read_nist_xrmac, xrmac_skip. destruct (file_lines file) as [|[|c s] ls]; try discriminate. cbn [bind]. intros T E. subst data. apply traverse_iff in T. inversion T.
Qed.
Lemma num_R_worth n x : num_R n = Ok x <-> worth n x.
Proof. destruct n; cbn; split; try discriminate; try contradiction; [intros E; now injection E|now intros ->]. Qed.

(** ** Creating one object *)
Lemma object_iff minval g ec xc file o : XRMAC_file minval g ec xc file = Ok o <->
  exists rows, read_nist_xrmac Ok Ok file = Ok rows /\
    Forall2 (row_conv (fun v => let! x := num_R v in ec g x) (fun v => let! x := num_R v in xc g x)) rows (xo_data o) /\
    (forall e, interpolate_log_log minval (map fst (xo_data o)) <> Raise e) /\
    xo_energy_conversion o = ec /\ xo_xrmac_conversion o = xc /\ xo_interpolation o = interpolate_log_log minval (map fst (xo_data o)).
Proof.
  unfold XRMAC_file. rewrite bind_ok_iff. split.
  - intros (data & R & H). apply read_conv in R. destruct R as (rows & R & F). exists rows. split; [exact R|].
    destruct (interpolate_log_log minval (map fst data)) as [i| |e] eqn:E; try discriminate; injection H as <-; cbn; rewrite E; (split; [exact F|]; repeat split; discriminate).
  - intros (rows & R & F & N & E1 & E2 & E3). exists (xo_data o). split; [apply read_conv; now exists rows|]. 
    destruct (interpolate_log_log minval (map fst (xo_data o))) as [i| |e] eqn:E; [| |now exfalso; apply (N e)]; destruct o; cbn in *; congruence.
Qed.
Lemma plain_rows g rows data : Forall2 (row_conv (fun v => let! x := num_R v in no_conversion g x) (fun v => let! x := num_R v in no_conversion g x)) rows data <-> Forall2 row_worth rows data.
Proof.
  assert (H : forall v y, (let! x := num_R v in no_conversion g x) = Ok y <-> worth v y) by (intros v y; rewrite <- num_R_worth; unfold no_conversion; destruct (num_R v); cbn; split; intros E; try discriminate; exact E).
  apply Forall2_iff. intros r x. unfold row_conv, row_worth. now rewrite !H.
Qed.
Definition mass_now (g : globals) (m : R) : Prop := exists x e, current_symbol g = Ok x /\ dget (g_natural_elements g) x = Some e /\ has_mass e m.
Lemma conversion_iff amc g v y : fm2_per_atom amc g v = Ok y <-> exists m, mass_now g m /\ y = v * per_atom amc m.
Proof.
  unfold fm2_per_atom, mass_now, has_mass, dgetE. split.
  - intros H. apply bind_ok in H. destruct H as (x & E1 & H). apply bind_ok in H. destruct H as (e & E2 & H). apply bind_ok in H. destruct H as (m & E3 & H). injection H as <-.
    destruct (dget (g_natural_elements g) x) as [e'|] eqn:D; [|discriminate]. injection E2 as ->. destruct (el_amu e) as [a|] eqn:M; [|discriminate]. apply num_R_worth in E3.
    exists m. split; [exists x, e; repeat split; [exact E1|exact D|now exists a]|]. unfold per_atom, cm_to_fm, kg_to_g. ring.
  - intros (m & (x & e & E1 & E2 & a & E3 & W) & ->). rewrite E1. cbn [bind]. rewrite E2. cbn [bind]. rewrite E3. apply num_R_worth in W. rewrite W. cbn [bind]. f_equal. unfold per_atom, cm_to_fm, kg_to_g. ring.
Qed.
Lemma mass_now_fun g m m' : mass_now g m -> mass_now g m' -> m = m'.
Proof.
  intros (x & e & E1 & E2 & a & E3 & W) (x' & e' & E1' & E2' & a' & E3' & W'). rewrite E1 in E1'. injection E1' as <-. rewrite E2 in E2'. injection E2' as <-. rewrite E3 in E3'. injection E3' as <-. exact (worth_fun a m m' W W').
Qed.
Lemma converted_rows amc g rows data1 data2 : rows <> [] -> Forall2 row_worth rows data1 ->
  Forall2 (row_conv (fun v => let! x := num_R v in no_conversion g x) (fun v => let! x := num_R v in fm2_per_atom amc g x)) rows data2 <->
  exists m, mass_now g m /\ Forall2 (scaled (per_atom amc m)) data1 data2.
Proof.
  intros N F1.
  assert (H : forall v x y, worth v x -> (let! x := num_R v in fm2_per_atom amc g x) = Ok y <-> exists m, mass_now g m /\ y = x * per_atom amc m).
  { intros v x y W. apply num_R_worth in W. rewrite W. cbn [bind]. apply conversion_iff. }
  assert (H0 : forall v x y, worth v x -> (let! x := num_R v in no_conversion g x) = Ok y <-> y = x).
  { intros v x y W. apply num_R_worth in W. rewrite W. cbn [bind]. unfold no_conversion. split; [intros E; now injection E|now intros ->]. }
  split.
  - intros F2. assert (M : exists m, mass_now g m).
    { destruct F1 as [|r x rows data1 (W0 & W1 & W2) F1]; [congruence|]. inversion F2 as [|? y ? data2' (C0 & C1 & C2) F2']; subst. apply (H _ _ _ W1) in C1. destruct C1 as (m & Hm & _). now exists m. }
    destruct M as [m Hm]. exists m. split; [exact Hm|]. clear N. revert data2 F2. induction F1 as [|r x rows data1 (W0 & W1 & W2) F1 IH]; intros data2 F2; inversion F2 as [|? y ? data2' (C0 & C1 & C2) F2']; subst; constructor; [|now apply IH].
    apply (H0 _ _ _ W0) in C0. apply (H _ _ _ W1) in C1. apply (H _ _ _ W2) in C2. destruct C1 as (m1 & Hm1 & C1). destruct C2 as (m2 & Hm2 & C2).
    rewrite (mass_now_fun g m m1 Hm Hm1) at 1. split; [exact C0|]. split; [now rewrite C1|]. rewrite <- (mass_now_fun g m m1 Hm Hm1), (mass_now_fun g m m2 Hm Hm2). exact C2.
  - intros (m & Hm & S). clear N. revert data2 S. induction F1 as [|r x rows data1 (W0 & W1 & W2) F1 IH]; intros data2 S; inversion S as [|? y ? data2' (C0 & C1 & C2) S']; subst; constructor; [|now apply IH].
    split; [now apply (H0 _ _ _ W0)|]. split; [apply (H _ _ _ W1); now exists m|apply (H _ _ _ W2); now exists m].
Qed.

(** ** The loop *)
Lemma F2_length {A B} (P : A -> B -> Prop) l m : Forall2 P l m -> List.length l = List.length m.
Proof. induction 1; cbn; congruence. Qed.
Section Loop.
  Variables (minval : nat) (amc : R) (file : Z -> string).
  Definition made (X : list (option Z * option string)) (els : dict natural_element) (z : Z) (x : string) (o1 o2 : xrmac_object) : Prop :=
    converted_table amc (file z) els x o1 o2 /\ xo_xrmac_conversion o1 = no_conversion /\ xo_xrmac_conversion o2 = fm2_per_atom amc /\
    xo_interpolation o1 = interpolate_log_log minval (map fst (xo_data o1)) /\ xo_interpolation o2 = interpolate_log_log minval (map fst (xo_data o2)).
  Lemma dget_keys_none {V} (d : dict V) k : ~ In k (dkeys d) -> dget d k = None.
  Proof. induction d as [|[a b] d IH]; [reflexivity|]. cbn. intros N. destruct (String.eqb_spec k a) as [->|]; [exfalso; apply N; now left|]. apply IH. tauto. Qed.
  Lemma dget_some_key {V} (d : dict V) k v : dget d k = Some v -> In k (dkeys d).
  Proof. intros H. destruct (in_dec string_dec k (dkeys d)) as [I|N]; [exact I|]. rewrite (dget_keys_none d k N) in H. discriminate. Qed.
  Lemma loop_made zs : forall g cm2 fm2 Xs, symbol_table (g_X g) zs Xs -> NoDup (dkeys cm2 ++ Xs) -> dkeys cm2 = dkeys fm2 ->
    forall g' cm2' fm2', xrmac_tables_loop minval amc file zs g cm2 fm2 = Ok (g', cm2', fm2') ->
    g_Z g' = last zs (g_Z g) /\ g_X g' = g_X g /\ g_natural_elements g' = g_natural_elements g /\
    dkeys cm2' = (dkeys cm2 ++ Xs)%list /\ dkeys fm2' = (dkeys fm2 ++ Xs)%list /\
    (forall x o, dget cm2 x = Some o -> dget cm2' x = Some o) /\ (forall x o, dget fm2 x = Some o -> dget fm2' x = Some o) /\
    Forall2 (fun z x => exists o1 o2, dget cm2' x = Some o1 /\ dget fm2' x = Some o2 /\ made (g_X g) (g_natural_elements g) z x o1 o2) zs Xs.
  Proof.
    induction zs as [|z zs IH]; intros g cm2 fm2 Xs T ND K g' cm2' fm2' L.
    - inversion T; subst. cbn in L. injection L as <- <- <-. rewrite !app_nil_r. repeat split; auto.
    - inversion T as [|? x ? Xs' Ex T']; subst. cbn [xrmac_tables_loop] in L. apply bind_ok in L. destruct L as (o1 & O1 & L). apply bind_ok in L. destruct L as (x' & Ex' & L).
      apply bind_ok in L. destruct L as (o2 & O2 & L). unfold current_symbol in Ex'. cbn [set_Z g_X g_Z] in Ex'. rewrite Ex in Ex'. injection Ex' as <-.
      assert (Nx : ~ In x (dkeys cm2)) by (intros I; apply NoDup_remove_2 in ND; apply ND, in_or_app; now left).
      assert (Nx2 : ~ In x (dkeys fm2)) by (rewrite <- K; exact Nx).
      destruct (IH (set_Z g z) (dset cm2 x o1) (dset fm2 x o2) Xs') with (g' := g') (cm2' := cm2') (fm2' := fm2') as (Q1 & Q2 & Q3 & Q4 & Q5 & Q6 & Q7 & Q8).
      + exact T'.
      + rewrite dkeys_new by exact Nx. rewrite <- app_assoc. exact ND.
      + rewrite !dkeys_new by assumption. now rewrite K.
      + exact L.
      + cbn [set_Z g_X g_Z g_natural_elements] in *. split; [rewrite Q1; destruct zs; [reflexivity|cbn; clear; revert z0; induction zs as [|a zs IH]; intros z0; [reflexivity|cbn; apply IH]]|].
        split; [exact Q2|]. split; [exact Q3|]. split; [rewrite Q4, dkeys_new by exact Nx; now rewrite <- app_assoc|]. split; [rewrite Q5, dkeys_new by exact Nx2; now rewrite <- app_assoc|].
        assert (Keep : forall (d : dict xrmac_object) o', ~ In x (dkeys d) -> forall y o, dget d y = Some o -> dget (dset d x o') y = Some o).
        { intros d o' N y o Hy. rewrite dget_dset. destruct (String.eqb_spec y x) as [->|]; [|exact Hy]. exfalso. apply N. exact (dget_some_key d x o Hy). }
        split; [intros y o Hy; apply Q6; now apply Keep|]. split; [intros y o Hy; apply Q7; now apply Keep|]. constructor; [|exact Q8].
        exists o1, o2. split; [apply Q6; now rewrite dget_dset, String.eqb_refl|]. split; [apply Q7; now rewrite dget_dset, String.eqb_refl|].
        apply object_iff in O1. destruct O1 as (rows & R1 & F1 & _ & _ & C1 & I1). apply plain_rows in F1.
        apply object_iff in O2. destruct O2 as (rows2 & R2 & F2 & _ & _ & C2 & I2). rewrite R1 in R2. injection R2 as <-.
        apply (converted_rows amc _ rows (xo_data o1) _ (rows_nonempty _ _ _ _ R1) F1) in F2. destruct F2 as (m & (x' & e & Y1 & Y2 & Y3) & F2).
        unfold current_symbol in Y1. cbn [set_Z g_X g_Z g_natural_elements] in Y1, Y2. rewrite Ex in Y1. injection Y1 as <-.
        split; [|repeat split; assumption]. exists rows, e, m. repeat split; assumption.
  Qed.
  (** The loop completes if all files can be read, contain enough lines and all masses are known. *)
  Lemma loop_completes zs : forall g cm2 fm2 Xs, symbol_table (g_X g) zs Xs ->
    Forall2 (fun z x => exists rows e m, read_nist_xrmac Ok Ok (file z) = Ok rows /\ (minval <= List.length rows)%nat /\ Forall (fun r => exists d, row_worth r d) rows /\
      dget (g_natural_elements g) x = Some e /\ has_mass e m) zs Xs ->
    exists r, xrmac_tables_loop minval amc file zs g cm2 fm2 = Ok r.
  Proof.
    induction zs as [|z zs IH]; intros g cm2 fm2 Xs T F; [eexists; reflexivity|]. inversion T as [|? x ? Xs' Ex T']; subst. inversion F as [|? ? ? ? (rows & e & m & RR & Ml & W & De & Me) F']; subst.
    assert (D1 : exists data1, Forall2 row_worth rows data1).
    { clear - W. induction W as [|r rows (d & Hd) W [data IH]]; [exists []; constructor|]. exists (d :: data). now constructor. }
    destruct D1 as [data1 D1].
    set (data2 := map (fun d : R * R * R => (fst (fst d), snd (fst d) * per_atom amc m, snd d * per_atom amc m)) data1).
    assert (D2 : Forall2 (scaled (per_atom amc m)) data1 data2).
    { unfold data2. clear. induction data1 as [|d data1 IH]; [constructor|]. constructor; [repeat split; reflexivity|exact IH]. }
    assert (L1 : List.length data1 = List.length rows) by (symmetry; exact (F2_length _ _ _ D1)).
    assert (L2 : List.length data2 = List.length rows) by (unfold data2; now rewrite map_length).
    assert (NR : rows <> []) by exact (rows_nonempty _ _ _ _ RR).
    assert (I : forall data : list (R * R * R), List.length data = List.length rows -> forall e0, interpolate_log_log minval (map fst data) <> Raise e0).
    { intros data L e0. unfold interpolate_log_log. destruct data as [|d data]; [destruct rows; [congruence|discriminate]|]. cbn [map]. 
      replace (List.length (fst d :: map fst data) <? minval)%nat with false by (symmetry; apply Nat.ltb_ge; cbn in *; rewrite map_length, L; exact Ml).
      destruct (forallb _ _); discriminate. }
    set (o1 := {| xo_energy_conversion := no_conversion; xo_xrmac_conversion := no_conversion; xo_data := data1; xo_interpolation := interpolate_log_log minval (map fst data1) |}).
    set (o2 := {| xo_energy_conversion := no_conversion; xo_xrmac_conversion := fm2_per_atom amc; xo_data := data2; xo_interpolation := interpolate_log_log minval (map fst data2) |}).
    assert (O1 : XRMAC_file minval (set_Z g z) no_conversion no_conversion (file z) = Ok o1).
    { apply object_iff. exists rows. cbn. split; [exact RR|]. split; [now apply plain_rows|]. split; [now apply I|]. repeat split. }
    assert (O2 : XRMAC_file minval (set_Z g z) no_conversion (fm2_per_atom amc) (file z) = Ok o2).
    { apply object_iff. exists rows. cbn [o2 xo_data xo_energy_conversion xo_xrmac_conversion xo_interpolation]. split; [exact RR|]. split.
      - apply (converted_rows amc (set_Z g z) rows data1 data2 NR D1). exists m. split; [|exact D2]. exists x, e. split; [unfold current_symbol; cbn; now rewrite Ex|]. split; [exact De|exact Me].
      - split; [now apply I|]. repeat split. }
    cbn [xrmac_tables_loop]. rewrite O1. cbn [bind]. unfold current_symbol at 1. cbn [set_Z g_X g_Z]. rewrite Ex. cbn [bind]. rewrite O2. cbn [bind]. apply (IH (set_Z g z) _ _ Xs'); [exact T'|exact F'].
  Qed.
End Loop.
