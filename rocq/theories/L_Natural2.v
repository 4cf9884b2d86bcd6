(** A mass without uncertainty in a table of isotopes: the dictionary of natural elements cannot be built. *)
From Coq Require Import Ascii String List ZArith Bool Lia.
From Verif Require Import Py PyStr PyNum M_Readers M_Constituents S_Readers S_Elements S_Natural L_Str L_Density L_Density2 L_Nist L_Nist2 L_Nist3 L_Natural L_NistData L_NatData D_Elements.
Import ListNotations.
Open Scope string_scope.
Open Scope py_scope.

Definition lacks_mass (p : paragraph) : Prop := match p_mass p with VUncertain _ _ => False | _ => True end.

Lemma traverse_either {A B} (f : A -> out B) e l : (forall a, In a l -> (exists b, f a = Ok b) \/ f a = Raise e) ->
  (exists r, traverse f l = Ok r) \/ traverse f l = Raise e.
Proof.
  unfold traverse. induction l as [|a l IH]; intros H; [left; now exists []|]. cbn [map sequence].
  destruct (H a ltac:(now left)) as [(b & ->)| ->]; [|right; reflexivity]. cbn [bind].
  destruct IH as [(r & ->)| ->]; [intros x Hx; apply H; now right| |]; cbn [bind]; [left; now exists (b :: r)|now right].
Qed.
Lemma traverse_raise {A B} (f : A -> out B) e l a : (forall a, In a l -> (exists b, f a = Ok b) \/ f a = Raise e) -> In a l -> f a = Raise e ->
  traverse f l = Raise e.
Proof.
  intros H I E. destruct (traverse_either f e l H) as [(r & K)|K]; [exfalso|exact K]. clear H. revert r K. unfold traverse. induction l as [|x l IH]; [destruct I|].
  cbn [map sequence]. intros r. destruct I as [->|I]; [rewrite E; discriminate|]. destruct (f x); cbn [bind]; try discriminate.
  destruct (sequence (map f l)) as [r'| |e'] eqn:S; cbn [bind]; try discriminate. intros _. now apply (IH I r').
Qed.

Section Files.
  Variables (final : bool) (header : list string) (ps : list paragraph) (dfinal : bool) (comments : list string) (entries : list (string * string)).
  Hypothesis Fh : Forall other_ok header.
  Hypothesis Fp : Forall paragraph_ok ps.
  Hypothesis En : ending_ok final header ps.
  Hypothesis Or : ordered_Z ps.
  Hypothesis Fc : Forall comment_ok comments.
  Hypothesis Fe : Forall dentry_ok entries.
  Let file := nist_file final header ps.
  Let dens := dfile dfinal comments entries.

  Lemma element_either d z p : read_nist_element_symbols file = Ok d ->
    (forall k, zget d (Some k) = option_map (fun p => Some (p_X p)) (find (fun p => spelled (p_Z p) =? k)%Z ps)) ->
    NoDup (map isotope_name (of_Z z ps)) -> find (fun p => spelled (p_Z p) =? z)%Z ps = Some p ->
    ((exists e, natural_element_of file dens d z = Ok e) \/ natural_element_of file dens d z = Raise TypeError) /\
    forall q, In q (of_Z z ps) -> lacks_mass q -> natural_element_of file dens d z = Raise TypeError.
  Proof.
    intros R HD ND Fi. unfold natural_element_of. destruct (read_data final header ps z Fh Fp En Or ND) as (ab & iso & E & FA & FI). fold file in E. rewrite E. cbn [bind].
    rewrite HD, Fi. cbn [option_map bind].
    assert (HX : symbol_ok (p_X p)).
    { apply find_some in Fi. destruct Fi as [Hp _]. rewrite Forall_forall in Fp. now destruct (Fp p Hp) as (_ & H & _). }
    destruct (density_total dfinal comments entries (p_X p) HX Fc Fe) as [r Er]. fold dens in Er. rewrite Er. cbn [bind].
    unfold Element, amu_from_isotopic_composition.
    set (d1 := map (fun ki : string * isotope_entry => (fst ki, Isotope (iso_AX (snd ki)) (iso_amu (snd ki)) None None)) iso) in *.
    assert (K1 : dkeys iso = map isotope_name (of_Z z ps)) by (clear - FI; unfold dkeys; induction FI as [|q e l m [H _] F IH]; [reflexivity|]; cbn; now rewrite H, IH).
    assert (K2 : dkeys ab = map isotope_name (of_Z z ps)) by (clear - FA; unfold dkeys; induction FA as [|q e l m [H _] F IH]; [reflexivity|]; cbn; now rewrite H, IH).
    assert (K3 : dkeys d1 = map isotope_name (of_Z z ps)) by (rewrite <- K1; unfold d1, dkeys; rewrite map_map; reflexivity).
    set (f := fun k => let! i := dgetE d1 k in let! a := dgetE ab k in entry_mul (iso_mass i) a).
    assert (P : forall q, In q (of_Z z ps) -> ((exists b, f (isotope_name q) = Ok b) \/ f (isotope_name q) = Raise TypeError) /\ (lacks_mass q -> f (isotope_name q) = Raise TypeError)).
    { intros q Hq. destruct (Forall2_in_l _ _ _ q FI Hq) as ([k i] & Hi & E1 & E2 & E3). destruct (Forall2_in_l _ _ _ q FA Hq) as ([k' x] & Ha & E4 & E5). cbn in E1, E2, E3, E4, E5.
      unfold f. unfold dgetE. rewrite (dget_in d1 (isotope_name q) (Isotope (iso_AX i) (iso_amu i) None None)).
      2: { rewrite K3. exact ND. }
      2: { unfold d1. apply in_map_iff. exists (k, i). split; [cbn; now rewrite E1|exact Hi]. }
      rewrite (dget_in ab (isotope_name q) x); [|rewrite K2; exact ND|rewrite <- E4; exact Ha]. cbn [bind Isotope iso_mass]. split.
      - unfold entry_mul. destruct (iso_amu i), x; [left; eauto|now right|now right|now right].
      - unfold lacks_mass. intros M. destruct (p_mass q) as [|t u|t]; [|destruct M|]; cbn in E3; rewrite E3; reflexivity. }
    assert (H : forall k, In k (dkeys d1) -> (exists b, f k = Ok b) \/ f k = Raise TypeError).
    { rewrite K3. intros k Hk. apply in_map_iff in Hk. destruct Hk as (q & <- & Hq). now apply P. }
    split.
    - destruct (traverse_either f TypeError (dkeys d1) H) as [(l & ->)| ->]; cbn [bind]; [left; eauto|now right].
    - intros q Hq M. rewrite (traverse_raise f TypeError (dkeys d1) (isotope_name q) H); [reflexivity|rewrite K3; now apply in_map|now apply P].
  Qed.

  Theorem without_mass Xs z q : Forall2 (first_symbol ps) all_Z Xs -> Forall (fun z => NoDup (map isotope_name (of_Z z ps))) all_Z ->
    In z all_Z -> In q (of_Z z ps) -> lacks_mass q -> make_natural_elements file dens = Raise TypeError.
  Proof.
    intros F2 FN Iz Iq M. unfold make_natural_elements. destruct (read_symbols final header ps Fh Fp En) as (d & R & HD). fold file in R. rewrite R. cbn [bind].
    assert (K : forall z, In z all_Z -> ((exists e, natural_element_of file dens d z = Ok e) \/ natural_element_of file dens d z = Raise TypeError) /\
      forall q, In q (of_Z z ps) -> lacks_mass q -> natural_element_of file dens d z = Raise TypeError).
    { intros y Hy. destruct (Forall2_in_l _ _ _ y F2 Hy) as (X & _ & p & Fi & _). apply (element_either d y p R HD); [|exact Fi]. rewrite Forall_forall in FN. now apply FN. }
    clear F2 FN. generalize (@nil (string * natural_element)) as D. revert Iz K. generalize all_Z as zs. induction zs as [|y zs IH]; intros Iz K D; [destruct Iz|].
    cbn [natural_elements_loop]. destruct (K y ltac:(now left)) as [Y1 Y2]. destruct Y1 as [(e & Ey)|Ey]; [|now rewrite Ey].
    destruct Iz as [->|Iz]; [now rewrite (Y2 q Iq M)|]. rewrite Ey. cbn [bind]. apply IH; [exact Iz|]. intros x Hx. apply K. now right.
  Qed.
End Files.

(** The supplied file without masses. *)
Definition without (p : paragraph) : paragraph :=
  {| p_Z := p_Z p; p_X := p_X p; p_A := p_A p; p_mass := VEmpty; p_composition := p_composition p; p_others := p_others p |}.
Lemma of_Z_without z ps : of_Z z (map without ps) = map without (of_Z z ps).
Proof. unfold of_Z. induction ps as [|p ps IH]; [reflexivity|]. cbn [map filter without p_Z]. destruct (Z.eqb (spelled (p_Z p)) z); cbn [map]; now rewrite IH. Qed.
Lemma find_without z ps : find (fun p => spelled (p_Z p) =? z)%Z (map without ps) = option_map without (find (fun p => spelled (p_Z p) =? z)%Z ps).
Proof. induction ps as [|p ps IH]; [reflexivity|]. cbn [map find without p_Z]. destruct (spelled (p_Z p) =? z)%Z; [reflexivity|exact IH]. Qed.
Lemma ordered_without ps : ordered_Z ps -> ordered_Z (map without ps).
Proof. induction ps as [|p ps IH]; [easy|]. intros [F O]. cbn [map ordered_Z]. split; [|now apply IH]. apply Forall_map. exact F. Qed.
Lemma massless_example : Forall paragraph_ok (map without supplied_paragraphs) /\ ending_ok true supplied_header (map without supplied_paragraphs) /\
  ordered_Z (map without supplied_paragraphs) /\ Forall2 (first_symbol (map without supplied_paragraphs)) all_Z symbols /\
  Forall (fun z => NoDup (map isotope_name (of_Z z (map without supplied_paragraphs)))) all_Z /\
  exists q, In q (of_Z 1 (map without supplied_paragraphs)) /\ lacks_mass q.
Proof.
  split; [|split; [now left|split; [apply ordered_without, supplied_ordered|split; [|split]]]].
  - apply Forall_map. eapply Forall_impl; [|exact supplied_paragraphs_ok]. intros p (H1 & H2 & H3 & H4 & H5). repeat split; cbn; try apply H1; try apply H2; try apply H3; try apply H5; auto.
  - pose proof supplied_symbols as F. clear -F. induction F as [|z X zs Xs (p & Fi & E) F IH]; [constructor|]. constructor; [|exact IH].
    exists (without p). split; [rewrite find_without, Fi; reflexivity|exact E].
  - apply Forall_forall. intros z _. rewrite of_Z_without, map_map. exact (supplied_names z).
  - rewrite of_Z_without. destruct (of_Z 1 supplied_paragraphs) as [|q l] eqn:E; [vm_compute in E; discriminate|]. exists (without q). split; [now left|exact I].
Qed.
