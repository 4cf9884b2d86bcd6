(** The loop over the lines of a NIST file. *)
From Coq Require Import Ascii String List ZArith Bool Lia.
From Verif Require Import Py PyStr PyNum M_Readers S_Readers L_Str L_Density L_Density2 L_Nist.
Import ListNotations.
Open Scope string_scope.
Open Scope py_scope.

Definition set_Z s z := {| v_current_Z := Some (Some z); v_X := v_X s; v_A := v_A s; v_amu := v_amu s; v_abundances := v_abundances s; v_isotopes := v_isotopes s |}.
Definition set_X s x := {| v_current_Z := v_current_Z s; v_X := Some (Some x); v_A := v_A s; v_amu := v_amu s; v_abundances := v_abundances s; v_isotopes := v_isotopes s |}.
Definition set_A s a := {| v_current_Z := v_current_Z s; v_X := v_X s; v_A := Some (Some a); v_amu := v_amu s; v_abundances := v_abundances s; v_isotopes := v_isotopes s |}.
Definition set_amu s m := {| v_current_Z := v_current_Z s; v_X := v_X s; v_A := v_A s; v_amu := Some m; v_abundances := v_abundances s; v_isotopes := v_isotopes s |}.
Definition add s AX ab m := {| v_current_Z := v_current_Z s; v_X := v_X s; v_A := v_A s; v_amu := v_amu s;
  v_abundances := dset (v_abundances s) AX ab; v_isotopes := dset (v_isotopes s) AX {| iso_AX := AX; iso_amu := m |} |}.

Ltac other Q P t := rewrite (in_other Q P t) by (first [exact form_Z|exact form_A|exact form_X|exact form_amu|exact form_abundance|reflexivity|assumption]).
Lemma nl_eq t : lacks "=" t -> lacks "=" (t ++ String nl "").
Proof. intros H. apply lacks_app. now split. Qed.

Section Lines.
  Variable Z0 : Z.
  Lemma line_Z s ds : canonical ds ->
    nist_line Z0 s ((Z_prefix ++ text ds) ++ String nl "") = Ok (set_Z s (spelled ds), (spelled ds >? Z0)%Z).
  Proof.
    intros C. unfold nist_line. rewrite (prop_line Z_prefix (text ds)) by (apply text_nonempty, C). rewrite app_assoc_s, in_self.
    rewrite (canonical_int ds C). cbn [omap bind]. fold (set_Z s (spelled ds)). rewrite Z.gtb_ltb. 
    destruct (Z.ltb_spec (spelled ds) Z0); destruct (Z.ltb_spec Z0 (spelled ds)); try lia; reflexivity.
  Qed.
  Variables (s : nist_vars) (z : Z).
  Hypothesis Hz : v_current_Z s = Some (Some z).
  Lemma line_X X : symbol_ok X -> nist_line Z0 s ((X_prefix ++ X) ++ String nl "") = Ok (if (z =? Z0)%Z then set_X s X else s, false).
  Proof.
    intros [N L]. pose proof (nl_eq X (letters_lack "=" X L eq_refl)) as Q. unfold nist_line. rewrite (prop_line X_prefix X) by exact N. rewrite app_assoc_s, in_self.
    other Z_prefix X_prefix (X ++ String nl ""). other A_prefix X_prefix (X ++ String nl ""). other amu_prefix X_prefix (X ++ String nl ""). other abundance_prefix X_prefix (X ++ String nl "").
    rewrite Hz. cbn [bound bind omap]. destruct (z =? Z0)%Z; [|reflexivity]; unfold set_X, set_A, set_amu; now rewrite ?Hz.
  Qed.
  Lemma line_A ds : canonical ds -> nist_line Z0 s ((A_prefix ++ text ds) ++ String nl "") = Ok (if (z =? Z0)%Z then set_A s (spelled ds) else s, false).
  Proof.
    intros C. pose proof (nl_eq _ (text_lacks "=" ds (proj1 C) eq_refl)) as Q. unfold nist_line. rewrite (prop_line A_prefix (text ds)) by (apply text_nonempty, C). rewrite app_assoc_s, in_self.
    other Z_prefix A_prefix (text ds ++ String nl ""). other X_prefix A_prefix (text ds ++ String nl ""). other amu_prefix A_prefix (text ds ++ String nl ""). other abundance_prefix A_prefix (text ds ++ String nl "").
    rewrite Hz, (canonical_int ds C). cbn [bound bind omap]. destruct (z =? Z0)%Z; [|reflexivity]; unfold set_X, set_A, set_amu; now rewrite ?Hz.
  Qed.
  Lemma line_amu v : value_ok v -> exists x, value_read v None x /\
    nist_line Z0 s ((amu_prefix ++ value_text v) ++ String nl "") = Ok (if (z =? Z0)%Z then set_amu s x else s, false).
  Proof.
    intros V. destruct (read_value amu_prefix v None eq_refl V) as (x & Hx & E). exists x. split; [exact Hx|].
    pose proof (nl_eq _ (value_lacks_eq v V)) as Q. unfold nist_line. rewrite E. rewrite app_assoc_s, in_self.
    set (r := value_text v ++ String nl "") in *.
    other Z_prefix amu_prefix r. other X_prefix amu_prefix r. other A_prefix amu_prefix r. other abundance_prefix amu_prefix r.
    rewrite Hz. cbn [bound bind omap]. destruct (z =? Z0)%Z; [|reflexivity]; unfold set_X, set_A, set_amu; now rewrite ?Hz.
  Qed.
  Lemma line_abundance v a X m : value_ok v -> v_A s = Some (Some a) -> v_X s = Some (Some X) -> v_amu s = Some m ->
    exists x, value_read v (Some (Fin 0 0)) x /\
    nist_line Z0 s ((abundance_prefix ++ value_text v) ++ String nl "") = Ok (if (z =? Z0)%Z then add s (show_Z a ++ X) x m else s, false).
  Proof.
    intros V HA HX Hm. destruct (read_value abundance_prefix v (Some (Fin 0 0)) eq_refl V) as (x & Hx & E). exists x. split; [exact Hx|].
    pose proof (nl_eq _ (value_lacks_eq v V)) as Q. unfold nist_line. rewrite E. rewrite app_assoc_s, in_self.
    set (r := value_text v ++ String nl "") in *.
    other Z_prefix abundance_prefix r. other X_prefix abundance_prefix r. other A_prefix abundance_prefix r. other amu_prefix abundance_prefix r.
    rewrite Hz, HA, HX, Hm. cbn [bound bind omap format_d format_s]. destruct (z =? Z0)%Z; [|reflexivity]; unfold set_X, set_A, set_amu, add; now rewrite ?Hz, ?HA, ?HX, ?Hm.
  Qed.
  (** Paragraphs of other elements leave the bound variables alone. *)
  Lemma line_abundance_skip v : value_ok v -> z <> Z0 -> nist_line Z0 s ((abundance_prefix ++ value_text v) ++ String nl "") = Ok (s, false).
  Proof.
    intros V N. pose proof (nl_eq _ (value_lacks_eq v V)) as Q. unfold nist_line. rewrite app_assoc_s, in_self.
    set (r := value_text v ++ String nl "") in *.
    other Z_prefix abundance_prefix r. other X_prefix abundance_prefix r. other A_prefix abundance_prefix r. other amu_prefix abundance_prefix r.
    rewrite Hz. cbn [bound bind omap]. now rewrite (proj2 (Z.eqb_neq z Z0) N).
  Qed.
End Lines.

Lemma snoc_inv (a b : string) c d : a ++ String c "" = b ++ String d "" -> a = b /\ c = d.
Proof.
  revert b. induction a as [|x a IH]; intros [|y b] E; cbn in E.
  - injection E as ->. now split.
  - destruct b; discriminate.
  - destruct a; discriminate.
  - injection E as -> E. apply IH in E. destruct E as [-> ->]. now split.
Qed.
Lemma snoc_cases (b : string) : b = "" \/ exists b' c, b = b' ++ String c "".
Proof.
  induction b as [|c b [->|(b' & d & ->)]]; [now left|right; exists "", c; reflexivity|right; exists (String c b'), d; reflexivity].
Qed.
Lemma contains_nl p l : p <> "" -> lacks nl p -> contains p (l ++ String nl "") -> contains p l.
Proof.
  intros N H (a & b & E). destruct (snoc_cases b) as [->|(b' & c & ->)].
  - rewrite app_nil_s in E. destruct (snoc_cases p) as [->|(p' & c & ->)]; [contradiction|]. rewrite <- app_assoc_s in E. apply snoc_inv in E. destruct E as [_ <-].
    apply lacks_app in H. destruct H as [_ H]. apply lacks_cons in H. now destruct H.
  - rewrite <- !app_assoc_s in E. apply snoc_inv in E. destruct E as [-> _]. exists a, b'. now rewrite app_assoc_s.
Qed.
Lemma not_in p l : p <> "" -> lacks nl p -> ~ contains p l -> py_in p (l ++ String nl "") = false.
Proof. intros N H C. apply not_true_is_false. intros T. apply C. apply (contains_nl p l N H). now apply py_in_iff. Qed.
Lemma line_other Z0 s l : other_ok l -> nist_line Z0 s (l ++ String nl "") = Ok (s, false).
Proof.
  intros (_ & H1 & H2 & H3 & H4 & H5). unfold nist_line.
  rewrite (not_in Z_prefix l), (not_in X_prefix l), (not_in A_prefix l), (not_in amu_prefix l), (not_in abundance_prefix l); try discriminate; try reflexivity; assumption.
Qed.
Lemma loop_others Z0 s ls r : Forall other_ok ls -> nist_loop Z0 s (map (fun l => (l ++ String nl "")%string) ls ++ r) = nist_loop Z0 s r.
Proof. induction 1 as [|l ls H F IH]; [reflexivity|]. cbn [map app nist_loop]. rewrite (line_other Z0 s l H). cbn [bind]. exact IH. Qed.

Definition lines_of (p : paragraph) : list string := map (fun l => (l ++ String nl "")%string) (paragraph_lines p).
Lemma loop_cons Z0 s l r s' : nist_line Z0 s l = Ok (s', false) -> nist_loop Z0 s (l :: r) = nist_loop Z0 s' r.
Proof. intros E. cbn [nist_loop]. now rewrite E. Qed.
Lemma paragraph_small Z0 s p r : paragraph_ok p -> (spelled (p_Z p) < Z0)%Z ->
  nist_loop Z0 s (lines_of p ++ r) = nist_loop Z0 (set_Z s (spelled (p_Z p))) r.
Proof.
  intros (C1 & C2 & C3 & C4 & C5 & C6) L. unfold lines_of, paragraph_lines. rewrite map_app, <- app_assoc. cbn [map app].
  set (t := set_Z s (spelled (p_Z p))). assert (N : (spelled (p_Z p) =? Z0)%Z = false) by (apply Z.eqb_neq; lia).
  rewrite (loop_cons Z0 s _ _ t); [|change "Atomic Number = " with Z_prefix; rewrite (line_Z Z0 s _ C1); do 2 f_equal; rewrite Z.gtb_ltb; apply Z.ltb_ge; lia].
  rewrite (loop_cons Z0 t _ _ t); [|change "Atomic Symbol = " with X_prefix; rewrite (line_X Z0 t _ eq_refl _ C2); now rewrite N].
  rewrite (loop_cons Z0 t _ _ t); [|change "Mass Number = " with A_prefix; rewrite (line_A Z0 t _ eq_refl _ C3); now rewrite N].
  rewrite (loop_cons Z0 t _ _ t); [|change "Relative Atomic Mass = " with amu_prefix; destruct (line_amu Z0 t _ eq_refl _ C4) as (x & _ & ->); now rewrite N].
  rewrite (loop_cons Z0 t _ _ t); [|change "Isotopic Composition = " with abundance_prefix; apply (line_abundance_skip Z0 t _ eq_refl _ C5); lia].
  now apply loop_others.
Qed.
Lemma paragraph_large Z0 s p r : paragraph_ok p -> (Z0 < spelled (p_Z p))%Z ->
  nist_loop Z0 s (lines_of p ++ r) = Ok (set_Z s (spelled (p_Z p))).
Proof.
  intros (C1 & _) L. unfold lines_of, paragraph_lines. rewrite map_app, <- app_assoc. cbn [map app nist_loop].
  change "Atomic Number = " with Z_prefix. rewrite (line_Z Z0 s _ C1). cbn [bind]. rewrite Z.gtb_ltb, (proj2 (Z.ltb_lt _ _) L). reflexivity.
Qed.
Lemma paragraph_equal Z0 s p r : paragraph_ok p -> spelled (p_Z p) = Z0 ->
  exists x y, value_read (p_mass p) None x /\ value_read (p_composition p) (Some (Fin 0 0)) y /\
  nist_loop Z0 s (lines_of p ++ r) =
  nist_loop Z0 (add (set_amu (set_A (set_X (set_Z s Z0) (p_X p)) (spelled (p_A p))) x) (isotope_name p) y x) r.
Proof.
  intros (C1 & C2 & C3 & C4 & C5 & C6) L. subst Z0. set (Z0 := spelled (p_Z p)). 
  set (s1 := set_Z s Z0). set (s2 := set_X s1 (p_X p)). set (s3 := set_A s2 (spelled (p_A p))).
  destruct (line_amu Z0 s3 Z0 eq_refl _ C4) as (x & Hx & Ex). set (s4 := set_amu s3 x).
  destruct (line_abundance Z0 s4 Z0 eq_refl _ _ _ _ C5 eq_refl eq_refl eq_refl) as (y & Hy & Ey).
  exists x, y. split; [exact Hx|]. split; [exact Hy|].
  unfold lines_of, paragraph_lines. rewrite map_app, <- app_assoc. cbn [map app].
  rewrite (loop_cons Z0 s _ _ s1); [|change "Atomic Number = " with Z_prefix; rewrite (line_Z Z0 s _ C1); do 2 f_equal; rewrite Z.gtb_ltb; apply Z.ltb_ge; unfold Z0; lia].
  rewrite (loop_cons Z0 s1 _ _ s2); [|change "Atomic Symbol = " with X_prefix; rewrite (line_X Z0 s1 Z0 eq_refl _ C2); now rewrite Z.eqb_refl].
  rewrite (loop_cons Z0 s2 _ _ s3); [|change "Mass Number = " with A_prefix; rewrite (line_A Z0 s2 Z0 eq_refl _ C3); now rewrite Z.eqb_refl].
  rewrite (loop_cons Z0 s3 _ _ s4); [|change "Relative Atomic Mass = " with amu_prefix; rewrite Ex; now rewrite Z.eqb_refl].
  rewrite (loop_cons Z0 s4 _ _ (add s4 (isotope_name p) y x)); [|change "Isotopic Composition = " with abundance_prefix; rewrite Ey; rewrite Z.eqb_refl, (show_text _ C3); reflexivity].
  now apply loop_others.
Qed.
