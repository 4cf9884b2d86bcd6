(** NIST files with missing data. *)
From Coq Require Import Ascii String List ZArith Bool Lia.
From Verif Require Import Py PyStr PyNum M_Readers S_Readers S_Incomplete L_Str L_Density L_Density2 L_Nist L_Nist2 L_Nist3.
Import ListNotations.
Open Scope string_scope.
Open Scope py_scope.

Lemma blank_line {A} P (cast : string -> out A) d : read_nist_element_property ((P ++ "") ++ String nl "") P cast d = Ok d.
Proof. unfold read_nist_element_property. rewrite app_assoc_s. rewrite slice_mid; [|reflexivity|discriminate|reflexivity]. reflexivity. Qed.

Notation ended := (map (fun l => (l ++ String nl "")%string)).
Definition with_A s a := {| v_current_Z := v_current_Z s; v_X := v_X s; v_A := Some a; v_amu := v_amu s; v_abundances := v_abundances s; v_isotopes := v_isotopes s |}.
Definition with_X s x := {| v_current_Z := v_current_Z s; v_X := Some x; v_A := v_A s; v_amu := v_amu s; v_abundances := v_abundances s; v_isotopes := v_isotopes s |}.

Lemma line_blank_A Z0 s : v_current_Z s = Some (Some Z0) -> nist_line Z0 s ((A_prefix ++ "") ++ String nl "") = Ok (with_A s None, false).
Proof.
  intros Hz. unfold nist_line. rewrite (blank_line A_prefix). rewrite app_assoc_s, in_self. cbn [append].
  other Z_prefix A_prefix (String nl ""). other X_prefix A_prefix (String nl "").
  rewrite Hz. cbn [bound bind omap]. rewrite Z.eqb_refl. unfold with_A. now rewrite Hz.
Qed.
Lemma line_blank_X Z0 s : v_current_Z s = Some (Some Z0) -> nist_line Z0 s ((X_prefix ++ "") ++ String nl "") = Ok (with_X s None, false).
Proof.
  intros Hz. unfold nist_line. rewrite (blank_line X_prefix). rewrite app_assoc_s, in_self. cbn [append].
  other Z_prefix X_prefix (String nl "").
  rewrite Hz. cbn [bound bind omap]. rewrite Z.eqb_refl. unfold with_X. now rewrite Hz.
Qed.
(** The line with the composition in general. *)
Lemma line_composition Z0 s v : v_current_Z s = Some (Some Z0) -> value_ok v -> exists x, value_read v (Some (Fin 0 0)) x /\
  nist_line Z0 s ((abundance_prefix ++ value_text v) ++ String nl "") =
    (let! a := bound (v_A s) in let! X := bound (v_X s) in let! sa := format_d a in let! m := bound (v_amu s) in Ok (add s (sa ++ format_s X) x m, false)).
Proof.
  intros Hz V. destruct (read_value abundance_prefix v (Some (Fin 0 0)) eq_refl V) as (x & Hx & E). exists x. split; [exact Hx|].
  pose proof (nl_eq _ (value_lacks_eq v V)) as Q. unfold nist_line. rewrite E. rewrite app_assoc_s, in_self.
  set (r := value_text v ++ String nl "") in *.
  other Z_prefix abundance_prefix r. other X_prefix abundance_prefix r. other A_prefix abundance_prefix r. other amu_prefix abundance_prefix r.
  rewrite Hz. cbn [bound bind omap]. rewrite Z.eqb_refl. unfold add. rewrite Hz.
  destruct (v_A s) as [a|] eqn:EA; [|reflexivity]. destruct (v_X s) as [X|] eqn:EX; [|reflexivity]. cbn [bound bind]. destruct (format_d a); [|reflexivity..]. cbn [bind].
  destruct (v_amu s) as [m|]; reflexivity.
Qed.

(** Complete paragraphs before. *)
Lemma loop_before Z0 ps : Forall paragraph_ok ps -> Forall (fun q => (spelled (p_Z q) <= Z0)%Z) ps -> forall s r,
  exists s', nist_loop Z0 s (flat_map lines_of ps ++ r) = nist_loop Z0 s' r.
Proof.
  induction 1 as [|p ps H F IH]; intros L s r; [now exists s|]. inversion L as [|? ? L1 L2]; subst. cbn [flat_map]. rewrite <- app_assoc.
  destruct (Z.eq_dec (spelled (p_Z p)) Z0) as [E|N].
  - destruct (paragraph_equal Z0 s p (flat_map lines_of ps ++ r) H E) as (x & y & _ & _ & ->). apply (IH L2).
  - rewrite paragraph_small by (auto; lia). apply (IH L2).
Qed.
Lemma loop_other_elements Z0 ps : Forall paragraph_ok ps -> Forall (fun q => (spelled (p_Z q) < Z0)%Z) ps -> forall s r,
  exists s', nist_loop Z0 s (flat_map lines_of ps ++ r) = nist_loop Z0 s' r /\ v_A s' = v_A s.
Proof.
  induction 1 as [|p ps H F IH]; intros L s r; [now exists s|]. inversion L as [|? ? L1 L2]; subst. cbn [flat_map]. rewrite <- app_assoc.
  rewrite paragraph_small by auto. destruct (IH L2 (set_Z s (spelled (p_Z p))) r) as (s' & E & A). exists s'. now split.
Qed.
Lemma damaged_lines header ps damaged rest : Forall other_ok header -> Forall paragraph_ok ps -> Forall (lacks nl) damaged -> Forall (lacks nl) rest ->
  file_lines (damaged_file header ps damaged rest) = (ended header ++ flat_map lines_of ps ++ ended damaged ++ ended rest)%list.
Proof.
  intros Fh Fp Fd Fr. unfold damaged_file. rewrite lines_fold.
  - rewrite !map_app. do 2 f_equal. clear. induction ps as [|p ps IH]; [reflexivity|]. cbn [flat_map]. rewrite map_app, IH. reflexivity.
  - rewrite app_assoc. apply Forall_app. split; [now apply all_lack|]. now apply Forall_app.
Qed.

Section Paragraph.
  Variables (p : paragraph) (Z0 : Z).
  Hypothesis P : paragraph_ok p.
  Hypothesis HZ : spelled (p_Z p) = Z0.
  Lemma blank_A_lacks : Forall (lacks nl) (blank_A p).
  Proof.
    pose proof (paragraph_lacks p P) as F. unfold paragraph_lines in F. apply Forall_app in F. destruct F as [F _].
    inversion F as [|? ? L1 F1]; subst. inversion F1 as [|? ? L2 F2]; subst. inversion F2 as [|? ? L3 F3]; subst. inversion F3 as [|? ? L4 F4]; subst. inversion F4 as [|? ? L5 F5]; subst.
    repeat (apply Forall_cons; [first [assumption | reflexivity]|]). constructor.
  Qed.
  Lemma blank_X_lacks : Forall (lacks nl) (blank_X p).
  Proof.
    pose proof (paragraph_lacks p P) as F. unfold paragraph_lines in F. apply Forall_app in F. destruct F as [F _].
    inversion F as [|? ? L1 F1]; subst. inversion F1 as [|? ? L2 F2]; subst. inversion F2 as [|? ? L3 F3]; subst. inversion F3 as [|? ? L4 F4]; subst. inversion F4 as [|? ? L5 F5]; subst.
    repeat (apply Forall_cons; [first [assumption | reflexivity]|]). constructor.
  Qed.
  Lemma without_A_lacks : Forall (lacks nl) (without_A p).
  Proof.
    pose proof (paragraph_lacks p P) as F. unfold paragraph_lines in F. apply Forall_app in F. destruct F as [F _].
    inversion F as [|? ? L1 F1]; subst. inversion F1 as [|? ? L2 F2]; subst. inversion F2 as [|? ? L3 F3]; subst. inversion F3 as [|? ? L4 F4]; subst. inversion F4 as [|? ? L5 F5]; subst.
    repeat (apply Forall_cons; [assumption|]). constructor.
  Qed.
  Lemma first_Z s r : nist_loop Z0 s ((line_Z_of p ++ String nl "") :: r) = nist_loop Z0 (set_Z s Z0) r.
  Proof.
    destruct P as (C1 & _). apply loop_cons. unfold line_Z_of. change "Atomic Number = " with Z_prefix. rewrite (line_Z Z0 s _ C1), HZ. do 2 f_equal. rewrite Z.gtb_ltb. apply Z.ltb_ge. lia.
  Qed.
  Lemma then_X s r : v_current_Z s = Some (Some Z0) -> nist_loop Z0 s ((line_X_of p ++ String nl "") :: r) = nist_loop Z0 (set_X s (p_X p)) r.
  Proof. intros H. destruct P as (_ & C2 & _). apply loop_cons. unfold line_X_of. change "Atomic Symbol = " with X_prefix. rewrite (line_X Z0 s Z0 H _ C2). now rewrite Z.eqb_refl. Qed.
  Lemma then_A s r : v_current_Z s = Some (Some Z0) -> nist_loop Z0 s ((line_A_of p ++ String nl "") :: r) = nist_loop Z0 (set_A s (spelled (p_A p))) r.
  Proof. intros H. destruct P as (_ & _ & C3 & _). apply loop_cons. unfold line_A_of. change "Mass Number = " with A_prefix. rewrite (line_A Z0 s Z0 H _ C3). now rewrite Z.eqb_refl. Qed.
  Lemma then_amu s : v_current_Z s = Some (Some Z0) -> exists x, value_read (p_mass p) None x /\
    forall r, nist_loop Z0 s ((line_amu_of p ++ String nl "") :: r) = nist_loop Z0 (set_amu s x) r.
  Proof.
    intros H. destruct P as (_ & _ & _ & C4 & _). destruct (line_amu Z0 s Z0 H _ C4) as (x & Hx & Ex). exists x. split; [exact Hx|]. intros r. apply loop_cons.
    unfold line_amu_of. change "Relative Atomic Mass = " with amu_prefix. rewrite Ex. now rewrite Z.eqb_refl.
  Qed.
  Lemma then_composition s : v_current_Z s = Some (Some Z0) -> exists y, value_read (p_composition p) (Some (Fin 0 0)) y /\
    nist_line Z0 s (line_composition_of p ++ String nl "") =
    (let! a := bound (v_A s) in let! X := bound (v_X s) in let! sa := format_d a in let! m := bound (v_amu s) in Ok (add s (sa ++ format_s X) y m, false)).
  Proof. intros H. destruct P as (_ & _ & _ & _ & C5 & _). exact (line_composition Z0 s _ H C5). Qed.

  Lemma blank_A_raises s r : nist_loop Z0 s (ended (blank_A p) ++ r) = Raise TypeError.
  Proof.
    unfold blank_A. cbn [map app]. rewrite first_Z, then_X by reflexivity. set (s2 := set_X _ _).
    rewrite (loop_cons Z0 s2 _ _ (with_A s2 None)) by (exact (line_blank_A Z0 s2 eq_refl)).
    destruct (then_amu (with_A s2 None) eq_refl) as (x & _ & ->). set (s4 := set_amu _ _).
    destruct (then_composition s4 eq_refl) as (y & _ & E). cbn [nist_loop]. rewrite E. reflexivity.
  Qed.
  Lemma without_A_unbound s r : v_A s = None -> nist_loop Z0 s (ended (without_A p) ++ r) = Raise UnboundLocalError.
  Proof.
    intros HA. unfold without_A. cbn [map app]. rewrite first_Z, then_X by reflexivity. set (s2 := set_X _ _).
    destruct (then_amu s2 eq_refl) as (x & _ & ->). set (s4 := set_amu _ _).
    destruct (then_composition s4 eq_refl) as (y & _ & E). cbn [nist_loop]. rewrite E. cbn [v_A s4 set_amu s2 set_X set_Z]. rewrite HA. reflexivity.
  Qed.
  Lemma blank_X_named s : exists x y, value_read (p_mass p) None x /\ value_read (p_composition p) (Some (Fin 0 0)) y /\
    exists t, nist_loop Z0 s (ended (blank_X p)) = Ok t /\ v_abundances t = dset (v_abundances s) (text (p_A p) ++ "None") y /\
      v_isotopes t = dset (v_isotopes s) (text (p_A p) ++ "None") {| iso_AX := text (p_A p) ++ "None"; iso_amu := x |}.
  Proof.
    unfold blank_X. cbn [map app]. rewrite first_Z. set (s1 := set_Z _ _).
    rewrite (loop_cons Z0 s1 _ _ (with_X s1 None)) by (exact (line_blank_X Z0 s1 eq_refl)).
    rewrite then_A by reflexivity. destruct (then_amu (set_A (with_X s1 None) (spelled (p_A p))) eq_refl) as (x & Hx & ->). set (s4 := set_amu _ _).
    destruct (then_composition s4 eq_refl) as (y & Hy & E). exists x, y. split; [exact Hx|]. split; [exact Hy|].
    cbn [nist_loop]. rewrite E. cbn [v_A v_X v_amu s4 set_amu set_A with_X bound bind format_d format_s]. eexists. split; [reflexivity|].
    destruct P as (_ & _ & C3 & _). cbn [add v_abundances v_isotopes]. rewrite (show_text _ C3). now split.
  Qed.
  Lemma without_A_overwrites s a : v_A s = Some (Some a) -> exists x y, value_read (p_mass p) None x /\ value_read (p_composition p) (Some (Fin 0 0)) y /\
    exists t, nist_loop Z0 s (ended (without_A p)) = Ok t /\ v_abundances t = dset (v_abundances s) (show_Z a ++ p_X p) y /\
      v_isotopes t = dset (v_isotopes s) (show_Z a ++ p_X p) {| iso_AX := show_Z a ++ p_X p; iso_amu := x |}.
  Proof.
    intros HA. unfold without_A. cbn [map app]. rewrite first_Z, then_X by reflexivity. set (s2 := set_X _ _).
    destruct (then_amu s2 eq_refl) as (x & Hx & ->). set (s4 := set_amu _ _).
    destruct (then_composition s4 eq_refl) as (y & Hy & E). exists x, y. split; [exact Hx|]. split; [exact Hy|].
    cbn [nist_loop]. rewrite E. cbn [v_A v_X v_amu s4 set_amu set_A set_X s2 set_Z bound bind]. rewrite HA. cbn [bound bind format_d format_s]. eexists. split; [reflexivity|]. now split.
  Qed.
End Paragraph.

Lemma dget_dset {V} (d : dict V) k v : dget (dset d k v) k = Some v.
Proof.
  induction d as [|[k' v'] d IH]; cbn; [now rewrite String.eqb_refl|]. destruct (String.eqb_spec k k') as [->|N]; cbn; [now rewrite String.eqb_refl|].
  rewrite (proj2 (String.eqb_neq k k') N). exact IH.
Qed.

Theorem missing_mass_number header ps p rest Z0 : Forall other_ok header -> Forall paragraph_ok ps -> Forall (fun q => (spelled (p_Z q) <= Z0)%Z) ps ->
  paragraph_ok p -> spelled (p_Z p) = Z0 -> Forall (lacks nl) rest ->
  read_nist_element_data (damaged_file header ps (blank_A p) rest) Z0 = Raise TypeError.
Proof.
  intros Fh Fp L Hp HZ Fr. unfold read_nist_element_data. rewrite damaged_lines by (auto using blank_A_lacks). rewrite loop_others by exact Fh.
  destruct (loop_before Z0 ps Fp L nist_vars0 (ended (blank_A p) ++ ended rest)) as (s & ->). now rewrite (blank_A_raises p Z0 Hp HZ).
Qed.
Theorem missing_mass_line header ps p rest Z0 : Forall other_ok header -> Forall paragraph_ok ps -> Forall (fun q => (spelled (p_Z q) < Z0)%Z) ps ->
  paragraph_ok p -> spelled (p_Z p) = Z0 -> Forall (lacks nl) rest ->
  read_nist_element_data (damaged_file header ps (without_A p) rest) Z0 = Raise UnboundLocalError.
Proof.
  intros Fh Fp L Hp HZ Fr. unfold read_nist_element_data. rewrite damaged_lines by (auto using without_A_lacks). rewrite loop_others by exact Fh.
  destruct (loop_other_elements Z0 ps Fp L nist_vars0 (ended (without_A p) ++ ended rest)) as (s & -> & A). now rewrite (without_A_unbound p Z0 Hp HZ) by exact A.
Qed.
Theorem missing_symbol header ps p Z0 : Forall other_ok header -> Forall paragraph_ok ps -> Forall (fun q => (spelled (p_Z q) <= Z0)%Z) ps ->
  paragraph_ok p -> spelled (p_Z p) = Z0 ->
  exists ab iso x y, read_nist_element_data (damaged_file header ps (blank_X p) []) Z0 = Ok (ab, iso) /\
    dget ab (text (p_A p) ++ "None") = Some y /\ value_read (p_composition p) (Some (Fin 0 0)) y /\
    dget iso (text (p_A p) ++ "None") = Some {| iso_AX := text (p_A p) ++ "None"; iso_amu := x |} /\ value_read (p_mass p) None x.
Proof.
  intros Fh Fp L Hp HZ. unfold read_nist_element_data. rewrite damaged_lines by (auto using blank_X_lacks). rewrite loop_others by exact Fh.
  cbn [map]. rewrite app_nil_r. destruct (loop_before Z0 ps Fp L nist_vars0 (ended (blank_X p))) as (s & ->).
  destruct (blank_X_named p Z0 Hp HZ s) as (x & y & Hx & Hy & t & -> & E1 & E2). cbn [bind]. rewrite E1, E2. do 4 eexists. split; [reflexivity|]. rewrite !dget_dset. repeat split; assumption.
Qed.
Theorem leftover_mass_number header ps q p Z0 : Forall other_ok header -> Forall paragraph_ok ps -> Forall (fun q => (spelled (p_Z q) <= Z0)%Z) ps ->
  paragraph_ok q -> spelled (p_Z q) = Z0 -> paragraph_ok p -> spelled (p_Z p) = Z0 -> p_X p = p_X q ->
  exists ab iso x y, read_nist_element_data (damaged_file header (ps ++ [q]) (without_A p) []) Z0 = Ok (ab, iso) /\
    dget ab (isotope_name q) = Some y /\ value_read (p_composition p) (Some (Fin 0 0)) y /\
    dget iso (isotope_name q) = Some {| iso_AX := isotope_name q; iso_amu := x |} /\ value_read (p_mass p) None x.
Proof.
  intros Fh Fp L Hq HZq Hp HZ HX. unfold read_nist_element_data. rewrite damaged_lines by (auto using without_A_lacks; apply Forall_app; auto). rewrite loop_others by exact Fh.
  cbn [map]. rewrite app_nil_r, flat_map_app. cbn [flat_map]. rewrite app_nil_r, <- app_assoc.
  destruct (loop_before Z0 ps Fp L nist_vars0 (lines_of q ++ ended (without_A p))) as (s & ->).
  destruct (paragraph_equal Z0 s q (ended (without_A p)) Hq HZq) as (x' & y' & _ & _ & ->).
  match goal with |- context [nist_loop Z0 ?t _] => set (t0 := t) end.
  destruct (without_A_overwrites p Z0 Hp HZ t0 (spelled (p_A q)) eq_refl) as (x & y & Hx & Hy & t & -> & E1 & E2). cbn [bind].
  destruct Hq as (_ & _ & C3 & _). rewrite (show_text _ C3), HX in E1, E2. fold (isotope_name q) in E1, E2. rewrite E1, E2.
  do 4 eexists. split; [reflexivity|]. rewrite !dget_dset. repeat split; assumption.
Qed.

Lemma spelled_mass v x : with_uncertainty v -> value_read v None x -> value_spells v x.
Proof. destruct v; cbn; auto. contradiction. Qed.
Lemma spelled_abundance v x : with_uncertainty v -> value_read v (Some (Fin 0 0)) x -> abundance_spelled v x.
Proof. destruct v; cbn; auto. contradiction. Qed.
Definition uncertain (p : paragraph) : Prop := with_uncertainty (p_mass p) /\ with_uncertainty (p_composition p).
Theorem symbol_missing header ps p Z0 : Forall other_ok header -> Forall paragraph_ok ps -> Forall (fun q => (spelled (p_Z q) <= Z0)%Z) ps ->
  paragraph_ok p -> spelled (p_Z p) = Z0 -> with_uncertainty (p_mass p) /\ with_uncertainty (p_composition p) ->
  exists ab iso x y, read_nist_element_data (damaged_file header ps (blank_X p) []) Z0 = Ok (ab, iso) /\
    dget ab (text (p_A p) ++ "None") = Some y /\ abundance_spelled (p_composition p) y /\
    dget iso (text (p_A p) ++ "None") = Some {| iso_AX := text (p_A p) ++ "None"; iso_amu := x |} /\ value_spells (p_mass p) x.
Proof.
  intros F1 F2 F3 P HZ [U1 U2]. destruct (missing_symbol header ps p Z0 F1 F2 F3 P HZ) as (ab & iso & x & y & E1 & E2 & E3 & E4 & E5).
  exists ab, iso, x, y. auto 6 using spelled_mass, spelled_abundance.
Qed.
Theorem leftover header ps q p Z0 : Forall other_ok header -> Forall paragraph_ok ps -> Forall (fun q => (spelled (p_Z q) <= Z0)%Z) ps ->
  paragraph_ok q -> spelled (p_Z q) = Z0 -> paragraph_ok p -> spelled (p_Z p) = Z0 -> p_X p = p_X q -> with_uncertainty (p_mass p) /\ with_uncertainty (p_composition p) ->
  exists ab iso x y, read_nist_element_data (damaged_file header (ps ++ [q]) (without_A p) []) Z0 = Ok (ab, iso) /\
    dget ab (isotope_name q) = Some y /\ abundance_spelled (p_composition p) y /\
    dget iso (isotope_name q) = Some {| iso_AX := isotope_name q; iso_amu := x |} /\ value_spells (p_mass p) x.
Proof.
  intros F1 F2 F3 Q HQ P HZ HX [U1 U2]. destruct (leftover_mass_number header ps q p Z0 F1 F2 F3 Q HQ P HZ HX) as (ab & iso & x & y & E1 & E2 & E3 & E4 & E5).
  exists ab, iso, x, y. auto 6 using spelled_mass, spelled_abundance.
Qed.

(** *** Lithium *)
Definition lithium (A : Z) (mass composition : string) : paragraph :=
  {| p_Z := [3%Z]; p_X := "Li"; p_A := [A]; p_mass := VUncertain mass "5)"; p_composition := VUncertain composition "4)"; p_others := [] |}.
Definition li6 := lithium 6 "6.0151228874" "0.0759".
Definition li7 := lithium 7 "7.0160034366" "0.9241".
Lemma li_ok : paragraph_ok li6 /\ paragraph_ok li7 /\ spelled (p_Z li6) = 3%Z /\ spelled (p_Z li7) = 3%Z /\ p_X li6 = p_X li7 /\
  with_uncertainty (p_mass li7) /\ with_uncertainty (p_composition li7).
Proof.
  assert (C : forall d, (0 <= d <= 9)%Z -> canonical [d]).
  { intros d H. split; [constructor; [exact H|constructor]|]. split; [discriminate|reflexivity]. }
  assert (K : forall m c, (exists x, py_float m = Ok x) -> (exists x, py_float c = Ok x) -> lacks "(" m -> lacks "=" m -> lacks nl m -> lacks "(" c -> lacks "=" c -> lacks nl c ->
    forall A, (0 <= A <= 9)%Z -> paragraph_ok (lithium A m c)).
  { intros. unfold paragraph_ok, lithium. cbn [p_Z p_X p_A p_mass p_composition p_others]. split; [apply C; lia|]. split; [split; [discriminate|reflexivity]|].
    split; [now apply C|]. split; [repeat split; auto|]. split; [repeat split; auto|constructor]. }
  split; [apply K; [eexists; vm_compute; reflexivity|eexists; vm_compute; reflexivity|reflexivity..|lia]|].
  split; [apply K; [eexists; vm_compute; reflexivity|eexists; vm_compute; reflexivity|reflexivity..|lia]|].
  repeat split.
Qed.
Lemma leftover_refuted : ~ forall q p Z0 ab iso, paragraph_ok q -> spelled (p_Z q) = Z0 -> paragraph_ok p -> spelled (p_Z p) = Z0 -> spelled (p_A p) <> spelled (p_A q) ->
  with_uncertainty (p_composition q) -> read_nist_element_data (damaged_file [] [q] (without_A p) []) Z0 = Ok (ab, iso) ->
  exists y, dget ab (isotope_name q) = Some y /\ abundance_spelled (p_composition q) y.
Proof.
  intros H. destruct li_ok as (O6 & O7 & Z6 & Z7 & X & U).
  destruct (leftover [] [] li6 li7 3 ltac:(constructor) ltac:(constructor) ltac:(constructor) O6 Z6 O7 Z7 (eq_sym X) U) as (ab & iso & x & y & E & A & S & _).
  destruct (H li6 li7 3%Z ab iso O6 Z6 O7 Z7 ltac:(discriminate) I E) as (y' & A' & S'). rewrite A in A'. injection A' as <-.
  cbn [li6 li7 lithium p_composition abundance_spelled] in S, S'. destruct S as (u & Hu & ->). destruct S' as (v & Hv & W). vm_compute in Hu, Hv. congruence.
Qed.
