(** Whole NIST files. *)
From Coq Require Import Ascii String List ZArith Bool Lia.
From Verif Require Import Py PyStr PyNum M_Readers S_Readers L_Str L_Density L_Density2 L_Nist L_Nist2.
Import ListNotations.
Open Scope string_scope.
Open Scope py_scope.

Lemma dset_new {V} (d : dict V) k v : ~ In k (dkeys d) -> dset d k v = (d ++ [(k, v)])%list.
Proof.
  induction d as [|[k' v'] d IH]; intros N; [reflexivity|]. cbn in N |- *. destruct (String.eqb_spec k k') as [->|Ne]; [tauto|]. rewrite IH by tauto. reflexivity.
Qed.
Lemma of_Z_large Z0 p ps : (Z0 < spelled (p_Z p))%Z -> Forall (fun q => (spelled (p_Z p) <= spelled (p_Z q))%Z) ps -> of_Z Z0 (p :: ps) = [].
Proof.
  intros L F. unfold of_Z. cbn [filter]. rewrite (proj2 (Z.eqb_neq _ _)) by lia. induction F as [|q ps H F IH]; [reflexivity|]. cbn [filter].
  rewrite (proj2 (Z.eqb_neq _ _)) by lia. exact IH.
Qed.

Definition reads_abundance (p : paragraph) (e : string * option num) : Prop :=
  fst e = isotope_name p /\ value_read (p_composition p) (Some (Fin 0 0)) (snd e).
Definition reads_isotope (p : paragraph) (e : string * isotope_entry) : Prop :=
  fst e = isotope_name p /\ iso_AX (snd e) = isotope_name p /\ value_read (p_mass p) None (iso_amu (snd e)).

Lemma loop_paragraphs Z0 ps : Forall paragraph_ok ps -> ordered_Z ps -> forall s,
  dkeys (v_isotopes s) = dkeys (v_abundances s) -> NoDup (dkeys (v_abundances s) ++ map isotope_name (of_Z Z0 ps)) ->
  exists s' ab iso, nist_loop Z0 s (flat_map lines_of ps) = Ok s' /\
    v_abundances s' = (v_abundances s ++ ab)%list /\ v_isotopes s' = (v_isotopes s ++ iso)%list /\
    Forall2 reads_abundance (of_Z Z0 ps) ab /\ Forall2 reads_isotope (of_Z Z0 ps) iso.
Proof.
  induction 1 as [|p ps H F IH]; intros O s K ND.
  - exists s, [], []. rewrite !app_nil_r. repeat split; constructor.
  - destruct O as [O1 O2]. cbn [flat_map]. destruct (Z.lt_trichotomy (spelled (p_Z p)) Z0) as [L|[E|L]].
    + rewrite paragraph_small by assumption. assert (E : of_Z Z0 (p :: ps) = of_Z Z0 ps) by (unfold of_Z; cbn [filter]; rewrite (proj2 (Z.eqb_neq _ _)) by lia; reflexivity).
      rewrite E in ND |- *. exact (IH O2 (set_Z s (spelled (p_Z p))) K ND).
    + assert (E' : of_Z Z0 (p :: ps) = p :: of_Z Z0 ps) by (unfold of_Z; cbn [filter]; rewrite (proj2 (Z.eqb_eq _ _)) by exact E; reflexivity).
      rewrite E' in ND |- *. cbn [map] in ND. destruct (paragraph_equal Z0 s p (flat_map lines_of ps) H E) as (x & y & Hx & Hy & ->).
      assert (Nk : ~ In (isotope_name p) (dkeys (v_abundances s))).
      { intros I. apply NoDup_remove_2 in ND. apply ND. apply in_or_app. now left. }
      match goal with |- context [nist_loop Z0 ?t _] => set (t0 := t) end.
      assert (A1 : v_abundances t0 = (v_abundances s ++ [(isotope_name p, y)])%list) by (apply dset_new; exact Nk).
      assert (A2 : v_isotopes t0 = (v_isotopes s ++ [(isotope_name p, {| iso_AX := isotope_name p; iso_amu := x |})])%list) by (apply dset_new; cbn; rewrite K; exact Nk).
      destruct (IH O2 t0) as (s' & ab & iso & R & B1 & B2 & B3 & B4).
      * rewrite A1, A2. unfold dkeys in *. rewrite !map_app, K. reflexivity.
      * rewrite A1. unfold dkeys in *. rewrite map_app, <- app_assoc. exact ND.
      * exists s', ((isotope_name p, y) :: ab), ((isotope_name p, {| iso_AX := isotope_name p; iso_amu := x |}) :: iso). split; [exact R|].
        rewrite B1, B2, A1, A2, <- !app_assoc. split; [reflexivity|]. split; [reflexivity|]. split; (constructor; [|assumption]); repeat split; assumption.
    + rewrite paragraph_large by assumption. rewrite (of_Z_large Z0 p ps L O1). exists (set_Z s (spelled (p_Z p))), [], []. rewrite !app_nil_r. repeat split; constructor.
Qed.

Lemma lines_fold ls : Forall (lacks nl) ls -> file_lines (text_file true ls) = map (fun l => l ++ String nl "") ls.
Proof.
  induction 1 as [|l ls H F IH]; [reflexivity|]. destruct ls as [|k r]; [now apply lines_cons|]. cbn [map]. cbn [map] in IH. rewrite <- IH.
  change (text_file true (l :: k :: r)) with (l ++ String nl (text_file true (k :: r))). now apply lines_cons.
Qed.
Lemma lines_fold_open ls l : Forall (lacks nl) ls -> lacks nl l -> l <> "" ->
  file_lines (text_file false (ls ++ [l])) = (map (fun l => (l ++ String nl "")%string) ls ++ [l])%list.
Proof.
  intros F Hl N. induction F as [|k ls H F IH]; [cbn; rewrite app_nil_s; now apply lines_open|]. cbn [app map]. rewrite <- IH.
  assert (E : text_file false (k :: (ls ++ [l])%list) = k ++ String nl (text_file false (ls ++ [l])%list)) by (destruct ls; reflexivity).
  rewrite E. now apply lines_cons.
Qed.
Lemma line_other_open Z0 s l : other_ok l -> nist_line Z0 s l = Ok (s, false).
Proof.
  intros (_ & H1 & H2 & H3 & H4 & H5). unfold nist_line.
  assert (G : forall p, ~ contains p l -> py_in p l = false) by (intros p C; apply not_true_is_false; intros T; apply C; now apply py_in_iff).
  rewrite (G Z_prefix H1), (G X_prefix H2), (G A_prefix H3), (G amu_prefix H4), (G abundance_prefix H5). reflexivity.
Qed.
Lemma loop_open Z0 ls l : other_ok l -> forall s, nist_loop Z0 s (ls ++ [l]) = nist_loop Z0 s (ls ++ [(l ++ String nl "")%string]).
Proof.
  intros O. induction ls as [|k ls IH]; intros s; cbn [app nist_loop]; [now rewrite line_other, line_other_open|].
  destruct (nist_line Z0 s k) as [[s' []]| |]; [reflexivity|cbn [bind]; apply IH|reflexivity..].
Qed.
Lemma symbols_open ls l : other_ok l -> forall s, symbols_loop s (ls ++ [l]) = symbols_loop s (ls ++ [(l ++ String nl "")%string]).
Proof.
  intros (_ & H1 & H2 & _). induction ls as [|k ls IH]; intros s; cbn [app symbols_loop].
  - assert (G : forall p, ~ contains p l -> py_in p l = false) by (intros p C; apply not_true_is_false; intros T; apply C; now apply py_in_iff).
    unfold symbols_line. rewrite (G Z_prefix H1), (G X_prefix H2). rewrite (not_in Z_prefix l), (not_in X_prefix l); try discriminate; try reflexivity; assumption.
  - destruct (symbols_line s k) as [s'| |]; [cbn [bind]; apply IH|reflexivity..].
Qed.
Lemma paragraph_lacks p : paragraph_ok p -> Forall (lacks nl) (paragraph_lines p).
Proof.
  intros (C1 & C2 & C3 & C4 & C5 & C6). unfold paragraph_lines. apply Forall_app. split; [|apply (Forall_impl _ (fun l (H : other_ok l) => proj1 H) C6)].
  repeat apply Forall_cons; try apply Forall_nil; apply lacks_app; (split; [reflexivity|]).
  - apply text_lacks; [apply C1|reflexivity].
  - apply letters_nl, C2.
  - apply text_lacks; [apply C3|reflexivity].
  - now apply value_lacks_nl.
  - now apply value_lacks_nl.
Qed.
Lemma all_lack header ps : Forall other_ok header -> Forall paragraph_ok ps -> Forall (lacks nl) (header ++ flat_map paragraph_lines ps).
Proof.
  intros Fh Fp. apply Forall_app. split; [apply (Forall_impl _ (fun l (H : other_ok l) => proj1 H) Fh)|]. apply Forall_flat_map. apply (Forall_impl _ paragraph_lacks Fp).
Qed.
Lemma nist_lines header ps : Forall other_ok header -> Forall paragraph_ok ps ->
  file_lines (nist_file true header ps) = (map (fun l => (l ++ String nl "")%string) header ++ flat_map lines_of ps)%list.
Proof.
  intros Fh Fp. unfold nist_file. rewrite lines_fold by now apply all_lack.
  rewrite map_app. f_equal. clear. induction ps as [|p ps IH]; [reflexivity|]. cbn [flat_map]. rewrite map_app, IH. reflexivity.
Qed.
Lemma same_lines final header ps : Forall other_ok header -> Forall paragraph_ok ps -> ending_ok final header ps ->
  file_lines (nist_file final header ps) = file_lines (nist_file true header ps) \/
  exists ls l, other_ok l /\ file_lines (nist_file final header ps) = (ls ++ [l])%list /\
    file_lines (nist_file true header ps) = (ls ++ [(l ++ String nl "")%string])%list.
Proof.
  intros Fh Fp [->|(ls & l & E & O & N)]; [now left|]. destruct final; [now left|right]. pose proof (all_lack header ps Fh Fp) as F. unfold nist_file. rewrite E in F |- *.
  apply Forall_app in F. destruct F as [F1 F2]. apply Forall_inv in F2. exists (map (fun l => (l ++ String nl "")%string) ls), l. split; [exact O|]. split.
  - now apply lines_fold_open.
  - rewrite lines_fold; [now rewrite map_app|]. apply Forall_app. split; [exact F1|]. constructor; [exact F2|constructor].
Qed.
Lemma final_data final header ps Z0 : Forall other_ok header -> Forall paragraph_ok ps -> ending_ok final header ps ->
  read_nist_element_data (nist_file final header ps) Z0 = read_nist_element_data (nist_file true header ps) Z0.
Proof.
  intros Fh Fp E. unfold read_nist_element_data. destruct (same_lines final header ps Fh Fp E) as [->|(ls & l & O & -> & ->)]; [reflexivity|]. now rewrite loop_open.
Qed.
Lemma final_symbols final header ps : Forall other_ok header -> Forall paragraph_ok ps -> ending_ok final header ps ->
  read_nist_element_symbols (nist_file final header ps) = read_nist_element_symbols (nist_file true header ps).
Proof.
  intros Fh Fp E. unfold read_nist_element_symbols. destruct (same_lines final header ps Fh Fp E) as [->|(ls & l & O & -> & ->)]; [reflexivity|]. now rewrite symbols_open.
Qed.
Theorem read_data final header ps Z0 : Forall other_ok header -> Forall paragraph_ok ps -> ending_ok final header ps -> ordered_Z ps -> NoDup (map isotope_name (of_Z Z0 ps)) ->
  exists ab iso, read_nist_element_data (nist_file final header ps) Z0 = Ok (ab, iso) /\
    Forall2 reads_abundance (of_Z Z0 ps) ab /\ Forall2 reads_isotope (of_Z Z0 ps) iso.
Proof.
  intros Fh Fp En O ND. rewrite final_data by assumption. unfold read_nist_element_data. rewrite nist_lines by assumption. rewrite loop_others by exact Fh.
  destruct (loop_paragraphs Z0 ps Fp O nist_vars0 eq_refl ND) as (s' & ab & iso & R & B1 & B2 & B3 & B4). rewrite R. cbn [bind]. rewrite B1, B2.
  exists ab, iso. split; [reflexivity|]. now split.
Qed.

(** ** Symbols *)
Lemma symbol_other st l : py_in Z_prefix l = false -> py_in X_prefix l = false -> symbols_line st l = Ok st.
Proof. intros H1 H2. destruct st as [z d]. unfold symbols_line. now rewrite H1, H2. Qed.
Definition add_symbol (d : list (option Z * option string)) (p : paragraph) :=
  match zget d (Some (spelled (p_Z p))) with Some _ => d | None => (d ++ [(Some (spelled (p_Z p)), Some (p_X p))])%list end.
Lemma symbols_cons st st' l r : symbols_line st l = Ok st' -> symbols_loop st (l :: r) = symbols_loop st' r.
Proof. intros E. cbn [symbols_loop]. now rewrite E. Qed.
Lemma symbols_others st ls r : Forall other_ok ls -> symbols_loop st (map (fun l => (l ++ String nl "")%string) ls ++ r) = symbols_loop st r.
Proof.
  induction 1 as [|l ls (H0 & H1 & H2 & _) F IH]; [reflexivity|]. cbn [map app]. rewrite (symbols_cons st st); [exact IH|].
  apply symbol_other; apply not_in; try discriminate; try reflexivity; assumption.
Qed.
Lemma symbols_paragraph z d p r : paragraph_ok p ->
  symbols_loop (z, d) (lines_of p ++ r) = symbols_loop (Some (Some (spelled (p_Z p))), add_symbol d p) r.
Proof.
  intros (C1 & C2 & C3 & C4 & C5 & C6). unfold lines_of, paragraph_lines. rewrite map_app, <- app_assoc. cbn [map app].
  set (zz := Some (Some (spelled (p_Z p)))).
  rewrite (symbols_cons _ (zz, d)).
  2:{ change "Atomic Number = " with Z_prefix. unfold symbols_line. rewrite (prop_line Z_prefix) by (apply text_nonempty, C1). rewrite app_assoc_s, in_self.
      pose proof (nl_eq _ (text_lacks "=" _ (proj1 C1) eq_refl)) as Q. other X_prefix Z_prefix (text (p_Z p) ++ String nl ""). now rewrite (canonical_int _ C1). }
  rewrite (symbols_cons _ (zz, add_symbol d p)).
  2:{ change "Atomic Symbol = " with X_prefix. unfold symbols_line. rewrite (prop_line X_prefix) by apply C2. rewrite app_assoc_s, in_self.
      pose proof (nl_eq _ (letters_lack "=" _ (proj2 C2) eq_refl)) as Q. other Z_prefix X_prefix (p_X p ++ String nl ""). unfold zz, add_symbol. cbn [fst snd bound bind omap].
      destruct (zget d (Some (spelled (p_Z p)))); reflexivity. }
  rewrite (symbols_cons _ (zz, add_symbol d p)).
  2:{ change "Mass Number = " with A_prefix. pose proof (nl_eq _ (text_lacks "=" _ (proj1 C3) eq_refl)) as Q. rewrite app_assoc_s.
      apply symbol_other; [other Z_prefix A_prefix (text (p_A p) ++ String nl "")|other X_prefix A_prefix (text (p_A p) ++ String nl "")]; reflexivity. }
  rewrite (symbols_cons _ (zz, add_symbol d p)).
  2:{ change "Relative Atomic Mass = " with amu_prefix. pose proof (nl_eq _ (value_lacks_eq _ C4)) as Q. rewrite app_assoc_s.
      apply symbol_other; [other Z_prefix amu_prefix (value_text (p_mass p) ++ String nl "")|other X_prefix amu_prefix (value_text (p_mass p) ++ String nl "")]; reflexivity. }
  rewrite (symbols_cons _ (zz, add_symbol d p)).
  2:{ change "Isotopic Composition = " with abundance_prefix. pose proof (nl_eq _ (value_lacks_eq _ C5)) as Q. rewrite app_assoc_s.
      apply symbol_other; [other Z_prefix abundance_prefix (value_text (p_composition p) ++ String nl "")|other X_prefix abundance_prefix (value_text (p_composition p) ++ String nl "")]; reflexivity. }
  now apply symbols_others.
Qed.
Lemma zget_app {V} (d e : list (option Z * V)) k : zget (d ++ e) k = match zget d k with Some v => Some v | None => zget e k end.
Proof. induction d as [|[k' v] d IH]; [reflexivity|]. cbn. destruct k, k'; try exact IH; try reflexivity. destruct (z =? z0)%Z; [reflexivity|exact IH]. Qed.
Lemma symbols_fold ps : Forall paragraph_ok ps -> forall z d, exists z',
  symbols_loop (z, d) (flat_map lines_of ps) = Ok (z', fold_left add_symbol ps d).
Proof.
  induction 1 as [|p ps H F IH]; intros z d; [now exists z|]. cbn [flat_map fold_left]. rewrite symbols_paragraph by exact H. apply IH.
Qed.
Lemma fold_get ps : forall d k, zget (fold_left add_symbol ps d) (Some k) =
  match zget d (Some k) with Some v => Some v | None => option_map (fun p => Some (p_X p)) (find (fun p => spelled (p_Z p) =? k)%Z ps) end.
Proof.
  induction ps as [|p ps IH]; intros d k; cbn [fold_left find]; [destruct (zget d (Some k)); reflexivity|]. rewrite IH. unfold add_symbol.
  destruct (zget d (Some (spelled (p_Z p)))) as [v|] eqn:E.
  - destruct (Z.eqb_spec (spelled (p_Z p)) k) as [<-|N]; [now rewrite E|reflexivity].
  - rewrite zget_app. cbn [zget]. destruct (zget d (Some k)) eqn:E2; [reflexivity|]. rewrite Z.eqb_sym. destruct (Z.eqb_spec (spelled (p_Z p)) k); reflexivity.
Qed.
Theorem read_symbols final header ps : Forall other_ok header -> Forall paragraph_ok ps -> ending_ok final header ps ->
  exists d, read_nist_element_symbols (nist_file final header ps) = Ok d /\
  forall k, zget d (Some k) = option_map (fun p => Some (p_X p)) (find (fun p => spelled (p_Z p) =? k)%Z ps).
Proof.
  intros Fh Fp En. rewrite final_symbols by assumption. unfold read_nist_element_symbols. rewrite nist_lines by assumption. rewrite symbols_others by exact Fh.
  destruct (symbols_fold ps Fp None []) as (z' & ->). cbn [omap bind snd]. eexists. split; [reflexivity|]. intros k. now rewrite fold_get.
Qed.
