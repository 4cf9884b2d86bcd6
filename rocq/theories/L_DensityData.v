(** The supplied density file. *)
From Coq Require Import Ascii String List ZArith Bool Lia.
From Verif Require Import Py PyStr PyNum M_Readers S_Readers S_Elements L_Str L_Density L_Density2 D_Densities.
Import ListNotations.
Open Scope string_scope.

(** Comments and entries of the supplied file. *)
Definition chop (l : string) : string := match find_nat (String nl "") l with Some n => substring 0 n l | None => l end.
Definition is_comment (l : string) : bool := prefixb "#" l.
Definition entry_of (l : string) : string * string :=
  (if String.eqb (substring 1 1 l) " " then substring 0 1 l else substring 0 2 l, substring 2 (String.length l - 2) l).
Definition supplied_comments : list string := Eval vm_compute in filter is_comment (map chop (file_lines element_densities_txt)).
Definition supplied_entries : list (string * string) :=
  Eval vm_compute in map entry_of (filter (fun l => negb (is_comment l)) (map chop (file_lines element_densities_txt))).
Lemma supplied_file : dfile false supplied_comments supplied_entries = element_densities_txt.
Proof. vm_compute. reflexivity. Qed.

Definition lacksb (c : ascii) (s : string) : bool := every (fun x => negb (Ascii.eqb x c)) s.
Lemma supplied_comments_ok : Forall comment_ok supplied_comments.
Proof.
  assert (H : forallb (fun c => lacksb nl c && (String.eqb c "#" || prefixb "# " c)) supplied_comments = true) by (vm_compute; reflexivity).
  apply Forall_forall. intros c I. rewrite forallb_forall in H. specialize (H c I). apply andb_prop in H. destruct H as [H1 H2]. split; [exact H1|].
  apply orb_prop in H2. destruct H2 as [H2|H2]; [left; now apply String.eqb_eq|right; now apply prefixb_iff].
Qed.
Definition entry_okb (e : string * string) : bool :=
  negb (String.eqb (fst e) "") && every letter (fst e) && (String.length (fst e) <=? 2)%nat && lacksb nl (snd e) &&
  match py_float (snd e) with Ok _ => true | _ => false end.
Lemma entry_okb_ok e : entry_okb e = true -> dentry_ok e.
Proof.
  unfold entry_okb. rewrite !andb_true_iff. intros ((((H1 & H2) & H3) & H4) & H5). split; [split; [|exact H2]|split; [|split; [exact H4|]]].
  - apply negb_true_iff, String.eqb_neq in H1. exact H1.
  - now apply Nat.leb_le.
  - destruct (py_float (snd e)) as [v| |]; [now exists v|discriminate..].
Qed.
Lemma supplied_entries_ok : Forall dentry_ok supplied_entries.
Proof.
  apply Forall_forall. assert (H : forallb entry_okb supplied_entries = true) by (vm_compute; reflexivity).
  rewrite forallb_forall in H. intros e He. now apply entry_okb_ok, H.
Qed.

Definition num_eqb (a b : num) : bool :=
  match a, b with
  | Fin m e, Fin m' e' => (Z.eqb m m' && Z.eqb e e')%bool
  | PInf, PInf | NInf, NInf | NotNum, NotNum => true
  | _, _ => false
  end.
Lemma num_eqb_eq a b : num_eqb a b = true <-> a = b.
Proof.
  destruct a, b; cbn; split; intros H; try discriminate; try reflexivity.
  - apply andb_prop in H. destruct H as [H1 H2]. apply Z.eqb_eq in H1, H2. now subst.
  - injection H as -> ->. now rewrite !Z.eqb_refl.
Qed.
Definition res_eqb (a b : out (option num)) : bool :=
  match a, b with
  | Ok (Some x), Ok (Some y) => num_eqb x y
  | Ok None, Ok None => true
  | _, _ => false
  end.
Lemma res_eqb_eq a b : (exists x, b = Ok x) -> res_eqb a b = true <-> a = b.
Proof.
  intros [x ->]. destruct a as [[y|]| |], x as [z|]; cbn; split; intros H; try discriminate; try reflexivity.
  - apply num_eqb_eq in H. now subst.
  - injection H as ->. now apply num_eqb_eq.
Qed.
(** What should be read. *)
Definition expected (X : string) : out (option num) :=
  match dget supplied_entries X with Some t => omap Some (py_float t) | None => Ok None end.
Lemma supplied_right X : In X symbols -> read_density_data element_densities_txt Ok X = expected X <-> ~ In X ["B"; "S"; "I"].
Proof.
  intros HX.
  assert (H : forallb (fun X => match expected X with Ok _ => true | _ => false end &&
    Bool.eqb (res_eqb (read_density_data element_densities_txt Ok X) (expected X)) (negb (existsb (String.eqb X) ["B"; "S"; "I"])))%bool symbols = true) by (vm_compute; reflexivity).
  rewrite forallb_forall in H. specialize (H X HX). apply andb_prop in H. destruct H as [H1 H2].
  assert (E : exists x, expected X = Ok x) by (destruct (expected X) as [x| |]; [now exists x|discriminate..]).
  rewrite <- (res_eqb_eq _ _ E). apply Bool.eqb_prop in H2. rewrite H2. rewrite negb_true_iff. split.
  - intros H3 H4. assert (existsb (String.eqb X) ["B"; "S"; "I"] = true); [|congruence]. apply existsb_exists. exists X. split; [exact H4|apply String.eqb_refl].
  - intros H3. apply not_true_is_false. intros H4. apply H3. apply existsb_exists in H4. destruct H4 as (Y & H5 & H6). apply String.eqb_eq in H6. now subst.
Qed.
Lemma supplied_wrong : read_density_data element_densities_txt Ok "B" = expected "Be" /\ read_density_data element_densities_txt Ok "S" = expected "Si" /\
  read_density_data element_densities_txt Ok "I" = expected "In".
Proof. vm_compute. repeat split. Qed.
Lemma supplied_lookup_refuted : ~ forall final cs es X t v, Forall comment_ok cs -> Forall dentry_ok es -> NoDup (map fst es) ->
  In (X, t) es -> py_float t = Ok v -> read_density_data (dfile final cs es) Ok X = Ok (Some v).
Proof.
  intros H. specialize (H false supplied_comments supplied_entries "B" "   2.37          " (Fin 237 (-2)) supplied_comments_ok supplied_entries_ok).
  assert (ND : NoDup (map fst supplied_entries)).
  { assert (E : nodup string_dec (map fst supplied_entries) = map fst supplied_entries) by (vm_compute; reflexivity). rewrite <- E. apply NoDup_nodup. }
  specialize (H ND (nth_In supplied_entries ("", "") (n := 4) ltac:(vm_compute; lia)) eq_refl).
  rewrite supplied_file, (proj1 supplied_wrong) in H. vm_compute in H. discriminate H.
Qed.
