(** Reading NIST element data. *)
From Coq Require Import Ascii String List ZArith Bool Lia.
From Verif Require Import Py PyStr PyNum M_Readers S_Readers L_Str L_Density L_Density2.
Import ListNotations.
Open Scope string_scope.
Open Scope py_scope.

(** ** Prefixes *)
Lemma split_unique c u x v y : lacks c u -> lacks c x -> u ++ String c x = v ++ String c y -> u = v.
Proof.
  revert v. induction u as [|d u IH]; intros v Hu Hx E.
  - destruct v as [|e v]; [reflexivity|]. cbn in E. injection E as <- E. exfalso. rewrite E in Hx. apply lacks_app in Hx. destruct Hx as [_ Hx].
    apply lacks_cons in Hx. destruct Hx as [N _]. now apply N.
  - apply lacks_cons in Hu. destruct Hu as [N Hu]. destruct v as [|e v]; cbn in E; injection E as E1 E2; [contradiction|]. subst. f_equal. now apply IH.
Qed.
Definition eqform (P : string) : Prop := exists P0, P = P0 ++ "= " /\ lacks "=" P0.
Lemma in_self P rest : py_in P (P ++ rest) = true.
Proof. apply py_in_iff. now exists "", rest. Qed.
Lemma in_other Q P rest : eqform Q -> eqform P -> py_in Q P = false -> lacks "=" rest -> py_in Q (P ++ rest) = false.
Proof.
  intros (Q0 & -> & HQ) (P0 & -> & HP) F HR. apply not_true_is_false. intros H. apply py_in_iff in H. destruct H as (a & b & E).
  assert (E2 : P0 ++ String "=" (" " ++ rest) = (a ++ Q0) ++ String "=" (" " ++ b)) by (rewrite !app_assoc_s; rewrite !app_assoc_s in E; exact E).
  apply split_unique in E2; [|exact HP|apply lacks_app; split; [reflexivity|exact HR]]. subst P0.
  assert (T : py_in (Q0 ++ "= ") ((a ++ Q0) ++ "= ") = true); [|congruence]. apply py_in_iff. exists a, "". rewrite app_nil_s, app_assoc_s. reflexivity.
Qed.
Lemma form_Z : eqform Z_prefix. Proof. exists "Atomic Number ". split; reflexivity. Qed.
Lemma form_A : eqform A_prefix. Proof. exists "Mass Number ". split; reflexivity. Qed.
Lemma form_X : eqform X_prefix. Proof. exists "Atomic Symbol ". split; reflexivity. Qed.
Lemma form_amu : eqform amu_prefix. Proof. exists "Relative Atomic Mass ". split; reflexivity. Qed.
Lemma form_abundance : eqform abundance_prefix. Proof. exists "Isotopic Composition ". split; reflexivity. Qed.

(** ** Properties *)
Lemma prop_line {A} P t (cast : string -> out A) d : t <> "" ->
  read_nist_element_property ((P ++ t) ++ String nl "") P cast d = omap Some (cast t).
Proof.
  intros N. unfold read_nist_element_property. rewrite app_assoc_s. rewrite slice_mid; [|reflexivity|discriminate|reflexivity].
  rewrite (proj2 (String.eqb_neq t "") N). reflexivity.
Qed.
Lemma find_first t rest : lacks "(" t -> find_nat "(" (t ++ String "(" rest) = Some (String.length t).
Proof.
  induction t as [|c t IH]; intros H; [reflexivity|]. apply lacks_cons in H. destruct H as [N H]. cbn [append find_nat prefixb].
  rewrite Ascii.eqb_sym, (proj2 (Ascii.eqb_neq c "(") N). now rewrite (IH H).
Qed.
Lemma find_none t : lacks "(" t -> find_nat "(" t = None.
Proof.
  induction t as [|c t IH]; intros H; [reflexivity|]. apply lacks_cons in H. destruct H as [N H]. cbn [append find_nat prefixb].
  rewrite Ascii.eqb_sym, (proj2 (Ascii.eqb_neq c "(") N). now rewrite (IH H).
Qed.
Lemma slice_00 s : py_slice s 0 0 = "".
Proof. unfold py_slice, slice_nat. rewrite Nat.sub_diag. apply substring_empty. Qed.
Lemma slice_nil i j : py_slice "" i j = "".
Proof. unfold py_slice, slice_nat. destruct (Z.to_nat (norm_index (slen "") i)); [|reflexivity]. destruct (Z.to_nat _ - 0)%nat; reflexivity. Qed.
(** Without an opening parenthesis the default is returned, whatever the line says. *)
Lemma no_parenthesis line P d : lacks "(" line -> read_nist_element_property_with_uncertainty line P d = Ok d.
Proof.
  intros H. unfold read_nist_element_property_with_uncertainty, read_nist_element_property, py_find. rewrite (find_none _ H).
  change (-1 + 1)%Z with 0%Z. rewrite slice_00, slice_nil. reflexivity.
Qed.
Lemma with_parenthesis P t u d : lacks "(" P -> lacks "(" t -> t <> "" ->
  read_nist_element_property_with_uncertainty ((P ++ t ++ "(" ++ u) ++ String nl "") P d = omap Some (py_float t).
Proof.
  intros HP Ht N. unfold read_nist_element_property_with_uncertainty, read_nist_element_property, py_find.
  assert (E : (P ++ t ++ "(" ++ u) ++ String nl "" = (P ++ t) ++ String "(" (u ++ String nl "")) by (rewrite !app_assoc_s; reflexivity).
  rewrite E. rewrite find_first by (apply lacks_app; now split).
  assert (E2 : (P ++ t) ++ String "(" (u ++ String nl "") = ((P ++ t) ++ "(") ++ (u ++ String nl "")) by (rewrite !app_assoc_s; reflexivity).
  rewrite E2. rewrite slice_head; [|unfold slen; rewrite (length_app_s (P ++ t)); cbn; lia].
  rewrite app_assoc_s. rewrite slice_mid; [|reflexivity|discriminate|reflexivity].
  rewrite (proj2 (String.eqb_neq t "") N). reflexivity.
Qed.
Lemma float_nonempty t x : py_float t = Ok x -> t <> "".
Proof. intros H ->. discriminate. Qed.
(** What is read for a value. *)
Definition value_read (v : value) (d x : option num) : Prop :=
  match v with VUncertain t _ => exists y, py_float t = Ok y /\ x = Some y | _ => x = d end.
Lemma read_value P v d : lacks "(" P -> value_ok v -> exists x, value_read v d x /\
  read_nist_element_property_with_uncertainty ((P ++ value_text v) ++ String nl "") P d = Ok x.
Proof.
  intros HP HV. destruct v as [|t u|t]; cbn [value_text] in *.
  - exists d. split; [reflexivity|]. apply no_parenthesis. rewrite !lacks_app. repeat split; try assumption; reflexivity.
  - destruct HV as (H1 & _ & _ & _ & _ & x & Hx). exists (Some x). split; [now exists x|].
    rewrite with_parenthesis; [|assumption|assumption|now apply (float_nonempty _ x)]. now rewrite Hx.
  - destruct HV as (H1 & _). exists d. split; [reflexivity|]. apply no_parenthesis. rewrite !lacks_app. repeat split; try assumption; reflexivity.
Qed.

(** ** Integers *)
Lemma digit_char_text d : (0 <= d <= 9)%Z -> digit_char d = digit_text d.
Proof. intros H. digit_case H; reflexivity. Qed.
Lemma text_snoc ds d acc : text (ds ++ [d]) ++ acc = text ds ++ String (digit_text d) acc.
Proof. induction ds as [|x ds IH]; [reflexivity|]. cbn [app]. rewrite !text_cons. cbn [append]. now rewrite IH. Qed.
Lemma spelled_nonneg ds : digits_ok ds -> (0 <= spelled ds)%Z.
Proof.
  unfold spelled. assert (G : forall acc, (0 <= acc)%Z -> digits_ok ds -> (0 <= fold_left (fun acc d => 10 * acc + d)%Z ds acc)%Z); [|intros H; apply G; [lia|exact H]].
  induction ds as [|d ds IH]; intros acc Ha H; [exact Ha|]. inversion H; subst. cbn [fold_left]. apply IH; [lia|assumption].
Qed.
Lemma spelled_lower d ds : digits_ok (d :: ds) -> d <> 0%Z -> (10 ^ Z.of_nat (List.length ds) <= spelled (d :: ds))%Z.
Proof.
  intros H N. inversion H; subst. change (d :: ds)%list with ([d] ++ ds)%list. rewrite spelled_app. change (spelled [d]) with (10 * 0 + d)%Z.
  pose proof (spelled_nonneg ds ltac:(assumption)). nia.
Qed.
Lemma show_pos_text ds : forall fuel acc, digits_ok ds -> ds <> [] -> (hd 0%Z ds = 0%Z -> List.length ds = 1%nat) -> (List.length ds <= S fuel)%nat ->
  show_pos fuel (spelled ds) acc = text ds ++ acc.
Proof.
  induction ds as [|d ds IH] using rev_ind; intros fuel acc H N C L; [contradiction|].
  apply Forall_app in H. destruct H as [H Hd]. apply Forall_inv in Hd. rewrite text_snoc. rewrite app_length in L. cbn in L.
  assert (M : (spelled (ds ++ [d]) mod 10 = d)%Z /\ (spelled (ds ++ [d]) / 10 = spelled ds)%Z).
  { rewrite spelled_app. change (spelled [d]) with (10 * 0 + d)%Z. cbn [List.length]. change (10 ^ Z.of_nat 1)%Z with 10%Z. split.
    - rewrite Z.add_comm, Z.mod_add by lia. apply Z.mod_small. lia.
    - rewrite Z.add_comm, Z.div_add by lia. rewrite Z.div_small by lia. lia. }
  destruct M as [M1 M2]. 
  assert (E : forall f, show_pos f (spelled (ds ++ [d])) acc = match f with O => String (digit_text d) acc | S f' => if (spelled ds =? 0)%Z then String (digit_text d) acc else show_pos f' (spelled ds) (String (digit_text d) acc) end).
  { intros [|f]; cbn [show_pos]; rewrite M1, digit_char_text by exact Hd; [reflexivity|]. now rewrite M2. }
  rewrite E. destruct ds as [|e ds].
  - cbn. destruct fuel; reflexivity.
  - assert (Ne : e <> 0%Z) by (intros ->; specialize (C eq_refl); cbn in C; rewrite app_length in C; cbn in C; lia).
    destruct fuel as [|fuel]; [cbn in L; lia|].
    pose proof (spelled_lower e ds H Ne) as Lo. assert (0 < 10 ^ Z.of_nat (List.length ds))%Z by (apply Z.pow_pos_nonneg; lia).
    destruct (Z.eqb_spec (spelled (e :: ds)) 0); [lia|]. apply IH; [exact H|discriminate|intros; cbn in *; contradiction|cbn in *; lia].
Qed.
Lemma show_text ds : canonical ds -> show_Z (spelled ds) = text ds.
Proof.
  intros (H & N & C). unfold show_Z. pose proof (spelled_nonneg ds H). destruct (Z.ltb_spec (spelled ds) 0); [lia|].
  rewrite show_pos_text; [apply app_nil_s|assumption..|]. destruct ds as [|d ds]; [contradiction|]. destruct (Z.eq_dec d 0) as [->|Nd].
  - specialize (C eq_refl). rewrite C. lia.
  - pose proof (spelled_lower d ds H Nd) as Lo. assert (Lg : (Z.of_nat (List.length ds) <= Z.log2_up (spelled (d :: ds)))%Z).
    { rewrite <- (Z.log2_up_pow2 (Z.of_nat (List.length ds))) by lia. apply Z.log2_up_le_mono. apply Z.le_trans with (10 ^ Z.of_nat (List.length ds))%Z; [|exact Lo].
      apply Z.pow_le_mono_l. lia. }
    cbn [List.length]. pose proof (Z.log2_up_nonneg (spelled (d :: ds))). lia.
Qed.
Lemma canonical_int ds : canonical ds -> py_int (text ds) = Ok (spelled ds).
Proof. intros (H & N & _). now apply int_text. Qed.
Lemma text_nonempty ds : ds <> [] -> text ds <> "".
Proof. destruct ds; [contradiction|]. rewrite text_cons. discriminate. Qed.
Lemma text_lacks c ds : digits_ok ds -> digit_val c = None -> lacks c (text ds).
Proof.
  intros H D. induction H as [|d ds Hd H IH]; [reflexivity|]. rewrite text_cons. apply lacks_cons. split; [|exact IH].
  intros <-. now rewrite digit_val_text in D.
Qed.
Lemma letters_lack c s : every letter s = true -> letter c = false -> lacks c s.
Proof.
  intros H L. induction s as [|d s IH]; [reflexivity|]. cbn in H. apply andb_prop in H. destruct H as [H1 H2]. apply lacks_cons. split; [|now apply IH].
  intros ->. congruence.
Qed.
Lemma value_lacks_eq v : value_ok v -> lacks "=" (value_text v).
Proof. destruct v as [|t u|t]; cbn; [reflexivity| |tauto]. intros H. rewrite !lacks_app. repeat split; tauto. Qed.
Lemma value_lacks_nl v : value_ok v -> lacks nl (value_text v).
Proof. destruct v as [|t u|t]; cbn; [reflexivity| |tauto]. intros H. rewrite !lacks_app. repeat split; tauto. Qed.
