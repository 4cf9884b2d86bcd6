(** Lemmas about Python's string operations. *)
From Coq Require Import Ascii String List ZArith Bool Lia.
From Verif Require Import Py PyStr PyNum S_Readers.
Import ListNotations.
Open Scope string_scope.

Lemma app_assoc_s (a b c : string) : (a ++ b) ++ c = a ++ b ++ c.
Proof. induction a as [|x a IH]; cbn; [reflexivity|now rewrite IH]. Qed.
Lemma app_nil_s (a : string) : a ++ "" = a.
Proof. induction a as [|x a IH]; cbn; [reflexivity|now rewrite IH]. Qed.
Lemma length_app_s (a b : string) : String.length (a ++ b) = (String.length a + String.length b)%nat.
Proof. induction a as [|x a IH]; cbn; [reflexivity|now rewrite IH]. Qed.
Lemma substring_0 (t z : string) : substring 0 (String.length t) (t ++ z) = t.
Proof. induction t as [|c t IH]; cbn; [destruct z; reflexivity|now rewrite IH]. Qed.
Lemma substring_shift (a s : string) m : substring (String.length a) m (a ++ s) = substring 0 m s.
Proof. induction a as [|c a IH]; cbn; [reflexivity|exact IH]. Qed.
Lemma substring_empty n s : substring n 0 s = "".
Proof. revert n. induction s as [|c s IH]; intros [|n]; cbn; auto. Qed.

Lemma slice_mid (a t z : string) i j : i = slen a -> z <> "" -> j = (- slen z)%Z -> py_slice (a ++ t ++ z) i j = t.
Proof.
  intros -> Hz ->. unfold py_slice, slice_nat, norm_index. unfold slen. rewrite !length_app_s, !Nat2Z.inj_add.
  assert (String.length z <> 0)%nat by (destruct z; [contradiction|cbn; lia]).
  destruct (Z.ltb_spec (- Z.of_nat (String.length z)) 0); [|lia]. destruct (Z.ltb_spec (Z.of_nat (String.length a)) 0); [lia|].
  rewrite Z.min_l by lia. rewrite Z.max_r by lia. rewrite Nat2Z.id.
  replace (Z.to_nat _) with (String.length a + String.length t)%nat by lia.
  replace (String.length a + String.length t - String.length a)%nat with (String.length t) by lia.
  rewrite substring_shift. apply substring_0.
Qed.
Lemma slice_head (t z : string) j : j = slen t -> py_slice (t ++ z) 0 j = t.
Proof.
  intros ->. unfold py_slice, slice_nat, norm_index, slen. rewrite length_app_s, Nat2Z.inj_add.
  destruct (Z.ltb_spec (Z.of_nat (String.length t)) 0); [lia|]. destruct (Z.ltb_spec 0 0); [lia|]. rewrite !Z.min_l by lia. rewrite Nat2Z.id.
  change (Z.to_nat 0) with 0%nat. rewrite Nat.sub_0_r. apply substring_0.
Qed.
Lemma slice_tail (a t : string) i : i = slen a -> py_slice_from (a ++ t) i = t.
Proof.
  intros ->. unfold py_slice_from, py_slice, slice_nat, norm_index, slen. rewrite length_app_s, Nat2Z.inj_add.
  destruct (Z.ltb_spec (Z.of_nat (String.length a)) 0); [lia|]. destruct (Z.ltb_spec (Z.of_nat (String.length a) + Z.of_nat (String.length t)) 0); [lia|].
  rewrite !Z.min_l by lia. rewrite Nat2Z.id. replace (Z.to_nat _ - String.length a)%nat with (String.length t) by lia.
  rewrite substring_shift. rewrite <- (app_nil_s t) at 2. apply substring_0.
Qed.

Lemma every_app p a b : every p (a ++ b) = every p a && every p b.
Proof. induction a as [|c a IH]; cbn; [reflexivity|]. rewrite IH. apply andb_assoc. Qed.
Lemma lacks_app c a b : lacks c (a ++ b) <-> lacks c a /\ lacks c b.
Proof. unfold lacks. rewrite every_app. apply andb_true_iff. Qed.
Lemma lacks_cons c x s : lacks c (String x s) <-> x <> c /\ lacks c s.
Proof.
  unfold lacks. cbn. rewrite andb_true_iff, negb_true_iff, Ascii.eqb_neq. reflexivity.
Qed.

(** ** Lines of a file *)
Lemma lines_cons l r : lacks nl l -> file_lines (l ++ String nl r) = (l ++ String nl "") :: file_lines r.
Proof.
  induction l as [|c l IH]; intros H; [reflexivity|]. apply lacks_cons in H. destruct H as [Hc H]. cbn [append file_lines].
  change newline with nl. rewrite (proj2 (Ascii.eqb_neq c nl) Hc). rewrite (IH H). reflexivity.
Qed.
Lemma lines_open l : lacks nl l -> l <> "" -> file_lines l = [l].
Proof.
  induction l as [|c l IH]; intros H N; [contradiction|]. apply lacks_cons in H. destruct H as [Hc H]. cbn [file_lines].
  change newline with nl. rewrite (proj2 (Ascii.eqb_neq c nl) Hc). destruct l as [|d l]; [reflexivity|]. rewrite IH; [reflexivity|exact H|discriminate].
Qed.

(** ** split *)
Lemma split_field f rest : lacks " " f -> py_split "  " (f ++ "  " ++ rest) = f :: py_split "  " rest.
Proof.
  intros H. unfold py_split. induction f as [|c f IH]; [reflexivity|]. apply lacks_cons in H. destruct H as [Hc H].
  change (String c f ++ "  " ++ rest) with (String c (f ++ "  " ++ rest)).
  cbn [split_go]. cbn [prefixb]. rewrite Ascii.eqb_sym, (proj2 (Ascii.eqb_neq c " ") Hc). cbn [andb]. rewrite (IH H). reflexivity.
Qed.
Lemma split_last f : lacks " " f -> py_split "  " f = [f].
Proof.
  intros H. unfold py_split. induction f as [|c f IH]; [reflexivity|]. apply lacks_cons in H. destruct H as [Hc H].
  cbn [split_go]. cbn [prefixb]. rewrite Ascii.eqb_sym, (proj2 (Ascii.eqb_neq c " ") Hc). rewrite (IH H). reflexivity.
Qed.

(** ** Numbers *)
Lemma digit_cases d : (0 <= d <= 9)%Z -> d = 0%Z \/ d = 1%Z \/ d = 2%Z \/ d = 3%Z \/ d = 4%Z \/ d = 5%Z \/ d = 6%Z \/ d = 7%Z \/ d = 8%Z \/ d = 9%Z.
Proof. lia. Qed.
Ltac digit_case H := destruct (digit_cases _ H) as [->|[->|[->|[->|[->|[->|[->|[->|[->| ->]]]]]]]]].
Lemma digit_val_text d : (0 <= d <= 9)%Z -> digit_val (digit_text d) = Some d.
Proof. intros H. digit_case H; reflexivity. Qed.
Lemma digit_not_space d : (0 <= d <= 9)%Z -> is_space (digit_text d) = false.
Proof. intros H. digit_case H; reflexivity. Qed.
Lemma digit_not_sign d : (0 <= d <= 9)%Z -> Ascii.eqb (digit_text d) "-" = false /\ Ascii.eqb (digit_text d) "+" = false.
Proof. intros H. digit_case H; split; reflexivity. Qed.

Definition stops (s : string) : Prop :=
  match s with EmptyString => True | String c _ => digit_val c = None /\ Ascii.eqb c "_" = false end.
Lemma text_cons d ds : text (d :: ds) = String (digit_text d) (text ds).
Proof. reflexivity. Qed.
Lemma fold_spelled ds acc : fold_left (fun acc d => 10 * acc + d)%Z ds acc = (acc * 10 ^ Z.of_nat (List.length ds) + spelled ds)%Z.
Proof.
  unfold spelled. revert acc. induction ds as [|d ds IH]; intros acc; cbn [fold_left List.length]; [cbn; lia|].
  rewrite IH, (IH (10 * 0 + d)%Z). rewrite Nat2Z.inj_succ, Z.pow_succ_r by lia. ring.
Qed.
Lemma spelled_app a b : spelled (a ++ b) = (spelled a * 10 ^ Z.of_nat (List.length b) + spelled b)%Z.
Proof. unfold spelled at 1. rewrite fold_left_app. fold (spelled a). apply fold_spelled. Qed.
Lemma digits_text ds rest acc cnt : digits_ok ds -> stops rest ->
  digits (text ds ++ rest) acc cnt = (fold_left (fun acc d => 10 * acc + d)%Z ds acc, (cnt + List.length ds)%nat, rest).
Proof.
  intros H St. revert acc cnt. induction H as [|d ds Hd H IH]; intros acc cnt.
  - cbn [text map append string_of_list_ascii fold_left List.length]. rewrite Nat.add_0_r. cbn. destruct rest as [|c r]; [reflexivity|]. cbn in St. destruct St as [E1 E2]. cbn. now rewrite E1, E2.
  - rewrite text_cons. cbn [append digits]. rewrite digit_val_text by exact Hd. rewrite IH. cbn [fold_left List.length]. now rewrite Nat.add_succ_r.
Qed.
Lemma float_scientific d0 ds neg es : digits_ok (d0 :: ds) -> digits_ok es -> es <> [] ->
  py_float (scientific d0 ds neg es) = Ok (scientific_value d0 ds neg es).
Proof.
  intros H He Ne. inversion H as [|? ? H0 Hs]; subst. unfold py_float, scientific.
  change (text [d0] ++ "." ++ text ds ++ "E" ++ (if neg then "-" else "+") ++ text es)
    with (String (digit_text d0) ("." ++ text ds ++ "E" ++ (if neg then "-" else "+") ++ text es)).
  cbn [lstrip]. rewrite digit_not_space by exact H0. cbn [sign]. destruct (digit_not_sign d0 H0) as [-> ->].
  change (String (digit_text d0) ("." ++ text ds ++ "E" ++ (if neg then "-" else "+") ++ text es))
    with (text [d0] ++ ("." ++ text ds ++ "E" ++ (if neg then "-" else "+") ++ text es)).
  rewrite digits_text; [|constructor; [exact H0|constructor]|cbn; auto]. cbn [append]. change (Ascii.eqb "." ".") with true. cbn iota.
  rewrite digits_text; [|exact Hs|cbn; auto].
  cbn [List.length Nat.add Nat.eqb]. cbn iota. 
  assert (X : exponent (String "E" ((if neg then "-" else "+") ++ text es)) = Some ((if neg then - spelled es else spelled es)%Z, "")).
  { cbn [exponent]. change (Ascii.eqb (to_lower "E") "e") with true. cbn iota.
    assert (S1 : sign ((if neg then "-" else "+") ++ text es) = (if neg then -1 else 1, text es)%Z) by (destruct neg; reflexivity).
    rewrite S1. rewrite <- (app_nil_s (text es)). rewrite digits_text; [|exact He|cbn; auto]. cbn [Nat.add].
    destruct es as [|e es]; [contradiction|]. cbn [List.length]. cbn iota. do 2 f_equal. unfold spelled. destruct neg; ring. }
  rewrite X. cbn iota. cbn [all_space]. unfold scientific_value. do 2 f_equal.
  rewrite !fold_spelled. cbn [fold_left]. change (d0 :: ds)%list with ([d0] ++ ds)%list. rewrite spelled_app. 
  change (spelled [d0]) with (10 * 0 + d0)%Z. ring.
Qed.
Lemma float_decimal is fs : digits_ok is -> digits_ok fs -> is <> [] -> py_float (decimal is fs) = Ok (decimal_value is fs).
Proof.
  intros H Hf Ni. destruct is as [|d0 is]; [contradiction|]. inversion H as [|? ? H0 Hs]; subst. unfold py_float, decimal.
  rewrite text_cons. cbn [append lstrip]. rewrite digit_not_space by exact H0. cbn [sign]. destruct (digit_not_sign d0 H0) as [-> ->].
  change (String (digit_text d0) (text is ++ String "." (text fs))) with (text (d0 :: is) ++ (String "." (text fs))).
  rewrite digits_text; [|exact H|cbn; auto]. change (Ascii.eqb "." ".") with true. cbn iota.
  rewrite <- (app_nil_s (text fs)). rewrite digits_text; [|exact Hf|cbn; auto]. cbn [List.length Nat.add Nat.eqb exponent all_space]. cbn iota.
  unfold decimal_value. do 2 f_equal.
  rewrite !fold_spelled. change ((d0 :: is) ++ fs)%list with ((d0 :: is) ++ fs)%list. rewrite spelled_app. ring.
Qed.
Lemma int_text is : digits_ok is -> is <> [] -> py_int (text is) = Ok (spelled is).
Proof.
  intros H Ni. destruct is as [|d0 is]; [contradiction|]. inversion H as [|? ? H0 Hs]; subst. unfold py_int.
  rewrite text_cons. cbn [lstrip]. rewrite digit_not_space by exact H0. cbn [sign]. destruct (digit_not_sign d0 H0) as [-> ->].
  change (String (digit_text d0) (text is)) with (text (d0 :: is)). rewrite <- (app_nil_s (text (d0 :: is))).
  rewrite digits_text; [|exact H|cbn; auto]. cbn [List.length Nat.add all_space]. cbn iota. f_equal. unfold spelled. ring.
Qed.
