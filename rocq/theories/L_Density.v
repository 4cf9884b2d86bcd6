(** Reading densities. *)
From Coq Require Import Ascii String List ZArith Bool Lia.
From Verif Require Import Py PyStr PyNum M_Readers S_Readers L_Str.
Import ListNotations.
Open Scope string_scope.
Open Scope py_scope.

(** ** Substrings *)
Lemma prefixb_iff p s : prefixb p s = true <-> exists b, s = p ++ b.
Proof.
  revert s. induction p as [|c p IH]; intros s; cbn.
  - split; [|reflexivity]. intros _. now exists s.
  - destruct s as [|d s]; [split; [discriminate|intros [b E]; discriminate]|]. destruct (Ascii.eqb_spec c d) as [->|N].
    + rewrite IH. split; intros [b E]; exists b; [now rewrite E|now injection E].
    + split; [discriminate|]. intros [b E]. injection E as E _. congruence.
Qed.
Lemma py_in_iff p s : py_in p s = true <-> contains p s.
Proof.
  unfold py_in, contains. induction s as [|c s IH].
  - cbn [find_nat]. destruct (prefixb p "") eqn:E.
    + split; [|reflexivity]. intros _. apply prefixb_iff in E. destruct E as [b E]. now exists "", b.
    + split; [discriminate|]. intros (a & b & H). destruct a; [|discriminate]. assert (prefixb p "" = true) by (apply prefixb_iff; now exists b). congruence.
  - cbn [find_nat]. destruct (prefixb p (String c s)) eqn:E.
    + split; [|reflexivity]. intros _. apply prefixb_iff in E. destruct E as [b E]. now exists "", b.
    + destruct (find_nat p s).
      * split; [|reflexivity]. intros _. destruct (proj1 IH eq_refl) as (a & b & ->). now exists (String c a), b.
      * split; [discriminate|]. intros (a & b & H). destruct a as [|d a].
        { assert (prefixb p (String c s) = true) by (apply prefixb_iff; now exists b). congruence. }
        injection H as -> ->. apply IH. now exists a, b.
Qed.
Lemma every_contains p q s : contains p s -> every q s = true -> every q p = true.
Proof. intros (a & b & ->) H. rewrite !every_app in H. apply andb_prop in H. destruct H as [_ H]. apply andb_prop in H. apply H. Qed.

(** ** Trailing white space *)
Lemma all_space_app a b : all_space (a ++ b) = (all_space a && all_space b).
Proof. induction a as [|c a IH]; cbn; [reflexivity|]. rewrite IH. apply andb_assoc. Qed.
Lemma space_digit c : is_space c = true -> digit_val c = None /\ Ascii.eqb c "_" = false /\ Ascii.eqb c "-" = false /\ Ascii.eqb c "+" = false /\ Ascii.eqb c "." = false /\ Ascii.eqb (to_lower c) "e" = false /\ to_lower c = c.
Proof. destruct c as [[] [] [] [] [] [] [] []]; cbv; intros H; try discriminate; repeat split. Qed.
Section Trailing.
  Variable w : string.
  Hypothesis W : all_space w = true.
  Lemma w_cases : w = "" \/ exists c r, w = String c r /\ is_space c = true.
  Proof. destruct w as [|c r]; [now left|]. cbn in W. apply andb_prop in W. right. exists c, r. now split. Qed.
  Lemma digits_w t : forall acc cnt v n r, digits t acc cnt = (v, n, r) -> digits (t ++ w) acc cnt = (v, n, r ++ w).
  Proof.
    assert (G : forall k t, String.length t <= k -> forall acc cnt v n r, digits t acc cnt = (v, n, r) -> digits (t ++ w) acc cnt = (v, n, r ++ w)).
    { intros k. induction k as [|k IH]; intros t0 L acc cnt v n r H.
      - destruct t0; [|cbn in L; lia]. cbn in H. injection H as <- <- <-. cbn [append]. destruct w_cases as [E|(c & r & E & S1)]; rewrite E; [reflexivity|].
        cbn. destruct (space_digit c S1) as (-> & -> & _). reflexivity.
      - destruct t0 as [|c t0]; [cbn in H; injection H as <- <- <-; cbn [append]; destruct w_cases as [E|(c & r & E & S1)]; rewrite E; [reflexivity|];
          cbn; destruct (space_digit c S1) as (-> & -> & _); reflexivity|].
        cbn [append digits] in *. cbn in L. destruct (digit_val c) as [d|]; [apply IH; [lia|exact H]|].
        destruct (Ascii.eqb c "_").
        + destruct cnt as [|cnt]; [injection H as <- <- <-; reflexivity|]. destruct t0 as [|c2 t2].
          * injection H as <- <- <-. cbn [append]. destruct w_cases as [E|(c3 & r3 & E & S1)]; rewrite E; [reflexivity|].
            destruct (space_digit c3 S1) as (-> & _). reflexivity.
          * cbn [append]. destruct (digit_val c2) as [d|]; [apply IH; [cbn in L; lia|exact H]|]. injection H as <- <- <-. reflexivity.
        + injection H as <- <- <-. reflexivity. }
    intros acc cnt v n r H. now apply (G (String.length t)).
  Qed.
  Lemma sign_w t sg r : sign t = (sg, r) -> sign (t ++ w) = (sg, r ++ w).
  Proof.
    destruct t as [|c t]; cbn.
    - intros H. injection H as <- <-. destruct w_cases as [E|(c & r0 & E & S1)]; rewrite E; [reflexivity|]. cbn. destruct (space_digit c S1) as (_ & _ & -> & -> & _). reflexivity.
    - destruct (Ascii.eqb c "-"); [intros H; injection H as <- <-; reflexivity|]. destruct (Ascii.eqb c "+"); intros H; injection H as <- <-; reflexivity.
  Qed.
  Lemma exponent_w t e r : exponent t = Some (e, r) -> exponent (t ++ w) = Some (e, r ++ w).
  Proof.
    destruct t as [|c t]; cbn [exponent append].
    - intros H. injection H as <- <-. destruct w_cases as [E|(c & r0 & E & S1)]; rewrite E; [reflexivity|]. cbn [exponent]. destruct (space_digit c S1) as (_ & _ & _ & _ & _ & -> & _). reflexivity.
    - destruct (Ascii.eqb (to_lower c) "e").
      + destruct (sign t) as [sg r1] eqn:E1. rewrite (sign_w _ _ _ E1). destruct (digits r1 0 0) as [[v n] r2] eqn:E2. rewrite (digits_w _ _ _ _ _ _ E2).
        destruct n; [discriminate|]. intros H. injection H as <- <-. reflexivity.
      + intros H. injection H as <- <-. reflexivity.
  Qed.
  Lemma lower_w t : lower (t ++ w) = lower t ++ w.
  Proof.
    induction t as [|c t IH]; cbn; [|now rewrite IH]. revert W. induction w as [|c r IH]; [reflexivity|]. cbn. intros H. apply andb_prop in H. destruct H as [H1 H2].
    destruct (space_digit c H1) as (_ & _ & _ & _ & _ & _ & ->). now rewrite IH.
  Qed.
  Lemma try_w p t : every (fun c => negb (is_space c)) p = true -> let tr s := prefixb p s && all_space (substring (String.length p) (String.length s - String.length p) s) in
    tr (t ++ w) = tr t.
  Proof.
    intros HP tr. unfold tr. destruct (prefixb p t) eqn:E.
    - apply prefixb_iff in E. destruct E as [b ->]. assert (E2 : prefixb p ((p ++ b) ++ w) = true) by (apply prefixb_iff; exists (b ++ w); apply app_assoc_s).
      rewrite E2. cbn [andb]. rewrite app_assoc_s. rewrite !substring_shift, !length_app_s.
      replace (String.length p + (String.length b + String.length w) - String.length p)%nat with (String.length (b ++ w)) by (rewrite length_app_s; lia).
      replace (String.length p + String.length b - String.length p)%nat with (String.length b) by lia.
      rewrite <- (app_nil_s (b ++ w)) at 2. rewrite substring_0. rewrite <- (app_nil_s b) at 3. rewrite substring_0. rewrite all_space_app, W. apply andb_true_r.
    - cbn [andb]. assert (E2 : prefixb p (t ++ w) = false); [|now rewrite E2]. clear tr. revert t E. induction p as [|c p IH]; intros t E; [discriminate|].
      cbn in HP. apply andb_prop in HP. destruct HP as [H1 H2]. destruct t as [|d t].
      + cbn [append]. destruct w_cases as [E1|(c1 & r1 & E1 & S1)]; rewrite E1; [reflexivity|]. cbn. destruct (Ascii.eqb_spec c c1) as [->|]; [|reflexivity]. rewrite S1 in H1. discriminate.
      + cbn in E |- *. destruct (Ascii.eqb c d); [|reflexivity]. now apply IH.
  Qed.
  Lemma special_w sg t v : special sg t = Some v -> special sg (t ++ w) = Some v.
  Proof.
    unfold special. cbv zeta. rewrite lower_w. intros H.
    pose proof (try_w "inf" (lower t) eq_refl) as A. pose proof (try_w "infinity" (lower t) eq_refl) as B. pose proof (try_w "nan" (lower t) eq_refl) as C.
    cbv zeta in A, B, C. rewrite A, B, C. exact H.
  Qed.
  Lemma lstrip_w t c r : lstrip t = String c r -> lstrip (t ++ w) = String c r ++ w.
  Proof.
    induction t as [|d t IH]; cbn; [discriminate|]. destruct (is_space d); [exact IH|]. intros H. injection H as -> ->. reflexivity.
  Qed.
  Lemma float_w t v : py_float t = Ok v -> py_float (t ++ w) = Ok v.
  Proof.
    unfold py_float. destruct (lstrip t) as [|c0 r0] eqn:E0.
    - cbn. discriminate.
    - rewrite (lstrip_w _ _ _ E0). destruct (sign (String c0 r0)) as [sg r] eqn:E1. rewrite (sign_w _ _ _ E1).
      destruct (digits r 0 0) as [[ip ni] r1] eqn:E2. rewrite (digits_w _ _ _ _ _ _ E2).
      destruct r1 as [|c1 r1].
      + cbn [append]. assert (EW : match w with String c r' => if Ascii.eqb c "." then let '(v0, n, rest) := digits r' 0 0 in ((ip * 10 ^ Z.of_nat n + v0)%Z, n, rest) else (ip, O, w) | "" => (ip, O, w) end = (ip, O, w)).
        { destruct w_cases as [E|(c & r' & E & S1)]; rewrite E; [reflexivity|]. destruct (space_digit c S1) as (_ & _ & _ & _ & -> & _). reflexivity. }
        rewrite EW. destruct (ni + 0 =? 0)%nat.
        * destruct (special sg r) eqn:E3; [|discriminate]. intros H. rewrite (special_w _ _ _ E3). exact H.
        * intros H. cbn [exponent all_space] in H. assert (X := exponent_w "" 0 "" eq_refl). cbn [append] in X. rewrite X, W. exact H.
      + cbn [append]. destruct (Ascii.eqb c1 ".").
        * destruct (digits r1 0 0) as [[v0 n0] rest] eqn:E3. rewrite (digits_w _ _ _ _ _ _ E3). destruct (ni + n0 =? 0)%nat.
          { destruct (special sg r) eqn:E4; [|discriminate]. intros H. rewrite (special_w _ _ _ E4). exact H. }
          destruct (exponent rest) as [[e r3]|] eqn:E4; [|discriminate]. rewrite (exponent_w _ _ _ E4), all_space_app, W, andb_true_r. exact (fun H => H).
        * destruct (ni + 0 =? 0)%nat.
          { destruct (special sg r) eqn:E4; [|discriminate]. intros H. rewrite (special_w _ _ _ E4). exact H. }
          destruct (exponent (String c1 r1)) as [[e r3]|] eqn:E4; [|discriminate]. change (String c1 (r1 ++ w)) with (String c1 r1 ++ w).
          rewrite (exponent_w _ _ _ E4), all_space_app, W, andb_true_r. exact (fun H => H).
  Qed.
End Trailing.
