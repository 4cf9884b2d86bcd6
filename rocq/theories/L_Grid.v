From Coq Require Import Reals List ZArith Bool Lia Lra Sorted.
From Coquelicot Require Import Rbar.
From Verif Require Import Py M_Num M_Grid Spec.
Import ListNotations.
Open Scope R_scope.

Lemma removelast_map {A B} (f : A -> B) l : removelast (map f l) = map f (removelast l).
Proof. induction l; simpl; auto. destruct l; simpl in *; auto. f_equal; auto. Qed.

Lemma removelast_seq i n : removelast (seq i (S n)) = seq i n.
Proof. rewrite seq_S, removelast_last. reflexivity. Qed.

Lemma linspace_ok a b n : (2 <= n)%Z ->
  linspace a b n = Ok (map (fun i => a + INR i * ((b - a) / IZR (n - 1))) (seq 0 (Z.to_nat n))).
Proof.
  intros H. unfold linspace.
  destruct (Z.ltb_spec n 0); [lia|]. destruct (Z.eqb_spec n 0); [lia|]. destruct (Z.eqb_spec n 1); [lia|].
  destruct (Z.to_nat n) as [|m] eqn:M; [lia|].
  assert (Hm : (n - 1)%Z = Z.of_nat m) by lia.
  unfold set_last. destruct (map _ (seq 0 (S m))) eqn:E; [discriminate|]. rewrite <- E.
  f_equal. rewrite removelast_map, removelast_seq, seq_S, map_app. simpl. f_equal. f_equal.
  rewrite Hm, <- INR_IZR_INZ. field. apply not_0_INR. lia.
Qed.

Lemma linspace_1 a b : linspace a b 1 = Ok [a].
Proof. reflexivity. Qed.
Lemma linspace_0 a b : linspace a b 0 = Ok [].
Proof. reflexivity. Qed.
Lemma linspace_neg a b n : (n < 0)%Z -> linspace a b n = Raise ValueError.
Proof. intros. unfold linspace. destruct (Z.ltb_spec n 0); [auto|lia]. Qed.

Lemma linspace_nonneg a b n : (0 <= n)%Z -> exists l, linspace a b n = Ok l /\ length l = Z.to_nat n.
Proof.
  intros H. assert (C : n = 0%Z \/ n = 1%Z \/ (2 <= n)%Z) by lia.
  destruct C as [->|[->|C]].
  - exists []; auto.
  - exists [a]; auto.
  - eexists; split. now apply linspace_ok. now rewrite map_length, seq_length.
Qed.

Lemma nth_map_seq (f : nat -> R) n i d : (i < n)%nat -> nth i (map f (seq 0 n)) d = f i.
Proof.
  intros. rewrite nth_indep with (d' := f 0%nat) by (rewrite map_length, seq_length; auto).
  rewrite (map_nth f). now rewrite seq_nth.
Qed.

Lemma ssorted_map_seq (f : nat -> R) i n : (forall i j, (i < j)%nat -> f i < f j) ->
  StronglySorted Rlt (map f (seq i n)).
Proof.
  intros H; revert i; induction n; intros; simpl; constructor; auto.
  apply Forall_forall. intros x Hx. apply in_map_iff in Hx. destruct Hx as (j & <- & Hj).
  apply in_seq in Hj. apply H; lia.
Qed.

Lemma last_map_seq (f : nat -> R) n d : last (map f (seq 0 (S n))) d = f n.
Proof. rewrite seq_S, map_app. simpl. now rewrite last_last. Qed.

(** ** unique *)
Lemma Rbar_lt_trans' x y z : Rbar_lt x y -> Rbar_lt y z -> Rbar_lt x z.
Proof. apply Rbar_lt_trans. Qed.

Lemma insert_unique_in x l y : In y (insert_unique x l) <-> y = x \/ In y l.
Proof.
  induction l; simpl. intuition.
  destruct (Rbar_lt_dec x a); simpl. intuition.
  destruct (Rbar_eq_dec x a); simpl. subst; intuition.
  rewrite IHl. intuition.
Qed.

Lemma insert_unique_sorted x l : StronglySorted Rbar_lt l -> StronglySorted Rbar_lt (insert_unique x l).
Proof.
  induction 1; simpl. repeat constructor.
  destruct (Rbar_lt_dec x a).
  - constructor. constructor; auto. constructor; auto.
    eapply Forall_impl; [|eassumption]. intros; eapply Rbar_lt_trans; eauto.
  - destruct (Rbar_eq_dec x a). constructor; auto.
    constructor; auto. apply Forall_forall. intros y Hy. apply insert_unique_in in Hy.
    destruct Hy as [->|Hy].
    + apply Rbar_not_lt_le in n. apply Rbar_le_lt_or_eq_dec in n. destruct n as [n|n]; auto. congruence.
    + rewrite Forall_forall in H0; auto.
Qed.

Lemma np_unique_in l y : In y (np_unique l) <-> In y l.
Proof. induction l; simpl. tauto. rewrite insert_unique_in, IHl. intuition. Qed.
Lemma np_unique_sorted l : StronglySorted Rbar_lt (np_unique l).
Proof. induction l; simpl. constructor. now apply insert_unique_sorted. Qed.

(** A strictly sorted list is determined by its elements. *)
Lemma ssorted_ext l l' : StronglySorted Rbar_lt l -> StronglySorted Rbar_lt l' ->
  (forall x, In x l <-> In x l') -> l = l'.
Proof.
  intros H; revert l'; induction H; intros l' H' E.
  - destruct l'; auto. exfalso. apply (E r). simpl; auto.
  - inversion H' as [|b l2 Hs Hf]; subst.
    { exfalso. apply (E a). simpl; auto. }
    assert (a = b).
    { destruct (proj1 (E a) (or_introl eq_refl)) as [|I]; auto.
      destruct (proj2 (E b) (or_introl eq_refl)) as [|J]; auto.
      rewrite Forall_forall in *. apply Hf in I. apply H0 in J.
      exfalso. eapply Rbar_lt_not_le; [exact I|]. now apply Rbar_lt_le. }
    subst b. f_equal. apply IHStronglySorted; auto.
    intros x. rewrite Forall_forall in *.
    split; intros I.
    + destruct (proj1 (E x) (or_intror I)) as [|J]; auto. subst.
      apply H0 in I. exfalso. eapply Rbar_lt_not_le; [exact I|]. apply Rbar_le_refl.
    + destruct (proj2 (E x) (or_intror I)) as [|J]; auto. subst.
      apply Hf in I. exfalso. eapply Rbar_lt_not_le; [exact I|]. apply Rbar_le_refl.
Qed.
