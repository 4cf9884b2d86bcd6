(** Proofs about [np.vectorize]. *)
From Coq Require Import List ZArith Bool Arith Lia.
From Flocq Require Import Core BinarySingleNaN.
From Verif Require Import Py M_Num M_CrossSection M_Ieee M_Ieee2 M_Ieee3 M_Array M_Array2 S_Array S_Array2 L_Array L_Array2 L_Array3 L_Array4 L_Array5.
Import ListNotations.
Open Scope py_scope.

Lemma index_cons d u k i : index_of (d :: u) (k :: i) <-> (k < d)%nat /\ index_of u i.
Proof.
  unfold index_of, size. cbn [length]. split.
  - intros [L H]. split; [exact (H 0%nat (Nat.lt_0_succ _))|]. split; [lia|]. intros n N. exact (H (S n) (proj1 (Nat.succ_lt_mono _ _) N)).
  - intros (K & L & H). split; [lia|]. intros [|n] N; [exact K|]. apply H. lia.
Qed.
Lemma indices_spec : forall u i, In i (indices u) <-> index_of u i.
Proof.
  induction u as [|d u IH]; intros i; cbn [indices].
  - split; [intros [<-|[]]; split; [reflexivity|intros n N; inversion N]|]. intros [L _]. destruct i; [left; reflexivity|discriminate].
  - rewrite in_flat_map. split.
    + intros (j & J & H). apply in_map_iff in H as (k & <- & K). apply in_seq in K. apply index_cons. split; [lia|]. now apply IH.
    + intros H. destruct i as [|k i]; [destruct H as [L _]; discriminate|]. apply index_cons in H as [K H]. exists i. split; [now apply IH|]. apply in_map_iff. exists k. split; [reflexivity|].
      apply in_seq. lia.
Qed.
Lemma traverse_cases {A B} (g : A -> out B) : forall l, (exists r, traverse g l = Ok r /\ forall i, In i l -> exists b, g i = Ok b) \/
  exists i, In i l /\ (forall b, g i <> Ok b) /\ forall C (k : list B -> out C) (h : B -> out C), bind (traverse g l) k = bind (g i) h.
Proof.
  unfold traverse. induction l as [|x l IH]; [left; exists []; split; [reflexivity|intros i []]|]. cbn [map sequence].
  destruct (g x) as [b| |e] eqn:G.
  - cbn [bind]. destruct IH as [(r & R & H)|(i & I & N & H)].
    + left. rewrite R. cbn [bind]. exists (b :: r). split; [reflexivity|]. intros i [<-|I]; eauto.
    + right. exists i. split; [now right|]. split; [exact N|]. intros C k h. rewrite <- (H C (fun r => k (b :: r)) h). destruct (sequence (map g l)); reflexivity.
  - right. exists x. split; [now left|]. split; [congruence|]. intros C k h. now rewrite G.
  - right. exists x. split; [now left|]. split; [congruence|]. intros C k h. now rewrite G.
Qed.
Lemma empty_spec x : existsb (Nat.eqb 0) (nd_shape (asarray x)) = true <-> empty x.
Proof.
  unfold empty, shape. rewrite existsb_exists. split; [intros (n & N & E); apply Nat.eqb_eq in E; now subst n|]. intros H. exists 0%nat. auto.
Qed.
Lemma vectorize_spec f x y : vectorized f x y (vectorize f x y).
Proof.
  unfold vectorized, vectorize. destruct (existsb (Nat.eqb 0) (nd_shape (asarray x))) eqn:EX; [left; cbn [orb]; split; [left; now apply empty_spec|reflexivity]|].
  destruct (existsb (Nat.eqb 0) (nd_shape (asarray y))) eqn:EY; [left; cbn [orb]; split; [right; left; now apply empty_spec|reflexivity]|]. cbn [orb].
  assert (NX : ~ empty x) by (rewrite <- empty_spec; congruence). assert (NY : ~ empty y) by (rewrite <- empty_spec; congruence).
  change (nd_shape (asarray x)) with (shape x). change (nd_shape (asarray y)) with (shape y).
  assert (J : joins [shape x; shape y] = join_shape (shape x) (shape y)). { cbn [joins]. shapes. reflexivity. }
  destruct (join_shape (shape x) (shape y)) as [u|]; [|left; split; [right; right; now apply joins_none|reflexivity]]. right.
  apply joins_some in J. set (g := fun i => f _ _).
  assert (E : forall i, index_of u i -> g i = f (element x i) (element y i)).
  { intros i I. unfold g. destruct J as (_ & _ & J & _). pose proof (J (shape x) (or_introl eq_refl)). pose proof (J (shape y) (or_intror (or_introl eq_refl))).
    destruct I as [I _]. rewrite <- (el_spec x), <- (el_spec y) by lia. reflexivity. }
  destruct (traverse_cases g (indices u)) as [(r & R & H)|(i & I & N & H)].
  - left. split; [exact NX|]. split; [exact NY|]. right. rewrite R. cbn [bind]. eexists. split; [reflexivity|]. split; [exact J|]. cbn [nd_shape nd_at map fn2].
    intros i I. rewrite <- (E i I). destruct (H i (proj2 (indices_spec u i) I)) as [b B].
    change (g i = Ok (number_or_nan (g i))). now rewrite B.
  - right. exists u, i. apply indices_spec in I. split; [exact J|]. split; [exact I|]. rewrite <- (E i I). split; [apply H|].
    intros q. rewrite (H _ _ (fun b => Ok (Float b))). destruct (g i) as [b| |e]; [exfalso; exact (N b eq_refl)|discriminate|discriminate].
Qed.

(** *** The Debye model *)
Lemma quo_zero x y : bzero x = true -> bzero y = false -> bzero (bquo x y) = true \/ is_finite (bquo x y) = false.
Proof. destruct x as [[]|[]| |[] m e H], y as [[]|[]| |[] m' e' H']; intros X Y; try discriminate; auto. Qed.
Lemma debye_zero cube quad T T_D : (forall x, bzero x = true -> cube x = x) -> bzero T = true -> beffective_temperature cube quad T T_D = Raise ZeroDivisionError.
Proof.
  intros C Z. unfold beffective_temperature, bdivide. destruct (bzero T_D) eqn:D; [reflexivity|]. cbn [bind]. rewrite Z. unfold bpower.
  destruct (quo_zero T T_D Z D) as [Q|Q].
  - rewrite (C _ Q). replace (binf (bquo T T_D)) with false by (destruct (bquo T T_D); try discriminate Q; reflexivity). rewrite andb_false_r. reflexivity.
  - rewrite Q. reflexivity.
Qed.
Lemma debye_cases cube quad T T_D : (forall x, exists q, quad x = Ok q) ->
  (exists r, beffective_temperature cube quad T T_D = Ok r) \/ beffective_temperature cube quad T T_D = Raise ZeroDivisionError \/ beffective_temperature cube quad T T_D = Raise OverflowError.
Proof.
  intros Q. unfold beffective_temperature, bdivide, bpower. destruct (bzero T_D); [auto|]. cbn [bind]. destruct (_ && _); [auto|]. cbn [bind]. destruct (bzero T); [auto|]. cbn [bind].
  destruct (Q (bquo T_D T)) as [q ->]. cbn [bind]. eauto.
Qed.
Lemma debye_array_zero cube quad T T_D u i : (forall x, bzero x = true -> cube x = x) -> (forall x, exists q, quad x = Ok q) ->
  broadcast [shape T; shape T_D] u -> index_of u i -> bzero (element T i) = true -> ~ empty T -> ~ empty T_D ->
  aeffective_temperature cube quad T T_D = Raise ZeroDivisionError \/ aeffective_temperature cube quad T T_D = Raise OverflowError.
Proof.
  intros C Q B I Z NT ND. unfold aeffective_temperature. pose proof (broadcast_unique _ _ B) as [NC U].
  destruct (vectorize_spec (beffective_temperature cube quad) T T_D) as [[[H|[H|H]] _]|[(_ & _ & [[H _]|(a & E & A & F)])|(v & j & V & J & E & N)]]; try contradiction.
  - exfalso. apply U in A. rewrite A in F. specialize (F i I). cbn [map fn2] in F. rewrite (debye_zero _ _ _ _ C Z) in F. discriminate.
  - rewrite E. destruct (debye_cases cube quad (element T j) (element T_D j) Q) as [[r R]|[R|R]]; rewrite R in E |- *; cbn [bind] in E |- *; auto. exfalso. exact (N _ E).
Qed.
Lemma debye_float cube quad T T_D : aeffective_temperature cube quad (Float T) (Float T_D) = numpy_float (beffective_temperature cube quad T T_D).
Proof. unfold aeffective_temperature, vectorize. cbn. destruct (beffective_temperature cube quad T T_D); reflexivity. Qed.
Lemma debye_list f a y : vectorize f (Seq a) y = vectorize f (Nd a) y /\ vectorize f y (Seq a) = vectorize f y (Nd a).
Proof. split; reflexivity. Qed.
(** Constants for examples and counterexamples. *)
Definition vector12 : nd := vector [of_Z 1; of_Z 2].
Definition identity_table : tlib := {| t_log10 := fun x => x; t_interpolate := fun x => x; t_power := fun x => x |}.
Definition mixed_sum : source := Weighted [Weighted [Table identity_table; Constant (of_Z 3)] [of_Z 1; of_Z 1]; Line (Scipy (fun x => x)) (of_Z 1) (of_Z 2)] [of_Z 2; of_Z 1].
Lemma mixed_example : constants_only mixed_sum = false /\ calculates mixed_sum = false /\ weighted mixed_sum = true /\
  elementwise (fn1 (bcall (numbers NumpyFloat mixed_sum))) [Nd vector12] (acall mixed_sum (Nd vector12)).
Proof.
  assert (C : constants_only mixed_sum = false) by reflexivity. assert (W : weighted mixed_sum = true) by reflexivity.
  split; [exact C|]. split; [reflexivity|]. split; [exact W|].
  pose proof (called_array mixed_sum vector12) as H. rewrite C in H. destruct H as [(e & E & _)|H]; [|exact H]. exfalso.
  destruct (weighted_runs mixed_sum vector12 W) as [x X]. rewrite X in E. discriminate.
Qed.
Lemma constants_refuted : ~ (forall v a, weighted v = true -> exists b, acall v (Nd a) = Ok (Nd b) /\ nd_shape b = nd_shape a).
Proof. intros H. destruct (H (Weighted [Constant (of_Z 1)] [of_Z 1]) vector12 eq_refl) as (b & B & _). discriminate. Qed.
Lemma lists_refuted : ~ (forall v a, weighted v = true -> acall v (Seq a) = acall v (Nd a)).
Proof. intros H. specialize (H (Line (Semi (fun x => x) (of_Z 1)) (of_Z 1) (of_Z 1)) vector12 eq_refl). discriminate. Qed.
Lemma debye_example : (forall x, bzero x = true -> (fun x : b64 => x) x = x) /\ (forall x, exists q, (fun x : b64 => Ok x) x = Ok q) /\
  broadcast [shape (Nd (vector [of_Z 0; of_Z 2])); shape (Float (of_Z 1))] [2%nat] /\ index_of [2%nat] [0%nat] /\ bzero (element (Nd (vector [of_Z 0; of_Z 2])) [0%nat]) = true /\
  ~ empty (Nd (vector [of_Z 0; of_Z 2])) /\ ~ empty (Float (of_Z 1)).
Proof.
  split; [reflexivity|]. split; [eauto|]. split; [apply joins_some; reflexivity|]. split; [split; [reflexivity|]; intros [|n] N; cbn in *; lia|]. split; [vm_compute; reflexivity|].
  split; intros H; cbn in H; intuition discriminate.
Qed.
