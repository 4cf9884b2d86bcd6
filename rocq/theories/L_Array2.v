(** Proofs about broadcasting, continued: the specification of shapes and elements. *)
From Coq Require Import List ZArith Bool Arith Lia.
From Flocq Require Import Core BinarySingleNaN.
From Verif Require Import Py M_Num M_Ieee M_Ieee2 M_Ieee3 M_Array S_Ieee S_Ieee3 S_Array L_Array.
Import ListNotations.

(** *** Shapes *)
Lemma join_sizes : forall s t u, join_shape s t = Some u -> (forall n, join_size (size s n) (size t n) = Some (size u n)) /\ length u = Nat.max (length s) (length t).
Proof.
  induction s as [|d s IH]; intros t u H.
  { injection H as <-. split; [|reflexivity]. intros n. unfold size. destruct n; reflexivity. }
  destruct t as [|e t].
  { injection H as <-. split; [|cbn; lia]. intros n. rewrite size_comm. unfold size. replace (nth n [] 1%nat) with 1%nat by (destruct n; reflexivity). reflexivity. }
  cbn in H. destruct (join_size d e) as [m|] eqn:M; [|discriminate]. destruct (join_shape s t) as [v|] eqn:V; [|discriminate]. injection H as <-.
  destruct (IH t v V) as [A B]. split; [|cbn; now rewrite B]. intros [|n]; [exact M|exact (A n)].
Qed.
Lemma join_clash : forall s t, join_shape s t = None -> exists n, join_size (size s n) (size t n) = None.
Proof.
  induction s as [|d s IH]; intros [|e t] H; try discriminate. cbn in H. destruct (join_size d e) as [m|] eqn:M; [|exists 0%nat; exact M].
  destruct (join_shape s t) as [v|] eqn:V; [discriminate|]. destruct (IH t V) as [n N]. exists (S n). exact N.
Qed.
Lemma size_some d e n : join_size d e = Some n -> (d = 1%nat \/ d = n) /\ (e = 1%nat \/ e = n) /\ (n = d \/ n = e).
Proof. unfold join_size. destruct (Nat.eqb_spec d 1); [intros [= ->]; auto|]. destruct (Nat.eqb_spec e 1); [intros [= ->]; auto|]. destruct (Nat.eqb_spec d e); [intros [= ->]; auto|discriminate]. Qed.
Lemma size_none d e : join_size d e = None -> d <> 1%nat /\ e <> 1%nat /\ d <> e.
Proof. unfold join_size. destruct (Nat.eqb_spec d 1); [discriminate|]. destruct (Nat.eqb_spec e 1); [discriminate|]. destruct (Nat.eqb_spec d e); [discriminate|auto]. Qed.

Fixpoint joins (ss : list (list nat)) : option (list nat) := match ss with [] => Some [] | s :: ss => ojoin (Some s) (joins ss) end.
Lemma joins_some : forall ss u, joins ss = Some u -> broadcast ss u.
Proof.
  induction ss as [|s ss IH]; intros u H.
  { injection H as <-. split; [intros s n []|]. split; [intros n; left; destruct n; reflexivity|]. split; [intros s []|left; reflexivity]. }
  cbn in H. destruct (joins ss) as [v|]; [|discriminate]. destruct (IH v eq_refl) as (B1 & B2 & B3 & B4). destruct (join_sizes s v u H) as [J L].
  assert (J' := fun n => size_some _ _ _ (J n)). split; [|split; [|split]].
  - intros t n [<-|T]; [apply J'|]. destruct (B1 t n T) as [E|E]; [now left|]. rewrite E. apply J'.
  - intros n. destruct (J' n) as (_ & _ & [E|E]).
    + right. exists s. split; [now left|auto].
    + destruct (B2 n) as [F|(t & T & F)]; [left; congruence|]. right. exists t. split; [now right|congruence].
  - intros t [<-|T]; [lia|]. specialize (B3 t T). lia.
  - destruct (Nat.leb_spec (length v) (length s)); [right; exists s; split; [now left|lia]|]. destruct B4 as [->|(t & T & E)]; [cbn in *; lia|]. right. exists t. split; [now right|lia].
Qed.
Lemma joins_none : forall ss, joins ss = None -> clash ss.
Proof.
  induction ss as [|s ss IH]; intros H; [discriminate|]. cbn in H. destruct (joins ss) as [v|] eqn:V.
  - destruct (join_clash s v H) as [n N]. apply size_none in N as (N1 & N2 & N3). destruct (joins_some ss v V) as (_ & B & _). destruct (B n) as [F|(t & T & F)]; [congruence|].
    exists s, t, n. split; [now left|]. split; [now right|]. repeat split; congruence.
  - destruct (IH eq_refl) as (s' & t & n & A & B & C). exists s', t, n. split; [now right|]. split; [now right|exact C].
Qed.

(** *** Elements *)
Lemma stretch_spec : forall s i, (length s <= length i)%nat -> stretch s i = map (fun n => if size s n =? 1 then 0%nat else nth n i 0%nat) (seq 0 (length s)).
Proof.
  induction s as [|d s IH]; intros i H; [reflexivity|]. destruct i as [|k i]; [cbn in H; lia|]. cbn [stretch length seq map]. f_equal.
  rewrite IH by (cbn in H; lia). rewrite <- seq_shift, map_map. reflexivity.
Qed.
Definition el (x : arg) (i : list nat) : b64 := nd_at (asarray x) (stretch (shape x) i).
Lemma el_spec x i : (length (shape x) <= length i)%nat -> el x i = element x i.
Proof. intros H. unfold el, element. now rewrite stretch_spec. Qed.
Lemma stretch_index s i : index_of s i -> stretch s i = i.
Proof.
  revert i. induction s as [|d s IH]; intros [|k i] [L H]; try discriminate; [reflexivity|]. cbn. rewrite IH.
  - destruct (Nat.eqb_spec d 1); [|reflexivity]. subst. specialize (H 0%nat ltac:(cbn; lia)). cbn in H. f_equal. lia.
  - split; [now injection L|]. intros n N. exact (H (S n) ltac:(cbn; lia)).
Qed.

(** *** From values of expressions to the specification *)
Lemma holds_elementwise f xs o g : holds o (joins (map shape xs)) g -> nds o -> (forall i, f (map (fun x => el x i) xs) = Ok (g i)) -> elementwise f xs o.
Proof.
  intros H N F. unfold holds in H. destruct (joins (map shape xs)) as [u|] eqn:J.
  - destruct H as (x & -> & X). destruct x as [b|a|a]; try contradiction N. destruct X as [<- X]. right. exists a. split; [reflexivity|].
    pose proof (joins_some _ _ J) as B. split; [exact B|]. intros i I. replace (nd_at a i) with (nd_at a (stretch (nd_shape a) i)) by (now rewrite stretch_index). rewrite <- X, <- F. f_equal.
    apply map_ext_in. intros x Hx. symmetry. apply el_spec. destruct B as (_ & _ & B & _). rewrite (proj1 I). apply B. now apply in_map.
  - left. split; [now apply joins_none|exact H].
Qed.

(** *** Expressions: shape, elements and whether an array is certain *)
Definition value (n : bool) (v : out arg) (S : option (list nat)) (g : list nat -> b64) : Prop := holds v S g /\ (n = true -> nds v).
Lemma v_float b : value false (float b) (Some []) (fun _ => b). Proof. split; [apply holds_float|discriminate]. Qed.
Lemma v_int z : value false (int z) (Some []) (fun _ => of_Z z). Proof. apply v_float. Qed.
Lemma v_operator n m f g v w S T p q : value n v S p -> value m w T q -> n || m = true \/ (forall i, f (p i) (q i) = Ok (g (p i) (q i))) ->
  value (n || m) (operator f g v w) (ojoin S T) (fun i => g (p i) (q i)).
Proof.
  intros [V NV] [W NW] H.
  assert (N : n || m = true -> nds v \/ nds w). { intros E. apply orb_prop in E as [E|E]; auto. }
  split.
  - destruct H as [H|H]; [apply holds_operator_nd|apply holds_operator]; auto.
  - intros E. eapply nds_operator; eauto.
Qed.
Lemma v_plus n m v w S T p q : value n v S p -> value m w T q -> value (n || m) (plus v w) (ojoin S T) (fun i => badd (p i) (q i)).
Proof. intros V W. apply v_operator; auto. Qed.
Lemma v_minus n m v w S T p q : value n v S p -> value m w T q -> value (n || m) (minus v w) (ojoin S T) (fun i => bsub (p i) (q i)).
Proof. intros V W. apply v_operator; auto. Qed.
Lemma v_times n m v w S T p q : value n v S p -> value m w T q -> value (n || m) (times v w) (ojoin S T) (fun i => bmul (p i) (q i)).
Proof. intros V W. apply v_operator; auto. Qed.
Lemma v_over n m v w S T p q : value n v S p -> value m w T q -> n || m = true -> value (n || m) (over v w) (ojoin S T) (fun i => bquo (p i) (q i)).
Proof. intros V W E. apply v_operator; auto. Qed.
Lemma v_over_float n v b S p : value n v S p -> bzero b = false -> value n (over v (float b)) S (fun i => bquo (p i) b).
Proof.
  intros V Z. rewrite <- (ojoin_nil_r S). rewrite <- (orb_false_r n). refine (v_operator n false _ _ v (float b) S (Some []) p (fun _ => b) V (v_float b) (or_intror _)).
  intros i. unfold bdivide. now rewrite Z.
Qed.
Lemma v_ufunc n f v S p : value n v S p -> value true (ufunc f v) S (fun i => f (p i)).
Proof. intros [V N]. split; [now apply holds_ufunc|]. intros _. eapply nds_ufunc, V. Qed.
Lemma v_ufunc_arg f x : value true (ufunc f (Ok x)) (Some (shape x)) (fun i => f (el x i)).
Proof. split; [apply holds_ufunc_arg|]. intros _. exact I. Qed.
Lemma v_squared n L v S p : value n v S p -> n = true -> value true (squared L v) S (fun i => k_square L (p i)).
Proof. intros [V N] ->. specialize (N eq_refl). split; [now apply holds_raised|]. intros _. eapply nds_raised; eauto. Qed.
Lemma v_cubed_m n L v S p : value n v S p -> n = true -> value true (cubed_m L v) S (fun i => k_pow_m3 L (p i)).
Proof. intros [V N] ->. specialize (N eq_refl). split; [now apply holds_raised|]. intros _. eapply nds_raised; eauto. Qed.
Lemma v_arg x : ~ is_list x -> value false (Ok x) (Some (shape x)) (el x).
Proof.
  intros H. split; [|discriminate]. exists x. split; [reflexivity|]. destruct x as [b|a|a]; [cbn; auto|cbn; auto|]. exfalso. apply H. eexists. reflexivity.
Qed.
Lemma v_array x : is_array x -> value true (Ok x) (Some (shape x)) (el x).
Proof. intros (a & ->). split; [|intros _; exact I]. exists (Nd a). cbn. auto. Qed.
Lemma v_bind m n v S g (k : arg -> out arg) T h : value m v S g -> (forall x s, S = Some s -> value m (Ok x) (Some s) g -> value n (k x) T h) -> (S = None -> T = None) ->
  value n (bind v k) T h.
Proof.
  intros [V N] K E. destruct S as [s|].
  - destruct V as (x & -> & X). apply (K x s eq_refl). split; [exists x; auto|exact N].
  - cbn in V. subst v. rewrite (E eq_refl). split; [reflexivity|]. intros _. exact I.
Qed.
Lemma v_shape n v S T g : value n v S g -> n = true -> S = T -> value true v T g. Proof. congruence. Qed.
Lemma v_elementwise f xs o g : value true o (joins (map shape xs)) g -> (forall i, f (map (fun x => el x i) xs) = Ok (g i)) -> elementwise f xs o.
Proof. intros [V N] F. eapply holds_elementwise; eauto. Qed.
