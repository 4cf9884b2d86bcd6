(** Proofs about arrays and broadcasting. *)
From Coq Require Import List ZArith Bool Arith Lia.
From Flocq Require Import Core BinarySingleNaN.
From Verif Require Import Py M_Num M_Ieee M_Ieee2 M_Ieee3 M_Array S_Ieee S_Ieee3 S_Array.
Import ListNotations.

(** *** Shapes *)
Definition ojoin (S T : option (list nat)) : option (list nat) :=
  match S, T with Some s, Some t => join_shape s t | _, _ => None end.

Lemma size_comm d e : join_size d e = join_size e d.
Proof. unfold join_size. destruct (Nat.eqb_spec d 1), (Nat.eqb_spec e 1), (Nat.eqb_spec d e), (Nat.eqb_spec e d); subst; congruence. Qed.
Lemma size_idem d : join_size d d = Some d.
Proof. unfold join_size. rewrite Nat.eqb_refl. destruct (d =? 1); reflexivity. Qed.
Lemma join_comm : forall s t, join_shape s t = join_shape t s.
Proof. induction s as [|d s IH]; intros [|e t]; cbn; auto. rewrite size_comm, IH. reflexivity. Qed.
Lemma join_idem : forall s, join_shape s s = Some s.
Proof. induction s as [|d s IH]; cbn; auto. rewrite size_idem, IH. reflexivity. Qed.
Lemma join_nil_r s : join_shape s [] = Some s. Proof. destruct s; reflexivity. Qed.
Lemma size_assoc d e f : match join_size d e with Some n => join_size n f | None => None end =
  match join_size e f with Some n => join_size d n | None => None end.
Proof.
  unfold join_size.
  destruct (Nat.eqb_spec d 1), (Nat.eqb_spec e 1), (Nat.eqb_spec f 1), (Nat.eqb_spec d e), (Nat.eqb_spec e f), (Nat.eqb_spec d f); subst; try congruence;
    repeat match goal with
    | |- context [?a =? ?b] => destruct (Nat.eqb_spec a b); try congruence
    end.
Qed.
Lemma join_assoc : forall s t u, ojoin (join_shape s t) (Some u) = ojoin (Some s) (join_shape t u).
Proof.
  induction s as [|d s IH]; intros t u.
  { cbn. destruct (join_shape t u); reflexivity. }
  destruct t as [|e t]; [cbn [join_shape ojoin]; reflexivity|].
  destruct u as [|f u].
  { cbn [ojoin]. rewrite join_nil_r. cbn [ojoin]. destruct (join_shape (d :: s) (e :: t)) as [v|]; [|reflexivity]. cbn. now rewrite join_nil_r. }
  pose proof (size_assoc d e f) as A. specialize (IH t u). cbn [join_shape].
  destruct (join_size d e) as [n|], (join_size e f) as [m|], (join_shape s t) as [v|], (join_shape t u) as [w|]; cbn [ojoin join_shape] in *; try reflexivity;
    try (rewrite A, IH; reflexivity); try (rewrite A; reflexivity);
    try (destruct (join_size _ _), (join_shape _ _); congruence); try (rewrite <- IH; destruct (join_size d m); reflexivity).
Qed.
Lemma ojoin_comm S T : ojoin S T = ojoin T S.
Proof. destruct S, T; cbn; auto using join_comm. Qed.
Lemma ojoin_idem S : ojoin S S = S. Proof. destruct S; cbn; auto using join_idem. Qed.
Lemma ojoin_nil_l S : ojoin (Some []) S = S. Proof. destruct S; reflexivity. Qed.
Lemma ojoin_nil_r S : ojoin S (Some []) = S. Proof. destruct S; cbn; auto using join_nil_r. Qed.
Lemma ojoin_assoc S T U : ojoin (ojoin S T) U = ojoin S (ojoin T U).
Proof.
  destruct S as [s|], T as [t|], U as [u|]; cbn; auto; try (now destruct (join_shape _ _)). exact (join_assoc s t u).
Qed.
Lemma ojoin_idem_l S T : ojoin S (ojoin S T) = ojoin S T. Proof. now rewrite <- ojoin_assoc, ojoin_idem. Qed.
Lemma ojoin_left_comm S T U : ojoin S (ojoin T U) = ojoin T (ojoin S U). Proof. now rewrite <- !ojoin_assoc, (ojoin_comm S T). Qed.

(** *** Indices *)
Fixpoint below (s t : list nat) : Prop :=
  match s, t with
  | [], _ => True
  | _, [] => False
  | d :: s, e :: t => (d = 1%nat \/ d = e) /\ below s t
  end.
Lemma below_refl s : below s s. Proof. induction s; cbn; auto. Qed.
Lemma join_below_l : forall s t u, join_shape s t = Some u -> below s u.
Proof.
  induction s as [|d s IH]; intros t u H; [cbn; auto|]. destruct t as [|e t]; [injection H as <-; apply below_refl|].
  cbn in H. destruct (join_size d e) as [n|] eqn:N; [|discriminate]. destruct (join_shape s t) as [v|] eqn:V; [|discriminate]. injection H as <-.
  split; [|eapply IH, V]. unfold join_size in N. destruct (Nat.eqb_spec d 1); [auto|]. right. destruct (e =? 1); [congruence|]. destruct (d =? e); congruence.
Qed.
Lemma join_below_r s t u : join_shape s t = Some u -> below t u. Proof. rewrite join_comm. apply join_below_l. Qed.
Lemma stretch_below : forall s t i, below s t -> stretch s (stretch t i) = stretch s i.
Proof.
  induction s as [|d s IH]; intros t i B; [reflexivity|]. destruct t as [|e t]; [contradiction|]. destruct i as [|k i]; [reflexivity|]. destruct B as [B B'].
  cbn. rewrite IH by exact B'. f_equal. destruct (Nat.eqb_spec d 1); [reflexivity|]. destruct B as [->| ->]; [congruence|]. destruct (Nat.eqb_spec e 1); congruence.
Qed.

(** *** Values of expressions *)
(** The object [x] has the shape [s] and the elements [g]. *)
Definition shows (x : arg) (s : list nat) (g : list nat -> b64) : Prop :=
  match x with
  | Float b => s = [] /\ forall i, g i = b
  | Nd a => nd_shape a = s /\ forall i, g i = nd_at a (stretch s i)
  | Seq _ => False
  end.
Definition holds (v : out arg) (S : option (list nat)) (g : list nat -> b64) : Prop :=
  match S with Some s => exists x, v = Ok x /\ shows x s g | None => v = Raise ValueError end.

Lemma shows_asarray x s g : shows x s g -> nd_shape (asarray x) = s /\ forall i, g i = nd_at (asarray x) (stretch s i).
Proof. destruct x; cbn; [intros [-> H]; auto|auto|contradiction]. Qed.
Lemma holds_float b : holds (float b) (Some []) (fun _ => b). Proof. exists (Float b). cbn. auto. Qed.
Lemma holds_int z : holds (int z) (Some []) (fun _ => of_Z z). Proof. apply holds_float. Qed.
Lemma holds_shows x s g : shows x s g -> holds (Ok x) (Some s) g. Proof. exists x. auto. Qed.

Lemma holds_operator f g v w S T p q : holds v S p -> holds w T q -> (forall i, f (p i) (q i) = Ok (g (p i) (q i))) ->
  holds (operator f g v w) (ojoin S T) (fun i => g (p i) (q i)).
Proof.
  unfold holds, operator. intros Hv Hw F. destruct S as [s|]; [|rewrite Hv; reflexivity]. destruct Hv as (x & -> & X). cbn [bind].
  destruct T as [t|]; [|rewrite Hw; reflexivity]. destruct Hw as (y & -> & Y). cbn [bind ojoin].
  pose proof (shows_asarray _ _ _ X) as [XS XA]. pose proof (shows_asarray _ _ _ Y) as [YS YA].
  assert (A : match join_shape s t with
    | Some u => exists z, (let! c := nd_map2 g (asarray x) (asarray y) in Ok (Nd c))%py = Ok z /\ shows z u (fun i => g (p i) (q i))
    | None => (let! c := nd_map2 g (asarray x) (asarray y) in Ok (Nd c))%py = Raise ValueError end).
  { unfold nd_map2. rewrite XS, YS. destruct (join_shape s t) as [u|] eqn:J; [|reflexivity]. cbn [bind]. eexists. split; [reflexivity|].
    split; [reflexivity|]. intros i. cbn [nd_at]. rewrite (stretch_below s u) by exact (join_below_l _ _ _ J). rewrite (stretch_below t u) by exact (join_below_r _ _ _ J).
    now rewrite XA, YA. }
  destruct x as [a|a|a]; [destruct y as [b|b|b]|exact A|contradiction X]; try exact A; [|contradiction Y].
  destruct X as [-> X], Y as [-> Y]. cbn. pose proof (F []) as F0. rewrite (X []), (Y []) in F0. rewrite F0. cbn [bind]. exists (Float (g a b)). split; [reflexivity|].
  split; [reflexivity|]. intros i. now rewrite (X i), (Y i).
Qed.
Lemma holds_plus v w S T p q : holds v S p -> holds w T q -> holds (plus v w) (ojoin S T) (fun i => badd (p i) (q i)).
Proof. intros. now apply holds_operator. Qed.
Lemma holds_minus v w S T p q : holds v S p -> holds w T q -> holds (minus v w) (ojoin S T) (fun i => bsub (p i) (q i)).
Proof. intros. now apply holds_operator. Qed.
Lemma holds_times v w S T p q : holds v S p -> holds w T q -> holds (times v w) (ojoin S T) (fun i => bmul (p i) (q i)).
Proof. intros. now apply holds_operator. Qed.
Lemma holds_over v w S T p q : holds v S p -> holds w T q -> (forall i, bzero (q i) = false) -> holds (over v w) (ojoin S T) (fun i => bquo (p i) (q i)).
Proof. intros. apply holds_operator; auto. intros i. unfold bdivide. now rewrite H1. Qed.
(** With at least one array, there are no exceptions. *)
Definition nds (v : out arg) : Prop := match v with Ok (Nd _) => True | Raise ValueError => True | _ => False end.
Lemma holds_operator_nd f g v w S T p q : holds v S p -> holds w T q -> nds v \/ nds w ->
  holds (operator f g v w) (ojoin S T) (fun i => g (p i) (q i)).
Proof.
  intros Hv Hw N. pose proof (holds_operator (fun a b => Ok (g a b)) g v w S T p q Hv Hw (fun i => eq_refl)) as H.
  replace (operator f g v w) with (operator (fun a b => Ok (g a b)) g v w); [exact H|]. unfold operator.
  destruct v as [x| |e]; cbn [bind]; auto. destruct w as [y| |e']; cbn [bind]; auto. destruct x; auto. destruct y; auto. destruct N as [[]|[]].
Qed.
Lemma nds_operator f g v w S T p q : holds v S p -> holds w T q -> nds v \/ nds w -> nds (operator f g v w).
Proof.
  intros Hv Hw N. unfold operator. destruct S as [s|]; [destruct Hv as (x & -> & X)|cbn in Hv; subst v; exact I].
  destruct T as [t|]; [destruct Hw as (y & -> & Y)|cbn in Hw; subst w; exact I]. cbn [bind].
  assert (A : nds (let! c := nd_map2 g (asarray x) (asarray y) in Ok (Nd c))%py) by (unfold nd_map2; destruct (join_shape _ _); exact I).
  destruct x; [|exact A|contradiction X]. destruct y; [|exact A|contradiction Y]. destruct N as [[]|[]].
Qed.
Lemma holds_ufunc f v S p : holds v S p -> holds (ufunc f v) S (fun i => f (p i)).
Proof.
  unfold holds, ufunc. destruct S as [s|]; [|intros ->; reflexivity]. intros (x & -> & X). apply shows_asarray in X as [XS XA]. cbn [bind]. eexists. split; [reflexivity|].
  split; [exact XS|]. intros i. cbn. now rewrite XA.
Qed.
Lemma holds_ufunc_arg f x : holds (ufunc f (Ok x)) (Some (nd_shape (asarray x))) (fun i => f (nd_at (asarray x) (stretch (nd_shape (asarray x)) i))).
Proof. eexists. split; [reflexivity|]. split; [reflexivity|]. intros i. reflexivity. Qed.
Lemma nds_ufunc f v S p : holds v S p -> nds (ufunc f v).
Proof. unfold holds, ufunc. destruct S; [intros (x & -> & X)|intros ->]; exact I. Qed.
Lemma holds_raised f p v S g : holds v S g -> nds v -> holds (raised f p v) S (fun i => p (g i)).
Proof.
  unfold holds, raised. destruct S as [s|]; [|intros -> _; reflexivity]. intros (x & -> & X) N. destruct x as [b|a|a]; [contradiction N| |contradiction N].
  cbn [bind]. eexists. split; [reflexivity|]. destruct X as [X X']. split; [exact X|]. intros i. cbn. now rewrite X'.
Qed.
Lemma nds_raised f p v S g : holds v S g -> nds v -> nds (raised f p v).
Proof.
  unfold holds, raised. destruct S as [s|]; [|intros -> _; exact I]. intros (x & -> & X) N. destruct x; try contradiction N. exact I.
Qed.
Lemma holds_bind v S g (k : arg -> out arg) T h : holds v S g -> (forall x s, S = Some s -> v = Ok x -> shows x s g -> holds (k x) T h) -> (S = None -> T = None) ->
  holds (bind v k) T h.
Proof.
  intros H K N. destruct S as [s|]; [|cbn in H; subst v; rewrite (N eq_refl); reflexivity]. destruct H as (x & -> & X). exact (K x s eq_refl eq_refl X).
Qed.
Lemma holds_shape v S T g : holds v S g -> S = T -> holds v T g. Proof. congruence. Qed.
Lemma holds_ext v S g h : holds v S g -> (forall i, g i = h i) -> holds v S h.
Proof.
  unfold holds. destruct S as [s|]; auto. intros (x & -> & X) E. exists x. split; auto. destruct x; cbn in *; [| |contradiction]; destruct X as [X X']; split; auto; intros i; rewrite <- E; auto.
Qed.
