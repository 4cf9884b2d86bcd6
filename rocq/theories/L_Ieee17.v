(** XRMAC tables with infinities and nan: zeros and nan in tables. *)
From Coq Require Import Reals List ZArith Lia Lra Bool Permutation.
From Flocq Require Import Core BinarySingleNaN.
From Verif Require Import Py M_Num M_Grid M_CrossSection M_Xrmac M_Float S_Float M_Float7 S_Float7 M_Ieee M_Ieee4 S_Ieee S_Ieee4 L_Xrmac L_Float L_Float25 L_Float26 L_Float33 L_Ieee L_Ieee2 L_Ieee5 L_Ieee13 L_Ieee15 L_Ieee16.
Import ListNotations.
Open Scope R_scope.

Notation minf := (B754_infinity true : b64).
Notation pinf := (B754_infinity false : b64).

(** ** Lists *)
Lemma bsort_id l : consecutive (fun p q : b64 * b64 => bless (fst q) (fst p) = false) l -> bsort_stable l = l.
Proof.
  induction l as [|p l IH]; [reflexivity|]. intros C. change (binsert_stable p (bsort_stable l) = p :: l). destruct l as [|q l]; [reflexivity|]. destruct C as [C1 C2]. rewrite IH by exact C2. cbn. now rewrite C1.
Qed.
Lemma consecutive_map {A B} (f : A -> B) (P : A -> A -> Prop) (Q : B -> B -> Prop) l : (forall a b, In a l -> In b l -> P a b -> Q (f a) (f b)) -> consecutive P l -> consecutive Q (map f l).
Proof.
  induction l as [|a l IH]; intros H C; [exact I|]. destruct l as [|b l]; [exact I|]. destruct C as [C1 C2]. split; [apply H; auto; cbn; auto|]. apply IH; auto. intros x y Hx Hy. apply H; now right.
Qed.
Lemma consecutive_app {A} (P : A -> A -> Prop) pre l : consecutive P (pre ++ l) -> consecutive P l.
Proof. induction pre as [|a pre IH]; auto. intros C. apply IH. cbn in C. destruct (pre ++ l); [exact I|apply C]. Qed.
Lemma consecutive_before {A} (f : A -> R) pre p l : consecutive (fun a b => f a <= f b) (pre ++ p :: l) -> Forall (fun q => f q <= f p) (pre ++ [p]).
Proof.
  induction pre as [|a pre IH]; intros C; [constructor; [lra|constructor]|]. assert (C' : consecutive (fun a b => f a <= f b) (pre ++ p :: l)) by exact (consecutive_app _ [a] _ C). specialize (IH C'). constructor; [|exact IH].
  destruct pre as [|b pre]; cbn in C; [apply C|]. inversion IH; subst. destruct C. lra.
Qed.
Lemma consecutive_after {A} (f : A -> R) p l : consecutive (fun a b => f a <= f b) (p :: l) -> Forall (fun q => f p <= f q) (p :: l).
Proof.
  revert p. induction l as [|a l IH]; intros p C; [constructor; [lra|constructor]|]. destruct C as [C1 C2]. specialize (IH a C2). constructor; [lra|]. eapply Forall_impl; [|exact IH]. cbn. intros q. lra.
Qed.
Lemma skip pre p r x : Forall (fun q : b64 * b64 => Bleb (fst q) x = true) (pre ++ [p]) -> bnp_interp (pre ++ p :: r) x = bnp_interp (p :: r) x.
Proof.
  induction pre as [|[x0 y0] pre IH]; [reflexivity|]. intros F. cbn [app] in F. inversion F as [|? ? _ F']; subst. rewrite <- IH by exact F'. cbn [app].
  destruct (pre ++ p :: r) as [|[x1 y1] l] eqn:E; [destruct pre; discriminate|].
  assert (B : Bleb x1 x = true). { destruct pre as [|q pre]; cbn in E, F'; inversion F'; subst; injection E as ? ?; subst; assumption. }
  change (bnp_interp ((x0, y0) :: (x1, y1) :: l) x) with (if Bleb x1 x then bnp_interp ((x1, y1) :: l) x else if Beqb x x0 then y0 else bsegment x0 y0 x1 y1 x). now rewrite B.
Qed.

(** ** Segments *)
Lemma sub_pos a b : finite a -> finite b -> Rabs (B2R a) <= bpow radix2 11 -> Rabs (B2R b) <= bpow radix2 11 -> B2R b < B2R a -> exists m e W, bsub a b = B754_finite false m e W.
Proof.
  intros Fa Fb Ba Bb H. pose proof (rep_refl a Fa) as Ra. pose proof (rep_refl b Fb) as Rb. destruct (bnd_sub a b _ _ 11 11 (conj Ra Ba) (conj Rb Bb) ltac:(lia)) as [[F V] _].
  apply finite_pos; auto. rewrite V. apply sign_sub; auto; eapply rep_double; eauto.
Qed.
Lemma sub_neg a b : finite a -> finite b -> Rabs (B2R a) <= bpow radix2 11 -> Rabs (B2R b) <= bpow radix2 11 -> B2R a < B2R b -> exists m e W, bsub a b = B754_finite true m e W.
Proof.
  intros Fa Fb Ba Bb H. pose proof (rep_refl a Fa) as Ra. pose proof (rep_refl b Fb) as Rb. destruct (bnd_sub a b _ _ 11 11 (conj Ra Ba) (conj Rb Bb) ltac:(lia)) as [[F V] _].
  assert (N : B2R (bsub a b) < 0) by (rewrite V; apply sign_sub; auto; eapply rep_double; eauto).
  destruct (finite_neg _ F (Rlt_le _ _ N)) as [(s & E)|K]; [|exact K]. rewrite E in N. cbn in N. lra.
Qed.
Section Segment.
Variables x0 x1 x : b64.
Hypothesis (F0 : finite x0) (F1 : finite x1) (F : finite x) (B0 : Rabs (B2R x0) <= bpow radix2 11) (B1 : Rabs (B2R x1) <= bpow radix2 11) (B : Rabs (B2R x) <= bpow radix2 11)
  (L0 : B2R x0 < B2R x) (L1 : B2R x < B2R x1).
Lemma seg_right y0 : finite y0 -> bsegment x0 y0 x1 minf x = minf.
Proof.
  intros Y. destruct (sub_pos x1 x0 F1 F0 B1 B0 ltac:(lra)) as (m & e & W & E). destruct (sub_pos x x0 F F0 B B0 L0) as (m' & e' & W' & E'). unfold bsegment. rewrite E, E'. destruct y0; try discriminate; reflexivity.
Qed.
Lemma seg_left y1 : finite y1 -> bsegment x0 minf x1 y1 x = minf.
Proof.
  intros Y. destruct (sub_pos x1 x0 F1 F0 B1 B0 ltac:(lra)) as (m & e & W & E). destruct (sub_pos x x0 F F0 B B0 L0) as (m' & e' & W' & E'). destruct (sub_neg x x1 F F1 B B1 L1) as (m2 & e2 & W2 & E2).
  unfold bsegment. rewrite E, E', E2. destruct y1; try discriminate; reflexivity.
Qed.
End Segment.
Lemma sub_nan_l y : bsub B754_nan y = B754_nan. Proof. now destruct y. Qed.
Lemma sub_nan_r y : bsub y B754_nan = B754_nan. Proof. now destruct y. Qed.
Lemma quo_nan y : bquo B754_nan y = B754_nan. Proof. now destruct y. Qed.
Lemma mul_nan y : bmul B754_nan y = B754_nan. Proof. now destruct y. Qed.
Lemma add_nan y : badd B754_nan y = B754_nan. Proof. now destruct y. Qed.
Lemma add_nan_r y : badd y B754_nan = B754_nan. Proof. now destruct y. Qed.
Lemma seg_both x0 x1 x : bsegment x0 minf x1 minf x = minf.
Proof. unfold bsegment. change (bsub minf minf) with (B754_nan : b64). rewrite quo_nan, !mul_nan, add_nan. reflexivity. Qed.
Lemma eq_nan (y : b64) : Beqb B754_nan y = false. Proof. reflexivity. Qed.
Lemma eq_nan_r (y : b64) : Beqb y B754_nan = false. Proof. now destruct y. Qed.
Lemma seg_nan x0 y0 x1 y1 x : y0 = B754_nan \/ y1 = B754_nan -> bsegment x0 y0 x1 y1 x = B754_nan.
Proof.
  unfold bsegment. intros [->| ->].
  - rewrite sub_nan_r, quo_nan, !mul_nan, !add_nan, eq_nan. reflexivity.
  - rewrite sub_nan_l, quo_nan, !mul_nan, !add_nan, eq_nan_r. reflexivity.
Qed.
(** The first abscissa is minus infinity. *)
Section Origin.
Variables x1 x : b64.
Hypothesis (F1 : finite x1) (F : finite x) (B1 : Rabs (B2R x1) <= bpow radix2 11) (B : Rabs (B2R x) <= bpow radix2 11) (L1 : B2R x < B2R x1).
Lemma sub_minf y : finite y -> bsub y minf = pinf. Proof. now destruct y. Qed.
Lemma quo_pinf y : finite y -> exists s, bquo y pinf = B754_zero s. Proof. destruct y; try discriminate; intros _; eexists; reflexivity. Qed.
Lemma seg_origin y0 y1 : finite y0 -> finite y1 -> Rabs (B2R y0) <= bpow radix2 11 -> Rabs (B2R y1) <= bpow radix2 11 -> rep (bsegment minf y0 x1 y1 x) (B2R y1).
Proof.
  intros Y0 Y1 C0 C1. unfold bsegment. rewrite !sub_minf by auto. pose proof (rep_refl _ Y0) as R0. pose proof (rep_refl _ Y1) as R1. destruct (bnd_sub _ _ _ _ 11 11 (conj R1 C1) (conj R0 C0) ltac:(lia)) as [[D _] _].
  destruct (quo_pinf _ D) as [s E]. rewrite E. change (bmul (B754_zero s) pinf) with (B754_nan : b64). rewrite add_nan. cbn [bnanb].
  destruct (sub_neg x x1 F F1 B B1 L1) as (m2 & e2 & W2 & E2). rewrite E2. change (bmul (B754_zero s) (B754_finite true m2 e2 W2)) with (B754_zero (xorb s true) : b64).
  destruct y1 as [s1| | |s1 m1 e1 W1]; try discriminate.
  - change (badd (B754_zero (xorb s true)) (B754_zero s1)) with (if Bool.eqb (xorb s true) s1 then B754_zero (xorb s true) else B754_zero false : b64). destruct (Bool.eqb _ _); cbn; split; reflexivity.
  - change (badd (B754_zero (xorb s true)) (B754_finite s1 m1 e1 W1)) with (B754_finite s1 m1 e1 W1 : b64). cbn [bnanb andb]. exact R1.
Qed.
Lemma seg_origin_nan y0 y1 : (y0 = minf /\ finite y1) \/ (finite y0 /\ y1 = minf) -> bsegment minf y0 x1 y1 x = B754_nan.
Proof.
  unfold bsegment. rewrite !sub_minf by auto. intros [[-> Y]|[Y ->]].
  - rewrite sub_minf by auto. change (bquo pinf pinf) with (B754_nan : b64). rewrite !mul_nan, !add_nan. cbn [bnanb andb]. destruct y1; try discriminate; reflexivity.
  - assert (E : bsub minf y0 = minf) by now destruct y0. rewrite E. change (bquo minf pinf) with (B754_nan : b64). rewrite !mul_nan, !add_nan. cbn [bnanb andb]. destruct y0; try discriminate; reflexivity.
Qed.
End Origin.
