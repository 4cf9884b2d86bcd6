(** The root finder with binary64 numbers: nan, and probabilities that are none. *)
From Coq Require Import Reals List ZArith Bool Lra Lia.
From Flocq Require Import Core BinarySingleNaN.
From Verif Require Import Py M_Num M_Grid M_PseudoVoigt M_Float S_Float M_Float3 M_Ieee M_Ieee2 M_Ieee5 S_Ieee M_Ieee7 L_Ieee L_Ieee2 L_Ieee5 L_Ieee9 L_FNewton5 L_Ieee24.
Import ListNotations.

Lemma sub_nan (a : b64) : bsub a B754_nan = B754_nan. Proof. destruct a; reflexivity. Qed.
Lemma nan_mul (a : b64) : bmul B754_nan a = B754_nan. Proof. destruct a; reflexivity. Qed.
Lemma bnan_eq : bnan = B754_nan. Proof. reflexivity. Qed.

(** ** nan *)
Section Nan.
  Variables (bc bp : b64 -> b64) (m : b64) (fb : b64 -> b64).
  Hypothesis slope : bzero (bp m) = false.
  Lemma nan_loop n qs : (forall q, In q qs -> bsub (bc m) q = B754_nan) -> qs <> [] -> forall nz,
    barray_newton (S n) (fun E => map2 bsub (map bc E) qs) (map bp) (map (fun _ => m) qs) (map (fun _ => true) qs) nz =
    (map (fun _ => B754_nan) qs, map (fun _ => false) qs, map (fun _ => true) qs).
  Proof.
    intros H N nz. remember (fun E => map2 bsub (map bc E) qs) as g eqn:Eg. rewrite barray_step.
    assert (Gv : g (map (fun _ => m) qs) = map (fun _ => B754_nan) qs).
    { subst g. clear - H. induction qs as [|q qs IH]; [reflexivity|]. cbn -[bsub]. rewrite (H q (or_introl eq_refl)). f_equal. apply IH. intros x Hx. apply H. now right. }
    rewrite Gv. assert (Nz : map (fun x => negb (bzero x)) (map bp (map (fun _ => m) qs)) = map (fun _ => true) qs) by (rewrite !map_map; apply map_ext; intros; now rewrite slope). rewrite Nz.
    assert (Fl : map4 bstep_fails (map (fun _ => true) qs) (map (fun _ => true) qs) (map (fun _ => B754_nan) qs) (map bp (map (fun _ => m) qs)) = map (fun _ => false) qs).
    { clear. induction qs as [|q qs IH]; [reflexivity|]. cbn [map map4]. rewrite IH. reflexivity. }
    assert (St : map4 bnewton_step (map (fun _ => true) qs) (map (fun _ => m) qs) (map (fun _ => B754_nan) qs) (map bp (map (fun _ => m) qs)) = map (fun _ => B754_nan) qs).
    { clear. induction qs as [|q qs IH]; [reflexivity|]. cbn [map map4]. rewrite IH. unfold bnewton_step. now rewrite nan_quo, sub_nan. }
    rewrite Fl, St. assert (Ex : existsb (fun b => b) (map2 andb (map (fun _ : b64 => true) qs) (map (fun _ => false) qs)) = false) by (clear; induction qs; cbn; auto). rewrite Ex.
    destruct qs as [|q qs]; [contradiction|]. reflexivity.
  Qed.
  Lemma nan_array n qs : (forall q, In q qs -> bsub (bc m) q = B754_nan) -> qs <> [] ->
    bppf_array (S n) bc bp m fb qs = ([], Ok (Some (map (fun _ => B754_nan) qs))).
  Proof.
    intros H N. unfold bppf_array, bnewton_array. rewrite !map_map, (nan_loop n qs H N). replace (map2 _ _ _) with (map (fun _ : b64 => false) qs) by (clear; induction qs as [|q qs IH]; cbn; [reflexivity|now rewrite <- IH]).
    assert (Ex : existsb (fun b => b) (map (fun _ : b64 => false) qs) = false) by (clear; induction qs; cbn; auto). rewrite Ex, map_map. assert (Al : forallb (fun b => b) (map (fun _ : b64 => negb false) qs) = true) by (clear; induction qs; cbn; auto). now rewrite Al.
  Qed.
  Hypothesis cnan : bc B754_nan = B754_nan.
  Hypothesis pnan : bp B754_nan = B754_nan.
  Lemma nan_scalar_loop n q : bnewton_scalar n (fun E => bsub (bc E) q) bp B754_nan = Raise RuntimeError.
  Proof. induction n as [|n IH]; [reflexivity|]. cbn [bnewton_scalar]. rewrite cnan, nan_sub, pnan. cbn [bzero]. rewrite nan_sub. cbn [bisclose is_finite andb Beqb]. exact IH. Qed.
  Lemma nan_scalar n q : bsub (bc m) q = B754_nan -> bppf_scalar n bc bp m fb q = ([BInversionFailed], Ok (Some [fb q])).
  Proof.
    intros H. unfold bppf_scalar. assert (X : bnewton_scalar n (fun E => bsub (bc E) q) bp m = Raise RuntimeError); [|now rewrite X].
    destruct n as [|n]; [reflexivity|]. cbn [bnewton_scalar]. rewrite H. cbn [bzero]. rewrite slope, nan_quo, sub_nan. cbn [bisclose is_finite andb Beqb]. apply nan_scalar_loop.
  Qed.
End Nan.

(** ** Probabilities outside of the unit interval *)
Inductive all3 {A B C} (P : A -> B -> C -> Prop) : list A -> list B -> list C -> Prop :=
  | all3_nil : all3 P [] [] []
  | all3_cons a b c la lb lc : P a b c -> all3 P la lb lc -> all3 P (a :: la) (b :: lb) (c :: lc).
Section Outside.
  Variables (bc bp : b64 -> b64) (fb : b64 -> b64) (outside : b64 -> Prop).
  Hypothesis nonzero : forall q b, outside q -> bnanb b = false -> bzero (bsub (bc b) q) = false.
  Hypothesis fails : forall q b, outside q -> bnanb b = false -> bzero (bp b) = false ->
    Bleb btol (babs (bquo (bsub (bc b) q) (bp b))) = true /\ bnanb (bsub b (bquo (bsub (bc b) q) (bp b))) = false.
  Definition failing (q b : b64) (f : bool) : Prop := outside q -> bnanb b = false /\ f = true.
  Lemma failing_next qs bs fl : all3 failing qs bs fl ->
    let nz := map (fun x => negb (bzero x)) (map bp bs) in
    all3 failing qs (map4 bnewton_step nz bs (map2 bsub (map bc bs) qs) (map bp bs)) (map4 bstep_fails nz fl (map2 bsub (map bc bs) qs) (map bp bs)).
  Proof.
    induction 1 as [|q b f qs bs fl H _ IH]; cbn -[bsub bquo]; constructor; auto. intros O. destruct (H O) as [N ->]. unfold bnewton_step, bstep_fails. destruct (bzero (bp b)) eqn:Z; cbn [negb]; [auto|]. destruct (fails q b O N Z). auto.
  Qed.
  Lemma failing_loop n : forall qs bs fl nz bs' fl' nz', all3 failing qs bs fl -> (exists q, In q qs /\ outside q) ->
    barray_newton n (fun E => map2 bsub (map bc E) qs) (map bp) bs fl nz = (bs', fl', nz') -> all3 failing qs bs' fl'.
  Proof.
    induction n as [|n IH]; intros qs bs fl nz bs' fl' nz' H X E; [cbn in E; injection E as <- <- _; exact H|]. remember (fun E => map2 bsub (map bc E) qs) as g eqn:Eg. rewrite barray_step in E. assert (Gv : g bs = map2 bsub (map bc bs) qs) by now subst. rewrite Gv in E.
    assert (Z : forallb bzero (map2 bsub (map bc bs) qs) = false).
    { clear - H X nonzero. destruct X as (q & Iq & O). induction H as [|q' b f qs bs fl H H' IH]; [destruct Iq|]. cbn -[bsub]. destruct Iq as [-> |Iq]; [now rewrite (nonzero q b O (proj1 (H O)))|]. now rewrite (IH Iq), andb_false_r. }
    rewrite Z in E. pose proof (failing_next _ _ _ H) as T. cbv zeta in T. destruct (negb _); [injection E as <- <- _; exact H|]. destruct (negb _); [injection E as <- <- _; exact T|]. subst g. eapply IH; [exact T|exact X|exact E].
  Qed.
  Lemma outside_array n m qs : bnanb m = false -> (exists q, In q qs /\ outside q) ->
    bppf_array n bc bp m fb qs = ([], Ok None) \/ bppf_array n bc bp m fb qs = ([BInversionFailed], Ok (Some (map fb qs))).
  Proof.
    intros Nm X. unfold bppf_array, bnewton_array. destruct (barray_newton _ _ _ _ _ _) as [[bs' fl'] nz'] eqn:E. apply failing_loop in E; [|clear - Nm; induction qs as [|q qs IH]; cbn; constructor; [intros _; auto|exact IH]|exact X].
    assert (Al : forallb (fun b => b) (map negb fl') = false).
    { clear - E X. destruct X as (q & Iq & O). induction E as [|q' b f qs bs fl H H' IH]; [destruct Iq|]. cbn. destruct Iq as [-> |Iq]; [now rewrite (proj2 (H O))|]. now rewrite (IH Iq), andb_false_r. }
    destruct (existsb _ (map2 _ _ _)); [left; now rewrite Al|]. destruct (existsb _ fl'); [|left; now rewrite Al]. destruct (forallb _ fl'); [now right|left; now rewrite Al].
  Qed.
End Outside.
