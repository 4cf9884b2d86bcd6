(** A finite lower Darboux sum vouches for the absence of nan. *)
From Coq Require Import Reals List ZArith Lia Lra Bool Permutation.
From Flocq Require Import Core Relative BinarySingleNaN.
From Verif Require Import Py Spec M_Num M_Grid M_Darboux M_CrossSection M_Float S_Float L_Float M_Ieee S_Ieee L_Ieee L_Ieee2 L_Ieee3.
Import ListNotations.
Open Scope R_scope.

Lemma min_number a b : finite (bmin a b) -> bnanb a = false /\ bnanb b = false.
Proof. unfold bmin, finite. destruct a as [| | |], b as [| | |]; cbn; auto; discriminate. Qed.
Lemma lower_cells a b c d : List.length a = List.length b -> List.length a = List.length c -> List.length a = List.length d ->
  Forall finite (map2 bmul (map2 bmin a b) (map2 bsub c d)) ->
  Forall (fun y => bnanb y = false) a /\ Forall (fun y => bnanb y = false) b /\ Forall finite c /\ Forall finite d.
Proof.
  revert b c d. induction a as [|x a IH]; intros [|y b] [|z c] [|w d]; try discriminate; [repeat constructor|]. cbn [map2 List.length]. intros L1 L2 L3 H. inversion H as [|? ? P Q]. subst.
  apply mul_finite in P as (F & D & _). apply min_number in F as [F1 F2]. apply sub_finite in D as (D1 & D2 & _). destruct (IH b c d) as (A1 & A2 & A3 & A4); auto.
Qed.
Lemma lower_number t fx x : List.length fx = List.length x -> order_of (List.length x - 1) t -> (2 <= List.length x)%nat ->
  finite (fst (bdarboux t fx x)) -> Forall (fun y => bnanb y = false) fx /\ Forall finite x.
Proof.
  intros L Ho L2 H. unfold bdarboux in H. cbn [fst] in H. rewrite bdifferences_eq in H.
  apply np_sum_finite in H; [|rewrite !map2_len, !length_tl, !length_removelast; replace (Nat.min _ _) with (List.length x - 1)%nat by lia; exact Ho]. destruct H as [H _].
  destruct (lower_cells (removelast fx) (tl fx) (tl x) (removelast x)) as (A1 & A2 & A3 & A4); auto; try (rewrite ?length_tl, ?length_removelast; lia).
  split; apply Forall_ends; auto. lia.
Qed.
Lemma lower_example : let fx := [of_Z 1; of_Z 2; of_Z 5] in let x := [of_Z 0; of_Z 1; of_Z 3] in
  List.length fx = List.length x /\ order_of (List.length x - 1) (Some (Plus (Index 0) (Index 1))) /\ (2 <= List.length x)%nat /\
  finite (fst (bdarboux (Some (Plus (Index 0) (Index 1))) fx x)).
Proof. cbv zeta. split; [reflexivity|]. split; [apply Permutation_refl|]. split; [cbn; lia|vm_compute; reflexivity]. Qed.
