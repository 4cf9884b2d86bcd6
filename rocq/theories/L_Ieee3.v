(** Darboux sums and linspace with binary64 numbers. *)
From Coq Require Import Reals List ZArith Lia Lra Bool Permutation.
From Flocq Require Import Core Relative BinarySingleNaN.
From Verif Require Import Py Spec M_Num M_Grid M_Darboux M_CrossSection M_Float S_Float L_Float M_Ieee S_Ieee L_Ieee L_Ieee2.
Import ListNotations.
Open Scope R_scope.

(** ** Darboux sums *)
Lemma min_rep a b x y : rep a x -> rep b y -> rep (bmin a b) (Rmin x y).
Proof.
  intros Ha Hb. unfold bmin. rewrite (rep_nan _ _ Ha), (rep_nan _ _ Hb), (rep_le _ _ _ _ Ha Hb). unfold Rmin.
  destruct (Rle_dec x y) as [H|H]; [rewrite Rle_bool_true by exact H|rewrite Rle_bool_false by lra]; assumption.
Qed.
Lemma max_rep a b x y : rep a x -> rep b y -> rep (bmax a b) (Rmax x y).
Proof.
  intros Ha Hb. unfold bmax. rewrite (rep_nan _ _ Ha), (rep_nan _ _ Hb), (rep_le _ _ _ _ Ha Hb). unfold Rmax.
  destruct (Rle_dec x y) as [H|H]; [rewrite Rle_bool_true by exact H|rewrite Rle_bool_false by lra]; assumption.
Qed.
Lemma min_max_finite a b : finite (bmin a b) -> finite (bmax a b) -> finite a /\ finite b.
Proof.
  unfold finite, bmin, bmax.
  destruct a as [[]|[]| |[] ? ? ?], b as [[]|[]| |[] ? ? ?]; cbn -[Bleb]; intros H1 H2; try discriminate; auto;
    cbn in H1, H2; try discriminate; auto.
Qed.

Lemma cells_finite a b c d : List.length a = List.length b -> List.length a = List.length c -> List.length a = List.length d ->
  Forall finite (map2 bmul (map2 bmin a b) (map2 bsub c d)) -> Forall finite (map2 bmul (map2 bmax a b) (map2 bsub c d)) ->
  (Forall finite a /\ Forall finite b /\ Forall finite c /\ Forall finite d) /\
  map B2R (map2 bmul (map2 bmin a b) (map2 bsub c d)) =
    map2 fmul (map2 Rmin (map B2R a) (map B2R b)) (map2 fsub (map B2R c) (map B2R d)) /\
  map B2R (map2 bmul (map2 bmax a b) (map2 bsub c d)) =
    map2 fmul (map2 Rmax (map B2R a) (map B2R b)) (map2 fsub (map B2R c) (map B2R d)).
Proof.
  revert b c d. induction a as [|x a IH]; intros [|y b] [|z c] [|w d]; try discriminate.
  - intros _ _ _ _ _. repeat split; constructor.
  - cbn [map2 map List.length]. intros L1 L2 L3 H1 H2. inversion H1 as [|? ? P1 Q1]. inversion H2 as [|? ? P2 Q2]. subst.
    apply mul_finite in P1. destruct P1 as (F1 & D & E1). apply mul_finite in P2. destruct P2 as (F2 & _ & E2).
    destruct (min_max_finite x y F1 F2) as [Fx Fy]. apply sub_finite in D. destruct D as (Fz & Fw & Ed).
    destruct (IH b c d) as ((A1 & A2 & A3 & A4) & M1 & M2); auto.
    split; [repeat split; constructor; assumption|]. rewrite M1, M2, E1, E2, Ed.
    rewrite (proj2 (min_rep _ _ _ _ (rep_refl x Fx) (rep_refl y Fy))), (proj2 (max_rep _ _ _ _ (rep_refl x Fx) (rep_refl y Fy))).
    split; reflexivity.
Qed.

Lemma bdifferences_eq x : bdifferences x = map2 bsub (tl x) (removelast x).
Proof. destruct x; reflexivity. Qed.
Lemma fdifferences_eq x : fdifferences x = map2 fsub (tl x) (removelast x).
Proof. destruct x; reflexivity. Qed.
Lemma removelast_map {A B} (f : A -> B) l : removelast (map f l) = map f (removelast l).
Proof. induction l as [|a [|b l] IH]; [reflexivity|reflexivity|]. cbn [map removelast] in *. rewrite IH. reflexivity. Qed.
Lemma tl_map {A B} (f : A -> B) l : tl (map f l) = map f (tl l).
Proof. destruct l; reflexivity. Qed.
Lemma length_tl {A} (l : list A) : List.length (tl l) = (List.length l - 1)%nat.
Proof. destruct l; cbn; lia. Qed.
Lemma length_removelast {A} (l : list A) : List.length (removelast l) = (List.length l - 1)%nat.
Proof. induction l as [|a [|b l] IH]; [reflexivity|reflexivity|]. cbn [removelast List.length] in *. lia. Qed.
Lemma Forall_ends {A} (P : A -> Prop) l : (2 <= List.length l)%nat -> Forall P (removelast l) -> Forall P (tl l) -> Forall P l.
Proof. destruct l as [|a [|b l]]; cbn [List.length removelast tl]; intros H H1 H2; try lia. constructor; auto. now inversion H1. Qed.
Lemma map2_len {A B C} (f : A -> B -> C) l m : List.length (map2 f l m) = Nat.min (List.length l) (List.length m).
Proof. revert m. induction l; intros [|]; cbn; auto. Qed.

Lemma darboux_finite t fx x : List.length fx = List.length x -> order_of (List.length x - 1) t ->
  finite (snd (bdarboux t fx x)) ->
  rep (fst (bdarboux t fx x)) (fst (fdarboux t (map B2R fx) (map B2R x))) /\
  rep (snd (bdarboux t fx x)) (snd (fdarboux t (map B2R fx) (map B2R x))) /\
  ((2 <= List.length x)%nat -> Forall finite fx /\ Forall finite x).
Proof.
  intros L Ho H. unfold bdarboux, fdarboux in *. cbn [fst snd] in *. rewrite bdifferences_eq in *. rewrite fdifferences_eq.
  rewrite !tl_map, !removelast_map.
  pose proof H as H0. apply abs_finite in H0. destruct H0 as [Fs Es]. apply sub_finite in Fs. destruct Fs as (Fu & Fl & Ed).
  assert (Lp : forall f, List.length (map2 bmul (map2 f (removelast fx) (tl fx)) (map2 bsub (tl x) (removelast x))) = (List.length x - 1)%nat).
  { intros f. rewrite !map2_len, !length_tl, !length_removelast. lia. }
  apply np_sum_finite in Fu; [|rewrite Lp; exact Ho]. apply np_sum_finite in Fl as Fl'; [|rewrite Lp; exact Ho].
  destruct Fu as [Au Eu], Fl' as [Al El].
  destruct (cells_finite (removelast fx) (tl fx) (tl x) (removelast x)) as ((F1 & F2 & F3 & F4) & M1 & M2); auto;
    try (rewrite ?length_tl, ?length_removelast; lia).
  split; [|split].
  - split; [exact Fl|]. rewrite El, M1. reflexivity.
  - split; [exact H|]. rewrite Es, Ed, Eu, El, M1, M2. reflexivity.
  - intros L2. split; apply Forall_ends; auto. lia.
Qed.

(** Moderate values and points give numbers. *)
Lemma at_most_min e a b : at_most e a -> at_most e b -> at_most e (bmin a b).
Proof. intros Ha Hb. unfold bmin. destruct (bnanb a), (bnanb b), (Bleb a b); assumption. Qed.
Lemma at_most_max e a b : at_most e a -> at_most e b -> at_most e (bmax a b).
Proof. intros Ha Hb. unfold bmax. destruct (bnanb a), (bnanb b), (Bleb a b); assumption. Qed.
Lemma Forall_map2 {A B C} (P : A -> Prop) (Q : B -> Prop) (S : C -> Prop) (f : A -> B -> C) l m :
  (forall a b, P a -> Q b -> S (f a b)) -> Forall P l -> Forall Q m -> Forall S (map2 f l m).
Proof. intros H Hl. revert m. induction Hl; intros [|b m] Hm; cbn; try constructor; inversion Hm; auto. Qed.
Lemma Forall_tl {A} (P : A -> Prop) l : Forall P l -> Forall P (tl l).
Proof. destruct 1; [constructor|assumption]. Qed.
Lemma Forall_removelast {A} (P : A -> Prop) l : Forall P l -> Forall P (removelast l).
Proof. induction 1 as [|a [|b l] Ha _ IH]; [constructor|constructor|]. cbn [removelast] in *. constructor; auto. Qed.

Lemma darboux_moderate t fx x e e' : (-1074 <= e' < 1023)%Z -> (-1074 <= e + e' + 1)%Z ->
  (e + e' + 2 + Z.of_nat (depth_of t) < 1024)%Z ->
  Forall (at_most e) fx -> Forall (at_most e') x -> finite (fst (bdarboux t fx x)) /\ finite (snd (bdarboux t fx x)).
Proof.
  intros He' Hee Hd Hf Hx. unfold bdarboux. cbn [fst snd].
  assert (D : Forall (at_most (e' + 1)) (bdifferences x)).
  { rewrite bdifferences_eq. eapply Forall_map2 with (P := at_most e') (Q := at_most e'); auto using Forall_tl, Forall_removelast.
    intros a b. apply at_most_sub. exact He'. }
  assert (P : forall f, (forall a b, at_most e a -> at_most e b -> at_most e (f a b)) ->
    at_most (e + e' + 1 + Z.of_nat (depth_of t)) (bnp_sum t (map2 bmul (map2 f (removelast fx) (tl fx)) (bdifferences x)))).
  { intros f Hm. apply np_sum_bound; [lia|lia|]. eapply Forall_map2 with (P := at_most e) (Q := at_most (e' + 1)); auto.
    - intros a b. rewrite <- Z.add_assoc. apply at_most_mul. lia.
    - eapply Forall_map2 with (P := at_most e) (Q := at_most e); auto using Forall_tl, Forall_removelast. }
  pose proof (P bmin (at_most_min e)) as Hl. pose proof (P bmax (at_most_max e)) as Hu.
  split; [apply Hl|]. unfold finite, babs. rewrite is_finite_Babs.
  eapply (at_most_sub (e + e' + 1 + Z.of_nat (depth_of t))); eauto. lia.
Qed.

(** ** linspace *)
Lemma of_nat_rep i : (Z.of_nat i <= 2 ^ 53)%Z -> rep (of_Z (Z.of_nat i)) (INR i).
Proof. intros H. rewrite INR_IZR_INZ. apply Z_rep. lia. Qed.

Lemma point_finite a b n i : (2 <= n <= 2 ^ 53)%Z -> (Z.of_nat i < n)%Z ->
  finite (blinspace_point a b n i) ->
  finite a /\ finite b /\ rep (blinspace_point a b n i) (flinspace_point (B2R a) (B2R b) n i).
Proof.
  intros Hn Hi H. assert (Rd : rep (of_Z (n - 1)) (IZR (n - 1))) by (apply Z_rep; lia).
  assert (Ri : rep (of_Z (Z.of_nat i)) (INR i)) by (apply of_nat_rep; lia).
  assert (Dn : IZR (n - 1) <> 0) by (apply not_0_IZR; lia).
  pose proof H as G. unfold blinspace_point in G. apply add_finite in G. destruct G as (G & Fa & Ea).
  destruct (bzero (bquo (bsub b a) (of_Z (n - 1)))) eqn:Z.
  - apply mul_finite in G. destruct G as (G1 & G2 & Em). apply sub_finite in G2. destruct G2 as (Fb & _ & Ed).
    apply quo_finite in G1; [|apply Rd]. destruct G1 as (_ & _ & Eq).
    split; [exact Fa|]. split; [exact Fb|]. split; [exact H|].
    unfold blinspace_point, flinspace_point. cbv zeta. rewrite Z, Ea, Em, Ed, Eq.
    rewrite (proj2 Rd), (proj2 Ri).
    assert (Fs : is_finite (bquo (bsub b a) (of_Z (n - 1))) = true) by (destruct (bquo _ _); try discriminate; reflexivity).
    pose proof Fs as Fs'. apply quo_finite in Fs; [|apply Rd]. destruct Fs as (_ & _ & Es).
    apply (rep_zero _ _ (rep_refl _ Fs')) in Z. rewrite Es, Ed, (proj2 Rd) in Z. rewrite Z.
    destruct (Req_EM_T 0 0); [reflexivity|contradiction].
  - apply mul_finite in G. destruct G as (_ & Fs & Em). pose proof Fs as Fs'. apply quo_finite in Fs; [|apply Rd].
    destruct Fs as (Fd & _ & Es). apply sub_finite in Fd. destruct Fd as (Fb & _ & Ed).
    split; [exact Fa|]. split; [exact Fb|]. split; [exact H|].
    unfold blinspace_point, flinspace_point. cbv zeta. rewrite Z, Ea, Em, Es, Ed, (proj2 Rd), (proj2 Ri).
    destruct (Req_EM_T _ 0) as [E|N]; [|reflexivity].
    exfalso. assert (bzero (bquo (bsub b a) (of_Z (n - 1))) = true); [|congruence].
    apply (rep_zero _ _ (rep_refl _ Fs')). rewrite Es, Ed, (proj2 Rd). exact E.
Qed.

Lemma at_most_quo_Z e a z : (-1074 <= e < 1024)%Z -> (1 <= z <= 2 ^ 53)%Z -> at_most e a -> at_most e (bquo a (of_Z z)).
Proof.
  intros He Hz [F H]. assert (Rz : rep (of_Z z) (IZR z)) by (apply Z_rep; lia).
  assert (1 <= IZR z) by (apply IZR_le; lia).
  assert (B : Rabs (fquo (B2R a) (IZR z)) <= bpow radix2 e).
  { apply rnd_bpow; [lia|]. unfold Rdiv. rewrite Rabs_mult, Rabs_inv, (Rabs_pos_eq (IZR z)) by lra.
    rewrite <- (Rmult_1_r (bpow radix2 e)). apply Rmult_le_compat; auto using Rabs_pos.
    - apply Rlt_le, Rinv_0_lt_compat. lra.
    - rewrite <- Rinv_1. apply Rinv_le; lra. }
  apply at_most_rep. exists (fquo (B2R a) (IZR z)). split; [|exact B].
  apply quo_rep; auto using rep_refl; [lra|]. eapply Rle_lt_trans; [exact B|]. apply bpow_big. lia.
Qed.

(** Differences that do not overflow: every point is a number. *)
Lemma point_moderate a b n i : (2 <= n <= 2 ^ 53)%Z -> (Z.of_nat i < n)%Z -> at_most 1020 a -> at_most 1020 b ->
  finite (blinspace_point a b n i).
Proof.
  intros Hn Hi Ha Hb. assert (Rd : rep (of_Z (n - 1)) (IZR (n - 1))) by (apply Z_rep; lia).
  assert (Ri : rep (of_Z (Z.of_nat i)) (INR i)) by (apply of_nat_rep; lia).
  assert (D : at_most 1021 (bsub b a)) by (apply (at_most_sub 1020); auto; lia).
  assert (St : at_most 1021 (bquo (bsub b a) (of_Z (n - 1)))) by (apply at_most_quo_Z; auto; lia).
  assert (N1 : 1 <= IZR (n - 1)) by (apply IZR_le; lia).
  assert (I1 : 0 <= INR i <= IZR (n - 1)) by (split; [apply pos_INR|]; rewrite INR_IZR_INZ; apply IZR_le; lia).
  unfold blinspace_point. cbv zeta.
  assert (P : at_most 1022 (if bzero (bquo (bsub b a) (of_Z (n - 1))) then bmul (bquo (of_Z (Z.of_nat i)) (of_Z (n - 1))) (bsub b a)
     else bmul (of_Z (Z.of_nat i)) (bquo (bsub b a) (of_Z (n - 1))))).
  { destruct (bzero _).
    - change 1022%Z with (1 + 1021)%Z. apply at_most_mul; [lia| |exact D].
      assert (B : Rabs (fquo (INR i) (IZR (n - 1))) <= bpow radix2 1).
      { apply rnd_bpow; [lia|]. change (bpow radix2 1) with 2. rewrite Rabs_pos_eq.
        - apply Rmult_le_reg_r with (IZR (n - 1)); [lra|]. unfold Rdiv. rewrite Rmult_assoc, Rinv_l by lra. lra.
        - apply Rmult_le_pos; [lra|]. apply Rlt_le, Rinv_0_lt_compat. lra. }
      apply at_most_rep. exists (fquo (INR i) (IZR (n - 1))). split; [|exact B].
      apply quo_rep; auto; [lra|]. eapply Rle_lt_trans; [exact B|]. apply bpow_big. lia.
    - destruct D as [FD BD]. destruct St as [Fs Bs].
      apply quo_finite in Fs as Q; [|apply Rd]. destruct Q as (_ & _ & Es). rewrite (proj2 Rd) in Es.
      set (s := B2R (bquo (bsub b a) (of_Z (n - 1)))) in *.
      assert (S1 : Rabs s * IZR (n - 1) <= bpow radix2 1022).
      { rewrite Es. unfold fquo. set (d := B2R (bsub b a)) in *.
        destruct (Rle_or_lt (bpow radix2 (-1022)) (Rabs (d / IZR (n - 1)))) as [Hb'|Hs].
        - pose proof (relative_error_N_FLT radix2 (-1074) 53 eq_refl (fun x => negb (Z.even x)) (d / IZR (n - 1)) Hb') as E.
          change (round radix2 (FLT_exp (-1074) 53) ZnearestE (d / IZR (n - 1))) with (rnd (d / IZR (n - 1))) in E.
          change (- (53) + 1)%Z with (-53 + 1)%Z in E.
          assert (E2 : Rabs (rnd (d / IZR (n - 1))) <= 2 * Rabs (d / IZR (n - 1))).
          { replace (rnd (d / IZR (n - 1))) with ((rnd (d / IZR (n - 1)) - d / IZR (n - 1)) + d / IZR (n - 1)) by ring.
            eapply Rle_trans. apply Rabs_triang. assert (/ 2 * bpow radix2 (-53 + 1) <= 1).
            { assert (bpow radix2 (-53 + 1) <= bpow radix2 0) by (apply bpow_le; lia). change (bpow radix2 0) with 1 in *. lra. }
            pose proof (Rabs_pos (d / IZR (n - 1))) as P0.
            assert (/ 2 * bpow radix2 (-53 + 1) * Rabs (d / IZR (n - 1)) <= 1 * Rabs (d / IZR (n - 1))) by (apply Rmult_le_compat_r; assumption). lra. }
          eapply Rle_trans. apply Rmult_le_compat_r; [lra|exact E2].
          unfold Rdiv. rewrite Rabs_mult, Rabs_inv, (Rabs_pos_eq (IZR (n - 1))) by lra.
          replace (2 * (Rabs d * / IZR (n - 1)) * IZR (n - 1)) with (2 * Rabs d) by (field; lra).
          change 1022%Z with (1 + 1021)%Z. rewrite bpow_plus. change (bpow radix2 1) with 2. lra.
        - assert (E : Rabs (rnd (d / IZR (n - 1))) <= bpow radix2 (-1022)) by (apply rnd_bpow; [lia|lra]).
          apply Rle_trans with (bpow radix2 (-1022) * bpow radix2 53).
          + apply Rmult_le_compat; auto using Rabs_pos; [lra|]. change (bpow radix2 53) with (IZR (2 ^ 53)). apply IZR_le. lia.
          + rewrite <- bpow_plus. apply bpow_le. lia. }
      assert (B : Rabs (fmul (INR i) s) <= bpow radix2 1022).
      { apply rnd_bpow; [lia|]. rewrite Rabs_mult, (Rabs_pos_eq (INR i)) by lra. pose proof (Rabs_pos s). nra. }
      apply at_most_rep. exists (fmul (INR i) s). split; [|exact B].
      apply mul_rep; auto; [apply rep_refl; exact Fs|]. eapply Rle_lt_trans; [exact B|]. apply bpow_big. lia. }
  apply (at_most_add 1022); [lia|exact P|]. eapply at_most_le; [|exact Ha]. lia.
Qed.

Lemma linspace_moderate a b n : (0 <= n <= 2 ^ 53)%Z -> at_most 1020 a -> at_most 1020 b ->
  exists g g', blinspace a b n = Ok g /\ flinspace (B2R a) (B2R b) n = Ok g' /\ Forall2 rep g g'.
Proof.
  intros Hn Ha Hb. unfold blinspace, flinspace. destruct (n <? 0)%Z eqn:N0; [apply Z.ltb_lt in N0; lia|].
  destruct (n =? 0)%Z eqn:E0; [exists [], []; auto|]. apply Z.eqb_neq in E0.
  destruct (n =? 1)%Z eqn:E1.
  { exists [a], [B2R a]. repeat split. constructor; [|constructor]. apply rep_refl. apply Ha. }
  apply Z.eqb_neq in E1.
  assert (L : exists m, Z.to_nat n = S m) by (exists (Z.to_nat n - 1)%nat; lia). destruct L as [m Em].
  assert (R : Forall2 rep (map (blinspace_point a b n) (seq 0 (Z.to_nat n))) (map (flinspace_point (B2R a) (B2R b) n) (seq 0 (Z.to_nat n)))).
  { assert (G : forall l, (forall i, In i l -> (Z.of_nat i < n)%Z) ->
      Forall2 rep (map (blinspace_point a b n) l) (map (flinspace_point (B2R a) (B2R b) n) l)).
    { induction l as [|i l IH]; intros Hl; cbn [map]; constructor.
      - apply point_finite; [lia|apply Hl; now left|]. apply point_moderate; auto; [lia|apply Hl; now left].
      - apply IH. intros j Hj. apply Hl. now right. }
    apply G. intros i Hi. apply in_seq in Hi. lia. }
  rewrite Em in *. cbn [seq map] in *. unfold set_last.
  eexists. eexists. split; [reflexivity|]. split; [reflexivity|].
  apply Forall2_app; [|constructor; [|constructor]; apply rep_refl; apply Hb].
  revert R. generalize (blinspace_point a b n 0 :: map (blinspace_point a b n) (seq 1 m)), (flinspace_point (B2R a) (B2R b) n 0 :: map (flinspace_point (B2R a) (B2R b) n) (seq 1 m)).
  clear. intros l l' H. induction H as [|x y l l' Hx H IH]; [constructor|].
  destruct H as [|x' y' l l' Hx' H]; [constructor|]. change (removelast (x :: x' :: l)) with (x :: removelast (x' :: l)).
  change (removelast (y :: y' :: l')) with (y :: removelast (y' :: l')). constructor; auto.
Qed.
