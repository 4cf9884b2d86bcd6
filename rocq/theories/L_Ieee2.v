(** Sums of binary64 numbers. *)
From Coq Require Import Reals List ZArith Lia Lra Bool Permutation.
From Flocq Require Import Core BinarySingleNaN.
From Verif Require Import Py Spec M_Num M_Grid M_Darboux M_CrossSection M_Float S_Float L_Float M_Ieee S_Ieee L_Ieee.
Import ListNotations.
Open Scope R_scope.

(** ** Calls *)
Scheme same_object_mind := Induction for same_object Sort Prop
  with same_objects_mind := Induction for same_objects Sort Prop.

Fixpoint bloop (E : b64) (ss : list b64) (rs : list bvalue) (i : nat) (acc : out b64) : out b64 :=
  match rs with
  | [] => acc
  | r :: rs' => bloop E ss rs' (S i)
      (let! a := acc in let! s := get ss i in let! x := bcall r E in Ok (badd a (bmul s x)))%py
  end.
Fixpoint floop (E : R) (ss : list R) (rs : list value) (i : nat) (acc : out R) : out R :=
  match rs with
  | [] => acc
  | r :: rs' => floop E ss rs' (S i)
      (match acc with
       | Raise e => Raise e
       | _ => match get ss i with
              | Ok s => foadd acc (foscale s (fcall r E))
              | NaN => NaN
              | Raise e => Raise e
              end
       end)
  end.
Lemma bcall_sum rs ss E : bcall (BSum rs ss) E = bloop E ss rs 0 (Ok (of_Z 0)).
Proof.
  cbn [bcall]. generalize (Ok (of_Z 0)). generalize 0%nat. induction rs as [|r rs IH]; intros i acc; [reflexivity|].
  cbn [bloop]. rewrite <- IH. reflexivity.
Qed.
Lemma fcall_sum rs ss E : fcall (VSum rs ss) E = floop E ss rs 0 (Ok 0).
Proof.
  cbn [fcall]. generalize (Ok 0). generalize 0%nat. induction rs as [|r rs IH]; intros i acc; [reflexivity|].
  cbn [floop]. rewrite <- IH. reflexivity.
Qed.

Lemma get_rep ss ss' i : Forall2 rep ss ss' ->
  (exists b s, get ss i = Ok b /\ get ss' i = Ok s /\ rep b s) \/ (get ss i = Raise IndexError /\ get ss' i = Raise IndexError).
Proof.
  intros H. revert i. induction H as [|b s ss ss' Hb _ IH]; intros i.
  - right. destruct i; split; reflexivity.
  - destruct i; [left; exists b, s; repeat split; apply Hb|]. apply (IH i).
Qed.

Lemma loop_reads E ss ss' rs rs' : Forall2 rep ss ss' ->
  forall i acc acc', Forall2 (fun r r' => reads (bcall r E) (fcall r' (B2R E))) rs rs' -> reads acc acc' ->
  reads (bloop E ss rs i acc) (floop (B2R E) ss' rs' i acc').
Proof.
  intros Hs i acc acc' H. revert i acc acc'.
  induction H as [|r r' rs rs' Hr _ IH]; intros i acc acc' Ha; [exact Ha|].
  cbn [bloop floop]. apply IH. clear IH.
  destruct acc as [a| |e]; cbn [reads bind] in *; [|contradiction|subst acc'; reflexivity].
  destruct (get_rep ss ss' i Hs) as [(b & s & -> & -> & Fb & <-)|[-> ->]].
  2: { cbn. destruct (is_finite a); [subst acc'|destruct acc'; try reflexivity; now elim (Ha e)]; reflexivity. }
  cbn [bind]. destruct (bcall r E) as [x| |e]; cbn [reads bind] in *; [|contradiction|].
  2: { rewrite Hr. cbn. destruct acc' as [y| |e']; try reflexivity.
       destruct (is_finite a); [discriminate|now elim (Ha e')]. }
  destruct (is_finite (badd a (bmul b x))) eqn:F.
  - apply add_finite in F. destruct F as (Fa & Fm & Ea). apply mul_finite in Fm. destruct Fm as (_ & Fx & Em).
    rewrite Fa in Ha. rewrite Fx in Hr. subst acc'. rewrite Hr. cbn. rewrite Ea, Em. reflexivity.
  - intros e. destruct acc' as [y| |e'].
    + destruct (fcall r' (B2R E)) as [z| |e'']; cbn; try discriminate.
      destruct (is_finite x); [discriminate|now elim (Hr e'')].
    + destruct (fcall r' (B2R E)) as [z| |e'']; cbn; try discriminate.
      destruct (is_finite x); [discriminate|now elim (Hr e'')].
    + destruct (is_finite a); [discriminate|now elim (Ha e')].
Qed.

Theorem call_reads E v v' : finite E -> same_object v v' -> reads (bcall v E) (fcall v' (B2R E)).
Proof.
  intros FE H. revert v v' H.
  apply (same_object_mind (fun v v' _ => reads (bcall v E) (fcall v' (B2R E)))
    (fun rs rs' _ => Forall2 (fun r r' => reads (bcall r E) (fcall r' (B2R E))) rs rs')).
  - intros f c Hf. apply Hf. exact FE.
  - intros b r [F <-]. cbn. rewrite F. reflexivity.
  - reflexivity.
  - intros rs rs' ss ss' _ IH Hs. rewrite bcall_sum, fcall_sum. apply loop_reads; auto.
    cbn. reflexivity.
  - constructor.
  - intros. constructor; auto.
Qed.

(** ** Trees *)
Lemma sum_in_finite t f : is_finite (bnp_sum_in t f) = true ->
  (forall i, In i (indices t) -> is_finite (f i) = true) /\
  B2R (bnp_sum_in t f) = np_sum_in t (fun i => B2R (f i)).
Proof.
  induction t as [i|l IHl r IHr]; cbn [bnp_sum_in np_sum_in indices].
  - intros H. split; [|reflexivity]. intros j [->|[]]. exact H.
  - intros H. apply add_finite in H. destruct H as (Hl & Hr & E). specialize (IHl Hl). specialize (IHr Hr).
    destruct IHl as [Al El], IHr as [Ar Er]. split.
    + intros i Hi. apply in_app_or in Hi. destruct Hi; auto.
    + rewrite E, El, Er. reflexivity.
Qed.
Lemma B2R_0 : B2R (of_Z 0) = 0. Proof. reflexivity. Qed.
Lemma np_sum_in_ext t f g : (forall i, f i = g i) -> np_sum_in t f = np_sum_in t g.
Proof. intros H. induction t; cbn; congruence. Qed.
Lemma nth_B2R i l : B2R (nth i l (of_Z 0)) = nth i (map B2R l) 0.
Proof. rewrite <- B2R_0. rewrite map_nth. reflexivity. Qed.

Lemma np_sum_finite t l : order_of (List.length l) t -> is_finite (bnp_sum t l) = true ->
  Forall finite l /\ B2R (bnp_sum t l) = np_sum t (map B2R l).
Proof.
  intros Ho H. destruct t as [t|]; cbn [order_of bnp_sum np_sum] in *.
  - apply sum_in_finite in H. destruct H as [A E]. split.
    + apply Forall_forall. intros x Hx. destruct (In_nth _ _ (of_Z 0) Hx) as (i & Hi & <-).
      apply A. apply (Permutation_in i (Permutation_sym Ho)). apply in_seq. lia.
    + rewrite E. apply np_sum_in_ext. intros i. apply nth_B2R.
  - destruct l; [|discriminate]. split; [constructor|reflexivity].
Qed.

(** ** Bounds of powers of two *)
Lemma rnd_bpow x e : (-1074 <= e)%Z -> Rabs x <= bpow radix2 e -> Rabs (rnd x) <= bpow radix2 e.
Proof. intros He H. apply abs_round_le_generic; try typeclasses eauto; [|exact H]. apply generic_format_bpow. unfold fexp64, FLT_exp. lia. Qed.
Lemma bpow_big e : (e < 1024)%Z -> bpow radix2 e < big. Proof. apply bpow_lt. Qed.

Lemma at_most_rep e b : at_most e b <-> exists x, rep b x /\ Rabs x <= bpow radix2 e.
Proof. split; [intros [F H]; exists (B2R b); split; [split; auto|exact H]|]. intros (x & [F <-] & H). split; auto. Qed.
Lemma at_most_add e a b : (-1074 <= e < 1023)%Z -> at_most e a -> at_most e b -> at_most (e + 1) (badd a b).
Proof.
  intros He [Fa Ha] [Fb Hb].
  assert (B : Rabs (fadd (B2R a) (B2R b)) <= bpow radix2 (e + 1)).
  { apply rnd_bpow; [lia|]. rewrite bpow_plus. change (bpow radix2 1) with 2. eapply Rle_trans. apply Rabs_triang. lra. }
  assert (R : rep (badd a b) (fadd (B2R a) (B2R b))).
  { apply add_rep; try (apply rep_refl; assumption). eapply Rle_lt_trans. exact B. apply bpow_big. lia. }
  apply at_most_rep. eexists. split; eauto.
Qed.
Lemma at_most_sub e a b : (-1074 <= e < 1023)%Z -> at_most e a -> at_most e b -> at_most (e + 1) (bsub a b).
Proof.
  intros He [Fa Ha] [Fb Hb].
  assert (B : Rabs (fsub (B2R a) (B2R b)) <= bpow radix2 (e + 1)).
  { apply rnd_bpow; [lia|]. rewrite bpow_plus. change (bpow radix2 1) with 2. unfold Rminus. eapply Rle_trans. apply Rabs_triang. rewrite Rabs_Ropp. lra. }
  assert (R : rep (bsub a b) (fsub (B2R a) (B2R b))).
  { apply sub_rep; try (apply rep_refl; assumption). eapply Rle_lt_trans. exact B. apply bpow_big. lia. }
  apply at_most_rep. eexists. split; eauto.
Qed.
Lemma at_most_mul e e' a b : (-1074 <= e + e' < 1024)%Z -> at_most e a -> at_most e' b -> at_most (e + e') (bmul a b).
Proof.
  intros He [Fa Ha] [Fb Hb].
  assert (B : Rabs (fmul (B2R a) (B2R b)) <= bpow radix2 (e + e')).
  { apply rnd_bpow; [lia|]. rewrite bpow_plus, Rabs_mult. apply Rmult_le_compat; auto using Rabs_pos. }
  assert (R : rep (bmul a b) (fmul (B2R a) (B2R b))).
  { apply mul_rep; try (apply rep_refl; assumption). eapply Rle_lt_trans. exact B. apply bpow_big. lia. }
  apply at_most_rep. eexists. split; eauto.
Qed.
Lemma at_most_le e e' b : (e <= e')%Z -> at_most e b -> at_most e' b.
Proof. intros He [F H]. split; auto. eapply Rle_trans. exact H. apply bpow_le. exact He. Qed.

Lemma sum_in_bound t f e : (-1074 <= e)%Z -> (e + Z.of_nat (height t) < 1024)%Z ->
  (forall i, In i (indices t) -> at_most e (f i)) -> at_most (e + Z.of_nat (height t)) (bnp_sum_in t f).
Proof.
  intros He. induction t as [i|l IHl r IHr]; cbn [bnp_sum_in indices height]; intros Hb H.
  - rewrite Z.add_0_r. apply H. left. reflexivity.
  - assert (Hl : at_most (e + Z.of_nat (height l)) (bnp_sum_in l f)).
    { apply IHl; [lia|]. intros i Hi. apply H. apply in_or_app. now left. }
    assert (Hr : at_most (e + Z.of_nat (height r)) (bnp_sum_in r f)).
    { apply IHr; [lia|]. intros i Hi. apply H. apply in_or_app. now right. }
    replace (e + Z.of_nat (S (Nat.max (height l) (height r))))%Z with ((e + Z.of_nat (Nat.max (height l) (height r))) + 1)%Z by lia.
    apply at_most_add; [lia| |]; (eapply at_most_le; [|eassumption]); lia.
Qed.
Lemma at_most_0 e : at_most e (of_Z 0).
Proof. split; [reflexivity|]. rewrite B2R_0, Rabs_R0. apply bpow_ge_0. Qed.
Lemma np_sum_bound t l e : (-1074 <= e)%Z -> (e + Z.of_nat (depth_of t) < 1024)%Z -> Forall (at_most e) l ->
  at_most (e + Z.of_nat (depth_of t)) (bnp_sum t l).
Proof.
  intros He Hb H. destruct t as [t|]; cbn [bnp_sum depth_of] in *; [|apply at_most_0].
  apply sum_in_bound; auto. intros i _. destruct (Nat.lt_ge_cases i (List.length l)) as [Hi|Hi].
  - rewrite Forall_forall in H. apply H. now apply nth_In.
  - rewrite nth_overflow by exact Hi. apply at_most_0.
Qed.
