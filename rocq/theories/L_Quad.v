From Coq Require Import Reals List ZArith Bool Lia Lra.
From Coquelicot Require Import Coquelicot.
From Verif Require Import Py Spec M_Num M_Quad S_Quad L_CrossSection2 L_RInt L_Darboux.
Import ListNotations.
Open Scope R_scope.

Lemma RInt_sum {A} (f : A -> R -> R) l a b : (forall x, In x l -> ex_RInt (f x) a b) ->
  RInt (fun t => Rsum (map (fun x => f x t) l)) a b = Rsum (map (fun x => RInt (f x) a b) l) /\
  ex_RInt (fun t => Rsum (map (fun x => f x t) l)) a b.
Proof.
  induction l; intros H; simpl.
  - split. rewrite RInt_const_R. ring. apply ex_RInt_const.
  - destruct IHl as [I1 I2]. intros; apply H; simpl; auto.
    assert (E : ex_RInt (f a0) a b) by (apply H; simpl; auto).
    split.
    + rewrite (RInt_plus_R (f a0)) by auto. unfold Rsum in *. rewrite I1. reflexivity.
    + apply (ex_RInt_plus (V := R_NormedModule) (f a0)); auto.
Qed.

Lemma chasles_cells (g : R -> R) x : x <> [] -> (forall c, In c (cells x) -> ex_RInt g (fst c) (snd c)) ->
  Rsum (map (fun c => RInt g (fst c) (snd c)) (cells x)) = RInt g (first x) (final x) /\
  ex_RInt g (first x) (final x).
Proof.
  induction x as [|a x]; intros N H; [congruence|]. destruct x as [|b x].
  - unfold first, final; simpl. rewrite RInt_point_R. split; auto. apply ex_RInt_point.
  - rewrite cells_cons in *. simpl map.
    destruct IHx as [I1 I2]. discriminate. intros; apply H; right; auto.
    pose proof (H (a, b) (or_introl eq_refl)) as E; simpl in E.
    unfold first, final in *. simpl hd in *. change (last (a :: b :: x) 0) with (last (b :: x) 0).
    split.
    + rewrite <- (RInt_join g a b (last (b :: x) 0)) by auto. rewrite <- I1. reflexivity.
    + eapply ex_RInt_join; eauto.
Qed.

Lemma partition_iterated f x0 rs args : x0 <> [] ->
  (forall c, In c (cells x0) -> integrable (rs ++ [c]) f args) ->
  Rsum (map (fun c => iterated (rs ++ [c]) f args) (cells x0)) =
  iterated (rs ++ [(first x0, final x0)]) f args.
Proof.
  intros N. revert args; induction rs as [|[a b] rs IH]; intros args H.
  - simpl app in *. 
    transitivity (Rsum (map (fun c => RInt (fun t => f (t :: args)) (fst c) (snd c)) (cells x0))).
    { f_equal. apply map_ext. intros [u v]; reflexivity. }
    simpl. apply chasles_cells; auto. intros [u v] I. destruct (H (u, v) I) as [H1 _]. exact H1.
  - simpl app in *. simpl iterated.
    destruct (RInt_sum (fun c t => iterated (rs ++ [c]) f (t :: args)) (cells x0) a b) as [E1 E2].
    { intros c Hc. destruct (H c Hc) as [H1 _]. exact H1. }
    etransitivity; [exact (eq_sym E1)|]. apply RInt_ext. intros t Ht. apply IH.
    intros c Hc. destruct (H c Hc) as [_ H2]. apply H2. lra.
Qed.

(** The loop over indices visits the cells. *)
Lemma seq_cells {B} (g : R * R -> B) (x : list R) :
  map (fun i => g (nth i x 0, nth (S i) x 0)) (seq 0 (length x - 1)) = map g (cells x).
Proof.
  induction x as [|a x]; auto. destruct x as [|b x]; auto.
  rewrite cells_cons. simpl length in *. replace (S (S (length x)) - 1)%nat with (S (length x)) by lia.
  replace (S (length x) - 1)%nat with (length x) in IHx by lia.
  cbn [seq map]. f_equal. etransitivity; [|exact IHx].
  rewrite <- seq_shift, map_map. reflexivity.
Qed.

Lemma fold_left_sum {A} (g : A -> R) l acc : fold_left (fun acc p => acc + g p) l acc = acc + Rsum (map g l).
Proof. revert acc; induction l; intros; simpl. ring. rewrite IHl. unfold Rsum. ring. Qed.

Lemma quad_partition_parts nquad f x0 rest ranges parts :
  or_empty rest = Ok ranges ->
  Forall2 (fun c p => nquad f (c :: ranges) = Ok p) (cells x0) parts ->
  quad_partition nquad f x0 rest =
    Ok (Rsum (map fst parts), sqrt (Rsum (map (fun p => snd p * snd p) parts))).
Proof.
  intros R H. unfold quad_partition. rewrite R. cbn [bind].
  unfold traverse. rewrite (seq_cells (fun c => nquad f (c :: ranges))).
  change (sequence (map (fun c => nquad f (c :: ranges)) (cells x0)))
    with (traverse (fun c => nquad f (c :: ranges)) (cells x0)).
  rewrite (proj2 (traverse_spec _ _ _) H). cbn [bind].
  rewrite !fold_left_sum, !Rplus_0_l. reflexivity.
Qed.

Lemma quad_partition_parts_exist (nquad : (list R -> R) -> list (R * R) -> out (R * R)) f x0 ranges (P : R * R -> R * R -> Prop) :
  (forall c, In c (cells x0) -> exists p, nquad f (c :: ranges) = Ok p /\ P c p) ->
  exists parts, Forall2 (fun c p => nquad f (c :: ranges) = Ok p /\ P c p) (cells x0) parts.
Proof.
  induction (cells x0); intros H.
  - exists []; constructor.
  - destruct (H a (or_introl eq_refl)) as [p Hp]. destruct IHl as [ps Hps]. intros; apply H; right; auto.
    exists (p :: ps); constructor; auto.
Qed.

Lemma rev_box f c ranges : box_integral f (c :: ranges) = iterated (rev ranges ++ [c]) f [].
Proof. reflexivity. Qed.

Lemma partition_exact nquad f x0 rest ranges : x0 <> [] -> or_empty rest = Ok ranges ->
  (forall c, In c (cells x0) -> box_integrable f (c :: ranges) /\ exact_on nquad f (c :: ranges)) ->
  exists err, quad_partition nquad f x0 rest = Ok (box_integral f ((first x0, final x0) :: ranges), err).
Proof.
  intros N R H.
  destruct (quad_partition_parts_exist nquad f x0 ranges (fun c p => fst p = box_integral f (c :: ranges))) as [parts Hp].
  { intros c Hc. destruct (H c Hc) as [_ [e He]]. eexists; split; [exact He|]. reflexivity. }
  rewrite (quad_partition_parts nquad f x0 rest ranges parts R).
  2:{ clear - Hp. induction Hp; constructor; auto. tauto. }
  eexists. f_equal. f_equal.
  transitivity (Rsum (map (fun c => box_integral f (c :: ranges)) (cells x0))).
  { f_equal. clear - Hp. induction Hp; simpl; auto. destruct H as [_ ->]. congruence. }
  unfold box_integral. simpl rev.
  apply (partition_iterated f x0 (rev ranges) []); auto.
  intros c Hc. destruct (H c Hc) as [B _]. exact B.
Qed.

(** ** Errors *)
Lemma Rsum_nonneg l : (forall x, In x l -> 0 <= x) -> 0 <= Rsum l.
Proof. induction l; simpl; intros. lra. apply Rplus_le_le_0_compat; auto. Qed.
Lemma Rsum_sq_nonneg (l : list R) : 0 <= Rsum (map (fun e => e * e) l).
Proof. apply Rsum_nonneg. intros x Hx. apply in_map_iff in Hx. destruct Hx as (y & <- & _). apply Rle_0_sqr. Qed.

Lemma sqrt_sum_ge l e : In e l -> Rabs e <= sqrt (Rsum (map (fun e => e * e) l)).
Proof.
  intros I. rewrite <- sqrt_Rsqr_abs. apply sqrt_le_1_alt. unfold Rsqr.
  induction l; simpl in *. tauto. fold (Rsum (map (fun e => e * e) l)).
  pose proof (Rsum_sq_nonneg l). pose proof (Rle_0_sqr a). unfold Rsqr in *.
  destruct I as [->|I]. lra. specialize (IHl I). lra.
Qed.

Lemma sqrt_sum_le l : sqrt (Rsum (map (fun e => e * e) l)) <= Rsum (map Rabs l).
Proof.
  assert (P : 0 <= Rsum (map Rabs l)).
  { apply Rsum_nonneg. intros x Hx. apply in_map_iff in Hx. destruct Hx as (y & <- & _). apply Rabs_pos. }
  rewrite <- (sqrt_Rsqr (Rsum (map Rabs l))) by auto. apply sqrt_le_1_alt. unfold Rsqr.
  clear P. induction l; simpl. lra.
  fold (Rsum (map (fun e => e * e) l)). fold (Rsum (map Rabs l)).
  assert (P : 0 <= Rsum (map Rabs l)).
  { apply Rsum_nonneg. intros x Hx. apply in_map_iff in Hx. destruct Hx as (y & <- & _). apply Rabs_pos. }
  assert (a * a = Rabs a * Rabs a) by (rewrite <- Rabs_mult; symmetry; apply Rabs_pos_eq; apply Rle_0_sqr).
  pose proof (Rabs_pos a). nra.
Qed.

(** Cauchy-Schwarz with ones. *)
Lemma sum_le_sqrt l : Rsum (map Rabs l) <= sqrt (INR (length l)) * sqrt (Rsum (map (fun e => e * e) l)).
Proof.
  assert (P : forall l, 0 <= Rsum (map Rabs l)).
  { intros. apply Rsum_nonneg. intros x Hx. apply in_map_iff in Hx. destruct Hx as (y & <- & _). apply Rabs_pos. }
  rewrite <- sqrt_mult by (try apply pos_INR; apply Rsum_sq_nonneg).
  rewrite <- (sqrt_Rsqr (Rsum (map Rabs l))) by auto. apply sqrt_le_1_alt. unfold Rsqr.
  induction l. simpl. lra.
  change (Rsum (map Rabs (a :: l))) with (Rabs a + Rsum (map Rabs l)).
  change (Rsum (map (fun e => e * e) (a :: l))) with (a * a + Rsum (map (fun e => e * e) l)).
  change (length (a :: l)) with (S (length l)). rewrite S_INR.
  specialize (P l). set (s := Rsum (map Rabs l)) in *. set (q := Rsum (map (fun e => e * e) l)) in *.
  pose proof (pos_INR (length l)) as Hn. set (n := INR (length l)) in *.
  assert (Ha : a * a = Rabs a * Rabs a) by (rewrite <- Rabs_mult; symmetry; apply Rabs_pos_eq; apply Rle_0_sqr).
  rewrite Ha. pose proof (Rabs_pos a). set (x := Rabs a) in *.
  assert (Hq : 0 <= q) by apply Rsum_sq_nonneg.
  (* 2 x s <= n x^2 + q *)
  assert (2 * x * s <= n * (x * x) + q).
  { destruct (Req_dec n 0) as [Z|Z].
    - assert (s = 0). { rewrite Z in IHl. assert (s * s <= 0) by lra. nra. }
      rewrite Z, H0. lra.
    - assert (Hn' : 0 < n) by lra.
      assert (0 <= (n * x - s) * (n * x - s)) by apply Rle_0_sqr.
      apply Rmult_le_reg_l with n; auto. nra. }
  nra.
Qed.

Lemma partition_honest nquad f x0 rest ranges : x0 <> [] -> or_empty rest = Ok ranges ->
  (forall c, In c (cells x0) -> box_integrable f (c :: ranges) /\ honest_on nquad f (c :: ranges)) ->
  exists v err, quad_partition nquad f x0 rest = Ok (v, err) /\
    Rabs (v - box_integral f ((first x0, final x0) :: ranges)) <= sqrt (INR (length x0 - 1)) * err.
Proof.
  intros N R H.
  destruct (quad_partition_parts_exist nquad f x0 ranges
     (fun c p => Rabs (fst p - box_integral f (c :: ranges)) <= snd p)) as [parts Hp].
  { intros c Hc. destruct (H c Hc) as [_ (v & e & He & B)]. eexists; split; [exact He|]. exact B. }
  rewrite (quad_partition_parts nquad f x0 rest ranges parts R).
  2:{ clear - Hp. induction Hp; constructor; auto. tauto. }
  do 2 eexists. split; [reflexivity|].
  assert (E : Rsum (map (fun c => box_integral f (c :: ranges)) (cells x0)) = box_integral f ((first x0, final x0) :: ranges)).
  { unfold box_integral. simpl rev. apply (partition_iterated f x0 (rev ranges) []); auto.
    intros c Hc. destruct (H c Hc) as [B _]. exact B. }
  rewrite <- E.
  assert (L : length parts = length (cells x0)).
  { clear - Hp. induction Hp; simpl; auto. }
  rewrite cells_length in L. rewrite <- L.
  rewrite <- (map_length snd parts).
  replace (map (fun p => snd p * snd p) parts) with (map (fun e => e * e) (map snd parts)) by now rewrite map_map.
  eapply Rle_trans; [|apply sum_le_sqrt].
  clear - Hp. induction Hp as [|c p cs ps [_ Hc] Hp IH]; simpl.
  - rewrite Rminus_eq_0, Rabs_R0. lra.
  - unfold Rsum in *.
    match goal with |- Rabs (?a + ?b - (?c + ?d)) <= _ => replace (a + b - (c + d)) with ((a - c) + (b - d)) by ring end.
    eapply Rle_trans; [apply Rabs_triang|]. pose proof (Rle_abs (snd p)). lra.
Qed.

(** Reported errors that bound the true ones do not add up in quadrature. *)
Definition biased_nquad (f : list R -> R) (ranges : list (R * R)) : out (R * R) := Ok (box_integral f ranges + 1, 1).

Lemma honest_biased f r : honest_on biased_nquad f r.
Proof.
  do 2 eexists. split; [reflexivity|].
  match goal with |- Rabs (?a + 1 - ?a) <= 1 => replace (a + 1 - a) with 1 by ring end.
  rewrite Rabs_R1. lra.
Qed.

Lemma biased_result : exists v err, quad_partition biased_nquad (fun _ => 0) [0; 1; 2] LNone = Ok (v, err) /\
  err < Rabs (v - box_integral (fun _ => 0) [(0, 2)]).
Proof.
  assert (B : forall a b, box_integral (fun _ => 0) [(a, b)] = 0).
  { intros. transitivity (RInt (fun _ => 0) a b). reflexivity. rewrite RInt_const_R. ring. }
  rewrite (quad_partition_parts biased_nquad (fun _ => 0) [0; 1; 2] LNone []
     [(box_integral (fun _ => 0) [(0, 1)] + 1, 1); (box_integral (fun _ => 0) [(1, 2)] + 1, 1)] eq_refl)
    by (repeat constructor).
  do 2 eexists. split; [reflexivity|]. rewrite !B. simpl.
  replace (1 * 1 + (1 * 1 + 0)) with 2 by ring.
  replace (0 + 1 + (0 + 1 + 0) - 0) with 2 by ring.
  rewrite Rabs_pos_eq by lra.
  apply Rsqr_incrst_0; try lra. rewrite Rsqr_sqrt by lra. unfold Rsqr; lra. apply sqrt_pos.
Qed.
