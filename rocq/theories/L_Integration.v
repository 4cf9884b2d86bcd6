From Coq Require Import Reals List ZArith Bool Lia Lra Sorted.
From Coquelicot Require Import Coquelicot.
From Verif Require Import Py Spec M_Num M_Grid M_CrossSection S_CrossSection M_Darboux M_Quad S_Quad
  L_RInt L_Darboux L_Quad.
Import ListNotations.
Open Scope R_scope.

Lemma darboux_encloses f x : x <> [] -> ascending x ->
  (forall a b, In (a, b) (cells x) -> monotone_on f a b) ->
  ex_RInt f (first x) (final x) ->
  exists L d, darboux (vectorized f) x = Ok (L, d) /\
              L <= RInt f (first x) (final x) <= L + d.
Proof.
  intros N A M E. do 2 eexists. split. now apply darboux_ascending.
  pose proof (enclosure f x N A M E). lra.
Qed.

Lemma darboux_true_sums f x : x <> [] -> ascending x ->
  (forall a b, In (a, b) (cells x) -> monotone_on f a b) ->
  exists L d ms Ms, darboux (vectorized f) x = Ok (L, d) /\
    Forall2 (fun p m => is_inf_on f (fst p) (snd p) m) (cells x) ms /\
    Forall2 (fun p m => is_sup_on f (fst p) (snd p) m) (cells x) Ms /\
    L = Rsum (map2 (fun p m => m * (snd p - fst p)) (cells x) ms) /\
    L + d = Rsum (map2 (fun p m => m * (snd p - fst p)) (cells x) Ms).
Proof.
  intros N A M. destruct (true_sums f x N A M) as (ms & Ms & H1 & H2 & H3 & H4).
  exists (lower f x), (upper f x - lower f x), ms, Ms.
  split; [now apply darboux_ascending|]. repeat split; auto. rewrite <- H4. ring.
Qed.

Lemma Rmin_same a : Rmin a a = a.
Proof. apply Rmin_left; lra. Qed.
Lemma Rmax_same a : Rmax a a = a.
Proof. apply Rmax_left; lra. Qed.

Lemma cells_telescope c x : x <> [] ->
  Rsum (map (fun p => c * (snd p - fst p)) (cells x)) = c * (final x - first x).
Proof.
  induction x as [|a x IH]; intros N; [congruence|]. destruct x as [|b x].
  - unfold final, first; simpl. ring.
  - rewrite cells_cons. simpl map. specialize (IH ltac:(discriminate)).
    unfold final, first in *. simpl hd in *. change (last (a :: b :: x) 0) with (last (b :: x) 0).
    unfold Rsum in *. simpl fold_right. rewrite IH. simpl fst; simpl snd. ring.
Qed.

Lemma darboux_constant c x : x <> [] ->
  darboux (vectorized (fun _ => c)) x = Ok (c * (final x - first x), 0).
Proof.
  intros N. rewrite darboux_function by auto. unfold lower, upper.
  rewrite Rmin_same, Rmax_same, !cells_telescope by auto.
  rewrite Rminus_eq_0, Rabs_R0. reflexivity.
Qed.

Lemma darboux_error_bound f x h L d : x <> [] -> ascending x ->
  monotone_on f (first x) (final x) -> 0 <= h ->
  (forall a b, In (a, b) (cells x) -> b - a <= h) ->
  darboux (vectorized f) x = Ok (L, d) ->
  d <= h * Rabs (f (final x) - f (first x)).
Proof.
  intros N A M H0 Hh D. rewrite darboux_ascending in D by auto. inversion D.
  now apply error_bound.
Qed.

Lemma ssorted_rev x : descending x -> ascending (rev x).
Proof.
  unfold descending, ascending. induction 1; simpl. constructor.
  clear H. revert IHStronglySorted. assert (Hin : forall y, In y (rev l) -> y <= a).
  { intros y Hy. apply in_rev in Hy. rewrite Forall_forall in H0. apply Rge_le; auto. }
  clear H0. induction (rev l) as [|b m]; simpl; intros S.
  - repeat constructor.
  - inversion S; subst. constructor. apply IHm; auto. intros; apply Hin; simpl; auto.
    rewrite Forall_forall in *. intros z Hz. apply in_app_or in Hz. destruct Hz as [Hz|[<-|[]]].
    auto. apply Hin; simpl; auto.
Qed.

Lemma final_rev x : x <> [] -> final (rev x) = first x.
Proof. destruct x; intros; [congruence|]. unfold final, first; simpl. now rewrite last_last. Qed.
Lemma first_rev x : x <> [] -> first (rev x) = final x.
Proof.
  intros N. rewrite <- (rev_involutive x) at 2. symmetry. apply final_rev. now apply rev_nonempty.
Qed.

Lemma darboux_descending f x : x <> [] -> descending x ->
  (forall a b, In (a, b) (cells x) -> monotone_on f b a) ->
  ex_RInt f (first x) (final x) ->
  exists L d, darboux (vectorized f) x = Ok (L, d) /\
              L - d <= RInt f (first x) (final x) <= L.
Proof.
  intros N D M E.
  assert (A := ssorted_rev x D). assert (N' := rev_nonempty x N).
  assert (M' : forall a b, In (a, b) (cells (rev x)) -> monotone_on f a b).
  { intros a b I. rewrite cells_rev in I. apply in_rev in I. apply in_map_iff in I.
    destruct I as ([u v] & E1 & I). inversion E1; subst. simpl. now apply M. }
  assert (E' : ex_RInt f (first (rev x)) (final (rev x))).
  { rewrite first_rev, final_rev by auto. now apply (ex_RInt_swap (V := R_NormedModule)). }
  pose proof (enclosure f (rev x) N' A M' E') as K.
  destruct (darboux_rev f (rev x) N') as (L & d & H1 & H2).
  rewrite rev_involutive in H2. rewrite darboux_ascending in H1 by auto. inversion H1; subst.
  do 2 eexists; split; [exact H2|].
  rewrite first_rev, final_rev in K by auto.
  rewrite <- (opp_RInt_swap (V := R_CompleteNormedModule) f) in K by auto.
  unfold opp in K; simpl in K. lra.
Qed.

Ltac minmax := repeat match goal with
  | |- context [Rmin ?a ?b] => first [rewrite (Rmin_left a b) by lra | rewrite (Rmin_right a b) by lra]
  | |- context [Rmax ?a ?b] => first [rewrite (Rmax_left a b) by lra | rewrite (Rmax_right a b) by lra]
  end.

Lemma sq_cont : forall x, continuous (fun t => t * t) x.
Proof.
  intros x. apply (is_derive_cont _ x (2 * x)). auto_derive; auto. ring.
Qed.

Lemma darboux_example : let f := fun t => t * t in let x := [-1; 0; 2] in
  ascending x /\ (forall a b, In (a, b) (cells x) -> monotone_on f a b) /\
  ex_RInt f (first x) (final x) /\ darboux (vectorized f) x = Ok (0, 9).
Proof.
  intros f x. split; [|split; [|split]].
  - repeat constructor; lra.
  - intros a b [E|[E|[]]]; inversion E; subst; [right|left]; intros; unfold f; nra.
  - apply ex_RInt_cont. apply sq_cont.
  - rewrite darboux_function by discriminate. unfold lower, upper, f, x; simpl. minmax.
    do 2 f_equal. ring.
    replace (-1 * -1 * (0 - -1) + (2 * 2 * (2 - 0) + 0) - (0 * 0 * (0 - -1) + (0 * 0 * (2 - 0) + 0))) with 9 by ring.
    apply Rabs_pos_eq; lra.
Qed.

Lemma darboux_descending_example : darboux (vectorized (fun t => t * t)) [2; 0; -1] = Ok (0, 9).
Proof.
  destruct (darboux_rev (fun t => t * t) [-1; 0; 2]) as (L & d & H1 & H2). discriminate.
  destruct darboux_example as (_ & _ & _ & H). rewrite H in H1. inversion H1; subst.
  simpl in H2. rewrite H2. rewrite Ropp_0. reflexivity.
Qed.

Lemma darboux_shape_accepts : exists fx x L d, length fx <> length x /\ darboux (Values fx) x = Ok (L, d) /\
  L = 3 /\ d = 3.
Proof.
  exists [1; 2], [0; 1; 2; 3]. unfold darboux, broadcast_mul, differences, roll1; simpl.
  do 2 eexists. split; [discriminate|]. split; [reflexivity|]. minmax. split. ring.
  match goal with |- Rabs ?a = _ => replace a with 3 by ring end. apply Rabs_pos_eq; lra.
Qed.

Lemma darboux_constant_cs : exists v x, (forall E, In E x -> exists r, call v E = Ok r) /\
  darboux (of_value v) x = Raise TypeError.
Proof. exists (VSum [VConst 1; VConst 2] [3; 4]), [0; 1; 2]. split; eauto. intros; simpl; eauto. Qed.

Lemma partition_example : exists err,
  quad_partition (fun f r => Ok (box_integral f r, 0)) (fun _ => 1) [0; 5; 2] (LList [(1, 4)]) = Ok (6, err).
Proof.
  assert (B : forall a b c d, box_integral (fun _ => 1) [(a, b); (c, d)] = (b - a) * (d - c)).
  { intros. transitivity (RInt (fun _ => RInt (fun _ => 1) a b) c d). reflexivity.
    rewrite !RInt_const_R. ring. }
  destruct (partition_exact (fun f r => Ok (box_integral f r, 0)) (fun _ => 1) [0; 5; 2] (LList [(1, 4)]) [(1, 4)])
    as [err H]. discriminate. reflexivity.
  { intros [a b] _. split.
    - unfold box_integrable. simpl. split. apply ex_RInt_const. intros; split; auto. apply ex_RInt_const.
    - eexists; reflexivity. }
  exists err. rewrite H, B. unfold first, final; simpl. do 2 f_equal. ring.
Qed.

Lemma partition_error nquad f x0 rest ranges parts :
  or_empty rest = Ok ranges ->
  Forall2 (fun c p => nquad f (c :: ranges) = Ok p) (cells x0) parts ->
  exists v err, quad_partition nquad f x0 rest = Ok (v, err) /\
    v = Rsum (map fst parts) /\
    err ^ 2 = Rsum (map (fun p => snd p ^ 2) parts) /\
    (forall p, In p parts -> Rabs (snd p) <= err) /\ 0 <= err <= Rsum (map (fun p => Rabs (snd p)) parts).
Proof.
  intros R H. rewrite (quad_partition_parts nquad f x0 rest ranges parts R H).
  do 2 eexists. split; [reflexivity|]. split; [reflexivity|].
  replace (map (fun p => snd p * snd p) parts) with (map (fun e => e * e) (map snd parts)) by now rewrite map_map.
  split; [|split; [|split]].
  - rewrite pow2_sqrt by apply Rsum_sq_nonneg. f_equal. rewrite map_map. apply map_ext. intros; ring.
  - intros p Hp. apply sqrt_sum_ge. now apply in_map.
  - apply sqrt_pos.
  - rewrite <- (map_map snd Rabs). apply sqrt_sum_le.
Qed.

Lemma partition_array nquad f x0 l : l <> [] ->
  quad_partition nquad f x0 (LArray l) = Raise ValueError.
Proof. destruct l; intros; [congruence|]. reflexivity. Qed.
