(** Rounded Darboux sums of a line with a single maximum. *)
From Coq Require Import Reals List ZArith Lra Lia Psatz Sorted.
From Coquelicot Require Import Coquelicot.
From Flocq Require Import Core.
From Verif Require Import Py Spec M_Num M_Grid M_CrossSection S_CrossSection M_Constituents M_Dist M_Darboux M_Resonance S_Resonance M_Float S_Float M_Float4 M_Float6 S_Float6 S_Float12
  L_CrossSection L_Grid L_CrossSection2 L_RInt L_Darboux L_Dist L_Resonance L_Resonance5 L_Float L_Float2 L_Float3 L_Float4 L_Float20.
Import ListNotations.
Open Scope R_scope.
Open Scope list_scope.

Lemma upper_unimodal m f k x : unimodal m f -> (forall y, 0 <= f y) -> 0 <= k -> x <> [] -> ascending x -> ex_RInt f (first x) (final x) ->
  (forall a b, In (a, b) (cells x) -> a <= m <= b -> f m <= (1 + k) * Rmax (f a) (f b)) ->
  RInt f (first x) (final x) <= (1 + k) * upper f x.
Proof.
  intros U P K. induction x as [|a x IH]; intros N A E C; [congruence|]. destruct x as [|b x].
  - unfold upper, first, final; simpl. rewrite RInt_point_R. lra.
  - assert (A' : ascending (b :: x)) by (inversion A; auto).
    assert (Hab : a <= b) by (apply (ascending_cells _ a b A); left; auto).
    pose proof (ascending_first_final _ _ A') as Hbf.
    unfold first in *. simpl hd in *. change (final (a :: b :: x)) with (final (b :: x)) in *.
    assert (E1 : ex_RInt f a b) by (apply ex_RInt_left with (final (b :: x)); auto).
    assert (E2 : ex_RInt f b (final (b :: x))) by (apply ex_RInt_right with a; auto).
    rewrite <- (RInt_join f a b (final (b :: x))) by auto.
    assert (Kc : RInt f a b <= (1 + k) * (Rmax (f a) (f b) * (b - a))).
    { rewrite <- Rmult_assoc, <- RInt_const_R. apply RInt_le; [assumption|assumption|apply ex_RInt_const|].
      intros t Ht. assert (M0 : 0 <= Rmax (f a) (f b)) by (eapply Rle_trans; [apply (P a)|apply Rmax_l]).
      assert (M1 : Rmax (f a) (f b) <= (1 + k) * Rmax (f a) (f b)) by nra.
      destruct U as [U V]. destruct (Rle_dec b m) as [H1|H1].
      - apply Rle_trans with (Rmax (f a) (f b)); [|exact M1]. eapply Rle_trans; [|apply Rmax_r]. apply U; lra.
      - destruct (Rle_dec m a) as [H2|H2].
        + apply Rle_trans with (Rmax (f a) (f b)); [|exact M1]. eapply Rle_trans; [|apply Rmax_l]. apply V; lra.
        + apply Rle_trans with (f m); [|apply C; [left; reflexivity|lra]]. destruct (Rle_dec t m); [apply U; lra|apply V; lra]. }
    assert (C' : forall a' b', In (a', b') (cells (b :: x)) -> a' <= m <= b' -> f m <= (1 + k) * Rmax (f a') (f b')).
    { intros a' b' I. apply C. rewrite cells_cons. now right. }
    specialize (IH ltac:(discriminate) A' E2 C').
    unfold upper in *. rewrite cells_cons. simpl map. unfold Rsum in *. simpl. lra.
Qed.
(** No point lies inside a cell. *)
Lemma point_outside x a b y : ascending x -> In (a, b) (cells x) -> In y x -> y <= a \/ b <= y.
Proof.
  induction x as [|c x IH]; intros A C I; [destruct I|]. destruct x as [|e x]; [destruct C|].
  rewrite cells_cons in C. inversion A as [|? ? A' F]; subst. rewrite List.Forall_forall in F.
  destruct C as [C|C].
  - injection C as -> ->. destruct I as [->|I]; [left; lra|right]. destruct I as [->|I]; [lra|]. inversion A' as [|? ? _ F']; subst. rewrite List.Forall_forall in F'. now apply F'.
  - destruct I as [<-|I]; [|now apply (IH A' C I)]. left. apply F. unfold cells in C. now apply in_combine_l in C.
Qed.
Lemma near_maximum m f k x y : unimodal m f -> (forall z, 0 <= f z) -> 0 <= k -> ascending x -> In y x -> f m <= (1 + k) * f y ->
  forall a b, In (a, b) (cells x) -> a <= m <= b -> f m <= (1 + k) * Rmax (f a) (f b).
Proof.
  intros [U V] P K A Y H a b C M. eapply Rle_trans; [exact H|]. apply Rmult_le_compat_l; [lra|]. destruct (point_outside x a b y A C Y) as [L|L].
  - eapply Rle_trans; [|apply Rmax_l]. apply U; lra.
  - eapply Rle_trans; [|apply Rmax_r]. apply V; lra.
Qed.
Lemma Rmin_rel a b A B d : 0 <= A -> 0 <= B -> 0 <= d <= 1 -> Rabs (a - A) <= d * A -> Rabs (b - B) <= d * B -> Rabs (Rmin a b - Rmin A B) <= d * Rmin A B.
Proof.
  intros PA PB Hd H1 H2. apply Rabs_le_inv in H1. apply Rabs_le_inv in H2. apply Rabs_le. unfold Rmin. destruct Rle_dec, Rle_dec; nra.
Qed.
Lemma Rmax_rel a b A B d : 0 <= A -> 0 <= B -> 0 <= d <= 1 -> Rabs (a - A) <= d * A -> Rabs (b - B) <= d * B -> Rabs (Rmax a b - Rmax A B) <= d * Rmax A B.
Proof.
  intros PA PB Hd H1 H2. apply Rabs_le_inv in H1. apply Rabs_le_inv in H2. apply Rabs_le. unfold Rmax. destruct Rle_dec, Rle_dec; nra.
Qed.
Lemma loss_split h n delta W : rounding_bound h n delta W = relative_loss h delta * W + absolute_loss h n.
Proof. reflexivity. Qed.

Lemma fdarboux_unimodal t m f g x delta k y L d : grid x -> x <> [] -> order_of (List.length x - 1) t ->
  0 <= delta <= 1 -> (forall z, In z x -> Rabs (g z - f z) <= delta * f z) -> unimodal m f -> (forall z, 0 <= f z) -> ex_RInt f (first x) (final x) ->
  0 <= k -> In y x -> f m <= (1 + k) * f y -> fdarboux t (map g x) x = (L, d) ->
  let e := relative_loss (depth_of t) delta in let a := absolute_loss (depth_of t) (List.length x - 1) in
  L <= (1 + e) * RInt f (first x) (final x) + a /\
  (1 - e) * RInt f (first x) (final x) <= (1 + k) * (L + (1 + 2 * unit_roundoff) * d + a).
Proof.
  intros G N O Hd Hg M P E K Y HY H e al. assert (Lg : List.length (map g x) = List.length x) by apply map_length.
  destruct (fdarboux_sums t (map g x) x G Lg O) as (L' & U & E1 & HLU & DL & DU & EL & EU). rewrite E1 in H. injection H as <- <-.
  pose proof (unimodal_lower m f x M N (proj1 G) E) as I1.
  pose proof (upper_unimodal m f k x M P K N (proj1 G) E (near_maximum m f k x y M P K (proj1 G) Y HY)) as I2.
  assert (C : combine (cells (map g x)) (cells x) = map (fun p => ((g (fst p), g (snd p)), p)) (cells x)).
  { rewrite cells_map. clear. induction (cells x); cbn; auto. now rewrite IHl. }
  rewrite C, map_map in EL, EU.
  assert (In_cell : forall p, In p (cells x) -> In (fst p) x /\ In (snd p) x).
  { intros [p q] I. unfold cells in I. split; cbn; [now apply in_combine_l in I|]. apply in_combine_r in I. destruct x; [destruct I|]. now right. }
  assert (Gc : forall p, In p (cells x) -> double (fst p) /\ double (snd p) /\ fst p <= snd p).
  { intros [p q] I. destruct G as [A D]. destruct (cells_double x _ D I). split; [auto|]. split; [auto|]. now apply (ascending_cells x). }
  assert (X : forall mm : R -> R -> R, (forall a b, 0 <= a -> 0 <= b -> 0 <= mm a b) ->
    (forall a b A B d, 0 <= A -> 0 <= B -> 0 <= d <= 1 -> Rabs (a - A) <= d * A -> Rabs (b - B) <= d * B -> Rabs (mm a b - mm A B) <= d * mm A B) ->
    let S := Rsum (map (fun p => mm (f (fst p)) (f (snd p)) * (snd p - fst p)) (cells x)) in
    Rabs (np_sum t (map (fun p => fterm mm (g (fst p), g (snd p), p)) (cells x)) - S) <= e * S + al).
  { intros mm M0 M1 S. unfold al. rewrite <- (cells_length x) in O |- *. unfold e. rewrite <- loss_split, rounding_bound_eq. unfold S.
    apply (weighted_np t (fun p => fterm mm (g (fst p), g (snd p), p)) (fun p => mm (f (fst p)) (f (snd p)) * (snd p - fst p)) (fun p => mm (f (fst p)) (f (snd p)) * (snd p - fst p))); [exact O|intros; apply rnd_double| |].
    - intros p I. destruct (In_cell p I) as [J1 J2]. destruct (Gc p I) as (D1 & D2 & Oo). unfold fterm. cbn [fst snd]. apply term_error; [exact D1|exact D2|exact Oo|exact (proj1 Hd)| |].
      + rewrite Rabs_pos_eq; [apply Rle_refl|]. apply M0; apply P.
      + apply M1; auto.
    - intros p I. destruct (Gc p I) as (D1 & D2 & Oo). rewrite Rabs_pos_eq; [lra|]. apply Rmult_le_pos; [now apply M0|lra]. }
  assert (BL : Rabs (L' - lower f x) <= e * lower f x + al).
  { rewrite EL. apply (X Rmin); [intros; now apply Rmin_glb|apply Rmin_rel]. }
  assert (BU : Rabs (U - upper f x) <= e * upper f x + al).
  { rewrite EU. apply (X Rmax); [intros; eapply Rle_trans; [|apply Rmax_l]; assumption|apply Rmax_rel]. }
  apply Rabs_le_inv in BL. apply Rabs_le_inv in BU.
  assert (Ee : 0 <= e). { unfold e, relative_loss. change unit_roundoff with u. pose proof (pow_ge_1 (depth_of t + 2)) as P1. nra. }
  assert (Ea : 0 <= al). { pose proof (rounding_bound_nonneg (depth_of t) (List.length x - 1) delta 0 (proj1 Hd) (Rle_refl 0)) as Z. rewrite loss_split in Z. fold al in Z. lra. }
  assert (Kd : U - L' <= (1 + 2 * u) * fsub U L').
  { destruct (fsub_error U L' DU DL) as (e1 & He & ->). pose proof u_pos. pose proof u_small. assert (u <= / 4) by (eapply Rle_trans; [eassumption|]; apply Rinv_le_contravar; [lra|simpl; lra]).
    apply Rabs_le_inv in He. assert (1 <= (1 + 2 * u) * (1 + e1)) by nra. nra. }
  change unit_roundoff with u. set (J := RInt f (first x) (final x)) in *. split; [nra|].
  assert (U0 : 0 <= upper f x).
  { assert (HJ : 0 <= J). { unfold J. apply RInt_ge_0; [|exact E|intros; apply P]. destruct x as [|z x']; [congruence|]. apply (ascending_first_final z x' (proj1 G)). } nra. }
  destruct (Rle_dec 1 e) as [He|He].
  - assert (HJ : 0 <= J). { unfold J. apply RInt_ge_0; [|exact E|intros; apply P]. destruct x as [|z x']; [congruence|]. apply (ascending_first_final z x' (proj1 G)). }
    apply Rle_trans with 0; [nra|]. apply Rmult_le_pos; [lra|]. assert (0 <= U). { rewrite EU. apply np_sum_nonneg. apply List.Forall_forall. intros z I. apply in_map_iff in I. destruct I as (p & <- & I). destruct (Gc p I) as (D1 & D2 & Oo). destruct (In_cell p I) as [J1 J2].
      apply rnd_nonneg. cbn [fst snd]. apply Rmult_le_pos; [|now apply fsub_nonneg]. pose proof (Hg _ J1) as Z1. apply Rabs_le_inv in Z1. pose proof (P (fst p)). eapply Rle_trans; [|apply Rmax_l]. nra. } lra.
  - apply Rle_trans with ((1 - e) * ((1 + k) * upper f x)); [apply Rmult_le_compat_l; lra|]. replace ((1 - e) * ((1 + k) * upper f x)) with ((1 + k) * ((1 - e) * upper f x)) by ring.
    apply Rmult_le_compat_l; [lra|]. lra.
Qed.

(** Points near the maximum, by probability. *)
Lemma F0_half f : F0 f 0 = 1 / 2.
Proof. unfold F0. destruct f; cbn [line_cdf]; [apply cauchy_median|apply norm_median]. Qed.
Lemma pdf0_one f c : Rabs c <= 1 -> / 7 <= pdf0 f c.
Proof.
  intros H. pose proof PI_3 as P3. pose proof PI_4 as P4. assert (C : c ^ 2 <= 1) by (apply Rabs_le_inv in H; nra). destruct f; cbn [pdf0].
  - assert (P5 : PI <= 7 / 2) by (pose proof PI_ineq 1 as Z; unfold tg_alt, PI_tg in Z; cbn in Z; lra). apply Rinv_le_contravar; [apply Rmult_lt_0_compat; nra|]. nra.
  - unfold gauss0. assert (E : / 2 <= exp (- c ^ 2 / 2)). { pose proof (exp_ineq1_le (- c ^ 2 / 2)). lra. }
    assert (S : sqrt (2 * PI) <= 3). { replace 3 with (sqrt (3 * 3)) by (apply sqrt_square; lra). apply sqrt_le_1_alt. lra. }
    assert (S0 : 0 < sqrt (2 * PI)) by (apply sqrt_lt_R0; lra). apply Rle_trans with (/ 2 * / 3); [lra|]. unfold Rdiv. apply Rmult_le_compat; [lra|lra|exact E|now apply Rinv_le_contravar].
Qed.
Lemma F0_near f t e : Rabs (F0 f t - 1 / 2) <= e -> 7 * e < 1 -> Rabs t <= 7 * e.
Proof.
  intros H He. rewrite <- (F0_half f) in H. assert (T : Rabs t <= 1).
  { destruct (Rle_dec (Rabs t) 1) as [|Z]; [assumption|exfalso]. pose proof (dens_le _ _ (F0_density f)) as Mo. pose proof (F0_mvt f 0 1) as (c & B & E1). pose proof (F0_mvt f (-1) 0) as (c' & B' & E2).
    rewrite Rmin_left, Rmax_right in B by lra. rewrite Rmin_left, Rmax_right in B' by lra.
    pose proof (pdf0_one f c ltac:(apply Rabs_le; lra)). pose proof (pdf0_one f c' ltac:(apply Rabs_le; lra)). apply Rabs_le_inv in H.
    unfold Rabs in Z. destruct (Rcase_abs t); [pose proof (Mo t (-1) ltac:(lra))|pose proof (Mo 1 t ltac:(lra))]; lra. }
  destruct (F0_mvt f 0 t) as (c & B & E). rewrite E, Rminus_0_r, Rabs_mult in H. assert (Cc : Rabs c <= 1).
  { apply Rabs_le_inv in T. apply Rabs_le. unfold Rmin, Rmax in B. destruct (Rle_dec 0 t); lra. }
  pose proof (pdf0_one f c Cc). rewrite (Rabs_pos_eq (pdf0 f c)) in H by lra. pose proof (Rabs_pos t). nra.
Qed.
Lemma exp_double z : 0 <= z <= / 2 -> exp z <= 1 + 2 * z.
Proof.
  intros H. pose proof (exp_ineq1_le (- z)) as E. rewrite exp_Ropp in E. pose proof (exp_pos z). assert (exp z * (1 - z) <= 1).
  { replace 1 with (exp z * / exp z) at 2 by (field; lra). apply Rmult_le_compat_l; lra. } nra.
Qed.
Lemma pdf0_near f t e : Rabs (F0 f t - 1 / 2) <= e -> 7 * e < 1 -> pdf0 f 0 <= (1 + 49 * e ^ 2) * pdf0 f t.
Proof.
  intros H He. pose proof (F0_near f t e H He) as T. assert (T2 : t ^ 2 <= 49 * e ^ 2) by (apply Rabs_le_inv in T; pose proof (Rabs_pos (F0 f t - 1 / 2)); nra).
  assert (P : 0 < pdf0 f t) by apply (dens_pos _ _ (F0_density f)). apply Rle_trans with ((1 + t ^ 2) * pdf0 f t); [|apply Rmult_le_compat_r; lra].
  pose proof PI_3. destruct f; cbn [pdf0].
  - right. field. split; [|lra]. pose proof (pow2_ge_0 t). nra.
  - unfold gauss0. unfold Rdiv at 1 3. rewrite <- Rmult_assoc. apply Rmult_le_compat_r; [left; apply Rinv_0_lt_compat, sqrt_lt_R0; lra|].
    replace (- 0 ^ 2 / 2) with 0 by field. rewrite exp_0. assert (Z : exp (t ^ 2 / 2) <= 1 + 2 * (t ^ 2 / 2)). { apply exp_double. pose proof (pow2_ge_0 t). pose proof (Rabs_pos (F0 Normal t - 1 / 2)). nra. }
    replace (- t ^ 2 / 2) with (- (t ^ 2 / 2)) by field. rewrite exp_Ropp. pose proof (exp_pos (t ^ 2 / 2)). apply (Rmult_le_reg_r (exp (t ^ 2 / 2))); [assumption|]. rewrite Rmult_assoc, Rinv_l by lra. lra.
Qed.
