(** Rounding: Darboux sums. *)
From Coq Require Import Reals List ZArith Lra Lia Psatz Permutation Sorted.
From Coquelicot Require Import Coquelicot.
From Flocq Require Import Core.
From Verif Require Import Py Spec M_Num M_Grid M_CrossSection S_CrossSection M_Constituents M_Darboux M_Float S_Float
  L_CrossSection L_Grid L_CrossSection2 L_RInt L_Darboux L_Float L_Float2 L_Float3.
Import ListNotations.
Open Scope R_scope.
Open Scope list_scope.

(** ** Orders exist *)
Lemma order_between k : forall a n, (0 < n <= 2 ^ k)%nat -> exists t, indices t = seq a n /\ (height t <= k)%nat.
Proof.
  induction k as [|k IH]; intros a n [H0 H].
  - exists (Index a). cbn in *. replace n with 1%nat by lia. cbn. auto.
  - destruct (Nat.le_gt_cases n (2 ^ k)) as [L|G].
    + destruct (IH a n) as (t & I1 & I2); [lia|]. exists t. split; [exact I1|lia].
    + cbn in H. pose proof (Nat.pow_nonzero 2 k). destruct (IH a (2 ^ k)%nat) as (t & I1 & I2); [lia|]. destruct (IH (a + 2 ^ k)%nat (n - 2 ^ k)%nat) as (t' & J1 & J2); [lia|].
      exists (Plus t t'). cbn. rewrite I1, J1, <- seq_app. split; [f_equal; lia|]. apply le_n_S. now apply Nat.max_lub.
Qed.
Lemma order_exists n : exists t, order_of n t /\ (depth_of t <= Nat.log2_up n)%nat.
Proof.
  destruct n as [|n]; [exists None; split; [reflexivity|cbn; lia]|]. destruct (order_between (Nat.log2_up (S n)) 0 (S n)) as (t & I1 & I2).
  - split; [lia|]. destruct (Nat.eq_dec n 0) as [->|N]; [cbn; lia|]. apply Nat.log2_up_spec. lia.
  - exists (Some t). split; [cbn; rewrite I1; apply Permutation_refl|exact I2].
Qed.

(** ** The sums as functions of the cells *)
Lemma fdifferences_cells x : fdifferences x = map (fun p => fsub (snd p) (fst p)) (cells x).
Proof.
  destruct x as [|a r]; auto. unfold fdifferences, roll1, cells. change (tl (a :: r)) with r.
  cbn [map2 tl]. apply (map2_removelast fsub).
Qed.
Definition fterm (m : R -> R -> R) (c : (R * R) * (R * R)) : R := fmul (m (fst (fst c)) (snd (fst c))) (fsub (snd (snd c)) (fst (snd c))).
Definition eterm (m : R -> R -> R) (c : (R * R) * (R * R)) : R := m (fst (fst c)) (snd (fst c)) * (snd (snd c) - fst (snd c)).
Lemma map2_combine {A B C} (f : A -> B -> C) l m : map2 f l m = map (fun c => f (fst c) (snd c)) (combine l m).
Proof. revert m. induction l; intros [|b m]; cbn; auto. now rewrite IHl. Qed.
Lemma fdarboux_cells t fx x : fdarboux t fx x =
  let L := np_sum t (map (fterm Rmin) (combine (cells fx) (cells x))) in
  let U := np_sum t (map (fterm Rmax) (combine (cells fx) (cells x))) in (L, Rabs (fsub U L)).
Proof.
  unfold fdarboux. rewrite fdifferences_cells, !pairs_cells, !map2_map_l, !map2_map_r, !map2_combine. reflexivity.
Qed.
Lemma darboux_cells fx x : List.length fx = List.length x -> x <> [] -> darboux (Values fx) x =
  let L := Rsum (map (eterm Rmin) (combine (cells fx) (cells x))) in
  let U := Rsum (map (eterm Rmax) (combine (cells fx) (cells x))) in Ok (L, Rabs (U - L)).
Proof. intros E N. rewrite darboux_values by assumption. rewrite !map2_combine. reflexivity. Qed.
Lemma cells_double x p : List.Forall double x -> In p (cells x) -> double (fst p) /\ double (snd p).
Proof.
  intros F I. rewrite List.Forall_forall in F. destruct p as [a b]. unfold cells in I. split; apply F; cbn.
  - now apply in_combine_l in I.
  - apply in_combine_r in I. destruct x; [destruct I|]. now right.
Qed.
Lemma grid_cell x (fc : list (R * R)) c : grid x -> In c (combine fc (cells x)) ->
  fst (snd c) <= snd (snd c) /\ double (fst (snd c)) /\ double (snd (snd c)).
Proof.
  intros [A D] I. destruct c as [p q]. apply in_combine_r in I. cbn. destruct (cells_double _ _ D I). split; [|auto]. destruct q. now apply (ascending_cells x).
Qed.
Lemma fsub_nonneg a b : a <= b -> 0 <= fsub b a.
Proof. intros. apply rnd_nonneg. lra. Qed.
Lemma Forall2_maps {A B C} (P : B -> C -> Prop) (f : A -> B) (g : A -> C) l : (forall a, In a l -> P (f a) (g a)) -> List.Forall2 P (map f l) (map g l).
Proof. induction l; cbn; constructor; auto. Qed.
Lemma combine_cells_length (fx x : list R) : List.length fx = List.length x -> List.length (combine (cells fx) (cells x)) = (List.length x - 1)%nat.
Proof. intros E. rewrite combine_length, !cells_length, E. apply Nat.min_id. Qed.

(** ** Order *)
Lemma fdarboux_order t fx x : grid x -> List.length fx = List.length x -> order_of (List.length x - 1) t ->
  np_sum t (map (fterm Rmin) (combine (cells fx) (cells x))) <= np_sum t (map (fterm Rmax) (combine (cells fx) (cells x))).
Proof.
  intros G E O. apply np_sum_le; [now rewrite !map_length|rewrite map_length, combine_cells_length by exact E; exact O|].
  apply Forall2_maps. intros c I. apply (grid_cell x) in I; [|exact G]. destruct I as (I & _). apply rnd_le. apply Rmult_le_compat_r; [now apply fsub_nonneg|].
  eapply Rle_trans; [apply Rmin_l|apply Rmax_l].
Qed.
Lemma fdarboux_sums t fx x : grid x -> List.length fx = List.length x -> order_of (List.length x - 1) t -> exists L U,
  fdarboux t fx x = (L, fsub U L) /\ L <= U /\ double L /\ double U /\
  L = np_sum t (map (fterm Rmin) (combine (cells fx) (cells x))) /\ U = np_sum t (map (fterm Rmax) (combine (cells fx) (cells x))).
Proof.
  intros G E O. pose proof (fdarboux_order t fx x G E O) as H. rewrite fdarboux_cells. cbv zeta. do 2 eexists.
  split; [|split; [exact H|split; [|split; [|split; reflexivity]]]].
  - f_equal. apply Rabs_pos_eq. now apply fsub_nonneg.
  - apply np_sum_double; [rewrite map_length, combine_cells_length by exact E; exact O|]. apply List.Forall_forall. intros y I. apply in_map_iff in I. destruct I as (c & <- & _). apply rnd_double.
  - apply np_sum_double; [rewrite map_length, combine_cells_length by exact E; exact O|]. apply List.Forall_forall. intros y I. apply in_map_iff in I. destruct I as (c & <- & _). apply rnd_double.
Qed.
(** Larger values give a larger integral, also with rounding. *)
Lemma Forall2_cells l m : List.Forall2 Rle l m -> List.Forall2 (fun p q => fst p <= fst q /\ snd p <= snd q) (cells l) (cells m).
Proof.
  intros F. induction F as [|a b l m H F IH]; [constructor|]. destruct F as [|c d l m K F]; [constructor|]. rewrite !cells_cons. constructor; [cbn; auto|]. exact IH.
Qed.
Lemma fdarboux_monotone t fx gx x : grid x -> List.length fx = List.length x -> order_of (List.length x - 1) t ->
  List.Forall2 Rle fx gx -> fst (fdarboux t fx x) <= fst (fdarboux t gx x).
Proof.
  intros G E O F. assert (E' : List.length gx = List.length x) by (rewrite <- E; symmetry; eapply Forall2_length; exact F).
  rewrite !fdarboux_cells. cbn [fst]. apply np_sum_le; [rewrite !map_length, !combine_cells_length; auto|rewrite map_length, combine_cells_length by exact E; exact O|].
  apply Forall2_cells in F. destruct G as [A D].
  assert (X : forall p, In p (cells x) -> fst p <= snd p) by (intros [a b] I; now apply (ascending_cells x)).
  clear E E' O A D. revert X. generalize (cells x) as c. induction F as [|p q l m [H1 H2] F IH]; intros [|[a b] c] X; cbn [combine map]; constructor.
  - unfold fterm. cbn. apply rnd_le. apply Rmult_le_compat_r; [apply fsub_nonneg; apply (X (a, b)); now left|].
    apply Rmin_glb; [eapply Rle_trans; [apply Rmin_l|exact H1]|eapply Rle_trans; [apply Rmin_r|exact H2]].
  - apply IH. intros. apply X. now right.
Qed.
Lemma fdarboux_nonneg t fx x : grid x -> List.Forall (Rle 0) fx -> 0 <= fst (fdarboux t fx x).
Proof.
  intros G F. rewrite fdarboux_cells. cbn [fst]. apply np_sum_nonneg. apply List.Forall_forall. intros y I. apply in_map_iff in I. destruct I as ([p q] & <- & I).
  destruct (grid_cell x _ _ G I) as (H & _). apply in_combine_l in I. unfold fterm. cbn in *. apply rnd_nonneg. apply Rmult_le_pos; [|now apply fsub_nonneg].
  rewrite List.Forall_forall in F. unfold cells in I. destruct p as [a b]. cbn. apply Rmin_glb; apply F; [now apply in_combine_l in I|]. apply in_combine_r in I. destruct fx; [destruct I|]. now right.
Qed.
(** A constant has no uncertainty. *)
Lemma fdarboux_constant t c x : snd (fdarboux t (map (fun _ => c) x) x) = 0.
Proof.
  rewrite fdarboux_cells. cbn [snd]. match goal with |- Rabs (fsub ?a ?b) = _ => replace a with b end.
  - unfold fsub. rewrite Rminus_diag_eq by reflexivity. rewrite rnd_0. apply Rabs_R0.
  - f_equal. apply map_ext_in. intros [p q] I. apply in_combine_l in I. rewrite cells_map in I. apply in_map_iff in I. destruct I as (r & <- & _).
    unfold fterm. cbn. now rewrite Rmin_left, Rmax_left by lra.
Qed.

(** ** Errors *)
Lemma weighted {A} (p P W : A -> R) a b (l : list A) :
  (forall c, In c l -> Rabs (p c - P c) <= a * W c + b) -> (forall c, In c l -> Rabs (P c) <= W c) ->
  Rabs (Rsum (map p l) - Rsum (map P l)) <= a * Rsum (map W l) + INR (List.length l) * b /\
  Rabs_sum (map p l) <= (1 + a) * Rsum (map W l) + INR (List.length l) * b.
Proof.
  unfold Rabs_sum. induction l as [|c l IH]; intros H1 H2.
  - change (Rabs (0 - 0) <= a * 0 + 0 * b /\ 0 <= (1 + a) * 0 + 0 * b). replace (0 - 0) with 0 by ring. rewrite Rabs_R0. lra.
  - destruct IH as [I1 I2]; [intros; apply H1; now right|intros; apply H2; now right|]. cbn [map]. rewrite !Rsum_cons'. cbn [List.length]. rewrite S_INR.
    pose proof (H1 c (or_introl eq_refl)) as K1. pose proof (H2 c (or_introl eq_refl)) as K2. split.
    + replace (p c + Rsum (map p l) - (P c + Rsum (map P l))) with ((p c - P c) + (Rsum (map p l) - Rsum (map P l))) by ring.
      eapply Rle_trans; [apply Rabs_triang|]. lra.
    + assert (Rabs (p c) <= Rabs (P c) + Rabs (p c - P c)) by (replace (p c) with (P c + (p c - P c)) at 1 by ring; apply Rabs_triang). lra.
Qed.
Lemma weighted_np {A} t (p P W : A -> R) a b (l : list A) : order_of (List.length l) t -> (forall c, In c l -> double (p c)) ->
  (forall c, In c l -> Rabs (p c - P c) <= a * W c + b) -> (forall c, In c l -> Rabs (P c) <= W c) ->
  Rabs (np_sum t (map p l) - Rsum (map P l)) <= ((1 + u) ^ depth_of t * (1 + a) - 1) * Rsum (map W l) + INR (List.length l) * ((1 + u) ^ depth_of t * b).
Proof.
  intros O D H1 H2. destruct (weighted p P W a b l H1 H2) as [I1 I2].
  assert (S : Rabs (np_sum t (map p l) - Rsum (map p l)) <= ((1 + u) ^ depth_of t - 1) * Rabs_sum (map p l)).
  { apply np_sum_error; [rewrite map_length; exact O|]. apply List.Forall_forall. intros y I. apply in_map_iff in I. destruct I as (c & <- & I). auto. }
  replace (np_sum t (map p l) - Rsum (map P l)) with ((np_sum t (map p l) - Rsum (map p l)) + (Rsum (map p l) - Rsum (map P l))) by ring.
  eapply Rle_trans; [apply Rabs_triang|]. pose proof (pow_ge_1 (depth_of t)) as P1.
  assert (((1 + u) ^ depth_of t - 1) * Rabs_sum (map p l) <= ((1 + u) ^ depth_of t - 1) * ((1 + a) * Rsum (map W l) + INR (List.length l) * b)) by (apply Rmult_le_compat_l; lra).
  lra.
Qed.
(** One product: [v] stands for [V] with an error relative to [M]. *)
Lemma term_error v V M a b delta : double a -> double b -> a <= b -> 0 <= delta -> Rabs V <= M -> Rabs (v - V) <= delta * M ->
  Rabs (fmul v (fsub b a) - V * (b - a)) <= ((1 + u) ^ 2 * (1 + delta) - 1) * (M * (b - a)) + eta.
Proof.
  intros Da Db H Hd HV Hv. destruct (fsub_error b a Db Da) as (e & He & E). rewrite E. unfold fmul.
  destruct (rnd_error (v * ((b - a) * (1 + e)))) as (e2 & h & He2 & Hh & ->). pose proof u_pos as U.
  assert (HM : 0 <= M) by (pose proof (Rabs_pos V); lra).
  replace (v * ((b - a) * (1 + e)) * (1 + e2) + h - V * (b - a)) with
    ((b - a) * ((v - V) * ((1 + e) * (1 + e2)) + V * ((1 + e) * (1 + e2) - 1)) + h) by ring.
  eapply Rle_trans; [apply Rabs_triang|]. apply Rplus_le_compat; [|exact Hh]. rewrite Rabs_mult, (Rabs_pos_eq (b - a)) by lra.
  replace (((1 + u) ^ 2 * (1 + delta) - 1) * (M * (b - a))) with ((b - a) * (delta * M * ((1 + u) * (1 + u)) + M * ((1 + u) * (1 + u) - 1))) by ring.
  apply Rmult_le_compat_l; [lra|]. eapply Rle_trans; [apply Rabs_triang|]. rewrite !Rabs_mult.
  assert (K : Rabs ((1 + e) * (1 + e2) - 1) <= (1 + u) * (1 + u) - 1).
  { replace ((1 + e) * (1 + e2) - 1) with (e + (e2 + e * e2)) by ring. eapply Rle_trans; [apply Rabs_triang|].
    assert (Rabs (e2 + e * e2) <= u + u * u) by (eapply Rle_trans; [apply Rabs_triang|]; rewrite Rabs_mult; pose proof (Rabs_pos e); pose proof (Rabs_pos e2); nra). lra. }
  assert (K2 : Rabs (1 + e) * Rabs (1 + e2) <= (1 + u) * (1 + u)).
  { rewrite <- Rabs_mult. replace ((1 + e) * (1 + e2)) with (1 + ((1 + e) * (1 + e2) - 1)) by ring. eapply Rle_trans; [apply Rabs_triang|]. rewrite Rabs_R1. lra. }
  apply Rplus_le_compat.
  - apply Rmult_le_compat; [apply Rabs_pos|apply Rmult_le_pos; apply Rabs_pos|exact Hv|exact K2].
  - apply Rmult_le_compat; [apply Rabs_pos|apply Rabs_pos|exact HV|exact K].
Qed.
Lemma Rmin_abs a b : Rabs (Rmin a b) <= Rmax (Rabs a) (Rabs b).
Proof. unfold Rmin. destruct Rle_dec; [apply Rmax_l|apply Rmax_r]. Qed.
Lemma Rmax_abs a b : Rabs (Rmax a b) <= Rmax (Rabs a) (Rabs b).
Proof. unfold Rmax at 1. destruct Rle_dec; [apply Rmax_r|apply Rmax_l]. Qed.
Lemma Rmin_close a b A B d : Rabs (a - A) <= d * Rabs A -> Rabs (b - B) <= d * Rabs B -> 0 <= d -> Rabs (Rmin a b - Rmin A B) <= d * Rmax (Rabs A) (Rabs B).
Proof.
  intros H1 H2 Hd. assert (K1 : Rabs (a - A) <= d * Rmax (Rabs A) (Rabs B)) by (eapply Rle_trans; [exact H1|apply Rmult_le_compat_l; [exact Hd|apply Rmax_l]]).
  assert (K2 : Rabs (b - B) <= d * Rmax (Rabs A) (Rabs B)) by (eapply Rle_trans; [exact H2|apply Rmult_le_compat_l; [exact Hd|apply Rmax_r]]).
  generalize dependent (d * Rmax (Rabs A) (Rabs B)). intros D K1 K2. apply Rabs_le_inv in K1. apply Rabs_le_inv in K2. apply Rabs_le. unfold Rmin. destruct Rle_dec, Rle_dec; lra.
Qed.
Lemma Rmax_close a b A B d : Rabs (a - A) <= d * Rabs A -> Rabs (b - B) <= d * Rabs B -> 0 <= d -> Rabs (Rmax a b - Rmax A B) <= d * Rmax (Rabs A) (Rabs B).
Proof.
  intros H1 H2 Hd. assert (K1 : Rabs (a - A) <= d * Rmax (Rabs A) (Rabs B)) by (eapply Rle_trans; [exact H1|apply Rmult_le_compat_l; [exact Hd|apply Rmax_l]]).
  assert (K2 : Rabs (b - B) <= d * Rmax (Rabs A) (Rabs B)) by (eapply Rle_trans; [exact H2|apply Rmult_le_compat_l; [exact Hd|apply Rmax_r]]).
  generalize dependent (d * Rmax (Rabs A) (Rabs B)). intros D K1 K2. apply Rabs_le_inv in K1. apply Rabs_le_inv in K2. apply Rabs_le. unfold Rmax. destruct Rle_dec, Rle_dec; lra.
Qed.
Lemma rounding_bound_eq t n delta W : rounding_bound (depth_of t) n delta W =
  ((1 + u) ^ depth_of t * (1 + ((1 + u) ^ 2 * (1 + delta) - 1)) - 1) * W + INR n * ((1 + u) ^ depth_of t * eta).
Proof. unfold rounding_bound. rewrite eta_half. change unit_roundoff with u. rewrite pow_add. ring. Qed.
Lemma rounding_bound_nonneg h n delta W : 0 <= delta -> 0 <= W -> 0 <= rounding_bound h n delta W.
Proof.
  intros Hd HW. unfold rounding_bound. change unit_roundoff with u. rewrite <- eta_half. pose proof (pow_ge_1 (h + 2)) as P1. pose proof (pow_ge_1 h) as P2. pose proof eta_pos.
  apply Rplus_le_le_0_compat; [apply Rmult_le_pos; [nra|exact HW]|]. apply Rmult_le_pos; [apply pos_INR|]. apply Rmult_le_pos; lra.
Qed.

Section General.
  Context {A : Type} (l : list A) (v1 v2 V1 V2 a b : A -> R) (delta : R) (t : option order).
  Hypothesis Hd : 0 <= delta.
  Hypothesis Hv : forall c, In c l -> Rabs (v1 c - V1 c) <= delta * Rabs (V1 c) /\ Rabs (v2 c - V2 c) <= delta * Rabs (V2 c).
  Hypothesis Hx : forall c, In c l -> double (a c) /\ double (b c) /\ a c <= b c.
  Hypothesis Ht : order_of (List.length l) t.
  Let W c := Rmax (Rabs (V1 c)) (Rabs (V2 c)) * (b c - a c).
  Lemma general_sum m : (forall x y, Rabs (m x y) <= Rmax (Rabs x) (Rabs y)) ->
    (forall x y X Y d, Rabs (x - X) <= d * Rabs X -> Rabs (y - Y) <= d * Rabs Y -> 0 <= d -> Rabs (m x y - m X Y) <= d * Rmax (Rabs X) (Rabs Y)) ->
    Rabs (np_sum t (map (fun c => fmul (m (v1 c) (v2 c)) (fsub (b c) (a c))) l) - Rsum (map (fun c => m (V1 c) (V2 c) * (b c - a c)) l)) <=
    rounding_bound (depth_of t) (List.length l) delta (Rsum (map W l)).
  Proof.
    intros M1 M2. rewrite rounding_bound_eq.
    apply (weighted_np t (fun c => fmul (m (v1 c) (v2 c)) (fsub (b c) (a c))) (fun c => m (V1 c) (V2 c) * (b c - a c)) W); [exact Ht|intros; apply rnd_double| |].
    - intros c I. destruct (Hv c I) as [E1 E2]. destruct (Hx c I) as (D1 & D2 & O). apply term_error; auto.
    - intros c I. destruct (Hx c I) as (D1 & D2 & O). unfold W. rewrite Rabs_mult, (Rabs_pos_eq (b c - a c)) by lra. apply Rmult_le_compat_r; [lra|apply M1].
  Qed.
End General.

Lemma magnitude_sum_nonneg fx x : ascending x -> 0 <= magnitude_sum fx x.
Proof.
  intros H. unfold magnitude_sum. rewrite map2_combine. replace 0 with (Rsum (map (fun _ => 0) (combine (cells fx) (cells x)))).
  - apply Rsum_le. intros [p [a b]] I. apply in_combine_r in I. apply (ascending_cells _ _ _ H) in I. cbn. apply Rmult_le_pos; [|lra]. eapply Rle_trans; [apply Rabs_pos|apply Rmax_l].
  - induction (combine (cells fx) (cells x)); [reflexivity|]. cbn [map]. rewrite Rsum_cons', IHl. ring.
Qed.
Lemma values_error t fx x : grid x -> List.length fx = List.length x -> x <> [] -> order_of (List.length x - 1) t ->
  exists L U L0 U0, fdarboux t fx x = (L, fsub U L) /\ darboux (Values fx) x = Ok (L0, U0 - L0) /\ L <= U /\ L0 <= U0 /\ double L /\ double U /\
  Rabs (L - L0) <= rounding_bound (depth_of t) (List.length x - 1) 0 (magnitude_sum fx x) /\
  Rabs (U - U0) <= rounding_bound (depth_of t) (List.length x - 1) 0 (magnitude_sum fx x).
Proof.
  intros G E N O. destruct (fdarboux_sums t fx x G E O) as (L & U & E1 & H & DL & DU & EL & EU). exists L, U. do 2 eexists.
  split; [exact E1|]. pose proof (darboux_cells fx x E N) as E0. cbv zeta in E0.
  assert (H0 : Rsum (map (eterm Rmin) (combine (cells fx) (cells x))) <= Rsum (map (eterm Rmax) (combine (cells fx) (cells x)))).
  { apply Rsum_le. intros c I. destruct (grid_cell x _ c G I) as (I1 & _). unfold eterm. apply Rmult_le_compat_r; [lra|]. eapply Rle_trans; [apply Rmin_l|apply Rmax_l]. }
  rewrite Rabs_pos_eq in E0 by lra. split; [exact E0|]. split; [exact H|]. split; [exact H0|]. split; [exact DL|]. split; [exact DU|]. rewrite EL, EU.
  unfold magnitude_sum. rewrite map2_combine. rewrite <- (combine_cells_length fx x E).
  rewrite <- (combine_cells_length fx x E) in O.
  split; apply (general_sum (combine (cells fx) (cells x)) (fun c => fst (fst c)) (fun c => snd (fst c)) (fun c => fst (fst c)) (fun c => snd (fst c)) (fun c => fst (snd c)) (fun c => snd (snd c)) 0 t).
  all: try (apply Rle_refl).
  all: try (intros c I; destruct (grid_cell x _ c G I) as (I1 & I2 & I3); now auto).
  all: try (intros c I; rewrite !Rminus_diag_eq by reflexivity; rewrite Rabs_R0; lra).
  all: try exact O.
  - apply Rmin_abs.
  - apply Rmin_close.
  - apply Rmax_abs.
  - apply Rmax_close.
Qed.
Lemma fdarboux_error t fx x L d L0 d0 : grid x -> List.length fx = List.length x -> x <> [] -> order_of (List.length x - 1) t ->
  fdarboux t fx x = (L, d) -> darboux (Values fx) x = Ok (L0, d0) ->
  let B := rounding_bound (depth_of t) (List.length x - 1) 0 (magnitude_sum fx x) in
  Rabs (L - L0) <= B /\ Rabs (d - d0) <= unit_roundoff * d0 + 2 * (1 + unit_roundoff) * B.
Proof.
  intros G E N O E1 E0. destruct (values_error t fx x G E N O) as (L' & U & L0' & U0 & E1' & E0' & H & H0 & DL & DU & BL & BU).
  rewrite E1 in E1'. injection E1' as -> ->. rewrite E0 in E0'. injection E0' as -> ->. cbv zeta. set (B := rounding_bound _ _ _ _) in *. split; [exact BL|].
  change unit_roundoff with u. destruct (fsub_error U L' DU DL) as (e & He & ->). pose proof u_pos.
  replace ((U - L') * (1 + e) - (U0 - L0')) with (e * (U0 - L0') + (1 + e) * ((U - U0) - (L' - L0'))) by ring.
  eapply Rle_trans; [apply Rabs_triang|]. rewrite !Rabs_mult. rewrite (Rabs_pos_eq (U0 - L0')) by lra.
  assert (Rabs (1 + e) <= 1 + u) by (eapply Rle_trans; [apply Rabs_triang|]; rewrite Rabs_R1; lra).
  assert (Rabs (U - U0 - (L' - L0')) <= 2 * B) by (eapply Rle_trans; [apply Rabs_triang|]; rewrite Rabs_Ropp; lra).
  apply Rplus_le_compat; [apply Rmult_le_compat_r; lra|]. replace (2 * (1 + u) * B) with ((1 + u) * (2 * B)) by ring. apply Rmult_le_compat; auto using Rabs_pos.
Qed.
Lemma fdarboux_encloses t f g x delta L d : grid x -> x <> [] -> order_of (List.length x - 1) t ->
  0 <= delta -> (forall y, In y x -> Rabs (g y - f y) <= delta * Rabs (f y)) ->
  (forall a b, In (a, b) (cells x) -> monotone_on f a b) -> ex_RInt f (first x) (final x) ->
  fdarboux t (map g x) x = (L, d) ->
  let B := rounding_bound (depth_of t) (List.length x - 1) delta (magnitude_sum (map f x) x) in
  L - B <= RInt f (first x) (final x) <= L + (1 + 2 * unit_roundoff) * d + B.
Proof.
  intros G N O Hd Hg M E H.
  assert (Lg : List.length (map g x) = List.length x) by apply map_length.
  destruct (fdarboux_sums t (map g x) x G Lg O) as (L' & U & E1 & HLU & DL & DU & EL & EU). rewrite E1 in H. injection H as <- <-.
  destruct (enclosure f x N (proj1 G) M E) as [I1 I2].
  assert (C : combine (cells (map g x)) (cells x) = map (fun p => ((g (fst p), g (snd p)), p)) (cells x)).
  { rewrite cells_map. clear. induction (cells x); cbn; auto. now rewrite IHl. }
  assert (Cf : magnitude_sum (map f x) x = Rsum (map (fun p => Rmax (Rabs (f (fst p))) (Rabs (f (snd p))) * (snd p - fst p)) (cells x))).
  { unfold magnitude_sum. rewrite cells_map. clear. f_equal. induction (cells x); cbn; auto. now rewrite IHl. }
  rewrite C, map_map in EL, EU.
  assert (In_cell : forall p, In p (cells x) -> In (fst p) x /\ In (snd p) x).
  { intros [p q] I. unfold cells in I. split; cbn; [now apply in_combine_l in I|]. apply in_combine_r in I. destruct x; [destruct I|]. now right. }
  assert (Gc : forall p, In p (cells x) -> double (fst p) /\ double (snd p) /\ fst p <= snd p).
  { intros [p q] I. destruct G as [A D]. destruct (cells_double x _ D I). split; [auto|]. split; [auto|]. now apply (ascending_cells x). }
  rewrite <- (cells_length x) in O |- *. cbv zeta. rewrite Cf. set (B := rounding_bound _ _ _ _).
  assert (BL : Rabs (L' - lower f x) <= B).
  { rewrite EL. unfold B, lower. apply (general_sum (cells x) (fun p => g (fst p)) (fun p => g (snd p)) (fun p => f (fst p)) (fun p => f (snd p)) fst snd delta t Hd).
    - intros p I. destruct (In_cell p I). auto.
    - exact Gc.
    - exact O.
    - apply Rmin_abs.
    - apply Rmin_close. }
  assert (BU : Rabs (U - upper f x) <= B).
  { rewrite EU. unfold B, upper. apply (general_sum (cells x) (fun p => g (fst p)) (fun p => g (snd p)) (fun p => f (fst p)) (fun p => f (snd p)) fst snd delta t Hd).
    - intros p I. destruct (In_cell p I). auto.
    - exact Gc.
    - exact O.
    - apply Rmax_abs.
    - apply Rmax_close. }
  apply Rabs_le_inv in BL. apply Rabs_le_inv in BU. split; [lra|].
  assert (K : U - L' <= (1 + 2 * u) * fsub U L').
  { destruct (fsub_error U L' DU DL) as (e & He & ->). pose proof u_pos. pose proof u_small. assert (u <= / 4) by (eapply Rle_trans; [eassumption|]; apply Rinv_le_contravar; [lra|simpl; lra]).
    apply Rabs_le_inv in He. assert (1 <= (1 + 2 * u) * (1 + e)) by nra. nra. }
  change unit_roundoff with u. lra.
Qed.
(** The size of the bound. *)
Lemma bound_size n : (n <= 2 ^ 52)%nat -> (1 + unit_roundoff) ^ n - 1 <= 2 * INR n * unit_roundoff.
Proof.
  assert (X : forall n, 2 * INR n * unit_roundoff <= 1 -> (1 + unit_roundoff) ^ n - 1 <= 2 * INR n * unit_roundoff).
  { clear n. intros n. change unit_roundoff with u. pose proof u_pos. induction n as [|n IH]; intros H1; [cbn [pow INR]; lra|]. rewrite S_INR in *.
    rewrite <- tech_pow_Rmult. assert (2 * INR n * u <= 1) by nra. specialize (IH H0). pose proof (pos_INR n). nra. }
  intros H. apply X. unfold unit_roundoff. apply le_INR in H. rewrite pow_INR in H. change (INR 2) with 2 in H.
  replace (2 ^ 53) with (2 * 2 ^ 52) by (simpl; ring). pose proof (pow_lt 2 52). apply (Rmult_le_reg_r (2 * 2 ^ 52)); [lra|]. rewrite Rmult_assoc, Rinv_l by lra. lra.
Qed.

(** *** The exact enclosure is lost *)
Lemma lost_enclosure : exists t f x L d, grid x /\ order_of (List.length x - 1) t /\ (forall y, double (f y)) /\
  (forall a b, In (a, b) (cells x) -> monotone_on f a b) /\ ex_RInt f (first x) (final x) /\
  fdarboux t (map f x) x = (L, d) /\ d = 0 /\ L + d < RInt f (first x) (final x).
Proof.
  set (c := 4503599627370497 / 4503599627370496).
  assert (Dc : double c) by (apply (double_scaled 4503599627370497 (-52) (/ 4503599627370496)); [reflexivity|lia|lia]).
  exists (Some (Index 0)), (fun _ => c), [0; c], (4503599627370498 / 4503599627370496), 0.
  split; [split; [repeat constructor; unfold c; lra|repeat constructor; [apply double_0|exact Dc]]|]. split; [apply Permutation_refl|]. split; [intros; exact Dc|].
  split; [intros; left; intros; lra|]. split; [apply ex_RInt_const|].
  split; [|split; [reflexivity|]].
  - rewrite (surjective_pairing (fdarboux _ _ _)). f_equal; [|apply fdarboux_constant].
    rewrite fdarboux_cells. cbn [fst map cells tl combine np_sum np_sum_in nth]. unfold fterm. cbn [fst snd]. rewrite Rmin_left by lra.
    unfold fsub. rewrite Rminus_0_r, (rnd_id c Dc). unfold fmul.
    rewrite (rnd_lit _ 4503599627370498 (-52) (/ 4503599627370496)); [lra|lia|lia|lia|reflexivity|unfold c; lra..].
  - unfold first, final. cbn [last hd]. rewrite RInt_const_R. unfold c. lra.
Qed.

(** The upper sum is the lower sum of the negated values with the opposite sign. *)
Lemma np_sum_opp t l : np_sum t (map Ropp l) = - np_sum t l.
Proof.
  destruct t as [t|]; cbn; [|lra]. induction t as [i|t1 I1 t2 I2]; cbn.
  - replace 0 with (- 0) at 1 by lra. apply map_nth.
  - rewrite I1, I2. unfold fadd. rewrite <- rnd_opp. f_equal. ring.
Qed.
Lemma combine_map_l {A B C} (f : A -> B) (l : list A) (m : list C) : combine (map f l) m = map (fun c => (f (fst c), snd c)) (combine l m).
Proof. revert m. induction l; intros [|c m]; cbn; auto. now rewrite IHl. Qed.
Lemma upper_lower t fx x : np_sum t (map (fterm Rmax) (combine (cells fx) (cells x))) = - fst (fdarboux t (map Ropp fx) x).
Proof.
  rewrite fdarboux_cells. cbn [fst]. rewrite <- np_sum_opp. f_equal. rewrite cells_map, combine_map_l, !map_map. apply map_ext. intros [[p q] [a b]]. unfold fterm. cbn.
  unfold fmul. rewrite <- rnd_opp. f_equal. replace (Rmin (- p) (- q)) with (- Rmax p q); [ring|]. unfold Rmin, Rmax. destruct (Rle_dec p q), (Rle_dec (- p) (- q)); lra.
Qed.
Lemma fdarboux_difference t fx x : grid x -> List.length fx = List.length x -> order_of (List.length x - 1) t ->
  let L := fst (fdarboux t fx x) in let U := - fst (fdarboux t (map Ropp fx) x) in
  double L /\ double U /\ L <= U /\ snd (fdarboux t fx x) = fsub U L.
Proof.
  intros G E O. cbv zeta. rewrite <- upper_lower. destruct (fdarboux_sums t fx x G E O) as (L & U & E1 & H & DL & DU & EL & EU). rewrite <- EU, E1. cbn. auto.
Qed.
