(** Rounding errors of sums. *)
From Coq Require Import Reals List ZArith Lra Lia Psatz Permutation.
From Flocq Require Import Core.
From Verif Require Import Py Spec M_Num M_Grid M_CrossSection M_Constituents M_Darboux M_Float L_Constituents L_Float.
Import ListNotations.
Open Scope R_scope.

Lemma Rsum_cons' a l : Rsum (a :: l) = a + Rsum l.
Proof. reflexivity. Qed.
Definition Rabs_sum (l : list R) : R := Rsum (map Rabs l).
Lemma Rabs_sum_nonneg l : 0 <= Rabs_sum l.
Proof. unfold Rabs_sum. induction l; [cbn; lra|]. cbn [map]. rewrite Rsum_cons'. pose proof (Rabs_pos a). lra. Qed.
Lemma Rabs_Rsum l : Rabs (Rsum l) <= Rabs_sum l.
Proof. unfold Rabs_sum. induction l; [cbn; rewrite Rabs_R0; lra|]. cbn [map]. rewrite !Rsum_cons'. eapply Rle_trans; [apply Rabs_triang|]. lra. Qed.
Lemma Rsum_app l m : Rsum (l ++ m) = Rsum l + Rsum m.
Proof. induction l; [change (Rsum []) with 0; cbn [app]; lra|]. cbn [app]. rewrite !Rsum_cons'. lra. Qed.
Lemma pow_ge_1 n : 1 <= (1 + u) ^ n.
Proof. pose proof u_pos. apply pow_R1_Rle. lra. Qed.
Lemma pow_mono n m : (n <= m)%nat -> (1 + u) ^ n <= (1 + u) ^ m.
Proof. pose proof u_pos as U. intros H. apply Rle_pow; [lra|exact H]. Qed.

(** One addition of two values that are already inexact. *)
Lemma fadd_step x y X Y A B p : double x -> double y -> 1 <= p -> Rabs X <= A -> Rabs Y <= B ->
  Rabs (x - X) <= (p - 1) * A -> Rabs (y - Y) <= (p - 1) * B ->
  Rabs (fadd x y - (X + Y)) <= ((1 + u) * p - 1) * (A + B).
Proof.
  intros Dx Dy Hp HX HY Hx Hy. destruct (fadd_error x y Dx Dy) as (e & He & ->). pose proof u_pos.
  replace ((x + y) * (1 + e) - (X + Y)) with ((1 + e) * ((x - X) + (y - Y)) + e * (X + Y)) by ring.
  eapply Rle_trans; [apply Rabs_triang|]. rewrite !Rabs_mult.
  assert (E1 : Rabs (1 + e) <= 1 + u) by (eapply Rle_trans; [apply Rabs_triang|]; rewrite Rabs_R1; lra).
  assert (E2 : Rabs (x - X + (y - Y)) <= (p - 1) * (A + B)) by (eapply Rle_trans; [apply Rabs_triang|]; lra).
  assert (E3 : Rabs (X + Y) <= A + B) by (eapply Rle_trans; [apply Rabs_triang|]; lra).
  pose proof (Rabs_pos X). pose proof (Rabs_pos Y).
  apply Rle_trans with ((1 + u) * ((p - 1) * (A + B)) + u * (A + B)); [|right; ring].
  apply Rplus_le_compat; apply Rmult_le_compat; auto using Rabs_pos.
Qed.

(** *** Sums in any order *)
Lemma np_sum_in_double t f : (forall i, In i (indices t) -> double (f i)) -> double (np_sum_in t f).
Proof. destruct t; cbn; intros H; [apply H; auto|apply rnd_double]. Qed.
Lemma np_sum_in_ext t f g : (forall i, In i (indices t) -> f i = g i) -> np_sum_in t f = np_sum_in t g.
Proof. induction t; cbn; intros H; [apply H; auto|]. rewrite IHt1, IHt2; [reflexivity| |]; intros; apply H; apply in_or_app; auto. Qed.
Lemma tree_error t f : (forall i, In i (indices t) -> double (f i)) ->
  Rabs (np_sum_in t f - Rsum (map f (indices t))) <= ((1 + u) ^ height t - 1) * Rabs_sum (map f (indices t)).
Proof.
  induction t as [i|l IHl r IHr]; cbn [np_sum_in indices height]; intros D.
  - cbn. replace (f i - (f i + 0)) with 0 by ring. rewrite Rabs_R0. lra.
  - assert (Dl : forall i, In i (indices l) -> double (f i)) by (intros; apply D; apply in_or_app; auto).
    assert (Dr : forall i, In i (indices r) -> double (f i)) by (intros; apply D; apply in_or_app; auto).
    specialize (IHl Dl). specialize (IHr Dr). set (h := Nat.max (height l) (height r)).
    pose proof (pow_mono (height l) h ltac:(lia)). pose proof (pow_mono (height r) h ltac:(lia)).
    unfold Rabs_sum in *. rewrite !map_app, !Rsum_app.
    change ((1 + u) ^ S h) with ((1 + u) * (1 + u) ^ h). pose proof (Rabs_sum_nonneg (map f (indices l))) as Pl. pose proof (Rabs_sum_nonneg (map f (indices r))) as Pr. unfold Rabs_sum in *.
    apply fadd_step; auto using np_sum_in_double, pow_ge_1.
    + apply Rabs_Rsum. + apply Rabs_Rsum.
    + eapply Rle_trans; [exact IHl|]. apply Rmult_le_compat_r; [exact Pl|lra].
    + eapply Rle_trans; [exact IHr|]. apply Rmult_le_compat_r; [exact Pr|lra].
Qed.
Lemma tree_le t f g : (forall i, In i (indices t) -> f i <= g i) -> np_sum_in t f <= np_sum_in t g.
Proof.
  induction t; cbn; intros H; [apply H; auto|]. apply rnd_le. apply Rplus_le_compat; [apply IHt1|apply IHt2]; intros; apply H; apply in_or_app; auto.
Qed.
Lemma tree_nonneg t f : (forall i, In i (indices t) -> 0 <= f i) -> 0 <= np_sum_in t f.
Proof.
  induction t; cbn; intros H; [apply H; auto|]. apply rnd_nonneg. assert (0 <= np_sum_in t1 f) by (apply IHt1; intros; apply H; apply in_or_app; auto).
  assert (0 <= np_sum_in t2 f) by (apply IHt2; intros; apply H; apply in_or_app; auto). lra.
Qed.

(** [t] adds up a list of [n] elements. *)
Definition order_for (n : nat) (t : option order) : Prop :=
  match t with None => n = 0%nat | Some t => Permutation (indices t) (seq 0 n) end.
Definition oheight (t : option order) : nat := match t with None => 0 | Some t => height t end.

Lemma map_nth_seq (l : list R) : map (fun i => nth i l 0) (seq 0 (List.length l)) = l.
Proof.
  induction l as [|a l IH]; [reflexivity|]. cbn [List.length seq map nth]. f_equal. rewrite <- seq_shift, map_map. exact IH.
Qed.
Lemma order_perm t l : order_for (List.length l) (Some t) -> Permutation (map (fun i => nth i l 0) (indices t)) l.
Proof. cbn. intros P. eapply Permutation_trans; [apply Permutation_map; exact P|]. rewrite map_nth_seq. apply Permutation_refl. Qed.
Lemma Rsum_perm' l m : Permutation l m -> Rsum l = Rsum m.
Proof. induction 1; rewrite ?Rsum_cons'; lra. Qed.
Lemma np_sum_error t l : order_for (List.length l) t -> Forall double l ->
  Rabs (np_sum t l - Rsum l) <= ((1 + u) ^ oheight t - 1) * Rabs_sum l.
Proof.
  intros O D. destruct t as [t|].
  - pose proof (order_perm t l O) as P. cbn [np_sum oheight]. rewrite <- (Rsum_perm' _ _ P). unfold Rabs_sum. rewrite <- (Rsum_perm' _ _ (Permutation_map Rabs P)).
    apply tree_error. intros i Hi. rewrite Forall_forall in D. apply D. apply (Permutation_in _ P). now apply (in_map (fun i => nth i l 0)).
  - cbn in O. destruct l; [|discriminate]. cbn. replace (0 - 0) with 0 by ring. rewrite Rabs_R0. lra.
Qed.
Lemma np_sum_double t l : order_for (List.length l) t -> Forall double l -> double (np_sum t l).
Proof.
  intros O D. destruct t as [t|]; [|apply double_0]. pose proof (order_perm t l O) as P. apply np_sum_in_double.
  intros i Hi. rewrite Forall_forall in D. apply D. apply (Permutation_in _ P). now apply (in_map (fun i => nth i l 0)).
Qed.
Lemma np_sum_le t l m : List.length l = List.length m -> order_for (List.length l) t -> Forall2 Rle l m -> np_sum t l <= np_sum t m.
Proof.
  intros E O F. destruct t as [t|]; cbn; [|lra]. apply tree_le. intros i _. clear E O. revert i. induction F; intros [|i]; cbn; auto; lra.
Qed.
Lemma np_sum_nonneg t l : Forall (Rle 0) l -> 0 <= np_sum t l.
Proof.
  intros F. destruct t as [t|]; cbn; [|lra]. apply tree_nonneg. intros i _. revert i. induction F; intros [|i]; cbn; auto; lra.
Qed.

(** *** Inexact terms *)
Lemma perturbed (l m : list R) a b : Forall2 (fun x X => Rabs (x - X) <= a * Rabs X + b) l m ->
  Rabs (Rsum l - Rsum m) <= a * Rabs_sum m + INR (List.length m) * b.
Proof.
  intros F. unfold Rabs_sum. induction F as [|x X l m H F IH]; [cbn; replace (0 - 0) with 0 by ring; rewrite Rabs_R0; lra|].
  cbn [map List.length]. rewrite !Rsum_cons', S_INR.
  replace (x + Rsum l - (X + Rsum m)) with ((x - X) + (Rsum l - Rsum m)) by ring. eapply Rle_trans; [apply Rabs_triang|]. lra.
Qed.
Lemma perturbed_abs (l m : list R) a b : Forall2 (fun x X => Rabs (x - X) <= a * Rabs X + b) l m ->
  Rabs_sum l <= (1 + a) * Rabs_sum m + INR (List.length m) * b.
Proof.
  intros F. unfold Rabs_sum. induction F as [|x X l m H F IH]; [cbn; lra|].
  cbn [map List.length]. rewrite !Rsum_cons', S_INR.
  assert (Rabs x <= Rabs X + Rabs (x - X)) by (replace x with (X + (x - X)) at 1 by ring; apply Rabs_triang). lra.
Qed.
Lemma combine_error s l m p a b : 1 <= p -> Rabs (s - Rsum l) <= (p - 1) * Rabs_sum l ->
  Forall2 (fun x X => Rabs (x - X) <= a * Rabs X + b) l m ->
  Rabs (s - Rsum m) <= (p * (1 + a) - 1) * Rabs_sum m + INR (List.length m) * (p * b).
Proof.
  intros Hp Hs F. pose proof (perturbed _ _ _ _ F) as E1. pose proof (perturbed_abs _ _ _ _ F) as E2.
  replace (s - Rsum m) with ((s - Rsum l) + (Rsum l - Rsum m)) by ring. eapply Rle_trans; [apply Rabs_triang|].
  assert ((p - 1) * Rabs_sum l <= (p - 1) * ((1 + a) * Rabs_sum m + INR (List.length m) * b)) by (apply Rmult_le_compat_l; [lra|exact E2]).
  nra.
Qed.
Lemma fmul_error x y : Rabs (fmul x y - x * y) <= u * Rabs (x * y) + eta.
Proof.
  unfold fmul. destruct (rnd_error (x * y)) as (e & h & He & Hh & ->). replace (x * y * (1 + e) + h - x * y) with (e * (x * y) + h) by ring.
  eapply Rle_trans; [apply Rabs_triang|]. rewrite Rabs_mult. pose proof (Rabs_pos (x * y)). nra.
Qed.
Lemma products_error l m : Forall2 (fun x X => Rabs (x - X) <= u * Rabs X + eta) (map2 fmul l m) (map2 Rmult l m).
Proof. revert m. induction l; intros [|b m]; cbn; constructor; auto using fmul_error. Qed.
Lemma products_double l m : Forall double (map2 fmul l m).
Proof. revert m. induction l; intros [|b m]; cbn; constructor; auto. apply rnd_double. Qed.
Lemma map2_length {A B C} (f : A -> B -> C) l m : List.length (map2 f l m) = Nat.min (List.length l) (List.length m).
Proof. revert m. induction l; intros [|b m]; cbn; auto. Qed.

Lemma np_dot_error t l m : order_for (List.length (map2 fmul l m)) t ->
  Rabs (np_sum t (map2 fmul l m) - Rsum (map2 Rmult l m)) <=
    ((1 + u) ^ S (oheight t) - 1) * Rabs_sum (map2 Rmult l m) + INR (List.length (map2 Rmult l m)) * ((1 + u) ^ oheight t * eta).
Proof.
  intros O. replace ((1 + u) ^ S (oheight t)) with ((1 + u) ^ oheight t * (1 + u)) by (cbn; ring).
  apply combine_error with (l := map2 fmul l m); [apply pow_ge_1| |apply products_error].
  apply np_sum_error; [exact O|apply products_double].
Qed.

(** *** Sums from left to right *)
Lemma fold_double l a : double a -> double (fold_left fadd l a).
Proof. revert a. induction l; cbn; auto. intros. apply IHl. apply rnd_double. Qed.
Lemma fold_error l : forall a X A p, double a -> Forall double l -> 1 <= p -> Rabs X <= A -> Rabs (a - X) <= (p - 1) * A ->
  Rabs (fold_left fadd l a - (X + Rsum l)) <= ((1 + u) ^ List.length l * p - 1) * (A + Rabs_sum l).
Proof.
  induction l as [|x l IH]; cbn [fold_left Rsum fold_right List.length pow]; intros a X A p Da Dl Hp HX Ha.
  - unfold Rabs_sum. cbn. replace (a - (X + 0)) with (a - X) by ring. lra.
  - inversion Dl; subst. change (fold_right Rplus 0) with Rsum.
    replace (X + (x + Rsum l)) with ((X + x) + Rsum l) by ring. replace (A + Rabs_sum (x :: l)) with ((A + Rabs x) + Rabs_sum l) by (unfold Rabs_sum; cbn [map]; rewrite Rsum_cons'; ring).
    replace ((1 + u) * (1 + u) ^ List.length l * p) with ((1 + u) ^ List.length l * ((1 + u) * p)) by ring.
    apply IH; auto.
    + apply rnd_double.
    + pose proof u_pos. nra.
    + eapply Rle_trans; [apply Rabs_triang|]. lra.
    + apply fadd_step; auto; [apply Rle_refl|]. replace (x - x) with 0 by ring. rewrite Rabs_R0. apply Rmult_le_pos; [lra|apply Rabs_pos].
Qed.
Lemma fadd_0_l x : double x -> fadd 0 x = x.
Proof. intros D. unfold fadd. rewrite Rplus_0_l. now apply rnd_id. Qed.
Lemma fadd_0_r x : double x -> fadd x 0 = x.
Proof. intros D. unfold fadd. rewrite Rplus_0_r. now apply rnd_id. Qed.
Lemma fmul_1_l x : double x -> fmul 1 x = x.
Proof. intros D. unfold fmul. rewrite Rmult_1_l. now apply rnd_id. Qed.
Lemma fadd_comm x y : fadd x y = fadd y x.
Proof. unfold fadd. now rewrite Rplus_comm. Qed.
Lemma fsum_error l : Forall double l -> Rabs (fsum l - Rsum l) <= ((1 + u) ^ Nat.pred (List.length l) - 1) * Rabs_sum l.
Proof.
  unfold fsum. destruct l as [|x l]; intros D.
  - cbn. replace (0 - 0) with 0 by ring. rewrite Rabs_R0. lra.
  - inversion D; subst. cbn [fold_left]. rewrite fadd_0_l by assumption. cbn [Rsum fold_right List.length Nat.pred]. change (fold_right Rplus 0) with Rsum.
    replace (Rabs_sum (x :: l)) with (Rabs x + Rabs_sum l) by reflexivity. replace ((1 + u) ^ List.length l) with ((1 + u) ^ List.length l * 1) by ring.
    apply fold_error; auto; [lra|lra|]. replace (x - x) with 0 by ring. rewrite Rabs_R0. lra.
Qed.
Lemma fold_ge l a : double a -> Forall (Rle 0) l -> a <= fold_left fadd l a.
Proof.
  revert a. induction l as [|x l IH]; cbn; intros a Da F; [lra|]. inversion F; subst. eapply Rle_trans; [|apply IH; [apply rnd_double|assumption]].
  apply rnd_ge; [exact Da|lra].
Qed.
Lemma fold_mono l a b : a <= b -> fold_left fadd l a <= fold_left fadd l b.
Proof. revert a b. induction l; cbn; intros; [lra|]. apply IHl. apply rnd_le. lra. Qed.
(** A sum of nonnegative numbers is at least as large as each of them. *)
Lemma fsum_ge l x : Forall double l -> Forall (Rle 0) l -> In x l -> x <= fsum l.
Proof.
  intros D F I. apply in_split in I. destruct I as (l1 & l2 & ->). apply Forall_app in D, F. destruct D as [D1 D2]. destruct F as [F1 F2].
  inversion D2; subst. inversion F2; subst. unfold fsum. rewrite fold_left_app. cbn [fold_left].
  eapply Rle_trans; [|apply fold_ge; [apply rnd_double|assumption]]. apply rnd_ge; [assumption|].
  assert (0 <= fold_left fadd l1 0) by (apply fold_ge; [apply double_0|assumption]). lra.
Qed.
Lemma fsum_nonneg l : Forall (Rle 0) l -> 0 <= fsum l.
Proof. intros F. apply fold_ge; [apply double_0|exact F]. Qed.
Lemma fdot_error l m :
  Rabs (fsum (map2 fmul l m) - Rsum (map2 Rmult l m)) <=
    ((1 + u) ^ List.length (map2 Rmult l m) - 1) * Rabs_sum (map2 Rmult l m) +
    INR (List.length (map2 Rmult l m)) * ((1 + u) ^ Nat.pred (List.length (map2 Rmult l m)) * eta).
Proof.
  set (n := List.length (map2 Rmult l m)).
  assert (E : List.length (map2 fmul l m) = n) by (unfold n; now rewrite !map2_length).
  pose proof (fsum_error (map2 fmul l m) (products_double l m)) as H. rewrite E in H.
  destruct (Nat.eq_dec n 0) as [Z|N].
  - unfold n in *. destruct l, m; try discriminate; cbn; unfold fsum; cbn; replace (0 - 0) with 0 by ring; rewrite Rabs_R0; lra.
  - replace ((1 + u) ^ n) with ((1 + u) ^ Nat.pred n * (1 + u)) by (destruct n; [lia|cbn; ring]).
    apply combine_error with (l := map2 fmul l m); [apply pow_ge_1|exact H|apply products_error].
Qed.
