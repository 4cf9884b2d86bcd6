From Coq Require Import Reals List ZArith Bool Lia Lra Sorted.
From Coquelicot Require Import Coquelicot.
From Verif Require Import Py Spec M_Num M_Grid M_CrossSection S_CrossSection L_CrossSection
  L_Grid L_CrossSection2 M_Darboux L_RInt.
Import ListNotations.
Open Scope R_scope.

(** ** Lists *)
Lemma map2_removelast {A C} (f : A -> A -> C) a r :
  map2 f r (removelast (a :: r)) = map (fun p => f (snd p) (fst p)) (combine (a :: r) r).
Proof.
  revert a; induction r as [|b r]; intros a; auto.
  change (removelast (a :: b :: r)) with (a :: removelast (b :: r)).
  simpl combine. simpl map2. simpl map. f_equal. apply IHr.
Qed.

Lemma differences_cells x : differences x = map (fun p => snd p - fst p) (cells x).
Proof.
  destruct x as [|a r]; auto. unfold differences, roll1, cells.
  change (tl (a :: r)) with r.
  transitivity (map2 Rminus r (removelast (a :: r))). reflexivity.
  apply map2_removelast.
Qed.

Lemma pairs_cells (g : R -> R -> R) l : map2 g (removelast l) (tl l) = map (fun p => g (fst p) (snd p)) (cells l).
Proof.
  destruct l as [|a r]; auto. unfold cells. simpl tl.
  rewrite map2_swap. rewrite map2_removelast. reflexivity.
Qed.

Lemma cells_map {A B} (f : A -> B) l : cells (map f l) = map (fun p => (f (fst p), f (snd p))) (cells l).
Proof.
  destruct l as [|a r]; auto. unfold cells. simpl tl.
  revert a; induction r; intros; auto. simpl. f_equal. apply IHr.
Qed.

Lemma cells_cons {A} (a b : A) r : cells (a :: b :: r) = (a, b) :: cells (b :: r).
Proof. reflexivity. Qed.

Lemma cells_length {A} (l : list A) : length (cells l) = (length l - 1)%nat.
Proof. unfold cells. rewrite combine_length. destruct l; [reflexivity|]. cbn [tl length]. lia. Qed.

Lemma cells_app {A} (l : list A) p r : cells (l ++ p :: r) = cells (l ++ [p]) ++ cells (p :: r).
Proof.
  induction l as [|a l]; simpl app. reflexivity.
  destruct l as [|b l]. reflexivity.
  simpl app in *. rewrite !cells_cons. rewrite IHl. reflexivity.
Qed.

Lemma Rsum_app l m : Rsum (l ++ m) = Rsum l + Rsum m.
Proof. induction l; simpl. ring. fold (Rsum l) (Rsum m) (Rsum (l ++ m)). rewrite IHl. ring. Qed.
Lemma Rsum_opp l : Rsum (map Ropp l) = - Rsum l.
Proof. induction l; simpl. ring. fold (Rsum l). fold (Rsum (map Ropp l)). rewrite IHl. ring. Qed.
Lemma Rsum_rev l : Rsum (rev l) = Rsum l.
Proof. induction l; simpl; auto. rewrite Rsum_app, IHl. simpl. fold (Rsum l). ring. Qed.
Lemma Rsum_le (A : Type) (f g : A -> R) l : (forall a, In a l -> f a <= g a) ->
  Rsum (map f l) <= Rsum (map g l).
Proof.
  induction l; simpl; intros. lra.
  apply Rplus_le_compat. apply H; auto. apply IHl; auto.
Qed.
Lemma Rsum_minus (A : Type) (f g : A -> R) l :
  Rsum (map f l) - Rsum (map g l) = Rsum (map (fun a => f a - g a) l).
Proof. induction l; simpl. ring. unfold Rsum in *. rewrite <- IHl. ring. Qed.

Lemma ascending_cells x a b : ascending x -> In (a, b) (cells x) -> a <= b.
Proof.
  intros H. induction H as [|c l H IH F].
  - simpl; tauto.
  - destruct l as [|d l]. simpl; tauto. rewrite cells_cons. intros [E|I].
    + inversion E; subst. inversion F; auto.
    + apply IH; auto.
Qed.

(** ** The sums *)
Definition lower (f : R -> R) (x : list R) := Rsum (map (fun p => Rmin (f (fst p)) (f (snd p)) * (snd p - fst p)) (cells x)).
Definition upper (f : R -> R) (x : list R) := Rsum (map (fun p => Rmax (f (fst p)) (f (snd p)) * (snd p - fst p)) (cells x)).

Lemma map2_map_map {A B C D} (f : A -> B -> C) (g : D -> A) (h : D -> B) l :
  map2 f (map g l) (map h l) = map (fun d => f (g d) (h d)) l.
Proof. induction l; simpl; auto. f_equal; auto. Qed.

Lemma darboux_function f x : x <> [] ->
  darboux (vectorized f) x = Ok (lower f x, Rabs (upper f x - lower f x)).
Proof.
  intros N. unfold darboux, vectorized. cbn [bind].
  rewrite differences_cells.
  destruct (map f x) as [|y l] eqn:E. { destruct x; simpl in E; congruence. }
  rewrite <- E. rewrite !pairs_cells, !cells_map, !map_map. unfold broadcast_mul.
  rewrite !map_length, Nat.eqb_refl. cbn [bind]. rewrite !map2_map_map. reflexivity.
Qed.

Lemma darboux_values fx x : length fx = length x -> x <> [] ->
  darboux (Values fx) x =
  let lower := Rsum (map2 (fun p q => Rmin (fst p) (snd p) * (snd q - fst q)) (cells fx) (cells x)) in
  let upper := Rsum (map2 (fun p q => Rmax (fst p) (snd p) * (snd q - fst q)) (cells fx) (cells x)) in
  Ok (lower, Rabs (upper - lower)).
Proof.
  intros L N. unfold darboux. cbn [bind]. rewrite differences_cells.
  destruct fx as [|y l]. { destruct x; simpl in *; congruence. }
  rewrite !pairs_cells. unfold broadcast_mul. rewrite !map_length, !cells_length, L, Nat.eqb_refl.
  cbn [bind]. rewrite !map2_map_l, !map2_map_r. reflexivity.
Qed.

Lemma lower_le_upper f x : ascending x -> lower f x <= upper f x.
Proof.
  intros H. apply Rsum_le. intros [a b] I. apply (ascending_cells _ _ _ H) in I. simpl.
  apply Rmult_le_compat_r. lra. eapply Rle_trans; [apply Rmin_l|apply Rmax_l].
Qed.

Lemma darboux_ascending f x : x <> [] -> ascending x ->
  darboux (vectorized f) x = Ok (lower f x, upper f x - lower f x).
Proof.
  intros. rewrite darboux_function by auto. rewrite Rabs_pos_eq; auto.
  pose proof (lower_le_upper f x H0). lra.
Qed.

Lemma monotone_bounds f a b t : monotone_on f a b -> a <= t <= b ->
  Rmin (f a) (f b) <= f t <= Rmax (f a) (f b).
Proof.
  intros [M|M] [H1 H2]; assert (a <= b) by lra.
  - pose proof (M a t ltac:(lra) H1 H2). pose proof (M t b H1 H2 ltac:(lra)).
    pose proof (Rmin_l (f a) (f b)). pose proof (Rmax_r (f a) (f b)). lra.
  - pose proof (M a t ltac:(lra) H1 H2). pose proof (M t b H1 H2 ltac:(lra)).
    pose proof (Rmin_r (f a) (f b)). pose proof (Rmax_l (f a) (f b)). lra.
Qed.

Lemma monotone_inf f a b : a <= b -> monotone_on f a b -> is_inf_on f a b (Rmin (f a) (f b)).
Proof.
  intros H M. split.
  - intros t Ht. now apply monotone_bounds.
  - intros m' Hm. apply Rmin_glb; apply Hm; lra.
Qed.
Lemma monotone_sup f a b : a <= b -> monotone_on f a b -> is_sup_on f a b (Rmax (f a) (f b)).
Proof.
  intros H M. split.
  - intros t Ht. now apply monotone_bounds.
  - intros m' Hm. apply Rmax_lub; apply Hm; lra.
Qed.

Lemma cell_integral f a b : a <= b -> monotone_on f a b -> ex_RInt f a b ->
  Rmin (f a) (f b) * (b - a) <= RInt f a b <= Rmax (f a) (f b) * (b - a).
Proof.
  intros H M E.
  assert (K : forall c, RInt (fun _ => c) a b = c * (b - a)).
  { intros; apply RInt_const_R. }
  split; rewrite <- K.
  - apply RInt_le; auto. apply ex_RInt_const. intros; apply monotone_bounds; auto; lra.
  - apply RInt_le; auto. apply ex_RInt_const. intros; apply monotone_bounds; auto; lra.
Qed.

Lemma ascending_first_final a l : ascending (a :: l) -> a <= final (a :: l).
Proof.
  intros H. inversion H as [|? ? H1 H2]; subst. destruct l as [|b l]. unfold final; simpl; lra.
  rewrite Forall_forall in H2. apply H2. unfold final.
  change (last (a :: b :: l) 0) with (last (b :: l) 0).
  destruct (exists_last (l := b :: l)) as (l' & y & ->). discriminate.
  rewrite last_last. apply in_or_app; simpl; auto.
Qed.

Lemma enclosure f x : x <> [] -> ascending x ->
  (forall a b, In (a, b) (cells x) -> monotone_on f a b) ->
  ex_RInt f (first x) (final x) ->
  lower f x <= RInt f (first x) (final x) <= upper f x.
Proof.
  induction x as [|a x IH]; intros N A M E. congruence.
  destruct x as [|b x].
  - unfold lower, upper, first, final; simpl. rewrite RInt_point_R. lra.
  - assert (A' : ascending (b :: x)) by (inversion A; auto).
    assert (Hab : a <= b) by (apply (ascending_cells _ a b A); left; auto).
    pose proof (ascending_first_final _ _ A') as Hbf.
    unfold first in *. simpl hd in *. change (final (a :: b :: x)) with (final (b :: x)) in *.
    assert (E1 : ex_RInt f a b) by (apply ex_RInt_left with (final (b :: x)); auto).
    assert (E2 : ex_RInt f b (final (b :: x))) by (apply ex_RInt_right with a; auto).
    rewrite <- (RInt_join f a b (final (b :: x))) by auto.
    pose proof (cell_integral f a b Hab (M a b (or_introl eq_refl)) E1) as K.
    specialize (IH ltac:(discriminate) A' ltac:(intros; apply M; right; auto) E2).
    unfold lower, upper in *. rewrite cells_cons. simpl map. unfold Rsum in *. simpl. lra.
Qed.

Lemma true_sums f x : x <> [] -> ascending x ->
  (forall a b, In (a, b) (cells x) -> monotone_on f a b) ->
  exists ms Ms,
    Forall2 (fun p m => is_inf_on f (fst p) (snd p) m) (cells x) ms /\
    Forall2 (fun p m => is_sup_on f (fst p) (snd p) m) (cells x) Ms /\
    lower f x = Rsum (map2 (fun p m => m * (snd p - fst p)) (cells x) ms) /\
    upper f x = Rsum (map2 (fun p m => m * (snd p - fst p)) (cells x) Ms).
Proof.
  intros N A M.
  exists (map (fun p => Rmin (f (fst p)) (f (snd p))) (cells x)).
  exists (map (fun p => Rmax (f (fst p)) (f (snd p))) (cells x)).
  assert (Le : forall a b, In (a, b) (cells x) -> a <= b) by (intros; eapply ascending_cells; eauto).
  unfold lower, upper. repeat split.
  - clear - M Le. induction (cells x) as [|[a b] l]; simpl; constructor; simpl.
    apply monotone_inf; auto; [apply Le|apply M]; simpl; auto.
    apply IHl; intros; [apply M|apply Le]; simpl; auto.
  - clear - M Le. induction (cells x) as [|[a b] l]; simpl; constructor; simpl.
    apply monotone_sup; auto; [apply Le|apply M]; simpl; auto.
    apply IHl; intros; [apply M|apply Le]; simpl; auto.
  - f_equal. clear. induction (cells x); simpl; auto. f_equal; auto.
  - f_equal. clear. induction (cells x); simpl; auto. f_equal; auto.
Qed.

(** ** Error estimate *)
Lemma darboux_error_nonneg f x L d : darboux f x = Ok (L, d) -> 0 <= d.
Proof.
  unfold darboux. destruct (match f with Callable _ => _ | Values _ => _ end) as [l| |]; cbn [bind]; try discriminate.
  destruct l; try discriminate.
  destruct (broadcast_mul (map2 Rmin _ _) _); cbn [bind]; try discriminate.
  destruct (broadcast_mul (map2 Rmax _ _) _); cbn [bind]; try discriminate.
  intros H; inversion H. apply Rabs_pos.
Qed.

Lemma Rmax_minus_Rmin a b : Rmax a b - Rmin a b = Rabs (b - a).
Proof. unfold Rmax, Rmin, Rabs. destruct (Rle_dec a b), (Rcase_abs (b - a)); lra. Qed.

Lemma error_formula f x : upper f x - lower f x =
  Rsum (map (fun p => Rabs (f (snd p) - f (fst p)) * (snd p - fst p)) (cells x)).
Proof.
  unfold upper, lower. rewrite Rsum_minus. f_equal. apply map_ext. intros [a b]; simpl.
  rewrite <- Rmax_minus_Rmin. ring.
Qed.

Lemma last_in (l : list R) d : l <> [] -> In (last l d) l.
Proof.
  intros H. destruct (exists_last H) as (l' & y & ->). rewrite last_last. apply in_or_app; simpl; auto.
Qed.

Lemma first_le a l t : ascending (a :: l) -> In t (a :: l) -> a <= t.
Proof. intros H [->|I]. lra. inversion H; subst. rewrite Forall_forall in H3; auto. Qed.

Lemma error_bound f x h : x <> [] -> ascending x -> monotone_on f (first x) (final x) ->
  (forall a b, In (a, b) (cells x) -> b - a <= h) -> 0 <= h ->
  upper f x - lower f x <= h * Rabs (f (final x) - f (first x)).
Proof.
  intros N A M Hh H0. rewrite error_formula.
  induction x as [|a x IH]; [congruence|]. destruct x as [|b x].
  - unfold first, final; simpl. rewrite Rminus_eq_0, Rabs_R0. lra.
  - assert (A' : ascending (b :: x)) by (inversion A; auto).
    assert (Hab : a <= b) by (apply (ascending_cells _ a b A); left; auto).
    pose proof (ascending_first_final _ _ A') as Hbf.
    unfold first in *; simpl hd in *. change (final (a :: b :: x)) with (final (b :: x)) in *.
    set (z := final (b :: x)) in *.
    rewrite cells_cons. simpl map.
    assert (M' : monotone_on f b z).
    { destruct M as [M|M]; [left|right]; intros; apply M; lra. }
    specialize (IH ltac:(discriminate) A' M' ltac:(intros; apply Hh; right; auto)).
    assert (K : Rabs (f b - f a) + Rabs (f z - f b) = Rabs (f z - f a)).
    { destruct M as [M|M];
      pose proof (M a b ltac:(lra) Hab Hbf); pose proof (M b z Hab Hbf ltac:(lra)).
      - rewrite !Rabs_pos_eq by lra. lra.
      - rewrite !Rabs_left1 by lra. lra. }
    rewrite <- K. unfold Rsum in *. simpl.
    assert (Rabs (f b - f a) * (b - a) <= Rabs (f b - f a) * h).
    { apply Rmult_le_compat_l. apply Rabs_pos. apply Hh; left; auto. }
    rewrite Rmult_plus_distr_l. lra.
Qed.

Lemma lower_split f l p r : lower f (l ++ p :: r) = lower f (l ++ [p]) + lower f (p :: r).
Proof. unfold lower. now rewrite cells_app, map_app, Rsum_app. Qed.
Lemma upper_split f l p r : upper f (l ++ p :: r) = upper f (l ++ [p]) + upper f (p :: r).
Proof. unfold upper. now rewrite cells_app, map_app, Rsum_app. Qed.

Lemma ssorted_app_l {A} (R : A -> A -> Prop) l m : StronglySorted R (l ++ m) -> StronglySorted R l.
Proof.
  induction l; simpl; intros H; constructor; inversion H; subst; auto.
  rewrite Forall_forall in *. intros; apply H3; apply in_or_app; auto.
Qed.
Lemma ssorted_app_r {A} (R : A -> A -> Prop) l m : StronglySorted R (l ++ m) -> StronglySorted R m.
Proof. induction l; simpl; intros H; auto. inversion H; auto. Qed.

Lemma darboux_split f l p r : ascending (l ++ p :: r) -> exists L1 d1 L2 d2,
  darboux (vectorized f) (l ++ [p]) = Ok (L1, d1) /\ darboux (vectorized f) (p :: r) = Ok (L2, d2) /\
  darboux (vectorized f) (l ++ p :: r) = Ok (L1 + L2, d1 + d2).
Proof.
  intros A.
  assert (A1 : ascending (l ++ [p])).
  { replace (l ++ p :: r) with ((l ++ [p]) ++ r) in A by (rewrite <- app_assoc; auto). eapply ssorted_app_l; eauto. }
  assert (A2 : ascending (p :: r)) by (eapply ssorted_app_r; eauto).
  do 4 eexists. rewrite !darboux_ascending by (auto; destruct l; discriminate).
  split; [reflexivity|]. split; [reflexivity|].
  rewrite lower_split, upper_split. do 2 f_equal. ring.
Qed.

(** ** Descending grids *)
Lemma cells_snoc {A} (l : list A) a b : cells ((l ++ [a]) ++ [b]) = cells (l ++ [a]) ++ [(a, b)].
Proof. rewrite <- app_assoc. simpl. now rewrite cells_app. Qed.

Lemma cells_rev {A} (l : list A) : cells (rev l) = rev (map (fun p => (snd p, fst p)) (cells l)).
Proof.
  induction l as [|a l]; auto. destruct l as [|b l]; auto.
  rewrite cells_cons. simpl rev in *. rewrite cells_snoc. rewrite IHl. reflexivity.
Qed.

Lemma lower_rev f x : lower f (rev x) = - lower f x.
Proof.
  unfold lower. rewrite cells_rev, map_rev, Rsum_rev, map_map, <- Rsum_opp, map_map.
  f_equal. apply map_ext; intros [a b]; simpl. rewrite Rmin_comm. ring.
Qed.
Lemma upper_rev f x : upper f (rev x) = - upper f x.
Proof.
  unfold upper. rewrite cells_rev, map_rev, Rsum_rev, map_map, <- Rsum_opp, map_map.
  f_equal. apply map_ext; intros [a b]; simpl. rewrite Rmax_comm. ring.
Qed.

Lemma rev_nonempty {A} (x : list A) : x <> [] -> rev x <> [].
Proof. intros H E. apply H. rewrite <- (rev_involutive x), E. reflexivity. Qed.

Lemma darboux_rev f x : x <> [] -> exists L d,
  darboux (vectorized f) x = Ok (L, d) /\ darboux (vectorized f) (rev x) = Ok (- L, d).
Proof.
  intros N. do 2 eexists. split. now apply darboux_function.
  rewrite darboux_function by now apply rev_nonempty.
  rewrite lower_rev, upper_rev. do 2 f_equal.
  replace (- upper f x - - lower f x) with (- (upper f x - lower f x)) by ring. apply Rabs_Ropp.
Qed.

(** ** Shapes *)
Lemma darboux_shape fx x : 
  let m := (length fx - 1)%nat in let n := (length x - 1)%nat in
  (darboux (Values fx) x = Raise ValueError <-> fx = [] \/ (m <> n /\ m <> 1 /\ n <> 1)%nat) /\
  (darboux (Values fx) x <> Raise ValueError -> exists L d, darboux (Values fx) x = Ok (L, d)).
Proof.
  intros m n. unfold darboux. cbn [bind]. rewrite differences_cells, !pairs_cells.
  destruct fx as [|y l].
  { split; [split; auto|congruence]. }
  unfold broadcast_mul. rewrite !map_length, !cells_length. fold m n.
  destruct (Nat.eqb_spec m n) as [E|E].
  - cbn [bind]. split; [split|]; try discriminate.
    + intros [K|K]; [congruence|tauto].
    + intros _; eauto.
  - assert (Lc : length (cells (y :: l)) = m) by apply cells_length.
    assert (Lx : length (cells x) = n) by apply cells_length.
    destruct (cells (y :: l)) as [|c1 [|c2 cl]]; simpl map; simpl in Lc.
    + destruct (cells x) as [|d1 [|d2 dl]]; simpl map; simpl in Lx; cbn [bind].
      * exfalso; lia.
      * split; [split|]; try discriminate. intros [K|K]; [congruence|lia]. intros _; eauto.
      * split; [split|]; auto. intros _; right; lia. congruence.
    + cbn [bind]. split; [split|]; try discriminate. intros [K|K]; [congruence|lia]. intros _; eauto.
    + destruct (cells x) as [|d1 [|d2 dl]]; simpl map; simpl in Lx; cbn [bind].
      * split; [split|]; auto. intros _; right; lia. congruence.
      * split; [split|]; try discriminate. intros [K|K]; [congruence|lia]. intros _; eauto.
      * split; [split|]; auto. intros _; right; lia. congruence.
Qed.

(** ** Cross sections as callables *)
Lemma darboux_value v x : x <> [] -> (forall E, In E x -> exists r, call v E = Ok r) ->
  (constants_only v = true -> darboux (of_value v) x = Raise TypeError) /\
  (constants_only v = false -> exists f, (forall E, In E x -> call v E = Ok (f E)) /\
      darboux (of_value v) x = darboux (vectorized f) x).
Proof.
  intros N H. destruct (call_arr_spec v x N H) as (y & Hy & Ry & Sy).
  split; intros C.
  - apply Sy in C. destruct C as [a ->]. unfold darboux, of_value. cbn [bind]. rewrite Hy. reflexivity.
  - destruct y as [a|l].
    { exfalso. assert (constants_only v = true) by (apply Sy; eauto). congruence. }
    exists (fun E => match call v E with Ok r => r | _ => 0 end). split.
    + intros E HE. destruct (H E HE) as [r ->]. reflexivity.
    + unfold darboux, of_value, vectorized. cbn [bind]. rewrite Hy. cbn [bind].
      assert (l = map (fun E => match call v E with Ok r => r | _ => 0 end) x) as ->; [|reflexivity].
      simpl in Ry. clear - Ry. induction Ry; simpl; auto. now rewrite H, IHRy.
Qed.
