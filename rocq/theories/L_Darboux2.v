(** Refinement and convergence of the sums of darboux.py. *)
From Coq Require Import Reals List ZArith Lra Lia Sorted.
From Coquelicot Require Import Coquelicot.
From Verif Require Import Py Spec M_Num M_Grid M_CrossSection M_Darboux S_CrossSection L_RInt L_Grid L_CrossSection2 L_Darboux L_Integration.
Import ListNotations.
Open Scope R_scope.

Lemma lower_cons f a b r : lower f (a :: b :: r) = Rmin (f a) (f b) * (b - a) + lower f (b :: r).
Proof. reflexivity. Qed.
Lemma upper_cons f a b r : upper f (a :: b :: r) = Rmax (f a) (f b) * (b - a) + upper f (b :: r).
Proof. reflexivity. Qed.
Lemma final_cons a b r : final (a :: b :: r) = final (b :: r).
Proof. reflexivity. Qed.
Lemma final_app l p r : final (l ++ p :: r) = final (p :: r).
Proof.
  induction l as [|a l IH]; [reflexivity|]. destruct l as [|b l]; [reflexivity|]. cbn [app] in *. rewrite final_cons. exact IH.
Qed.

Lemma lower_ge f m z : ascending z -> (forall t, In t z -> m <= f t) -> m * (final z - first z) <= lower f z.
Proof.
  induction z as [|a z IH]; intros A H. { unfold lower, final, first; cbn. lra. }
  destruct z as [|b z]. { unfold lower, final, first; cbn. lra. }
  rewrite final_cons, lower_cons. unfold first at 1. cbn [hd].
  assert (a <= b) by (apply (ascending_cells _ _ _ A); rewrite cells_cons; now left).
  inversion A; subst. specialize (IH ltac:(assumption) ltac:(intros; apply H; now right)). unfold first in IH. cbn [hd] in IH.
  assert (m <= Rmin (f a) (f b)) by (apply Rmin_glb; apply H; cbn; auto). nra.
Qed.
Lemma upper_le f m z : ascending z -> (forall t, In t z -> f t <= m) -> upper f z <= m * (final z - first z).
Proof.
  induction z as [|a z IH]; intros A H. { unfold upper, final, first; cbn. lra. }
  destruct z as [|b z]. { unfold upper, final, first; cbn. lra. }
  rewrite final_cons, upper_cons. unfold first at 1. cbn [hd].
  assert (a <= b) by (apply (ascending_cells _ _ _ A); rewrite cells_cons; now left).
  inversion A; subst. specialize (IH ltac:(assumption) ltac:(intros; apply H; now right)). unfold first in IH. cbn [hd] in IH.
  assert (Rmax (f a) (f b) <= m) by (apply Rmax_lub; apply H; cbn; auto). nra.
Qed.

Lemma ascending_final z t : ascending z -> In t z -> t <= final z.
Proof.
  induction z as [|a z IH]; intros A I; [destruct I|]. inversion A as [|? ? A' F]; subst.
  destruct z as [|b z]. { destruct I as [->|[]]. unfold final; cbn; lra. }
  rewrite final_cons. destruct I as [->|I]; [|auto]. rewrite Forall_forall in F. apply F. apply last_in. discriminate.
Qed.

(** A finer grid through the same points improves both sums. *)
Lemma refine f : forall x y, x <> [] -> ascending x -> ascending y -> incl x y -> first y = first x -> final y = final x ->
  (forall a b, In (a, b) (cells x) -> monotone_on f a b) ->
  lower f x <= lower f y /\ upper f y <= upper f x.
Proof.
  induction x as [|a x IH]; intros y N A B I H1 H2 M; [contradiction|].
  destruct x as [|b x].
  - assert (H2' : final y = first y) by (rewrite H1, H2; reflexivity).
    split.
    + pose proof (lower_ge f (f a) y B) as L. rewrite H2', Rminus_diag_eq, Rmult_0_r in L by reflexivity.
      change (lower f [a]) with 0. apply L. intros t T. replace t with a; [lra|].
      destruct y as [|c y]; [destruct T|]. pose proof (first_le _ _ _ B T). pose proof (ascending_final _ _ B T).
      unfold first in *. cbn [hd] in *. lra.
    + pose proof (upper_le f (f a) y B) as L. rewrite H2', Rminus_diag_eq, Rmult_0_r in L by reflexivity.
      change (upper f [a]) with 0. apply L. intros t T. replace t with a; [lra|].
      destruct y as [|c y]; [destruct T|]. pose proof (first_le _ _ _ B T). pose proof (ascending_final _ _ B T).
      unfold first in *. cbn [hd] in *. lra.
  - destruct (in_split b y) as (y1 & y2 & ->); [apply I; cbn; auto|].
    assert (AB : a <= b) by (apply (ascending_cells _ _ _ A); rewrite cells_cons; now left).
    assert (Mab : monotone_on f a b) by (apply M; rewrite cells_cons; now left).
    inversion A as [|? ? A' FA]; subst.
    assert (B2 : ascending (b :: y2)) by (eapply ssorted_app_r; exact B).
    assert (B1 : ascending (y1 ++ [b])).
    { apply (ssorted_app_l _ _ y2). rewrite <- app_assoc. exact B. }
    assert (F1 : first (y1 ++ [b]) = a).
    { unfold first in *. cbn [hd] in *. destruct y1; exact H1. }
    assert (F2 : final (y1 ++ [b]) = b) by (rewrite final_app; reflexivity).
    assert (In1 : forall t, In t (y1 ++ [b]) -> Rmin (f a) (f b) <= f t <= Rmax (f a) (f b)).
    { intros t T. apply monotone_bounds; [exact Mab|]. split.
      - rewrite <- F1. destruct (y1 ++ [b]) as [|c l] eqn:E; [destruct T|]. apply (first_le c l t B1 T).
      - rewrite <- F2. apply ascending_final; assumption. }
    destruct (IH (b :: y2)) as [IL IU]; [discriminate|exact A'|exact B2| | | |intros; apply M; rewrite cells_cons; now right|].
    + intros t T. assert (T' : In t (y1 ++ b :: y2)) by (apply I; now right).
      apply in_app_or in T'. destruct T' as [T'|T']; [|exact T'].
      assert (t <= b). { rewrite <- F2. apply ascending_final; [exact B1|]. apply in_or_app; now left. }
      pose proof (first_le _ _ _ A' T). left. lra.
    + reflexivity.
    + rewrite final_app in H2. rewrite H2. reflexivity.
    + rewrite (lower_split f y1 b y2), (upper_split f y1 b y2), lower_cons, upper_cons.
      pose proof (lower_ge f (Rmin (f a) (f b)) _ B1 (fun t T => proj1 (In1 t T))) as L1.
      pose proof (upper_le f (Rmax (f a) (f b)) _ B1 (fun t T => proj2 (In1 t T))) as U1.
      rewrite F1, F2 in L1, U1. lra.
Qed.

Lemma darboux_refine f x y : x <> [] -> ascending x -> ascending y -> incl x y -> first y = first x -> final y = final x ->
  (forall a b, In (a, b) (cells x) -> monotone_on f a b) ->
  exists L d L' d', darboux (vectorized f) x = Ok (L, d) /\ darboux (vectorized f) y = Ok (L', d') /\
    L <= L' /\ L' + d' <= L + d /\ d' <= d.
Proof.
  intros N A B I H1 H2 M. destruct (refine f x y N A B I H1 H2 M) as [HL HU].
  assert (y <> []). { intros ->. destruct x; [contradiction|]. apply (I r). now left. }
  exists (lower f x), (upper f x - lower f x), (lower f y), (upper f y - lower f y).
  rewrite !darboux_ascending by assumption. repeat split; lra.
Qed.

(** Convergence *)
Definition oscillates (f : R -> R) (x : list R) (e : R) : Prop :=
  forall a b, In (a, b) (cells x) -> forall s t, a <= s <= b -> a <= t <= b -> Rabs (f s - f t) <= e.

Lemma cell_close f a b e : a <= b -> ex_RInt f a b ->
  (forall s t, a <= s <= b -> a <= t <= b -> Rabs (f s - f t) <= e) ->
  Rabs (RInt f a b - Rmin (f a) (f b) * (b - a)) <= e * (b - a).
Proof.
  intros H E O.
  assert (K : forall c, RInt (fun _ => c) a b = c * (b - a)).
  { intros; apply RInt_const_R. }
  assert (Hm : exists u, a <= u <= b /\ Rmin (f a) (f b) = f u).
  { unfold Rmin. destruct (Rle_dec (f a) (f b)); [exists a|exists b]; split; lra. }
  destruct Hm as (u & Hu & ->).
  assert (L : RInt (fun _ => f u - e) a b <= RInt f a b).
  { apply RInt_le; [exact H|apply ex_RInt_const|exact E|]. intros t T. specialize (O u t Hu ltac:(lra)). apply Rabs_le_between in O. lra. }
  assert (U : RInt f a b <= RInt (fun _ => f u + e) a b).
  { apply RInt_le; [exact H|exact E|apply ex_RInt_const|]. intros t T. specialize (O u t Hu ltac:(lra)). apply Rabs_le_between in O. lra. }
  rewrite K in L, U. apply Rabs_le_between. lra.
Qed.

Lemma sums_close f x e : x <> [] -> ascending x -> ex_RInt f (first x) (final x) -> oscillates f x e ->
  Rabs (RInt f (first x) (final x) - lower f x) <= e * (final x - first x) /\
  upper f x - lower f x <= e * (final x - first x).
Proof.
  intros N. induction x as [|a x IH]; intros A E O; [contradiction|]. destruct x as [|b x].
  { unfold lower, upper, first, final. simpl. rewrite RInt_point_R. rewrite !Rminus_diag_eq by reflexivity. rewrite Rabs_R0. lra. }
  assert (AB : a <= b) by (apply (ascending_cells _ _ _ A); rewrite cells_cons; now left).
  inversion A as [|? ? A' FA]; subst. pose proof (ascending_first_final _ _ A') as BF.
  unfold first in *. cbn [hd] in *. rewrite final_cons in *.
  assert (E1 : ex_RInt f a b) by (apply ex_RInt_left with (final (b :: x)); auto).
  assert (E2 : ex_RInt f b (final (b :: x))) by (apply ex_RInt_right with a; auto).
  destruct IH as [I1 I2]; [discriminate|exact A'|exact E2|intros u v UV; apply O; rewrite cells_cons; now right|].
  assert (O1 : forall s t, a <= s <= b -> a <= t <= b -> Rabs (f s - f t) <= e) by (apply O; rewrite cells_cons; now left).
  pose proof (cell_close f a b e AB E1 O1) as C.
  pose proof (O1 b a ltac:(lra) ltac:(lra)) as D. rewrite <- Rmax_minus_Rmin in D.
  rewrite lower_cons, upper_cons. pose proof (RInt_join f a b (final (b :: x)) E1 E2) as Ch.
  apply Rabs_le_between in I1. apply Rabs_le_between in C. split; [apply Rabs_le_between|]; nra.
Qed.

Lemma cell_within x a b : ascending x -> In (a, b) (cells x) -> first x <= a /\ b <= final x.
Proof.
  intros A I. unfold cells in I. pose proof (in_combine_l _ _ _ _ I) as I1. pose proof (in_combine_r _ _ _ _ I) as I2.
  split.
  - destruct x as [|c l]; [destruct I1|]. apply (first_le c l a A I1).
  - apply ascending_final; [exact A|]. destruct x; [destruct I2|now right].
Qed.

Lemma darboux_close f x e : x <> [] -> ascending x -> ex_RInt f (first x) (final x) -> oscillates f x e ->
  exists L d, darboux (vectorized f) x = Ok (L, d) /\
    Rabs (L - RInt f (first x) (final x)) <= e * (final x - first x) /\ d <= e * (final x - first x).
Proof.
  intros N A E O. destruct (sums_close f x e N A E O) as [H1 H2].
  exists (lower f x), (upper f x - lower f x). rewrite darboux_ascending by assumption.
  split; [reflexivity|]. split; [|exact H2]. rewrite Rabs_minus_sym. exact H1.
Qed.

Lemma clip_lip a b t z : a <= b -> Rabs (Rmax a (Rmin b t) - Rmax a (Rmin b z)) <= Rabs (t - z).
Proof.
  intros H.
  assert (M : forall u v, Rabs (Rmin b u - Rmin b v) <= Rabs (u - v)).
  { intros u v. unfold Rmin, Rabs. destruct (Rle_dec b u), (Rle_dec b v), (Rcase_abs (u - v));
      repeat match goal with |- context [Rcase_abs ?c] => destruct (Rcase_abs c) end; lra. }
  eapply Rle_trans; [|apply M]. generalize (Rmin b t) (Rmin b z). intros u v.
  unfold Rmax, Rabs. destruct (Rle_dec a u), (Rle_dec a v), (Rcase_abs (u - v));
    repeat match goal with |- context [Rcase_abs ?c] => destruct (Rcase_abs c) end; lra.
Qed.

Lemma darboux_lipschitz f x K h : x <> [] -> ascending x -> 0 <= K ->
  (forall s t, first x <= s <= final x -> first x <= t <= final x -> Rabs (f s - f t) <= K * Rabs (s - t)) ->
  (forall a b, In (a, b) (cells x) -> b - a <= h) ->
  ex_RInt f (first x) (final x) /\
  exists L d, darboux (vectorized f) x = Ok (L, d) /\
    Rabs (L - RInt f (first x) (final x)) <= K * h * (final x - first x) /\ d <= K * h * (final x - first x).
Proof.
  intros N A HK Lip Hh.
  assert (FF : first x <= final x). { destruct x as [|c l]; [contradiction|]. apply (ascending_first_final c l A). }
  assert (E : ex_RInt f (first x) (final x)).
  { apply (ex_RInt_ext (fun t => f (Rmax (first x) (Rmin (final x) t)))).
    { rewrite Rmin_left, Rmax_right by exact FF. intros t T. rewrite Rmin_right by lra. rewrite Rmax_right by lra. reflexivity. }
    apply (ex_RInt_continuous (V := R_CompleteNormedModule)). intros z _.
    apply continuity_pt_filterlim. intros eps Heps.
    exists (eps / (K + 1)). split; [apply Rdiv_lt_0_compat; lra|].
    intros t [_ T]. cbn in T |- *. unfold R_dist in *.
    assert (Q : forall u, first x <= Rmax (first x) (Rmin (final x) u) <= final x).
    { intros u. split; [apply Rmax_l|]. apply Rmax_lub; [exact FF|apply Rmin_l]. }
    eapply Rle_lt_trans; [apply Lip; apply Q|].
    assert (Rabs (Rmax (first x) (Rmin (final x) t) - Rmax (first x) (Rmin (final x) z)) <= Rabs (t - z)).
    { apply clip_lip. exact FF. }
    apply (Rmult_lt_compat_l (K + 1)) in T; [|lra]. replace ((K + 1) * (eps / (K + 1))) with eps in T by (field; lra).
    pose proof (Rabs_pos (t - z)). nra. }
  split; [exact E|]. apply darboux_close; [exact N|exact A|exact E|].
  intros a b I s t Hs Ht. destruct (cell_within x a b A I) as [H1 H2]. specialize (Hh a b I).
  eapply Rle_trans; [apply Lip; lra|]. apply Rmult_le_compat_l; [exact HK|]. apply Rabs_le_between. lra.
Qed.

Lemma darboux_converges f a b eps : a <= b -> (forall t, a <= t <= b -> continuity_pt f t) -> 0 < eps ->
  exists h, 0 < h /\ forall x, x <> [] -> ascending x -> first x = a -> final x = b ->
    (forall u v, In (u, v) (cells x) -> v - u < h) ->
    exists L d, darboux (vectorized f) x = Ok (L, d) /\ Rabs (L - RInt f a b) <= eps /\ d <= eps.
Proof.
  intros H C He.
  assert (Hp : 0 < eps / (b - a + 1)) by (apply Rdiv_lt_0_compat; lra).
  destruct (Heine_cor2 C (mkposreal _ Hp)) as [h Hh]. exists h. split; [apply cond_pos|].
  intros x N A H1 H2 Hc.
  destruct (darboux_close f x (eps / (b - a + 1)) N A) as (L & d & E & B1 & B2).
  - rewrite H1, H2. apply (ex_RInt_continuous (V := R_CompleteNormedModule)). intros z Hz. rewrite Rmin_left, Rmax_right in Hz by exact H.
    apply continuity_pt_filterlim, C, Hz.
  - intros u v I s t Hs Ht. destruct (cell_within x u v A I) as [W1 W2]. rewrite H1 in W1. rewrite H2 in W2.
    left. apply Hh; [lra|lra|]. specialize (Hc u v I). apply Rabs_lt_between. lra.
  - exists L, d. split; [exact E|]. rewrite H1, H2 in *.
    assert (eps / (b - a + 1) * (b - a) <= eps).
    { apply Rle_trans with (eps / (b - a + 1) * (b - a + 1)); [apply Rmult_le_compat_l; lra|]. right. field. lra. }
    lra.
Qed.

Lemma cells_nth {A} (l : list A) d p : In p (cells l) -> exists i, (S i < length l)%nat /\ p = (nth i l d, nth (S i) l d).
Proof.
  induction l as [|a l IH]; intros I; [destruct I|]. destruct l as [|b l]; [destruct I|].
  rewrite cells_cons in I. destruct I as [<-|I].
  - exists 0%nat. split; [cbn; lia|reflexivity].
  - destruct (IH I) as (i & Hi & ->). exists (S i). split; [cbn in *; lia|reflexivity].
Qed.
Lemma strict_ascending l : strictly_ascending l -> ascending l.
Proof.
  induction 1 as [|a l S IH F]; constructor; auto. eapply Forall_impl; [|exact F]. intros; now apply Rlt_le.
Qed.

Lemma energy_grid_converges f a b eps : a < b -> (forall t, a <= t <= b -> continuity_pt f t) -> 0 < eps ->
  exists N, forall n, (N <= n)%Z -> exists g L d, equidistant_energy_grid (Limits a b) n = Ok g /\
    darboux (vectorized f) g = Ok (L, d) /\ Rabs (L - RInt f a b) <= eps /\ d <= eps.
Proof.
  intros H C He. destruct (darboux_converges f a b eps ltac:(lra) C He) as (h & Hh & K).
  exists (Z.max 2 (up ((b - a) / h) + 2)). intros n Hn.
  destruct (linspace_grid a b n ltac:(lia)) as (g & E & Len & F1 & F2 & St & As & _).
  exists g. destruct (K g) as (L & d & D & B); [|exact (strict_ascending g (As H))|exact F1|exact F2| |exists L, d; exact (conj E (conj D B))].
  - intros ->. cbn in Len. lia.
  - intros u v I. destruct (cells_nth g 0 (u, v) I) as (i & Hi & Ei). injection Ei as -> ->. rewrite (St i Hi).
    destruct (archimed ((b - a) / h)) as [Ar _].
    assert (Q : (b - a) / h < IZR (n - 1)). { eapply Rlt_le_trans; [exact Ar|]. apply IZR_le. lia. }
    assert (P0 : 0 < (b - a) / h) by (apply Rdiv_lt_0_compat; lra).
    assert (P1 : 0 < IZR (n - 1)) by lra.
    apply (Rmult_lt_compat_r h) in Q; [|exact Hh]. unfold Rdiv in Q at 1. rewrite Rmult_assoc, Rinv_l, Rmult_1_r in Q by lra.
    apply (Rmult_lt_reg_r (IZR (n - 1))); [lra|]. unfold Rdiv. rewrite Rmult_assoc, Rinv_l, Rmult_1_r by lra. lra.
Qed.

(** The same for a cross section object. *)
Lemma darboux_of_value v f x : x <> [] -> constants_only v = false -> (forall E, In E x -> call v E = Ok (f E)) ->
  darboux (of_value v) x = darboux (vectorized f) x.
Proof.
  intros N C H. destruct (darboux_value v x N) as [_ K]; [intros E HE; eexists; now apply H|].
  destruct (K C) as (g & Hg & ->). unfold darboux, vectorized. cbn [bind].
  replace (map g x) with (map f x); [reflexivity|]. apply map_ext_in. intros E HE.
  specialize (Hg E HE). rewrite H in Hg by exact HE. now injection Hg.
Qed.
Lemma cross_section_converges v f a b eps : constants_only v = false ->
  (forall E, a <= E <= b -> call v E = Ok (f E)) -> a < b -> (forall t, a <= t <= b -> continuity_pt f t) -> 0 < eps ->
  exists N, forall n, (N <= n)%Z -> exists g L d, equidistant_energy_grid (Limits a b) n = Ok g /\
    darboux (of_value v) g = Ok (L, d) /\ Rabs (L - RInt f a b) <= eps /\ d <= eps.
Proof.
  intros C H Hab Hc He. destruct (energy_grid_converges f a b eps Hab Hc He) as [N K]. exists (Z.max N 2). intros n Hn.
  destruct (K n ltac:(lia)) as (g & L & d & E & D & B). exists g, L, d. split; [exact E|]. split; [|exact B].
  destruct (linspace_grid a b n ltac:(lia)) as (g' & E' & Len & F1 & F2 & _ & As & _).
  change (linspace a b n = Ok g) in E. rewrite E in E'. injection E' as <-. pose proof (strict_ascending g (As Hab)) as A.
  rewrite (darboux_of_value v f g); [exact D| |exact C|].
  - intros ->. cbn in Len. lia.
  - intros t T. apply H. split; [|rewrite <- F2; now apply ascending_final].
    rewrite <- F1. destruct g as [|x g]; [destruct T|]. apply (first_le x g t A T).
Qed.
