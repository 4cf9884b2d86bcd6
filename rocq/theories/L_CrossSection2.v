From Coq Require Import Reals List ZArith Bool Lia Lra Sorted.
From Coquelicot Require Import Rbar.
From Verif Require Import Py M_Num M_Grid M_CrossSection S_CrossSection L_CrossSection L_Grid.
Import ListNotations.
Open Scope R_scope.

(** ** Calls with arrays *)
Lemma traverse_spec {A B} (f : A -> out B) l m : traverse f l = Ok m <-> Forall2 (fun a b => f a = Ok b) l m.
Proof.
  unfold traverse. revert m; induction l; simpl; intros m.
  - split; intros H. inversion H; constructor. inversion H; auto.
  - split.
    + destruct (f a) eqn:E; simpl; try discriminate.
      destruct (sequence (map f l)) eqn:F; simpl; try discriminate.
      intros H; inversion H; subst. constructor; auto. now apply IHl.
    + intros H; inversion H; subst. rewrite H2; simpl. apply IHl in H4. now rewrite H4.
Qed.

Definition loop_arr ss Es :=
  (fix loop (rs : list value) (i : nat) (acc : pyval) : out pyval :=
         match rs with
         | [] => Ok acc
         | r :: rs' =>
             let! s := get ss i in
             let! y := call_arr r Es in
             let! acc' := iadd acc (vscale s y) in
             loop rs' (S i) acc'
         end).
Lemma call_arr_loop rs ss Es : call_arr (VSum rs ss) Es = loop_arr ss Es rs 0%nat (Scalar 0).
Proof. reflexivity. Qed.

(** Result [x] represents the function [f] on the energies. *)
Definition repr (Es : list R) (x : pyval) (f : R -> out R) : Prop :=
  match x with Scalar a => forall E, In E Es -> f E = Ok a
             | Array l => Forall2 (fun E y => f E = Ok y) Es l end.

Lemma repr_add Es x y f g : repr Es x f -> repr Es y g ->
  exists z, iadd x y = Ok z /\ repr Es z (fun E => oadd (f E) (g E)) /\
   ((exists a, z = Scalar a) <-> (exists a, x = Scalar a) /\ (exists a, y = Scalar a)).
Proof.
  intros Hx Hy. destruct x as [a|l], y as [b|m]; simpl in *.
  - eexists; split; [reflexivity|]; split; simpl.
    + intros; rewrite Hx, Hy; auto.
    + split; eauto.
  - eexists; split; [reflexivity|]; split; simpl.
    + clear - Hx Hy. induction Hy; simpl; constructor; auto.
      rewrite Hx, H; simpl; auto. apply IHHy. intros; apply Hx; simpl; auto.
    + split. intros []; discriminate. intros [_ []]; discriminate.
  - eexists; split; [reflexivity|]; split; simpl.
    + clear - Hx Hy. induction Hx; simpl; constructor; auto.
      rewrite H, Hy; simpl; auto. apply IHHx. intros; apply Hy; simpl; auto.
    + split. intros []; discriminate. intros [[] _]; discriminate.
  - assert (L : length l = length m).
    { rewrite <- (Forall2_length _ _ _ Hx). now apply Forall2_length in Hy. }
    rewrite L, Nat.eqb_refl. eexists; split; [reflexivity|]; split; simpl.
    + clear - Hx Hy. revert m Hy; induction Hx; intros m Hy; inversion Hy; subst; simpl; constructor; auto.
      rewrite H, H2; auto.
    + split. intros []; discriminate. intros [[] _]; discriminate.
Qed.

Lemma repr_scale Es x f c : repr Es x f -> repr Es (vscale c x) (fun E => oscale c (f E)).
Proof.
  destruct x; simpl; intros H.
  - intros; rewrite H; auto.
  - induction H; simpl; constructor; auto. rewrite H; auto.
Qed.

Lemma repr_ext Es x f g : (forall E, In E Es -> f E = g E) -> repr Es x f -> repr Es x g.
Proof.
  destruct x; simpl; intros H K.
  - intros. rewrite <- H; auto.
  - revert H; induction K; constructor. rewrite <- H0; simpl; auto. apply IHK. intros; apply H0; simpl; auto.
Qed.

(** Where calls with numbers return numbers, calls with arrays return the same numbers. *)
Lemma call_arr_spec v Es : Es <> [] -> (forall E, In E Es -> exists r, call v E = Ok r) ->
  exists x, call_arr v Es = Ok x /\ repr Es x (call v) /\
            ((exists a, x = Scalar a) <-> constants_only v = true).
Proof.
  intros Ne. induction v using value_ind'; intros Hok.
  - destruct Es as [|E ?]; [congruence|]. destruct (Hok E) as [? K]; simpl; auto. discriminate.
  - destruct Es as [|E ?]; [congruence|]. destruct (Hok E) as [? K]; simpl; auto. discriminate.
  - assert (exists l, Forall2 (fun E y => l_call c E = Ok y) Es l) as [l Hl].
    { clear Ne. induction Es. exists []; constructor.
      destruct (Hok a) as [r Hr]; simpl; auto. destruct IHEs as [l Hl]. intros; apply Hok; simpl; auto.
      exists (r :: l); constructor; auto. }
    exists (Array l). simpl. rewrite (proj2 (traverse_spec _ _ _) Hl). split; auto. split; auto.
    split. intros []; discriminate. discriminate.
  - exists (Scalar r). simpl. split; auto. split; auto. split; eauto.
  - rewrite call_arr_loop.
    assert (L : (length rs <= length ss)%nat \/ (length ss < length rs)%nat) by lia.
    assert (Gen : forall rs i acc f,
      List.Forall (fun v => (forall E, In E Es -> exists r, call v E = Ok r) ->
         exists x, call_arr v Es = Ok x /\ repr Es x (call v) /\
            ((exists a, x = Scalar a) <-> constants_only v = true)) rs ->
      repr Es acc f ->
      (forall E, In E Es -> exists r, loop ss E rs i (f E) = Ok r) ->
      exists x, loop_arr ss Es rs i acc = Ok x /\ repr Es x (fun E => loop ss E rs i (f E)) /\
        ((exists a, x = Scalar a) <-> (exists a, acc = Scalar a) /\ forallb constants_only rs = true)).
    { clear L Hok rs H. induction rs; intros i acc f HF Hacc Hok; simpl.
      - exists acc; split; auto. split; auto. tauto.
      - inversion HF as [|? ? Ha HF']; subst.
        destruct (get ss i) as [s| |e] eqn:G.
        2:{ unfold get in G; destruct (nth_error ss i); discriminate. }
        2:{ exfalso. destruct Es as [|E Es']; [congruence|]. destruct (Hok E) as [r Hr]; simpl; auto.
            simpl in Hr. rewrite G in Hr. destruct (f E); rewrite loop_raise in Hr; discriminate. }
        assert (Hf : forall E, In E Es -> exists r, f E = Ok r).
        { intros E HE. destruct (Hok E HE) as [r Hr]. simpl in Hr.
          destruct acc as [a0|l]; simpl in Hacc. rewrite Hacc; eauto.
          clear - Hacc HE. induction Hacc; simpl in HE. tauto. destruct HE as [->|HE]; eauto. }
        assert (Hnr : forall E rs i r, loop ss E rs i NaN = Ok r -> False).
        { clear. intros E rs; induction rs; simpl; intros; try discriminate.
          unfold get in H. destruct (nth_error ss i).
          - destruct (oscale r0 (call a E)) eqn:X; simpl in H; eauto.
            now rewrite loop_raise in H.
          - now rewrite loop_raise in H. }
        assert (Hca : forall E, In E Es -> exists r, call a E = Ok r).
        { intros E HE. destruct (Hok E HE) as [r Hr]. destruct (Hf E HE) as [q Hq].
          simpl in Hr. rewrite G, Hq in Hr.
          destruct (call a E); eauto; simpl in Hr.
          exfalso; eauto. now rewrite loop_raise in Hr. }
        destruct (Ha Hca) as (y & Hy & Ry & Sy). rewrite Hy. simpl.
        destruct (repr_add Es acc (vscale s y) f (fun E => oscale s (call a E))) as (z & Hz & Rz & Sz); auto.
        { now apply repr_scale. }
        rewrite Hz. simpl.
        destruct (IHrs (S i) z (fun E => oadd (f E) (oscale s (call a E))) HF' Rz) as (x & Hx & Rx & Sx).
        { intros E HE. destruct (Hok E HE) as [r Hr]. destruct (Hf E HE) as [q Hq].
          simpl in Hr. rewrite G, Hq in Hr. rewrite Hq. eauto. }
        exists x. split; auto. split.
        + eapply repr_ext; [|exact Rx]. intros E HE. simpl. destruct (Hf E HE) as [q ->]. reflexivity.
        + rewrite Sx, Sz. rewrite andb_true_iff, <- Sy.
          assert ((exists a0, vscale s y = Scalar a0) <-> (exists a0, y = Scalar a0)).
          { destruct y; simpl; split; intros []; eauto; discriminate. }
          tauto. }
    destruct (Gen rs 0%nat (Scalar 0) (fun _ => Ok 0) H) as (x & Hx & Rx & Sx).
    { simpl; auto. }
    { exact Hok. }
    exists x. split; auto. split; auto. rewrite Sx. simpl. split; eauto. tauto.
Qed.

(** ** Probability grids *)
Definition each g n := (fix each (rs : list value) : out (list (option (list Rbar))) :=
           match rs with
           | [] => Ok []
           | r :: rs' => let! x := pgrid r g n in let! y := each rs' in Ok (x :: y)
           end).

Lemma each_traverse g n rs : each g n rs = traverse (fun r => pgrid r g n) rs.
Proof. induction rs; simpl; auto. unfold traverse; simpl. rewrite IHrs. reflexivity. Qed.

Lemma pgrid_sum rs ss g n : pgrid (VSum rs ss) g n =
  let! grids := traverse (fun r => pgrid r g n) rs in
  let! grids := traverse (fun o => match o with Some l => Ok l | None => Raise TypeError end) grids in
  Ok (Some (np_unique (concat grids))).
Proof. rewrite <- each_traverse. reflexivity. Qed.

(** All members deliver a grid. *)
Definition delivers g n v l := pgrid v g n = Ok (Some l).

Lemma pgrid_sum_spec rs ss g n ls : Forall2 (delivers g n) rs ls ->
  pgrid (VSum rs ss) g n = Ok (Some (np_unique (concat ls))).
Proof.
  intros H. rewrite pgrid_sum.
  rewrite (proj2 (traverse_spec _ _ (map Some ls))).
  2:{ induction H; simpl; constructor; auto. }
  cbn [bind]. rewrite (proj2 (traverse_spec _ _ ls)). reflexivity.
  clear. induction ls; simpl; constructor; auto.
Qed.

Lemma pgrid_sum_inv rs ss g n r : pgrid (VSum rs ss) g n = Ok r ->
  exists ls, Forall2 (delivers g n) rs ls /\ r = Some (np_unique (concat ls)).
Proof.
  rewrite pgrid_sum. destruct (traverse _ rs) eqn:E; cbn [bind]; try discriminate.
  destruct (traverse _ a) eqn:F; cbn [bind]; try discriminate.
  intros H; inversion H; subst. exists a0; split; auto.
  apply traverse_spec in E. apply traverse_spec in F. clear H.
  revert a0 F; induction E; intros a0 F; inversion F; subst; constructor; auto.
  unfold delivers. rewrite H. destruct y; try discriminate. congruence.
Qed.

(** The grid of a value consists of the energies in the grids of its members. *)
Lemma pgrid_members v g n r : pgrid v g n = Ok (Some r) ->
  forall x, In x r <-> exists m l, In m (members v) /\ delivers g n m l /\ In x l.
Proof.
  revert r. induction v using value_ind'; intros r0 H0 x.
  - discriminate.
  - discriminate.
  - cbn [members]. split.
    + intros I. exists (VLeaf c), r0. simpl; auto.
    + intros (m & l & [<-|[]] & D & I). unfold delivers in D. congruence.
  - cbn [members]. split.
    + intros I. exists (VConst r), r0. simpl; auto.
    + intros (m & l & [<-|[]] & D & I). unfold delivers in D. congruence.
  - destruct (pgrid_sum_inv _ _ _ _ _ H0) as (ls & Hls & K). inversion K; subst; clear K.
    rewrite np_unique_in. cbn [members]. clear H0. revert H.
    induction Hls; intros HF; simpl.
    + split; [tauto|]. intros (m & l & [] & _).
    + inversion HF; subst. rewrite in_app_iff, IHHls by auto.
      rewrite (H2 _ H x).
      split.
      * intros [(m & q & I1 & I2 & I3)|(m & q & I1 & I2 & I3)]; exists m, q; rewrite in_app_iff; auto.
      * intros (m & q & I1 & I2 & I3). rewrite in_app_iff in I1. destruct I1; eauto 10.
Qed.

Lemma pgrid_delivers_members v g n r : pgrid v g n = Ok (Some r) ->
  forall m, In m (members v) -> exists l, delivers g n m l.
Proof.
  revert r. induction v using value_ind'; intros r0 H0 m Hm; simpl in Hm;
    try (destruct Hm as [<-|[]]; eexists; exact H0).
  destruct (pgrid_sum_inv _ _ _ _ _ H0) as (ls & Hls & _). clear H0.
  revert H Hm. induction Hls; simpl; intros HF Hm. tauto.
  inversion HF; subst. apply in_app_iff in Hm. destruct Hm; eauto.
Qed.

Lemma pgrid_ok_members v g n : (forall m, In m (members v) -> exists l, delivers g n m l) ->
  exists r, pgrid v g n = Ok (Some r).
Proof.
  induction v using value_ind'; intros Hm; try (destruct (Hm _ (or_introl eq_refl)); eauto; fail).
  assert (exists ls, Forall2 (delivers g n) rs ls) as [ls Hls].
  { revert Hm; induction H; intros Hm. exists []; constructor.
    destruct H as [r Hr]. intros; apply Hm; simpl; apply in_app_iff; auto.
    destruct IHForall as [ls Hls]. intros; apply Hm; simpl; apply in_app_iff; auto.
    exists (r :: ls); constructor; auto. }
  rewrite (pgrid_sum_spec _ _ _ _ _ Hls). eauto.
Qed.

Lemma new_sum_default rs s E : new_sum (Some rs) None = Ok s -> call s E = osum (map (fun r => call r E) rs).
Proof.
  intros H; inversion H; subst. rewrite call_sum by now rewrite repeat_length.
  f_equal. clear. induction rs; simpl; auto. now rewrite oscale_1, IHrs.
Qed.

Lemma call_short rs ss E : (length ss < length rs)%nat ->
  (forall r e, In r (firstn (length ss) rs) -> call r E <> Raise e) ->
  call (VSum rs ss) E = Raise IndexError.
Proof.
  intros. rewrite call_loop. apply loop_short; try lia. discriminate.
  intros. rewrite Nat.sub_0_r in H1. auto.
Qed.

Lemma map2_surplus {A B C} (f : A -> B -> C) l x m : (length m <= length l)%nat ->
  map2 f (l ++ x) m = map2 f l m.
Proof. revert m; induction l; destruct m; simpl; intros; auto; try lia. destruct x; auto. f_equal. apply IHl; lia. Qed.

Lemma pgrid_same_members v w g n r : pgrid v g n = Ok (Some r) ->
  (exists rs ss, v = VSum rs ss) -> (exists rs ss, w = VSum rs ss) ->
  (forall m, In m (members v) <-> In m (members w)) -> pgrid w g n = Ok (Some r).
Proof.
  intros H (rs & ss & ->) (rs' & ss' & ->) M.
  destruct (pgrid_ok_members (VSum rs' ss') g n) as [r' H'].
  { intros m Hm. apply M in Hm. eapply pgrid_delivers_members; eauto. }
  rewrite H'. f_equal. f_equal.
  destruct (pgrid_sum_inv _ _ _ _ _ H) as (ls & _ & K).
  destruct (pgrid_sum_inv _ _ _ _ _ H') as (ls' & _ & K').
  apply ssorted_ext.
  - inversion K'; apply np_unique_sorted.
  - inversion K; apply np_unique_sorted.
  - intros x. rewrite (pgrid_members _ _ _ _ H x), (pgrid_members _ _ _ _ H' x).
    split; intros (m & l & I1 & I2); exists m, l; rewrite M in *; auto.
Qed.

Lemma pgrid_sorted rs ss g n r : pgrid (VSum rs ss) g n = Ok (Some r) -> StronglySorted Rbar_lt r.
Proof.
  intros H. destruct (pgrid_sum_inv _ _ _ _ _ H) as (ls & _ & K). inversion K. apply np_unique_sorted.
Qed.

Lemma pgrid_raise rs1 m rs2 ss g n e : 
  (forall r, In r rs1 -> exists l, delivers g n r l) -> pgrid m g n = Raise e ->
  pgrid (VSum (rs1 ++ m :: rs2) ss) g n = Raise e.
Proof.
  intros H1 H2. rewrite pgrid_sum.
  assert (traverse (fun r => pgrid r g n) (rs1 ++ m :: rs2) = Raise e) as ->; auto.
  unfold traverse. induction rs1; simpl.
  - rewrite H2; auto.
  - destruct (H1 a) as [l Hl]; simpl; auto. unfold delivers in Hl. rewrite Hl. cbn [bind].
    rewrite IHrs1; auto. intros; apply H1; simpl; auto.
Qed.

Lemma linspace_grid a b n : (2 <= n)%Z -> exists l, linspace a b n = Ok l /\
  length l = Z.to_nat n /\ hd 0 l = a /\ last l 0 = b /\
  (forall i, (S i < length l)%nat -> nth (S i) l 0 - nth i l 0 = (b - a) / IZR (n - 1)) /\
  (a < b -> StronglySorted Rlt l) /\ (b < a -> StronglySorted Rgt l).
Proof.
  intros H. eexists; split; [now apply linspace_ok|].
  destruct (Z.to_nat n) as [|m] eqn:M; [lia|].
  assert (Hm : (n - 1)%Z = Z.of_nat m) by lia.
  assert (Hp : 0 < INR m) by (apply lt_0_INR; lia).
  rewrite Hm, <- INR_IZR_INZ.
  assert (Ln : length (map (fun i => a + INR i * ((b - a) / INR m)) (seq 0 (S m))) = S m)
    by now rewrite map_length, seq_length.
  split; [exact Ln|].
  split. { simpl. ring. }
  split. { rewrite last_map_seq. field. lra. }
  split. { intros i Hi. rewrite Ln in Hi. rewrite !nth_map_seq by lia. rewrite S_INR. ring. }
  split; intros K.
  - apply ssorted_map_seq. intros i j Hij. apply Rplus_lt_compat_l, Rmult_lt_compat_r.
    apply Rdiv_lt_0_compat; lra. now apply lt_INR.
  - assert (Q : forall i j, (i < j)%nat -> a + INR i * ((b - a) / INR m) > a + INR j * ((b - a) / INR m)).
    { intros i j Hij. apply lt_INR in Hij.
      assert (0 < (a - b) / INR m) by (apply Rdiv_lt_0_compat; lra).
      replace ((b - a) / INR m) with (- ((a - b) / INR m)) by (field; lra).
      apply Rplus_gt_compat_l. nra. }
    clear - Q. generalize 0%nat as k. generalize (S m) as q. induction q; intros k; simpl; constructor; auto.
    apply Forall_forall. intros x Hx. apply in_map_iff in Hx. destruct Hx as (j & <- & Hj).
    apply in_seq in Hj. apply Q; lia.
Qed.

Lemma reorder e e' v v' E :
  well_formed e = true -> well_formed e' = true -> run e = Ok v -> run e' = Ok v' ->
  Permutation.Permutation (map (fun t => oscale (fst t) (snd t E)) (combination e))
              (map (fun t => oscale (fst t) (snd t E)) (combination e')) ->
  (forall t x, In t (combination e) -> snd t E <> Raise x) ->
  at_energy v E = at_energy v' E.
Proof.
  intros W W' R R' P N.
  destruct (expr_good e W) as (w & Rw & _ & _ & _ & D). destruct (expr_good e' W') as (w' & Rw' & _ & _ & _ & D').
  rewrite R in Rw; inversion Rw; subst. rewrite R' in Rw'; inversion Rw'; subst.
  rewrite D, D', !denote_combination. apply osum_perm; auto.
  apply Forall_forall. intros x Hx k ->. apply in_map_iff in Hx. destruct Hx as (t & Ht & I).
  specialize (N t k I). destruct (snd t E); simpl in Ht; congruence.
Qed.

Lemma weights rs ss surplus s : length rs = length ss ->
  new_sum (Some rs) (Some (ss ++ surplus)) = Ok s ->
  forall E, call s E = osum (map2 (fun w r => oscale w (call r E)) ss rs).
Proof.
  intros L H E. inversion H; subst. rewrite call_sum by (rewrite app_length; lia).
  rewrite map2_surplus; auto. lia.
Qed.

Lemma missing_weights rs ss s E : (length ss < length rs)%nat ->
  new_sum (Some rs) (Some ss) = Ok s ->
  (forall r e, In r (firstn (length ss) rs) -> call r E <> Raise e) ->
  call s E = Raise IndexError.
Proof. intros L H N. inversion H; subst. now apply call_short. Qed.

Lemma grid_returns rs ss g n :
  (exists r, pgrid (VSum rs ss) g n = Ok r) <->
  (forall m, In m (members (VSum rs ss)) -> exists l, pgrid m g n = Ok (Some l)).
Proof.
  split.
  - intros [r H] m Hm. destruct (pgrid_sum_inv _ _ _ _ _ H) as (ls & _ & ->).
    eapply pgrid_delivers_members; eauto.
  - intros H. destruct (pgrid_ok_members (VSum rs ss) g n H) as [r Hr]. eauto.
Qed.

Lemma grid_invariant rs ss rs' ss' g n r :
  (forall m, In m (members (VSum rs ss)) <-> In m (members (VSum rs' ss'))) ->
  pgrid (VSum rs ss) g n = Ok (Some r) -> pgrid (VSum rs' ss') g n = Ok (Some r).
Proof. intros M H. eapply pgrid_same_members; eauto. Qed.

Lemma foreign rs ss c r E : (length rs <= length ss)%nat ->
  py_add (VSum rs ss) (VOther r) = Raise AttributeError /\
  (forall v, (v = VLeaf c \/ v = VConst r) -> exists s, py_add v (VOther r) = Ok s /\
     ((forall e, call v E <> Raise e) -> call s E = Raise TypeError)).
Proof.
  intros L. split.
  - simpl. unfold ws_add. now rewrite copy_ok.
  - intros v [->| ->]; eexists (VSum [_; _] [1; 1]); (split; [reflexivity|]); intros N; rewrite call_pair.
    + simpl in *. destruct (l_call c E) eqn:X; simpl; auto.
      exfalso; eapply N; reflexivity.
    + reflexivity.
Qed.

Lemma union_example_lin : linspace 0 1 2 = Ok [0; 1].
Proof. rewrite linspace_ok by lia. simpl. f_equal. repeat f_equal; field. Qed.

Lemma union_example (c1 c2 : leaf) : (forall g n, l_pgrid c1 g n = Ok (Some [Finite 1; Finite 3])) ->
  (forall g n, l_pgrid c2 g n = Ok (Some [Finite 2; p_infty])) ->
  exists r, pgrid (VSum [VLeaf c1; VSum [VLeaf c2; VConst 1] [1; 1]] [1; 0]) (Limits 0 1) 2 = Ok (Some r)
  /\ length r = 5%nat /\ In p_infty r.
Proof.
  intros H1 H2. cbn -[np_unique linspace]. rewrite H1, H2. unfold constant_probability_grid.
  rewrite union_example_lin. cbn -[np_unique].
  eexists; split; [reflexivity|].
  unfold np_unique; simpl.
  repeat (match goal with |- context [Rbar_lt_dec ?x ?y] => destruct (Rbar_lt_dec x y); simpl in *; try lra; try tauto
     | |- context [Rbar_eq_dec ?x ?y] => let Q := fresh "Q" in destruct (Rbar_eq_dec x y) as [Q|Q]; simpl in *; try discriminate Q; try (inversion Q; lra); try (exfalso; apply Q; reflexivity) end).
  all: split; simpl; auto 10.
Qed.

Lemma expr_linear e : well_formed e = true ->
  exists v, run e = Ok v /\
  forall E, at_energy v E = osum (map (fun t => oscale (fst t) (snd t E)) (combination e)).
Proof.
  intros W. destruct (expr_good e W) as (v & R & _ & _ & _ & D). exists v; split; auto.
  intros; rewrite D. apply denote_combination.
Qed.
Lemma expr_pointwise e : well_formed e = true ->
  exists v, run e = Ok v /\ forall E, at_energy v E = denote e E.
Proof. intros W. destruct (expr_good e W) as (v & R & _ & _ & _ & D). exists v; split; auto. Qed.
Lemma builtin_sum l : Forall (fun v => ~ is_foreign v /\ enough_factors v) l ->
  exists s, py_sum l = Ok s /\ forall E, at_energy s E = osum (map (fun v => at_energy v E) l).
Proof. intros W. destruct (py_sum_call l W) as (v & R & _ & _ & _ & D). exists v; split; auto. Qed.
