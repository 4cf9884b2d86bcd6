From Coq Require Import Reals List ZArith Bool Lia Lra Permutation.
From Coquelicot Require Import Rbar.
From Verif Require Import Py M_Num M_Grid M_CrossSection S_CrossSection.
Import ListNotations.
Open Scope R_scope.

(** Induction over nested values and expressions. *)
Section value_ind'.
  Variable P : value -> Prop.
  Hypothesis Hn : forall r, P (VNum r).
  Hypothesis Ho : forall r, P (VOther r).
  Hypothesis Hl : forall c, P (VLeaf c).
  Hypothesis Hc : forall r, P (VConst r).
  Hypothesis Hs : forall rs ss, Forall P rs -> P (VSum rs ss).
  Fixpoint value_ind' (v : value) : P v :=
    match v with
    | VNum r => Hn r | VOther r => Ho r | VLeaf c => Hl c | VConst r => Hc r
    | VSum rs ss => Hs rs ss
        ((fix go rs : Forall P rs :=
            match rs with [] => Forall_nil _ | r :: rs' => Forall_cons _ (value_ind' r) (go rs') end) rs)
    end.
End value_ind'.

Section expr_ind'.
  Variable P : expr -> Prop.
  Hypothesis H1 : forall r, P (ENum r).
  Hypothesis H2 : forall c, P (EAtom c).
  Hypothesis H3 : forall r, P (EConst r).
  Hypothesis H4 : forall a b, P a -> P b -> P (EAdd a b).
  Hypothesis H5 : forall a c, P a -> P (EMul a c).
  Hypothesis H6 : forall c a, P a -> P (ERMul c a).
  Hypothesis H7 : forall l, Forall P l -> P (ESum l).
  Hypothesis H8 : forall l ss, Forall P l -> P (EWeighted l ss).
  Fixpoint expr_ind' (e : expr) : P e :=
    let go := fix go l : Forall P l :=
      match l with [] => Forall_nil _ | x :: r => Forall_cons _ (expr_ind' x) (go r) end in
    match e with
    | ENum r => H1 r | EAtom c => H2 c | EConst r => H3 r
    | EAdd a b => H4 a b (expr_ind' a) (expr_ind' b)
    | EMul a c => H5 a c (expr_ind' a)
    | ERMul c a => H6 c a (expr_ind' a)
    | ESum l => H7 l (go l)
    | EWeighted l ss => H8 l ss (go l)
    end.
End expr_ind'.

Arguments oadd !x !y /.
Arguments oscale c !x /.
(** Outcomes with addition form a monoid. *)
Lemma oadd_0_l x : oadd (Ok 0) x = x.
Proof. destruct x; simpl; auto. now rewrite Rplus_0_l. Qed.
Lemma oadd_0_r x : oadd x (Ok 0) = x.
Proof. destruct x; simpl; auto. now rewrite Rplus_0_r. Qed.
Lemma oadd_assoc x y z : oadd (oadd x y) z = oadd x (oadd y z).
Proof. destruct x, y, z; simpl; auto. now rewrite Rplus_assoc. Qed.
Lemma oadd_comm_ok r x : oadd (Ok r) x = oadd x (Ok r).
Proof. destruct x; simpl; auto. now rewrite Rplus_comm. Qed.
Lemma oscale_1 x : oscale 1 x = x.
Proof. destruct x; simpl; auto. now rewrite Rmult_1_l. Qed.
Lemma oscale_oscale a b x : oscale a (oscale b x) = oscale (a * b) x.
Proof. destruct x; simpl; auto. now rewrite Rmult_assoc. Qed.
Lemma oscale_oadd c x y : oscale c (oadd x y) = oadd (oscale c x) (oscale c y).
Proof. destruct x, y; simpl; auto. now rewrite Rmult_plus_distr_l. Qed.
Lemma oscale_0 c : oscale c (Ok 0) = Ok 0.
Proof. simpl; now rewrite Rmult_0_r. Qed.

Lemma osum_app l m : osum (l ++ m) = oadd (osum l) (osum m).
Proof. induction l; simpl. now rewrite oadd_0_l. rewrite IHl. now rewrite oadd_assoc. Qed.
Lemma osum_scale c l : oscale c (osum l) = osum (map (oscale c) l).
Proof. induction l; simpl. apply f_equal, Rmult_0_r. rewrite <- IHl. apply oscale_oadd. Qed.

(** The loop of __call__. *)
Definition loop ss E := fix loop (rs : list value) (i : nat) (acc : out R) : out R :=
         match rs with
         | [] => acc
         | r :: rs' =>
             loop rs' (S i)
               (match acc with
                | Raise e => Raise e
                | _ => match get ss i with
                       | Ok s => oadd acc (oscale s (call r E))
                       | NaN => NaN
                       | Raise e => Raise e
                       end
                end)
         end.
Lemma call_loop rs ss E : call (VSum rs ss) E = loop ss E rs 0%nat (Ok 0).
Proof. reflexivity. Qed.

Lemma loop_fold ss E rs i acc :
  loop ss E rs i acc =
  fold_left (sum_step (fun v => call v E) ss) (combine (seq i (length rs)) rs) acc.
Proof.
  revert i acc; induction rs; intros; simpl; auto.
Qed.

(** The structural loop of [call] is the loop over [enumerate(self.reactions)]. *)
Lemma call_VSum rs ss E :
  call (VSum rs ss) E = fold_left (sum_step (fun v => call v E) ss) (enumerate rs) (Ok 0).
Proof. rewrite call_loop. apply loop_fold. Qed.

Lemma loop_raise ss E rs i e : loop ss E rs i (Raise e) = Raise e.
Proof. revert i; induction rs; simpl; auto. Qed.

Lemma loop_sum ss E rs i acc : (length rs + i <= length ss)%nat ->
  loop ss E rs i acc = oadd acc (osum (map2 (fun s x => oscale s (call x E)) (skipn i ss) rs)).
Proof.
  revert i acc; induction rs; intros i acc H; simpl in *.
  - destruct (skipn i ss); simpl; now rewrite oadd_0_r.
  - destruct (nth_error ss i) eqn:N.
    2:{ apply nth_error_None in N; lia. }
    assert (K : skipn i ss = r :: skipn (S i) ss).
    { clear - N. revert i N; induction ss; destruct i; simpl; intros; try discriminate.
      inversion N; subst; auto. now rewrite (IHss _ N). }
    rewrite K; simpl. unfold get; rewrite N. rewrite IHrs by lia.
    rewrite <- oadd_assoc. destruct acc; auto.
Qed.

Lemma call_sum rs ss E : (length rs <= length ss)%nat ->
  call (VSum rs ss) E = osum (map2 (fun s x => oscale s (call x E)) ss rs).
Proof. intros; rewrite call_loop, loop_sum by lia. simpl skipn. apply oadd_0_l. Qed.

Lemma loop_short ss E rs i acc : (length ss < length rs + i)%nat -> (i <= length ss)%nat ->
  (forall e, acc <> Raise e) ->
  (forall r e, In r (firstn (length ss - i) rs) -> call r E <> Raise e) ->
  loop ss E rs i acc = Raise IndexError.
Proof.
  revert i acc; induction rs; intros i acc H Hi Ha Hr; simpl in *. lia.
  destruct (nth_error ss i) eqn:N.
  - assert (i < length ss)%nat by (apply nth_error_Some; congruence).
    replace (length ss - i)%nat with (S (length ss - S i)) in Hr by lia. simpl in Hr.
    unfold get; rewrite N.
    assert (Q : forall e, oadd acc (oscale r (call a E)) <> Raise e).
    { intros e. specialize (Ha e). pose proof (Hr a e (or_introl eq_refl)).
      destruct acc, (call a E); simpl; try congruence; intros ?; congruence. }
    destruct acc.
    + apply (IHrs (S i)); [lia|lia|exact Q|]. intros ? ? K; apply Hr; right; exact K.
    + apply (IHrs (S i)); [lia|lia|exact Q|]. intros ? ? K; apply Hr; right; exact K.
    + exfalso; eapply Ha; reflexivity.
  - unfold get; rewrite N. destruct acc; try apply loop_raise.
    exfalso; eapply Ha; reflexivity.
Qed.

(** Copying loops. *)
Lemma copy_go (f : R -> R) rs ss i : (length rs + i <= length ss)%nat ->
  sequence (map (fun ir : nat * value => let! s := get ss (fst ir) in Ok (f s))
                (combine (seq i (length rs)) rs)) =
  Ok (map f (firstn (length rs) (skipn i ss))).
Proof.
  revert i; induction rs; intros i H; simpl in *; auto.
  destruct (nth_error ss i) eqn:N.
  2:{ apply nth_error_None in N; lia. }
  assert (K : skipn i ss = r :: skipn (S i) ss).
  { clear - N. revert i N; induction ss; destruct i; simpl; intros; try discriminate.
    inversion N; subst; auto. now rewrite (IHss _ N). }
  unfold get at 1; rewrite N; simpl. rewrite IHrs by lia. rewrite K. reflexivity.
Qed.
Lemma copy_ok f rs ss : (length rs <= length ss)%nat ->
  copy_factors f rs ss = Ok (map f (firstn (length rs) ss)).
Proof. intros. unfold copy_factors, traverse, enumerate. rewrite copy_go by lia. reflexivity. Qed.

Lemma copy_fail_go (f : R -> R) rs ss i : (length ss < length rs + i)%nat -> (i <= length ss)%nat ->
  sequence (map (fun ir : nat * value => let! s := get ss (fst ir) in Ok (f s))
                (combine (seq i (length rs)) rs)) = Raise IndexError.
Proof.
  revert i; induction rs; intros i H Hi; simpl in *. lia.
  destruct (nth_error ss i) eqn:N.
  - assert (i < length ss)%nat by (apply nth_error_Some; congruence).
    unfold get at 1; rewrite N; simpl. rewrite IHrs by lia. reflexivity.
  - unfold get at 1; rewrite N. reflexivity.
Qed.
Lemma copy_fail f rs ss : (length ss < length rs)%nat ->
  copy_factors f rs ss = Raise IndexError.
Proof. intros. unfold copy_factors, traverse, enumerate. apply copy_fail_go; lia. Qed.

Lemma copy_inv f rs ss l : copy_factors f rs ss = Ok l ->
  (length rs <= length ss)%nat /\ l = map f (firstn (length rs) ss).
Proof.
  intros H. destruct (Nat.le_gt_cases (length rs) (length ss)) as [L|L].
  - rewrite copy_ok in H by auto. now inversion H.
  - rewrite copy_fail in H by auto. discriminate.
Qed.

Lemma map2_firstn {A B C} (f : A -> B -> C) l m : map2 f (firstn (length m) l) m = map2 f l m.
Proof. revert l; induction m; destruct l; simpl; auto. f_equal; auto. Qed.
Lemma map2_app {A B C} (f : A -> B -> C) l l' m m' : length l = length m ->
  map2 f (l ++ l') (m ++ m') = map2 f l m ++ map2 f l' m'.
Proof. revert m; induction l; destruct m; simpl; intros; try discriminate; auto. f_equal; auto. Qed.
Lemma map2_map_l {A B C D} (f : A -> B -> C) (g : D -> A) l m : map2 f (map g l) m = map2 (fun a b => f (g a) b) l m.
Proof. revert m; induction l; destruct m; simpl; auto. f_equal; auto. Qed.
Lemma map2_map_r {A B C D} (f : A -> B -> C) (g : D -> B) l m : map2 f l (map g m) = map2 (fun a b => f a (g b)) l m.
Proof. revert m; induction l; destruct m; simpl; auto. f_equal; auto. Qed.
Lemma map_map2 {A B C D} (f : A -> B -> C) (g : C -> D) l m : map g (map2 f l m) = map2 (fun a b => g (f a b)) l m.
Proof. revert m; induction l; destruct m; simpl; auto. f_equal; auto. Qed.
Lemma map2_swap {A B C} (f : A -> B -> C) l m : map2 f l m = map2 (fun b a => f a b) m l.
Proof. revert m; induction l; destruct m; simpl; auto. f_equal; auto. Qed.
Lemma map2_ext {A B C} (f g : A -> B -> C) l m : (forall a b, In b m -> f a b = g a b) -> map2 f l m = map2 g l m.
Proof. revert m; induction l; destruct m; simpl; auto. intros; f_equal; auto. Qed.
Lemma map2_length {A B C} (f : A -> B -> C) l m : length (map2 f l m) = Nat.min (length l) (length m).
Proof. revert m; induction l; destruct m; simpl; auto. Qed.

Lemma call_pair a b E : call (VSum [a; b] [1; 1]) E = oadd (call a E) (call b E).
Proof. rewrite call_sum by auto. simpl. rewrite !oscale_1, oadd_0_r. reflexivity. Qed.

Lemma call_firstn rs ss E : (length rs <= length ss)%nat ->
  call (VSum rs (firstn (length rs) ss)) E = call (VSum rs ss) E.
Proof.
  intros. rewrite !call_sum; auto. now rewrite map2_firstn.
  rewrite firstn_length_le; auto.
Qed.

Lemma call_app rs ss rs' ss' E : length rs = length ss -> length rs' = length ss' ->
  call (VSum (rs ++ rs') (ss ++ ss')) E = oadd (call (VSum rs ss) E) (call (VSum rs' ss') E).
Proof.
  intros. rewrite !call_sum by (rewrite ?app_length; lia).
  rewrite map2_app by auto. apply osum_app.
Qed.

Lemma call_one a E : call (VSum [a] [1]) E = call a E.
Proof. rewrite call_sum by auto; simpl. now rewrite oscale_1, oadd_0_r. Qed.

(** ** Addition *)
Lemma ws_add_num rs ss r E s : ws_add rs ss (VNum r) = Ok s ->
  call s E = oadd (call (VSum rs ss) E) (Ok r).
Proof.
  unfold ws_add. destruct copy_factors eqn:C; cbn [bind]; try discriminate. intros X; inversion X; subst; clear X.
  apply copy_inv in C; destruct C as [L ->]. rewrite map_id.
  rewrite call_app; auto using firstn_length_le.
  rewrite call_firstn by auto. now rewrite call_one.
  symmetry; now apply firstn_length_le.
Qed.

Lemma py_add_call a b s E : ~ is_foreign a -> ~ is_foreign b ->
  ~ (is_number a /\ is_number b) ->
  py_add a b = Ok s -> call s E = oadd (at_energy a E) (at_energy b E).
Proof.
  intros Fa Fb N H.
  assert (CS : forall a, match a with VLeaf _ | VConst _ => True | _ => False end ->
           forall b s, cs_add a b = Ok s -> ~ is_foreign b ->
           call s E = oadd (call a E) (at_energy b E)).
  { intros a0 _ b0 s0 K F. destruct b0; simpl in K; inversion K; subst; simpl in F; try tauto;
      rewrite call_pair; reflexivity. }
  assert (WS : forall rs ss b s, ws_add rs ss b = Ok s -> ~ is_foreign b ->
           call s E = oadd (call (VSum rs ss) E) (at_energy b E)).
  { intros rs ss b0 s0 K F. destruct b0.
    - now apply ws_add_num.
    - simpl in F; tauto.
    - unfold ws_add in K. destruct copy_factors eqn:C; simpl in K; try discriminate.
      inversion K; subst; clear K. apply copy_inv in C; destruct C as [L ->]. rewrite map_id.
      rewrite call_app; auto.
      rewrite call_firstn by auto. now rewrite call_one.
      symmetry; now apply firstn_length_le.
    - unfold ws_add in K. destruct copy_factors eqn:C; simpl in K; try discriminate.
      inversion K; subst; clear K. apply copy_inv in C; destruct C as [L ->]. rewrite map_id.
      rewrite call_app; auto.
      rewrite call_firstn by auto. now rewrite call_one.
      symmetry; now apply firstn_length_le.
    - unfold ws_add in K. destruct copy_factors eqn:C; simpl in K; try discriminate.
      destruct (copy_factors _ rs0 ss0) eqn:C'; simpl in K; try discriminate.
      inversion K; subst; clear K.
      apply copy_inv in C; destruct C as [L ->]. apply copy_inv in C'; destruct C' as [L' ->].
      rewrite !map_id. rewrite call_app; try (symmetry; now apply firstn_length_le).
      rewrite !call_firstn by auto. reflexivity. }
  destruct a; simpl in Fa; try tauto.
  - destruct b; simpl in Fb, N; try tauto.
    + rewrite (CS (VLeaf c) I (VNum r) s H) by auto. symmetry; apply oadd_comm_ok.
    + rewrite (CS (VConst r0) I (VNum r) s H) by auto. symmetry; apply oadd_comm_ok.
    + rewrite (WS rs ss (VNum r) s H) by auto. symmetry; apply oadd_comm_ok.
  - apply (CS (VLeaf c) I b s H Fb).
  - apply (CS (VConst r) I b s H Fb).
  - apply (WS rs ss b s H Fb).
Qed.

Lemma py_add_ok a b : ~ is_foreign b -> enough_factors a -> enough_factors b ->
  exists s, py_add a b = Ok s /\ enough_factors s /\ ~ is_foreign s /\
            (is_number s <-> (is_number a \/ is_foreign a) /\ is_number b).
Proof.
  assert (WS : forall rs ss b, ~ is_foreign b -> (length rs <= length ss)%nat -> enough_factors b ->
    exists rs' ss', ws_add rs ss b = Ok (VSum rs' ss') /\ (length rs' <= length ss')%nat).
  { intros rs ss b0 F L L'. unfold ws_add. rewrite copy_ok by auto. rewrite map_id. simpl.
    assert (K : length (firstn (length rs) ss) = length rs) by now apply firstn_length_le.
    destruct b0; simpl in F; try tauto; simpl in L'.
    - do 2 eexists; split; [reflexivity|]. rewrite !app_length, K; simpl; lia.
    - do 2 eexists; split; [reflexivity|]. rewrite !app_length, K; simpl; lia.
    - do 2 eexists; split; [reflexivity|]. rewrite !app_length, K; simpl; lia.
    - rewrite copy_ok by auto. rewrite map_id. simpl.
      do 2 eexists; split; [reflexivity|]. rewrite !app_length, K.
      rewrite firstn_length_le by auto. lia. }
  intros F A B.
  destruct a; simpl.
  - destruct b; simpl in F; try tauto; simpl.
    + eexists; split; [reflexivity|]; simpl; intuition lia.
    + eexists; split; [reflexivity|]; simpl; intuition lia.
    + eexists; split; [reflexivity|]; simpl; intuition lia.
    + destruct (WS rs ss (VNum r)) as (? & ? & -> & ?); simpl; try tauto.
      eexists; split; [reflexivity|]; simpl; intuition lia.
  - destruct b; simpl in F; try tauto; simpl.
    + eexists; split; [reflexivity|]; simpl; intuition lia.
    + eexists; split; [reflexivity|]; simpl; intuition lia.
    + eexists; split; [reflexivity|]; simpl; intuition lia.
    + destruct (WS rs ss (VNum r)) as (? & ? & -> & ?); simpl; try tauto.
      eexists; split; [reflexivity|]; simpl; intuition lia.
  - destruct b; simpl in F; try tauto; simpl; eexists; split; try reflexivity; simpl; intuition lia.
  - destruct b; simpl in F; try tauto; simpl; eexists; split; try reflexivity; simpl; intuition lia.
  - destruct (WS rs ss b) as (? & ? & -> & ?); simpl; try tauto.
    eexists; split; [reflexivity|]; simpl; intuition lia.
Qed.

(** ** Scaling *)
Lemma ws_mul_call rs ss c s E : ws_mul rs ss c = Ok s -> call s E = oscale c (call (VSum rs ss) E).
Proof.
  unfold ws_mul. destruct copy_factors eqn:C; cbn [bind]; try discriminate.
  intros X; inversion X; subst; clear X. apply copy_inv in C; destruct C as [L ->].
  rewrite (call_sum rs ss) by auto.
  rewrite call_sum by (rewrite map_length, firstn_length_le; auto).
  rewrite osum_scale, map_map2, map2_map_l, map2_firstn. f_equal.
  apply map2_ext. intros. symmetry; apply oscale_oscale.
Qed.

Lemma cs_mul_call a c E : call (VSum [a] [c]) E = oscale c (call a E).
Proof. rewrite call_sum by auto; simpl. now rewrite oadd_0_r. Qed.

Lemma py_mul_call a c s E : ~ is_foreign a -> py_mul a c = Ok s ->
  at_energy s E = oscale c (at_energy a E).
Proof.
  intros F H. destruct a; simpl in F; try tauto.
  - inversion H; subst; simpl. f_equal; ring.
  - inversion H; subst. apply (cs_mul_call (VLeaf c0)).
  - inversion H; subst. apply (cs_mul_call (VConst r)).
  - simpl in H. pose proof (ws_mul_call _ _ _ _ E H) as K.
    unfold ws_mul in H. destruct copy_factors; simpl in H; try discriminate.
    inversion H; subst. exact K.
Qed.
Lemma py_rmul_call a c s E : ~ is_foreign a -> py_rmul c a = Ok s ->
  at_energy s E = oscale c (at_energy a E).
Proof.
  intros F H. destruct a; try (exfalso; exact (F I)); try (apply py_mul_call; assumption). inversion H; subst; reflexivity.
Qed.
Lemma py_mul_ok a c : ~ is_foreign a -> enough_factors a ->
  exists s, py_mul a c = Ok s /\ enough_factors s /\ ~ is_foreign s /\ (is_number s <-> is_number a).
Proof.
  intros F L. destruct a; simpl in F; try tauto; simpl; try (eexists; split; [reflexivity|]; simpl; intuition lia).
  unfold ws_mul. rewrite copy_ok by auto. simpl. eexists; split; [reflexivity|]. simpl.
  rewrite map_length, firstn_length_le by auto. intuition lia.
Qed.
Lemma py_rmul_ok a c : ~ is_foreign a -> enough_factors a ->
  exists s, py_rmul c a = Ok s /\ enough_factors s /\ ~ is_foreign s /\ (is_number s <-> is_number a).
Proof.
  intros F L. destruct a; try (exfalso; exact (F I)); try exact (py_mul_ok _ c F L).
  simpl; eexists; split; [reflexivity|]; simpl; intuition lia.
Qed.

(** ** Expressions *)
Definition runs := fix runs (l : list expr) : out (list value) :=
    match l with
    | [] => Ok []
    | x :: r => let! v := run x in let! vs := runs r in Ok (v :: vs)
    end.

Lemma at_add a b s E : ~ is_foreign a -> ~ is_foreign b -> py_add a b = Ok s ->
  at_energy s E = oadd (at_energy a E) (at_energy b E).
Proof.
  intros Fa Fb H.
  assert (C : (is_number a /\ is_number b) \/ ~ (is_number a /\ is_number b))
    by (destruct a, b; simpl; tauto).
  destruct C as [[Na Nb]|C].
  - destruct a, b; simpl in Na, Nb; try tauto. inversion H; reflexivity.
  - rewrite <- (py_add_call a b s E) by auto.
    destruct s; try reflexivity.
    exfalso; apply C. destruct a, b; simpl in *; try discriminate; try tauto;
      unfold ws_add in H; destruct (copy_factors _ rs ss); simpl in H; try discriminate;
      destruct copy_factors; simpl in H; discriminate.
Qed.

Lemma py_sum_go l a : ~ is_foreign a -> enough_factors a ->
  Forall (fun v => ~ is_foreign v /\ enough_factors v) l ->
  exists s, fold_left (fun acc v => let! x := acc in py_add x v) l (Ok a) = Ok s /\
    enough_factors s /\ ~ is_foreign s /\ (is_number s <-> is_number a /\ Forall is_number l) /\
    forall E, at_energy s E = oadd (at_energy a E) (osum (map (fun v => at_energy v E) l)).
Proof.
  revert a; induction l; intros v F L Hl.
  - exists v; simpl. split; auto. split; auto. split; auto. split.
    { split; [intros; split; auto | tauto]. }
    intros; now rewrite oadd_0_r.
  - inversion Hl as [|? ? [Fa La] Hl']; subst.
    destruct (py_add_ok v a) as (s & Hs & Ls & Fs & Ns); auto.
    destruct (IHl s) as (t & Ht & Lt & Ft & Nt & Et); auto.
    exists t. simpl. rewrite Hs. split; auto. split; auto. split; auto. split.
    + rewrite Nt, Ns. split.
      * intros [[N1 N2] N3]. split; [tauto|constructor; auto].
      * intros [Hv Hf]. inversion Hf; subst. tauto.
    + intros E. rewrite Et. rewrite (at_add v a s) by auto. apply oadd_assoc.
Qed.

Lemma py_sum_call l : Forall (fun v => ~ is_foreign v /\ enough_factors v) l ->
  exists s, py_sum l = Ok s /\ enough_factors s /\ ~ is_foreign s /\
    (is_number s <-> Forall is_number l) /\
    forall E, at_energy s E = osum (map (fun v => at_energy v E) l).
Proof.
  intros H. destruct (py_sum_go l (VNum 0)) as (s & ? & ? & ? & N & Q); simpl; auto.
  exists s. split; auto. split; auto. split; auto. split.
  - rewrite N; simpl; tauto.
  - intros E. rewrite Q. apply oadd_0_l.
Qed.

Lemma Forall2_length {A B} (P : A -> B -> Prop) l m : Forall2 P l m -> length l = length m.
Proof. induction 1; simpl; congruence. Qed.

Definition good (e : expr) (v : value) : Prop :=
  run e = Ok v /\ ~ is_foreign v /\ enough_factors v /\ (is_number v <-> numeric e = true) /\
  forall E, at_energy v E = denote e E.

Lemma runs_good l : Forall (fun e => well_formed e = true -> exists v, good e v) l ->
  forallb well_formed l = true ->
  exists vs, runs l = Ok vs /\ Forall2 good l vs.
Proof.
  induction l; simpl; intros H W.
  - exists []; split; auto.
  - inversion H; subst. apply andb_prop in W; destruct W as [W W'].
    destruct (H2 W) as [v Hv]. destruct (IHl H3 W') as (vs & R1 & R2).
    destruct Hv as [Hv Hv'].
    exists (v :: vs). simpl. rewrite Hv, R1. split; auto. constructor; auto. split; auto.
Qed.

Lemma expr_good e : well_formed e = true -> exists v, good e v.
Proof.
  induction e using expr_ind'; simpl; intros W.
  - exists (VNum r); repeat split; simpl; auto.
  - exists (VLeaf c); repeat split; simpl; auto; intros; try tauto; discriminate.
  - exists (VConst r); repeat split; simpl; auto; intros; try tauto; discriminate.
  - apply andb_prop in W; destruct W as [W1 W2].
    destruct (IHe1 W1) as (v1 & R1 & F1 & L1 & N1 & E1).
    destruct (IHe2 W2) as (v2 & R2 & F2 & L2 & N2 & E2).
    destruct (py_add_ok v1 v2) as (s & Hs & Ls & Fs & Ns); auto.
    exists s. unfold good; simpl. rewrite R1, R2. simpl.
    split; auto. split; auto. split; auto. split.
    + rewrite Ns, N2. rewrite andb_true_iff, <- N1. tauto.
    + intros E. rewrite (at_add v1 v2 s) by auto. congruence.
  - destruct (IHe W) as (v1 & R1 & F1 & L1 & N1 & E1).
    destruct (py_mul_ok v1 c) as (s & Hs & Ls & Fs & Ns); auto.
    exists s. unfold good; simpl. rewrite R1. simpl. split; auto. split; auto. split; auto. split.
    + now rewrite Ns.
    + intros E. rewrite (py_mul_call v1 c s) by auto. congruence.
  - destruct (IHe W) as (v1 & R1 & F1 & L1 & N1 & E1).
    destruct (py_rmul_ok v1 c) as (s & Hs & Ls & Fs & Ns); auto.
    exists s. unfold good; simpl. rewrite R1. simpl. split; auto. split; auto. split; auto. split.
    + now rewrite Ns.
    + intros E. rewrite (py_rmul_call v1 c s) by auto. congruence.
  - destruct (runs_good l) as (vs & R1 & R2); auto.
    destruct (py_sum_call vs) as (s & Hs & Ls & Fs & Ns & Es).
    { clear - R2. induction R2; constructor; auto. destruct H as (_ & ? & ? & _); auto. }
    exists s. unfold good. split; [|split; [|split; [|split]]]; auto.
    + change (run (ESum l)) with (let! vs := runs l in py_sum vs). now rewrite R1.
    + rewrite Ns. simpl. clear - R2. induction R2; simpl. split; auto.
      destruct H as (_ & _ & _ & N & _). rewrite andb_true_iff, <- IHR2, <- N.
      split. intros K; inversion K; auto. intros []; constructor; auto.
    + intros E. rewrite Es. simpl. f_equal. clear - R2. induction R2; simpl; auto.
      destruct H as (_ & _ & _ & _ & H). rewrite H; congruence.
  - apply andb_prop in W; destruct W as [W L]. apply Nat.leb_le in L.
    assert (W1 : forallb well_formed l = true).
    { rewrite forallb_forall in *. intros x Hx. specialize (W x Hx). now apply andb_prop in W. }
    destruct (runs_good l) as (vs & R1 & R2); auto.
    exists (VSum vs ss). unfold good. split; [|split; [|split; [|split]]].
    + change (run (EWeighted l ss)) with (let! vs := runs l in new_sum (Some vs) (Some ss)).
      now rewrite R1.
    + simpl; auto.
    + simpl. apply Forall2_length in R2. congruence.
    + simpl. split; [tauto|discriminate].
    + intros E. change (call (VSum vs ss) E = osum (map2 (fun x s => oscale s x) (map (fun x => denote x E) l) ss)).
      rewrite call_sum. 2:{ apply Forall2_length in R2; congruence. }
      f_equal. rewrite map2_map_l, map2_swap.
      assert (W2 : forallb (fun x => negb (numeric x)) l = true).
      { rewrite forallb_forall in *. intros x Hx. specialize (W x Hx). now apply andb_prop in W. }
      clear - R2 W2. revert ss W2. induction R2; intros ss W2; simpl; auto.
      simpl in W2; apply andb_prop in W2; destruct W2 as [W2 W2'].
      destruct ss; auto. f_equal; auto.
      destruct H as (_ & F & _ & N & A). rewrite <- A.
      destruct y; auto. simpl in N. destruct N as [N _]. rewrite N in W2; auto. discriminate.
Qed.

Lemma denote_combination e E :
  denote e E = osum (map (fun t => oscale (fst t) (snd t E)) (combination e)).
Proof.
  induction e using expr_ind'; simpl.
  - now rewrite Rmult_1_r, Rplus_0_r.
  - now rewrite oscale_1, oadd_0_r.
  - now rewrite Rmult_1_r, Rplus_0_r.
  - now rewrite map_app, osum_app, IHe1, IHe2.
  - rewrite IHe, osum_scale, !map_map. f_equal. apply map_ext; intros; simpl. now rewrite oscale_oscale.
  - rewrite IHe, osum_scale, !map_map. f_equal. apply map_ext; intros; simpl. now rewrite oscale_oscale.
  - induction H; simpl; auto. now rewrite map_app, osum_app, H, IHForall.
  - revert ss. induction H; intros; simpl; auto. destruct ss; simpl; auto.
    rewrite map_app, osum_app, <- IHForall, H, osum_scale, !map_map. f_equal. f_equal.
    apply map_ext; intros; simpl. now rewrite oscale_oscale.
Qed.

Lemma osum_ok l : Forall (fun x => exists r, x = Ok r) l ->
  exists r, osum l = Ok r.
Proof. induction 1; simpl; eauto. destruct H as [r ->], IHForall as [s ->]; simpl; eauto. Qed.

Lemma osum_perm l l' : Permutation l l' -> Forall (fun x => forall e, x <> Raise e) l ->
  osum l = osum l'.
Proof.
  induction 1; intros F; simpl; auto.
  - inversion F; subst. now rewrite IHPermutation.
  - inversion F as [|? ? A F']; subst. rewrite <- !oadd_assoc. f_equal.
    inversion F' as [|? ? B ?]; subst. clear F F'.
    destruct x, y; try (exfalso; eapply A; reflexivity); try (exfalso; eapply B; reflexivity); simpl; auto.
    now rewrite Rplus_comm.
  - rewrite IHPermutation1, IHPermutation2; auto. eapply Permutation_Forall; eauto.
Qed.
