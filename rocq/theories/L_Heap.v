From Coq Require Import Reals List ZArith Bool Lia Lra.
From Coquelicot Require Import Rbar.
From Verif Require Import Py M_Num M_Grid M_CrossSection S_CrossSection L_CrossSection L_CrossSection2 M_Heap S_Heap.
Import ListNotations.
Open Scope R_scope.

Notation nsums h := (length (h_sums h)).
Notation nreacts h := (length (h_reactions h)).
Notation nfacts h := (length (h_factors h)).

(** The loop of a call, for any way of calling members. *)
Definition hloop (callm : ref -> out R) (ss : list R) :=
  (fix loop (rs : list ref) (i : nat) (acc : out R) : out R :=
             match rs with
             | [] => acc
             | r :: rs' =>
                 loop rs' (S i)
                   (match acc with
                    | Raise e => Raise e
                    | _ => match get ss i with
                           | Ok s => oadd acc (oscale s (callm r))
                           | NaN => NaN
                           | Raise e => Raise e
                           end
                    end)
             end).

Lemma hcall_sum fuel h o E :
  hcall (S fuel) h (RSum o) E = hloop (fun r => hcall fuel h r E) (factors_of h o) (reactions_of h o) 0%nat (Ok 0).
Proof. reflexivity. Qed.

Lemma hloop_ext c c' ss rs i acc : (forall r, In r rs -> c r = c' r) -> hloop c ss rs i acc = hloop c' ss rs i acc.
Proof.
  revert i acc; induction rs; intros i acc H; simpl; auto.
  rewrite (H a) by (simpl; auto). apply IHrs. intros; apply H; simpl; auto.
Qed.

Lemma hloop_sum c ss rs i acc : (length rs + i <= length ss)%nat ->
  hloop c ss rs i acc = oadd acc (osum (map2 (fun s x => oscale s (c x)) (skipn i ss) rs)).
Proof.
  revert i acc; induction rs; intros i acc H; simpl in *.
  - destruct (skipn i ss); simpl; now rewrite oadd_0_r.
  - destruct (nth_error ss i) eqn:N.
    2:{ apply nth_error_None in N; lia. }
    assert (K : skipn i ss = r :: skipn (S i) ss).
    { clear - N. revert i N; induction ss; destruct i; simpl; intros; try discriminate.
      inversion N; subst; auto. now rewrite (IHss _ N). }
    rewrite K; simpl. unfold get; rewrite N. rewrite IHrs by lia.
    rewrite <- oadd_assoc. destruct acc; auto.
Qed.

Lemma hcopy_inv f rs ss l : hcopy f rs ss = Ok l ->
  (length rs <= length ss)%nat /\ l = map f (firstn (length rs) ss).
Proof.
  unfold hcopy, traverse, enumerate.
  assert (G : forall i l, sequence (map (fun ir : nat * ref => let! s := get ss (fst ir) in Ok (f s))
                (combine (seq i (length rs)) rs)) = Ok l -> 
     (rs <> [] -> (length rs + i <= length ss)%nat) /\ l = map f (firstn (length rs) (skipn i ss))).
  { induction rs; intros i l0 H; simpl in *.
    - inversion H; split; auto. congruence.
    - unfold get at 1 in H. destruct (nth_error ss i) eqn:N; cbn [bind] in H; try discriminate.
      destruct (sequence _) eqn:S; cbn [bind] in H; try discriminate. inversion H; subst.
      apply IHrs in S. destruct S as [S1 S2].
      assert (i < length ss)%nat by (apply nth_error_Some; congruence).
      assert (K : skipn i ss = r :: skipn (Datatypes.S i) ss).
      { clear - N. revert i N; induction ss; destruct i; simpl; intros; try discriminate.
        inversion N; subst; auto. now rewrite (IHss _ N). }
      rewrite K. subst. split; auto. intros _. destruct rs; simpl in *. lia.
      specialize (S1 ltac:(discriminate)). lia. }
  intros H. apply G in H. destruct H as [H1 H2]. split; auto. destruct rs; simpl in *; [lia|].
  specialize (H1 ltac:(discriminate)). lia.
Qed.

(** ** Heaps *)
Definition wf (h : heap) : Prop :=
  (forall o, In o (h_sums h) -> (o_reactions o < nreacts h /\ o_factors o < nfacts h)%nat) /\
  (forall rs, In rs (h_reactions h) -> Forall (ref_ok h) rs).

Lemma sum_at_in h o : (o < nsums h)%nat -> In (sum_at h o) (h_sums h).
Proof. intros. now apply nth_In. Qed.

Lemma wf_reactions h o : wf h -> (o < nsums h)%nat -> Forall (ref_ok h) (reactions_of h o).
Proof.
  intros [W1 W2] H. apply W2. apply nth_In. apply W1. now apply sum_at_in.
Qed.

Lemma ref_ok_grow h h' r : (nsums h <= nsums h')%nat -> ref_ok h r -> ref_ok h' r.
Proof. destruct r; simpl; auto. lia. Qed.

Lemma Forall_ref_grow h h' rs : (nsums h <= nsums h')%nat -> Forall (ref_ok h) rs -> Forall (ref_ok h') rs.
Proof. intros L H. eapply Forall_impl; [|exact H]. intros; eapply ref_ok_grow; eauto. Qed.

Lemma alloc_wf h rs ss : wf h -> Forall (ref_ok h) rs -> wf (fst (alloc h rs ss)).
Proof.
  intros [W1 W2] H. split; simpl.
  - intros o I. rewrite !app_length; simpl. apply in_app_or in I. destruct I as [I|[<-|[]]]; simpl; [|lia].
    apply W1 in I. lia.
  - intros l I. apply in_app_or in I.
    assert (L : (nsums h <= nsums (fst (alloc h rs ss)))%nat) by (simpl; rewrite app_length; lia).
    destruct I as [I|[<-|[]]]; eapply Forall_ref_grow; eauto.
Qed.

(** Existing objects keep their lists when something is allocated. *)
Definition extends (h h' : heap) : Prop :=
  (nsums h <= nsums h')%nat /\
  forall o, (o < nsums h)%nat -> sum_at h' o = sum_at h o /\
     reactions_of h' o = reactions_of h o /\ factors_of h' o = factors_of h o.

Lemma alloc_extends h rs ss : wf h -> extends h (fst (alloc h rs ss)).
Proof.
  intros [W1 W2]. split. simpl; rewrite app_length; lia.
  intros o H. assert (S : sum_at (fst (alloc h rs ss)) o = sum_at h o).
  { unfold sum_at; simpl. now apply app_nth1. }
  split; [exact S|]. unfold reactions_of, factors_of. rewrite S. unfold reactions_at, factors_at; simpl.
  destruct (W1 _ (sum_at_in _ _ H)). split; now apply app_nth1.
Qed.

Lemma alloc_new h rs ss : let (h', o) := alloc h rs ss in
  o = nsums h /\ nsums h' = S o /\ reactions_of h' o = rs /\ factors_of h' o = ss /\
  sum_at h' o = {| o_reactions := nreacts h; o_factors := nfacts h |}.
Proof.
  simpl. split; auto. split. rewrite app_length; simpl; lia.
  unfold reactions_of, factors_of, reactions_at, factors_at, sum_at; simpl.
  rewrite (app_nth2 (h_sums h)) by lia. rewrite Nat.sub_diag; simpl.
  rewrite !app_nth2 by lia. rewrite !Nat.sub_diag. auto.
Qed.

Lemma hcall_extends h h' fuel : wf h -> extends h h' -> forall r E, ref_ok h r ->
  hcall fuel h' r E = hcall fuel h r E.
Proof.
  intros W [L X]. induction fuel; intros r E H; auto.
  destruct r; auto. rewrite !hcall_sum. destruct (X o H) as (_ & -> & ->).
  apply hloop_ext. intros r Hr. apply IHfuel.
  pose proof (wf_reactions h o W H) as F. rewrite Forall_forall in F; auto.
Qed.

(** What + and * create. *)
Definition contents (h : heap) (r : ref) : list ref * list R :=
  match r with RSum o => (reactions_of h o, firstn (length (reactions_of h o)) (factors_of h o))
             | RNum c => ([RConst c], [1]) | _ => ([r], [1]) end.

Lemma hws_add_alloc h o b h' o' : hws_add h o b = Ok (h', o') ->
  (length (reactions_of h o) <= length (factors_of h o))%nat /\
  (match b with RSum q => (length (reactions_of h q) <= length (factors_of h q))%nat | _ => True end) /\
  (h', o') = alloc h (fst (contents h (RSum o)) ++ fst (contents h b)) (snd (contents h (RSum o)) ++ snd (contents h b)).
Proof.
  unfold hws_add. destruct (hcopy _ _ _) eqn:C; cbn [bind]; try discriminate.
  apply hcopy_inv in C. destruct C as [L ->]. rewrite map_id.
  destruct b; intros H.
  - inversion H. split; auto.
  - inversion H. split; auto.
  - inversion H. split; auto.
  - destruct (hcopy _ (reactions_of h o0) _) eqn:C; cbn [bind] in H; try discriminate.
    apply hcopy_inv in C. destruct C as [L' ->]. rewrite map_id in H. inversion H. split; auto.
Qed.

Lemma hadd_alloc h a b h' o : hadd h a b = Ok (h', o) -> exists rs ss,
  (h', o) = alloc h rs ss /\
  (ref_ok h a -> ref_ok h b -> wf h -> Forall (ref_ok h) rs) /\
  (copying a b -> (forall q, a = RSum q \/ b = RSum q -> Forall plain (reactions_of h q)) -> Forall plain rs).
Proof.
  assert (CS : forall a b, match a with RLeaf _ | RConst _ => True | _ => False end ->
    hcs_add h a b = Ok (h', o) -> exists rs ss, (h', o) = alloc h rs ss /\
    (ref_ok h a -> ref_ok h b -> wf h -> Forall (ref_ok h) rs) /\ (plain b -> Forall plain rs)).
  { intros a0 b0 Ha H. unfold hcs_add in H. destruct b0; inversion H; do 2 eexists;
      (split; [reflexivity|]); split; repeat constructor; simpl; auto; destruct a0; simpl in *; tauto. }
  assert (WS : forall q b, hws_add h q b = Ok (h', o) -> exists rs ss, (h', o) = alloc h rs ss /\
    (ref_ok h (RSum q) -> ref_ok h b -> wf h -> Forall (ref_ok h) rs) /\
    ((forall p, p = q \/ b = RSum p -> Forall plain (reactions_of h p)) -> Forall plain rs)).
  { intros q b0 H. apply hws_add_alloc in H. destruct H as (L & L' & ->).
    do 2 eexists; split; [reflexivity|]; split.
    - intros Hq Hb W. apply Forall_app; split.
      + simpl. now apply wf_reactions.
      + destruct b0; simpl; try (repeat constructor; auto; fail). now apply wf_reactions.
    - intros P. apply Forall_app; split. simpl; auto. destruct b0; simpl; repeat constructor; auto. }
  destruct a; simpl hadd; intros H.
  - destruct b; try discriminate.
    + destruct (CS (RLeaf c) (RNum r) I H) as (rs & ss & H1 & H2 & H3). exists rs, ss. split; [auto|split; [auto|intros; apply H3; simpl; auto]].
    + destruct (CS (RConst r0) (RNum r) I H) as (rs & ss & H1 & H2 & H3). exists rs, ss. split; [auto|split; [auto|intros; apply H3; simpl; auto]].
    + destruct (WS _ _ H) as (rs & ss & H1 & H2 & H3). exists rs, ss. split; [auto|split; [auto|]].
      intros _ P; apply H3. intros p [->|E]; [apply P; auto|discriminate].
  - destruct (CS (RLeaf c) b I H) as (rs & ss & H1 & H2 & H3). exists rs, ss. repeat split; auto.
  - destruct (CS (RConst r) b I H) as (rs & ss & H1 & H2 & H3). exists rs, ss. repeat split; auto.
  - destruct (WS _ _ H) as (rs & ss & H1 & H2 & H3). exists rs, ss. split; [auto|split; [auto|]].
    intros _ P; apply H3. intros p [->|E]; apply P; auto.
Qed.

Lemma hmul_alloc h a c h' o : hmul h a c = Ok (h', o) -> exists rs ss,
  (h', o) = alloc h rs ss /\
  (ref_ok h a -> wf h -> Forall (ref_ok h) rs) /\
  ((forall q, a = RSum q -> Forall plain (reactions_of h q)) -> Forall plain rs).
Proof.
  destruct a; simpl; intros H; try discriminate.
  - inversion H. exists [RLeaf c0], [c]. repeat split; repeat constructor.
  - inversion H. exists [RConst r], [c]. repeat split; repeat constructor.
  - destruct (hcopy _ _ _) eqn:C; cbn [bind] in H; try discriminate. inversion H.
    do 2 eexists; split; [reflexivity|]. split; auto. intros; now apply wf_reactions.
Qed.

Lemma set_nth_length {A} (l : list A) i x : length (set_nth l i x) = length l.
Proof. unfold set_nth. revert i; induction l; destruct i; simpl; auto. Qed.
Lemma set_nth_in {A} (l : list A) i x y : In y (set_nth l i x) -> y = x \/ In y l.
Proof.
  unfold set_nth. revert i; induction l; destruct i; simpl; auto; intros [->|H]; auto.
  apply IHl in H. tauto.
Qed.
Lemma set_nth_other {A} (l : list A) i j x d : i <> j -> nth j (set_nth l i x) d = nth j l d.
Proof. unfold set_nth. revert i j; induction l; destruct i, j; simpl; auto; try congruence. Qed.

Lemma exec_wf h s : wf h -> step_ok h s -> wf (exec h s) /\ (nsums h <= nsums (exec h s))%nat.
Proof.
  intros W H. destruct s; simpl in *.
  - split. now apply alloc_wf. rewrite app_length; lia.
  - destruct H as [H1 H2]. destruct (reactions_of h o_r).
    { split; [split; simpl|simpl; rewrite app_length; lia].
      + intros o I. rewrite app_length; simpl. apply in_app_or in I. destruct I as [I|[<-|[]]].
        * apply (proj1 W) in I. lia.
        * simpl. split. lia. apply (proj1 W); now apply sum_at_in.
      + intros rs I. apply in_app_or in I. destruct I as [I|[<-|[]]]; auto.
        apply (proj2 W) in I. eapply Forall_ref_grow; [|exact I]. simpl. rewrite app_length; lia. }
    split; [split; simpl|simpl; rewrite app_length; lia].
    + intros o I. apply in_app_or in I. destruct I as [I|[<-|[]]].
      * now apply (proj1 W).
      * simpl. split; apply (proj1 W); now apply sum_at_in.
    + intros rs I. apply (proj2 W) in I. eapply Forall_ref_grow; [|exact I]. simpl. rewrite app_length; lia.
  - destruct H as [H1 H2]. destruct (hadd h a b) as [[h' o]| |] eqn:A; auto.
    destruct (hadd_alloc _ _ _ _ _ A) as (rs & ss & E & F & _). inversion E; subst.
    split. apply (alloc_wf h rs ss); auto. simpl; rewrite app_length; lia.
  - destruct (hmul h a c) as [[h' o]| |] eqn:A; auto.
    destruct (hmul_alloc _ _ _ _ _ A) as (rs & ss & E & F & _). inversion E; subst.
    split. apply (alloc_wf h rs ss); auto. simpl; rewrite app_length; lia.
  - destruct H as [H1 H2]. split; auto. split; simpl.
    + intros; rewrite set_nth_length. now apply (proj1 W).
    + intros l I. apply set_nth_in in I. destruct I as [->|I]; auto. now apply (proj2 W).
  - split; auto. split; simpl.
    + intros; rewrite set_nth_length. now apply (proj1 W).
    + apply (proj2 W).
  - destruct H as [H1 H2]. split; [|rewrite set_nth_length; auto]. split; simpl.
    + intros x I. apply set_nth_in in I. destruct I as [->|I]; [|now apply (proj1 W)].
      simpl. split; apply (proj1 W); now apply sum_at_in.
    + intros l I. apply (proj2 W) in I. eapply Forall_ref_grow; [|exact I]. simpl. rewrite set_nth_length; auto.
  - destruct H as [H1 H2]. split; [|rewrite set_nth_length; auto]. split; simpl.
    + intros x I. apply set_nth_in in I. destruct I as [->|I]; [|now apply (proj1 W)].
      simpl. split; apply (proj1 W); now apply sum_at_in.
    + intros l I. apply (proj2 W) in I. eapply Forall_ref_grow; [|exact I]. simpl. rewrite set_nth_length; auto.
Qed.

Lemma execs_wf l : forall h, wf h -> steps_ok h l -> wf (execs h l).
Proof.
  induction l; simpl; intros h W H; auto. destruct H. apply IHl; auto. now apply exec_wf.
Qed.
Lemma empty_wf : wf empty_heap.
Proof. split; simpl; tauto. Qed.

(** ** Ownership *)
Definition owns (h : heap) (o : nat) (r f : nat) : Prop :=
  (o < nsums h)%nat /\ sum_at h o = {| o_reactions := r; o_factors := f |} /\
  (r < nreacts h)%nat /\ (f < nfacts h)%nat /\
  forall o', (o' < nsums h)%nat -> o' <> o -> o_reactions (sum_at h o') <> r /\ o_factors (sum_at h o') <> f.

Lemma sum_at_app h o x rs ss : (o < nsums h)%nat ->
  sum_at {| h_reactions := rs; h_factors := ss; h_sums := h_sums h ++ [x] |} o = sum_at h o.
Proof. intros; unfold sum_at; simpl. now apply app_nth1. Qed.
Lemma sum_at_last h x rs ss :
  sum_at {| h_reactions := rs; h_factors := ss; h_sums := h_sums h ++ [x] |} (nsums h) = x.
Proof. unfold sum_at; simpl. rewrite app_nth2 by lia. rewrite Nat.sub_diag. reflexivity. Qed.

Lemma sum_at_set rs ss l q x : (q < length l)%nat ->
  sum_at {| h_reactions := rs; h_factors := ss; h_sums := set_nth l q x |} q = x.
Proof.
  intros K. unfold sum_at; simpl. unfold set_nth. revert q K. induction l; intros q K; simpl in *. lia.
  destruct q; simpl; auto. apply IHl. lia.
Qed.

Lemma alloc_owns h rs ss o r f : wf h -> owns h o r f -> owns (fst (alloc h rs ss)) o r f /\
  reactions_at (fst (alloc h rs ss)) r = reactions_at h r /\ factors_at (fst (alloc h rs ss)) f = factors_at h f.
Proof.
  intros W (H1 & H2 & H3 & H4 & H5). unfold alloc; cbn [fst]. split; [|split].
  - split; [|split; [|split; [|split]]]; simpl; rewrite ?app_length; simpl; try lia.
    + rewrite sum_at_app by auto. auto.
    + intros o' L N. assert (C : (o' < nsums h)%nat \/ o' = nsums h) by lia.
      destruct C as [C| ->]. rewrite sum_at_app by auto. auto.
      rewrite sum_at_last. simpl. lia.
  - unfold reactions_at; simpl. now apply app_nth1.
  - unfold factors_at; simpl. now apply app_nth1.
Qed.

Lemma exec_owns h s o r f : wf h -> step_ok h s -> owns h o r f -> spares o s ->
  owns (exec h s) o r f /\ reactions_at (exec h s) r = reactions_at h r /\ factors_at (exec h s) f = factors_at h f.
Proof.
  intros W K O S. destruct s; simpl in *.
  - now apply alloc_owns.
  - destruct O as (H1 & H2 & H3 & H4 & H5), K as [K1 K2], S as [S1 S2].
    destruct (reactions_of h o_r).
    { split; [|split]; auto.
      + split; [|split; [|split; [|split]]]; simpl; rewrite ?app_length; simpl; try lia.
        * rewrite sum_at_app by auto. auto.
        * intros o' L N. assert (C : (o' < nsums h)%nat \/ o' = nsums h) by lia.
          destruct C as [C| ->]. rewrite sum_at_app by auto. auto.
          rewrite sum_at_last. simpl. split. lia. apply H5; auto.
      + unfold reactions_at; simpl. now apply app_nth1. }
    split; [|split]; auto. split; [|split; [|split; [|split]]]; simpl; rewrite ?app_length; simpl; try lia.
    + rewrite sum_at_app by auto. auto.
    + intros o' L N. assert (C : (o' < nsums h)%nat \/ o' = nsums h) by lia.
      destruct C as [C| ->]. rewrite sum_at_app by auto. auto.
      rewrite sum_at_last. simpl. split; apply H5; auto.
  - destruct (hadd h a b) as [[h' o']| |] eqn:A; auto.
    destruct (hadd_alloc _ _ _ _ _ A) as (rs & ss & E & F & _). inversion E; subst.
    now apply (alloc_owns h rs ss).
  - destruct (hmul h a c) as [[h' o']| |] eqn:A; auto.
    destruct (hmul_alloc _ _ _ _ _ A) as (rs & ss & E & F & _). inversion E; subst.
    now apply (alloc_owns h rs ss).
  - destruct O as (H1 & H2 & H3 & H4 & H5), K as [K1 K2].
    split; [|split]; auto.
    + split; [|split; [|split; [|split]]]; simpl; rewrite ?set_nth_length; auto.
    + unfold reactions_at; simpl. apply set_nth_other. now apply H5.
  - destruct O as (H1 & H2 & H3 & H4 & H5).
    split; [|split]; auto.
    + split; [|split; [|split; [|split]]]; simpl; rewrite ?set_nth_length; auto.
    + unfold factors_at; simpl. apply set_nth_other. now apply H5.
  - destruct O as (H1 & H2 & H3 & H4 & H5), K as [K1 K2], S as [S1 S2].
    split; [|split]; auto.
    split; [|split; [|split; [|split]]]; simpl; rewrite ?set_nth_length; auto.
    + unfold sum_at; simpl. rewrite set_nth_other; auto.
    + intros q L N. destruct (Nat.eq_dec o0 q) as [->|D].
      * rewrite sum_at_set by auto. simpl. split; apply H5; auto.
      * unfold sum_at; simpl. rewrite !set_nth_other by auto. apply H5; auto.
  - destruct O as (H1 & H2 & H3 & H4 & H5), K as [K1 K2], S as [S1 S2].
    split; [|split]; auto.
    split; [|split; [|split; [|split]]]; simpl; rewrite ?set_nth_length; auto.
    + unfold sum_at; simpl. rewrite set_nth_other; auto.
    + intros q L N. destruct (Nat.eq_dec o0 q) as [->|D].
      * rewrite sum_at_set by auto. simpl. split; apply H5; auto.
      * unfold sum_at; simpl. rewrite !set_nth_other by auto. apply H5; auto.
Qed.

Lemma execs_owns l : forall h o r f, wf h -> steps_ok h l -> owns h o r f -> Forall (spares o) l ->
  owns (execs h l) o r f /\ reactions_at (execs h l) r = reactions_at h r /\ factors_at (execs h l) f = factors_at h f.
Proof.
  induction l as [|s l IH]; intros h o r f W K O S; simpl; auto.
  destruct K as [K1 K2]. inversion S; subst.
  destruct (exec_owns h s o r f W K1 O H1) as (O' & R' & F').
  destruct (IH (exec h s) o r f) as (A & B & C); auto. now apply exec_wf.
  rewrite <- R', <- F'. auto.
Qed.

Lemma hcall_plain fuel h h' r E : plain r -> hcall fuel h r E = hcall fuel h' r E.
Proof. destruct fuel, r; simpl; tauto. Qed.

Lemma owned_value h h' o r f fuel E : owns h o r f -> owns h' o r f ->
  reactions_at h' r = reactions_at h r -> factors_at h' f = factors_at h f ->
  Forall plain (reactions_at h r) ->
  hcall fuel h' (RSum o) E = hcall fuel h (RSum o) E.
Proof.
  intros O O' Hr Hf P. destruct fuel; auto. rewrite !hcall_sum.
  unfold reactions_of, factors_of. destruct O as (_ & -> & _), O' as (_ & -> & _). simpl.
  rewrite Hr, Hf. apply hloop_ext. intros x Hx. apply hcall_plain. rewrite Forall_forall in P; auto.
Qed.

Lemma alloc_owner h rs ss : wf h -> owns (fst (alloc h rs ss)) (nsums h) (nreacts h) (nfacts h).
Proof.
  intros W. split; [|split; [|split; [|split]]]; unfold alloc; simpl; rewrite ?app_length; simpl; try lia.
  - apply sum_at_last.
  - intros o L N. assert (o < nsums h)%nat by lia. rewrite sum_at_app by auto.
    destruct (proj1 W _ (sum_at_in h o H)). lia.
Qed.

(** A sum that was allocated with plain members keeps its value. *)
Lemma snapshot h rs ss l : wf h -> Forall (ref_ok h) rs -> Forall plain rs ->
  let h1 := fst (alloc h rs ss) in let o := nsums h in
  steps_ok h1 l -> Forall (spares o) l ->
  forall fuel E, hcall fuel (execs h1 l) (RSum o) E = hcall fuel h1 (RSum o) E.
Proof.
  intros W R P h1 o K S fuel E.
  assert (W1 : wf h1) by now apply alloc_wf.
  pose proof (alloc_owner h rs ss W) as O.
  destruct (execs_owns l h1 _ _ _ W1 K O S) as (O' & Hr & Hf).
  eapply owned_value; eauto.
  unfold h1, alloc, reactions_at; simpl. rewrite app_nth2 by lia. now rewrite Nat.sub_diag.
Qed.

Lemma reachable_wf h : reachable h -> wf h.
Proof. intros (l & K & ->). apply execs_wf; auto. apply empty_wf. Qed.

Lemma add_snapshot h a b h1 o l : reachable h -> ref_ok h a -> ref_ok h b ->
  hadd h a b = Ok (h1, o) -> copying a b ->
  (forall q, a = RSum q \/ b = RSum q -> Forall plain (reactions_of h q)) ->
  steps_ok h1 l -> Forall (spares o) l ->
  forall fuel E, hcall fuel (execs h1 l) (RSum o) E = hcall fuel h1 (RSum o) E.
Proof.
  intros W Ra Rb H C P K S. apply reachable_wf in W.
  destruct (hadd_alloc _ _ _ _ _ H) as (rs & ss & E & F & G).
  inversion E; subst. apply (snapshot h rs ss l); auto.
Qed.
Lemma mul_snapshot h a c h1 o l : reachable h -> ref_ok h a ->
  hmul h a c = Ok (h1, o) ->
  (forall q, a = RSum q -> Forall plain (reactions_of h q)) ->
  steps_ok h1 l -> Forall (spares o) l ->
  forall fuel E, hcall fuel (execs h1 l) (RSum o) E = hcall fuel h1 (RSum o) E.
Proof.
  intros W Ra H P K S. apply reachable_wf in W.
  destruct (hmul_alloc _ _ _ _ _ H) as (rs & ss & E & F & G).
  inversion E; subst. apply (snapshot h rs ss l); auto.
Qed.

Lemma add_pure h a b h1 o : reachable h -> hadd h a b = Ok (h1, o) ->
  (forall q, (q < nsums h)%nat -> q <> o /\ reactions_of h1 q = reactions_of h q /\ factors_of h1 q = factors_of h q) /\
  forall r, ref_ok h r -> forall fuel E, hcall fuel h1 r E = hcall fuel h r E.
Proof.
  intros W H. apply reachable_wf in W. destruct (hadd_alloc _ _ _ _ _ H) as (rs & ss & E & _).
  inversion E; subst. pose proof (alloc_extends h rs ss W) as X. split.
  - intros q Hq. destruct X as [_ X]. destruct (X q Hq) as (_ & ? & ?). split; auto. lia.
  - intros. now apply hcall_extends.
Qed.
Lemma mul_pure h a c h1 o : reachable h -> hmul h a c = Ok (h1, o) ->
  (forall q, (q < nsums h)%nat -> q <> o /\ reactions_of h1 q = reactions_of h q /\ factors_of h1 q = factors_of h q) /\
  forall r, ref_ok h r -> forall fuel E, hcall fuel h1 r E = hcall fuel h r E.
Proof.
  intros W H. apply reachable_wf in W. destruct (hmul_alloc _ _ _ _ _ H) as (rs & ss & E & _).
  inversion E; subst. pose proof (alloc_extends h rs ss W) as X. split.
  - intros q Hq. destruct X as [_ X]. destruct (X q Hq) as (_ & ? & ?). split; auto. lia.
  - intros. now apply hcall_extends.
Qed.

(** ** The value of a sum at the time of its creation *)
Lemma depth_mono n h : forall r, depth_le n h r -> depth_le (S n) h r.
Proof.
  induction n; intros r H. contradiction.
  destruct r; simpl; auto. simpl in H. eapply Forall_impl; [|exact H]. intros; now apply IHn.
Qed.
Lemma hcall_depth n h E : forall r, depth_le n h r -> hcall (S n) h r E = hcall n h r E.
Proof.
  induction n; intros r H. contradiction.
  destruct r; auto. rewrite !hcall_sum. simpl in H. apply hloop_ext. intros r Hr.
  rewrite Forall_forall in H. apply IHn; auto.
Qed.

Lemma hcall_alloc h rs ss n E : wf h -> Forall (ref_ok h) rs -> (length rs <= length ss)%nat ->
  hcall (S n) (fst (alloc h rs ss)) (RSum (nsums h)) E =
  osum (map2 (fun s x => oscale s (hcall n h x E)) ss rs).
Proof.
  intros W R L. rewrite hcall_sum.
  pose proof (alloc_new h rs ss) as A. destruct (alloc h rs ss) as [h' o] eqn:EA. simpl fst.
  destruct A as (-> & _ & -> & -> & _).
  rewrite hloop_sum by lia. simpl skipn. rewrite oadd_0_l. f_equal. apply map2_ext.
  intros s x Hx. f_equal.
  replace h' with (fst (alloc h rs ss)) by (rewrite EA; auto).
  apply hcall_extends; auto. now apply alloc_extends. rewrite Forall_forall in R; auto.
Qed.

Lemma hcall_sum_value h o n E : (length (reactions_of h o) <= length (factors_of h o))%nat ->
  hcall (S n) h (RSum o) E = osum (map2 (fun s x => oscale s (hcall n h x E)) (factors_of h o) (reactions_of h o)).
Proof. intros. rewrite hcall_sum, hloop_sum by lia. simpl skipn. now rewrite oadd_0_l. Qed.

Lemma plain_value n h r E : plain r -> hat (S n) h r E = hat (S (S n)) h r E.
Proof. destruct r; simpl; tauto. Qed.

Lemma add_value h a b h1 o n E : reachable h -> ref_ok h a -> ref_ok h b ->
  hadd h a b = Ok (h1, o) -> depth_le n h a -> depth_le n h b ->
  hcall (S n) h1 (RSum o) E = oadd (hat n h a E) (hat n h b E).
Proof.
  intros W Ra Rb H Da Db. apply reachable_wf in W.
  assert (N : exists k, n = S k) by (destruct n; [contradiction|eauto]). destruct N as [k ->].
  assert (CS : forall a b, match a with RLeaf _ | RConst _ => True | _ => False end -> ref_ok h b ->
    hcs_add h a b = Ok (h1, o) -> hcall (S (S k)) h1 (RSum o) E = oadd (hat (S k) h a E) (hat (S k) h b E)).
  { intros a0 b0 Ha Hb K. unfold hcs_add in K.
    assert (Ra0 : ref_ok h a0) by (destruct a0; simpl in *; tauto).
    assert (Hat : hat (S k) h a0 E = hcall (S k) h a0 E) by (destruct a0; simpl in *; tauto).
    rewrite Hat.
    destruct b0; inversion K; subst;
      (match goal with |- hcall _ (fst ?x) _ _ = _ => idtac | |- hcall _ ?h' _ _ = _ => idtac end).
    - pose proof (hcall_alloc h [a0; RConst r] [1; 1] (S k) E W) as Q. unfold alloc in Q; cbn [fst] in Q.
      rewrite Q; [|repeat constructor; auto|simpl; lia]. unfold map2, osum, fold_right. rewrite !oscale_1, oadd_0_r. reflexivity.
    - pose proof (hcall_alloc h [a0; RLeaf c] [1; 1] (S k) E W) as Q. unfold alloc in Q; cbn [fst] in Q.
      rewrite Q; [|repeat constructor; auto|simpl; lia]. unfold map2, osum, fold_right. rewrite !oscale_1, oadd_0_r. reflexivity.
    - pose proof (hcall_alloc h [a0; RConst r] [1; 1] (S k) E W) as Q. unfold alloc in Q; cbn [fst] in Q.
      rewrite Q; [|repeat constructor; auto|simpl; lia]. unfold map2, osum, fold_right. rewrite !oscale_1, oadd_0_r. reflexivity.
    - pose proof (hcall_alloc h [a0; RSum o0] [1; 1] (S k) E W) as Q. unfold alloc in Q; cbn [fst] in Q.
      rewrite Q; [|repeat constructor; auto|simpl; lia]. unfold map2, osum, fold_right. rewrite !oscale_1, oadd_0_r. reflexivity. }
  assert (Cv : forall b, ref_ok h b -> depth_le (S k) h b ->
     (match b with RSum q => (length (reactions_of h q) <= length (factors_of h q))%nat | _ => True end) ->
     osum (map2 (fun s x => oscale s (hcall (S k) h x E)) (snd (contents h b)) (fst (contents h b))) = hat (S k) h b E /\
     Forall (ref_ok h) (fst (contents h b)) /\ length (fst (contents h b)) = length (snd (contents h b))).
  { intros b0 Hb Hd L. destruct b0; simpl contents.
    - unfold map2, osum, fold_right, fst, snd. rewrite oscale_1, oadd_0_r. repeat split; repeat constructor.
    - unfold map2, osum, fold_right, fst, snd. rewrite oscale_1, oadd_0_r. repeat split; repeat constructor.
    - unfold map2, osum, fold_right, fst, snd. rewrite oscale_1, oadd_0_r. repeat split; repeat constructor.
    - unfold fst, snd. split; [|split].
      + rewrite map2_firstn. unfold hat. rewrite hcall_sum_value by auto. f_equal.
        apply map2_ext. intros s x Hx. f_equal. apply hcall_depth.
        simpl in Hd. rewrite Forall_forall in Hd; auto.
      + now apply wf_reactions.
      + symmetry. now apply firstn_length_le. }
  assert (WS : forall q b, hws_add h q b = Ok (h1, o) -> ref_ok h (RSum q) -> ref_ok h b ->
    depth_le (S k) h (RSum q) -> depth_le (S k) h b ->
    hcall (S (S k)) h1 (RSum o) E = oadd (hat (S k) h (RSum q) E) (hat (S k) h b E)).
  { intros q b0 K Rq Rb0 Dq Db0. apply hws_add_alloc in K. destruct K as (L & L' & X).
    destruct (Cv (RSum q) Rq Dq L) as (V1 & F1 & N1). destruct (Cv b0 Rb0 Db0 L') as (V2 & F2 & N2).
    rewrite <- V1, <- V2, <- osum_app, <- map2_app by auto.
    inversion X. subst. 
    pose proof (hcall_alloc h (fst (contents h (RSum q)) ++ fst (contents h b0)) (snd (contents h (RSum q)) ++ snd (contents h b0)) (S k) E W) as Q.
    unfold alloc in Q; cbn [fst] in Q. simpl contents in *. cbn [fst snd] in *. rewrite Q; auto.
    apply Forall_app; auto. rewrite !app_length. lia. }
  destruct a; simpl in H.
  - destruct b; try discriminate.
    + rewrite (CS (RLeaf c) (RNum r) I I H). symmetry; apply oadd_comm_ok.
    + rewrite (CS (RConst r0) (RNum r) I I H). symmetry; apply oadd_comm_ok.
    + rewrite (WS _ _ H) by auto. symmetry; apply oadd_comm_ok.
  - now apply (CS (RLeaf c) b I).
  - now apply (CS (RConst r) b I).
  - now apply WS.
Qed.

Lemma mul_value h a c h1 o n E : reachable h -> ref_ok h a -> hmul h a c = Ok (h1, o) -> depth_le n h a ->
  hcall (S n) h1 (RSum o) E = oscale c (hat n h a E).
Proof.
  intros W Ra H Da. apply reachable_wf in W.
  assert (N : exists k, n = S k) by (destruct n; [contradiction|eauto]). destruct N as [k ->].
  destruct a; simpl in H; try discriminate.
  - inversion H. pose proof (hcall_alloc h [RLeaf c0] [c] (S k) E W) as Q. unfold alloc in Q; cbn [fst] in Q.
    rewrite Q; [|repeat constructor; auto|simpl; lia]. unfold map2, osum, fold_right. rewrite oadd_0_r. reflexivity.
  - inversion H. pose proof (hcall_alloc h [RConst r] [c] (S k) E W) as Q. unfold alloc in Q; cbn [fst] in Q.
    rewrite Q; [|repeat constructor; auto|simpl; lia]. unfold map2, osum, fold_right. rewrite oadd_0_r. reflexivity.
  - destruct (hcopy _ _ _) eqn:C; cbn [bind] in H; try discriminate. apply hcopy_inv in C. destruct C as [L ->].
    inversion H. subst.
    pose proof (hcall_alloc h (reactions_of h o0) (map (fun s => c * s) (firstn (length (reactions_of h o0)) (factors_of h o0))) (S k) E W) as Q.
    unfold alloc in Q; cbn [fst] in Q. rewrite Q.
    + unfold hat. rewrite hcall_sum_value by auto. rewrite osum_scale, map_map2, map2_map_l, map2_firstn. f_equal.
      apply map2_ext. intros s x Hx. rewrite oscale_oscale. f_equal. apply hcall_depth.
      simpl in Da. rewrite Forall_forall in Da; auto.
    + now apply wf_reactions.
    + rewrite map_length, firstn_length_le; auto.
Qed.

(** ** Aliasing: a plain cross section plus a sum refers to the sum. *)
Definition alias_program : list step :=
  [SNew [RConst 1] [1];                 (* s = CrossSectionWeightedSum([ConstantCrossSection(1)], [1]) *)
   SAdd (RConst 10) (RSum 0)].          (* t = ConstantCrossSection(10) + s *)
Lemma alias_ok : steps_ok empty_heap alias_program.
Proof. simpl. repeat split; repeat constructor. Qed.
Lemma alias_before : hcall 3 (execs empty_heap alias_program) (RSum 1) 0 = Ok 11.
Proof. simpl. f_equal; lra. Qed.
Lemma alias_after : hcall 3 (execs empty_heap (alias_program ++ [SModifyFactors 0 [5]])) (RSum 1) 0 = Ok 15.
Proof. simpl. f_equal; lra. Qed.

Lemma add_snapshot_flat h a b h1 o l : reachable h -> ref_ok h a -> ref_ok h b ->
  hadd h a b = Ok (h1, o) -> copying a b -> flat h a -> flat h b ->
  steps_ok h1 l -> Forall (spares o) l ->
  forall fuel E, hcall fuel (execs h1 l) (RSum o) E = hcall fuel h1 (RSum o) E.
Proof.
  intros W Ra Rb H C Fa Fb. apply (add_snapshot h a b h1 o l W Ra Rb H C).
  intros q [->| ->]; auto.
Qed.
Lemma mul_snapshot_flat h a c h1 o l : reachable h -> ref_ok h a ->
  hmul h a c = Ok (h1, o) -> flat h a ->
  steps_ok h1 l -> Forall (spares o) l ->
  forall fuel E, hcall fuel (execs h1 l) (RSum o) E = hcall fuel h1 (RSum o) E.
Proof.
  intros W Ra H Fa. apply (mul_snapshot h a c h1 o l W Ra H). intros q ->; auto.
Qed.

Lemma snapshot_refuted : exists h a b h1 o l fuel E x y,
  reachable h /\ ref_ok h a /\ ref_ok h b /\ hadd h a b = Ok (h1, o) /\ flat h a /\ flat h b /\
  steps_ok h1 l /\ Forall (spares o) l /\
  hcall fuel h1 (RSum o) E = Ok x /\ hcall fuel (execs h1 l) (RSum o) E = Ok y /\ x <> y.
Proof.
  exists (execs empty_heap [SNew [RConst 1] [1]]), (RConst 10), (RSum 0).
  do 2 eexists. exists [SModifyFactors 0 [5]], 3%nat, 0, 11, 15.
  split; [|split; [|split; [|split; [|split; [|split; [|split; [|split; [|split; [|split]]]]]]]]].
  - exists [SNew [RConst 1] [1]]. split; auto. simpl. repeat constructor.
  - exact I.
  - simpl. lia.
  - reflexivity.
  - exact I.
  - repeat constructor.
  - simpl. repeat split; lia.
  - repeat constructor. simpl; lia.
  - simpl. f_equal; lra.
  - simpl. f_equal; lra.
  - lra.
Qed.
Lemma snapshot_example :
  let h := execs empty_heap [SNew [RConst 1] [1]] in
  reachable h /\ copying (RSum 0) (RConst 10) /\ flat h (RSum 0) /\
  exists h1, hadd h (RSum 0) (RConst 10) = Ok (h1, 1%nat) /\
    steps_ok h1 [SModifyFactors 0 [5]] /\ Forall (spares 1) [SModifyFactors 0 [5]] /\
    hcall 3 (execs h1 [SModifyFactors 0 [5]]) (RSum 1) 0 = Ok 11 /\
    hcall 3 (execs h1 [SModifyFactors 0 [5]]) (RSum 0) 0 = Ok 5.
Proof.
  split; [|split; [|split]].
  - exists [SNew [RConst 1] [1]]. split; auto. simpl. repeat constructor.
  - exact I.
  - repeat constructor.
  - eexists. split; [reflexivity|]. split; [|split; [|split]].
    + simpl. repeat split; lia.
    + repeat constructor. simpl; lia.
    + simpl. f_equal; lra.
    + simpl. f_equal; lra.
Qed.
