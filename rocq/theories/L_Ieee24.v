(** The root finder with binary64 numbers: the same iterates as without overflow, and nan. *)
From Coq Require Import Reals List ZArith Bool Lra Lia.
From Flocq Require Import Core BinarySingleNaN.
From Verif Require Import Py M_Num M_Grid M_PseudoVoigt M_Float S_Float M_Float3 M_Ieee M_Ieee2 M_Ieee5 S_Ieee M_Ieee7 L_Ieee L_Ieee2 L_Ieee5 L_Ieee9 L_FNewton5.
Import ListNotations.
Open Scope R_scope.

Lemma btol_win : win btol ftol (-30) 0.
Proof.
  unfold btol, ftol, tol. replace (148 / 10 ^ 10) with (IZR 148 / IZR 10000000000) by lra.
  eapply win_weaken; [apply (win_literal 148 10000000000); lia|vm_compute; congruence|vm_compute; congruence].
Qed.
Lemma btol_rep : rep btol ftol. Proof. exact (win_rep _ _ _ _ btol_win). Qed.
Lemma zero_same b x : rep b x -> bzero b = is_zero x.
Proof. intros H. pose proof (rep_zero b x H) as Z. unfold is_zero. destruct (Req_EM_T x 0) as [E|E]; destruct (bzero b); auto; [now apply Z|exfalso; apply E, Z; reflexivity]. Qed.
Lemma zeros_same bs xs : Forall2 rep bs xs -> forallb bzero bs = forallb is_zero xs.
Proof. induction 1; cbn; [reflexivity|]. now rewrite IHForall2, (zero_same _ _ H). Qed.
Lemma nz_same bs xs : Forall2 rep bs xs -> map (fun x => negb (bzero x)) bs = map (fun x => negb (is_zero x)) xs.
Proof. induction 1; cbn; [reflexivity|]. now rewrite IHForall2, (zero_same _ _ H). Qed.
Lemma le_same a b x y : rep a x -> rep b y -> Bleb a b = if Rle_dec x y then true else false.
Proof. intros Ha Hb. rewrite (rep_le _ _ _ _ Ha Hb). destruct (Rle_dec x y); [now apply Rle_bool_true|apply Rle_bool_false; lra]. Qed.
Lemma const_of {A B C : Type} (P : A -> B -> Prop) (c : C) l m : Forall2 P l m -> map (fun _ => c) l = map (fun _ => c) m.
Proof. induction 1; cbn; congruence. Qed.

Inductive all4 {A B C D} (P : A -> B -> C -> D -> Prop) : list A -> list B -> list C -> list D -> Prop :=
  | all4_nil : all4 P [] [] [] []
  | all4_cons a b c d la lb lc ld : P a b c d -> all4 P la lb lc ld -> all4 P (a :: la) (b :: lb) (c :: lc) (d :: ld).

Section Step.
  Variables (bc bp : b64 -> b64) (c p : R -> R).
  (** What one step needs. *)
  Definition same_step (b : b64) (x : R) (bq : b64) (q : R) : Prop :=
    rep b x /\ rep (bsub (bc b) bq) (fsub (c x) q) /\ rep (bp b) (p x) /\
    (p x <> 0 -> rep (bquo (bsub (bc b) bq) (bp b)) (fquo (fsub (c x) q) (p x)) /\
                 rep (bsub b (bquo (bsub (bc b) bq) (bp b))) (fsub x (fquo (fsub (c x) q) (p x)))).
  Lemma values_same bs xs bqs qs : all4 same_step bs xs bqs qs -> Forall2 rep (map2 bsub (map bc bs) bqs) (map2 fsub (map c xs) qs).
  Proof. induction 1 as [|b x bq q ? ? ? ? (_ & H & _) _ IH]; cbn; constructor; auto. Qed.
  Lemma slopes_same bs xs bqs qs : all4 same_step bs xs bqs qs -> Forall2 rep (map bp bs) (map p xs).
  Proof. induction 1 as [|b x bq q ? ? ? ? (_ & _ & H & _) _ IH]; cbn; constructor; auto. Qed.
  Lemma steps_same bs xs bqs qs : all4 same_step bs xs bqs qs -> let nz := map (fun x => negb (is_zero x)) (map p xs) in
    Forall2 rep (map4 bnewton_step nz bs (map2 bsub (map bc bs) bqs) (map bp bs)) (map4 fnewton_step nz xs (map2 fsub (map c xs) qs) (map p xs)).
  Proof.
    induction 1 as [|b x bq q ? ? ? ? (R0 & _ & _ & H) _ IH]; cbn -[bsub bquo fsub fquo]; constructor; auto. unfold bnewton_step, fnewton_step, is_zero. destruct (Req_EM_T (p x) 0) as [|N]; cbn [negb]; [exact R0|]. now apply H.
  Qed.
  Lemma fails_same bs xs bqs qs : all4 same_step bs xs bqs qs -> let nz := map (fun x => negb (is_zero x)) (map p xs) in forall fl,
    map4 bstep_fails nz fl (map2 bsub (map bc bs) bqs) (map bp bs) = map4 fstep_fails nz fl (map2 fsub (map c xs) qs) (map p xs).
  Proof.
    induction 1 as [|b x bq q ? ? ? ? (R0 & _ & _ & H) _ IH]; cbn -[bsub bquo fsub fquo]; intros [|f fl]; auto. rewrite IH. f_equal. unfold bstep_fails, fstep_fails, is_zero. destruct (Req_EM_T (p x) 0) as [|N]; cbn [negb]; [reflexivity|].
    apply le_same; [exact btol_rep|]. apply abs_rep. now apply H.
  Qed.
  Lemma barray_step n g g' l fl nz0 : barray_newton (S n) g g' l fl nz0 =
    if forallb bzero (g l) then (l, map (fun _ => false) (g l), nz0)
    else if negb (existsb (fun b => b) (map (fun x => negb (bzero x)) (g' l))) then (l, fl, map (fun x => negb (bzero x)) (g' l))
    else if negb (existsb (fun b => b) (map2 andb (map (fun x => negb (bzero x)) (g' l)) (map4 bstep_fails (map (fun x => negb (bzero x)) (g' l)) fl (g l) (g' l))))
         then (map4 bnewton_step (map (fun x => negb (bzero x)) (g' l)) l (g l) (g' l), map4 bstep_fails (map (fun x => negb (bzero x)) (g' l)) fl (g l) (g' l), map (fun x => negb (bzero x)) (g' l))
         else barray_newton n g g' (map4 bnewton_step (map (fun x => negb (bzero x)) (g' l)) l (g l) (g' l))
                (map4 bstep_fails (map (fun x => negb (bzero x)) (g' l)) fl (g l) (g' l)) (map (fun x => negb (bzero x)) (g' l)).
  Proof. reflexivity. Qed.
  (** One iteration of both. *)
  Lemma both_step n bs xs bqs qs fl nz : all4 same_step bs xs bqs qs ->
    (exists bs' xs' fl' nz', Forall2 rep bs' xs' /\
      barray_newton (S n) (fun E => map2 bsub (map bc E) bqs) (map bp) bs fl nz = (bs', fl', nz') /\
      farray_newton (S n) (fun E => map2 fsub (map c E) qs) (map p) xs fl nz = (xs', fl', nz')) \/
    (exists fl' nz', let bs' := map4 bnewton_step nz' bs (map2 bsub (map bc bs) bqs) (map bp bs) in
      let xs' := map4 fnewton_step nz' xs (map2 fsub (map c xs) qs) (map p xs) in
      nz' = map (fun x => negb (is_zero x)) (map p xs) /\ nz' = map (fun x => negb (bzero x)) (map bp bs) /\ Forall2 rep bs' xs' /\
      barray_newton (S n) (fun E => map2 bsub (map bc E) bqs) (map bp) bs fl nz =
        barray_newton n (fun E => map2 bsub (map bc E) bqs) (map bp) bs' fl' nz' /\
      farray_newton (S n) (fun E => map2 fsub (map c E) qs) (map p) xs fl nz =
        farray_newton n (fun E => map2 fsub (map c E) qs) (map p) xs' fl' nz').
  Proof.
    intros H. pose proof (values_same _ _ _ _ H) as V. pose proof (slopes_same _ _ _ _ H) as S. pose proof (steps_same _ _ _ _ H) as T. pose proof (fails_same _ _ _ _ H) as F. cbv zeta in T, F.
    assert (R0 : Forall2 rep bs xs) by (clear - H; induction H as [|? ? ? ? ? ? ? ? (R0 & _) _ IH]; constructor; auto).
    remember (fun E => map2 bsub (map bc E) bqs) as g eqn:Eg. remember (fun E => map2 fsub (map c E) qs) as h eqn:Eh.
    rewrite barray_step, array_step. assert (Gv : g bs = map2 bsub (map bc bs) bqs) by now subst. assert (Hv : h xs = map2 fsub (map c xs) qs) by now subst.
    rewrite Gv, Hv. rewrite (zeros_same _ _ V). rewrite (nz_same _ _ S), F.
    destruct (forallb is_zero _); [left; do 4 eexists; split; [exact R0|]; split; [reflexivity|]; rewrite (const_of rep _ _ _ V); reflexivity|].
    destruct (negb _); [left; do 4 eexists; split; [exact R0|]; split; reflexivity|].
    destruct (negb (existsb _ (map2 _ _ _))); [left; do 4 eexists; split; [exact T|]; split; reflexivity|].
    right. do 2 eexists. split; [reflexivity|]. split; [reflexivity|]. split; [exact T|]. split; reflexivity.
  Qed.
  (** Rounded iterates that stay moderate. *)
  Variable St : nat -> R -> R -> Prop.
  Hypothesis nonzero : forall k q x, St k q x -> p x <> 0.
  Hypothesis next : forall k q x, St (S k) q x -> St k q (fsub x (fquo (fsub (c x) q) (p x))).
  Hypothesis moderate : forall k q x b bq, St k q x -> rep b x -> rep bq q -> same_step b x bq q.
  Lemma moderate_all k bs xs bqs qs : Forall2 rep bs xs -> Forall2 rep bqs qs -> Forall2 (St k) qs xs -> all4 same_step bs xs bqs qs.
  Proof.
    intros H. revert bqs qs. induction H as [|b x bs xs Hb H IH]; intros bqs qs Hq HS; inversion HS; subst; inversion Hq; subst; constructor; [|apply IH; assumption]. eapply moderate; eassumption.
  Qed.
  Lemma forward k : forall bs xs bqs qs fl nz, Forall2 rep bs xs -> Forall2 rep bqs qs -> Forall2 (St k) qs xs ->
    exists bs' xs' fl' nz', Forall2 rep bs' xs' /\
      barray_newton (S k) (fun E => map2 bsub (map bc E) bqs) (map bp) bs fl nz = (bs', fl', nz') /\
      farray_newton (S k) (fun E => map2 fsub (map c E) qs) (map p) xs fl nz = (xs', fl', nz').
  Proof.
    induction k as [|k IH]; intros bs xs bqs qs fl nz H1 H2 H3; pose proof (moderate_all _ _ _ _ _ H1 H2 H3) as A.
    - destruct (both_step 0 bs xs bqs qs fl nz A) as [X|(fl' & nz' & _ & _ & R & B & F)]; [exact X|]. rewrite B, F. cbn [barray_newton farray_newton]. do 4 eexists. split; [exact R|]. split; reflexivity.
    - destruct (both_step (S k) bs xs bqs qs fl nz A) as [Y|(fl1 & nz1 & E3 & E4 & R1 & B1 & F1)]; [exact Y|]. rewrite B1, F1. apply IH; [exact R1|exact H2|].
      rewrite E3, (nz_true p St nonzero xs qs _ H3). now apply (sweep_states c p St next).
  Qed.
End Step.

(** ** From the results back *)
Section Back.
  Variables (bc bp : b64 -> b64) (c p : R -> R) (within : b64 -> Prop).
  Definition bnext (b bq : b64) : b64 := bnewton_step (negb (bzero (bp b))) b (bsub (bc b) bq) (bp b).
  Hypothesis stays : forall b bq, within (bnext b bq) -> within b.
  Hypothesis weak : forall b x bq q, within b -> rep b x -> rep bq q -> Rabs q <= 2 -> rep (bsub (bc b) bq) (fsub (c x) q) /\ rep (bp b) (p x).
  Hypothesis fin : forall b, within b -> is_finite b = true.
  Lemma full b x bq q : within b -> within (bnext b bq) -> rep b x -> rep bq q -> Rabs q <= 2 -> same_step bc bp c p b x bq q.
  Proof.
    intros W Wn Rb Rq Bq. destruct (weak _ _ _ _ W Rb Rq Bq) as [V S]. split; [exact Rb|]. split; [exact V|]. split; [exact S|]. intros N.
    assert (Z : bzero (bp b) = false) by (rewrite (zero_same _ _ S); unfold is_zero; destruct (Req_EM_T (p x) 0); [contradiction|reflexivity]).
    unfold bnext, bnewton_step in Wn. rewrite Z in Wn. cbn [negb] in Wn. apply fin in Wn.
    destruct (sub_finite _ _ Wn) as (_ & Fq & Es). destruct (quo_finite _ _ (proj1 S) Fq) as (_ & _ & Eq). destruct V as [_ Ev]. destruct S as [_ Ed]. destruct Rb as [_ Eb]. rewrite Ev, Ed in Eq. rewrite Eb, Eq in Es. split; split; auto.
  Qed.
  Definition nexts (bs bqs : list b64) : list b64 := map4 bnewton_step (map (fun x => negb (bzero x)) (map bp bs)) bs (map2 bsub (map bc bs) bqs) (map bp bs).
  Lemma stays_all bs : forall bqs, length bs = length bqs -> List.Forall within (nexts bs bqs) -> List.Forall within bs.
  Proof. induction bs as [|b bs IH]; intros [|q bqs] E H; try discriminate; [constructor|]. cbn in E. injection E as E. unfold nexts in H. cbn [map map2 map4] in H. inversion H as [|? ? H1 H2]; subst. constructor; [exact (stays _ _ H1)|exact (IH _ E H2)]. Qed.
  Lemma nexts_length bs : forall bqs, length bs = length bqs -> length (nexts bs bqs) = length bqs.
  Proof. induction bs as [|b bs IH]; intros [|q bqs] E; try discriminate; [reflexivity|]. cbn in E. injection E as E. unfold nexts. cbn [map map2 map4 length]. f_equal. exact (IH _ E). Qed.
  Lemma back_within n : forall bs bqs fl nz bs' fl' nz', length bs = length bqs ->
    barray_newton n (fun E => map2 bsub (map bc E) bqs) (map bp) bs fl nz = (bs', fl', nz') -> List.Forall within bs' -> List.Forall within bs.
  Proof.
    induction n as [|n IH]; intros bs bqs fl nz bs' fl' nz' EL H W; [cbn in H; injection H as <- _ _; exact W|]. remember (fun E => map2 bsub (map bc E) bqs) as g eqn:Eg. rewrite barray_step in H. assert (Gv : g bs = map2 bsub (map bc bs) bqs) by now subst. rewrite Gv in H. fold (nexts bs bqs) in H.
    destruct (forallb _ _); [injection H as <- _ _; exact W|]. destruct (negb _); [injection H as <- _ _; exact W|].
    apply (stays_all bs bqs EL). destruct (negb _); [injection H as <- _ _; exact W|]. subst g. eapply IH; [now apply nexts_length|exact H|exact W].
  Qed.
  Lemma all_same bs xs : Forall2 rep bs xs -> forall bqs qs, Forall2 rep bqs qs -> List.Forall (fun q => Rabs q <= 2) qs -> length bs = length bqs ->
    List.Forall within bs -> List.Forall within (nexts bs bqs) -> all4 (same_step bc bp c p) bs xs bqs qs.
  Proof.
    induction 1 as [|b x bs xs Hb H IH]; intros bqs qs Hq B E W Wn; inversion Hq; subst; try discriminate; constructor; cbn in E; injection E as E; unfold nexts in Wn; cbn [map map2 map4] in Wn; inversion W; inversion Wn; inversion B; subst.
    - apply full; assumption.
    - apply IH; assumption.
  Qed.
  Lemma weak_same bs xs : Forall2 rep bs xs -> forall bqs qs, Forall2 rep bqs qs -> List.Forall (fun q => Rabs q <= 2) qs -> length bs = length bqs -> List.Forall within bs ->
    Forall2 rep (map2 bsub (map bc bs) bqs) (map2 fsub (map c xs) qs) /\ Forall2 rep (map bp bs) (map p xs).
  Proof.
    induction 1 as [|b x bs xs Hb H IH]; intros bqs qs Hq B E W; inversion Hq; subst; try discriminate; [split; constructor|]. cbn in E. injection E as E. inversion W; inversion B; subst.
    destruct (IH l l' ltac:(assumption) ltac:(assumption) E ltac:(assumption)) as [I1 I2]. destruct (weak b x x0 y ltac:(assumption) Hb ltac:(assumption) ltac:(assumption)) as [V S]. split; cbn [map map2]; constructor; assumption.
  Qed.
  Lemma backward n : forall bs xs bqs qs fl nz bs' fl' nz', Forall2 rep bs xs -> Forall2 rep bqs qs -> List.Forall (fun q => Rabs q <= 2) qs -> length bs = length bqs ->
    barray_newton n (fun E => map2 bsub (map bc E) bqs) (map bp) bs fl nz = (bs', fl', nz') -> List.Forall within bs' ->
    exists xs', farray_newton n (fun E => map2 fsub (map c E) qs) (map p) xs fl nz = (xs', fl', nz') /\ Forall2 rep bs' xs'.
  Proof.
    induction n as [|n IH]; intros bs xs bqs qs fl nz bs' fl' nz' Rb Rq Bq EL H W; [cbn in H; injection H as <- <- <-; exists xs; split; [reflexivity|exact Rb]|].
    pose proof (back_within (S n) bs bqs fl nz bs' fl' nz' EL H W) as Wb. destruct (weak_same _ _ Rb _ _ Rq Bq EL Wb) as [V S].
    pose proof H as H'. remember (fun E => map2 bsub (map bc E) bqs) as g eqn:Eg. rewrite barray_step in H'. assert (Gv : g bs = map2 bsub (map bc bs) bqs) by now subst. rewrite Gv in H'. fold (nexts bs bqs) in H'.
    destruct (forallb _ _) eqn:Z.
    { injection H' as <- <- <-. exists xs. split; [|exact Rb]. remember (fun E => map2 fsub (map c E) qs) as h eqn:Eh. rewrite array_step. assert (Hv : h xs = map2 fsub (map c xs) qs) by now subst. rewrite Hv, <- (zeros_same _ _ V), Z. now rewrite (const_of rep _ _ _ V). }
    destruct (negb _) eqn:NZ.
    { injection H' as <- <- <-. exists xs. split; [|exact Rb]. remember (fun E => map2 fsub (map c E) qs) as h eqn:Eh. rewrite array_step. assert (Hv : h xs = map2 fsub (map c xs) qs) by now subst. rewrite Hv, <- (zeros_same _ _ V), Z, <- (nz_same _ _ S), NZ. reflexivity. }
    assert (Wn : List.Forall within (nexts bs bqs)).
    { clear NZ. destruct (negb _); [injection H' as <- _ _; exact W|]. subst g. eapply back_within; [now apply nexts_length|exact H'|exact W]. }
    pose proof (all_same _ _ Rb _ _ Rq Bq EL Wb Wn) as A. subst g.
    destruct (both_step bc bp c p n bs xs bqs qs fl nz A) as [(b1 & x1 & f1 & n1 & R1 & E1 & E2)|(f1 & n1 & E3 & E4 & R1 & E1 & E2)].
    - rewrite E1 in H. assert (Q : b1 = bs' /\ f1 = fl' /\ n1 = nz') by (inversion H; auto). destruct Q as (-> & -> & ->). exists x1. split; [exact E2|exact R1].
    - rewrite E2. rewrite E1 in H. apply (IH _ _ _ _ _ _ _ _ _ R1 Rq Bq) in H; [exact H| |exact W]. rewrite E4. now apply nexts_length.
  Qed.

End Back.

(** ** The whole method *)
Lemma newton_same n bf bf' f f' bs xs bs' xs' fl nz : map (fun _ : b64 => true) bs = map (fun _ : R => true) xs ->
  barray_newton n bf bf' bs (map (fun _ => true) bs) (map (fun _ => true) bs) = (bs', fl, nz) ->
  farray_newton n f f' xs (map (fun _ => true) xs) (map (fun _ => true) xs) = (xs', fl, nz) ->
  (exists conv, bnewton_array n bf bf' bs = Ok (bs', conv) /\ fnewton_array n f f' xs = Ok (xs', conv)) \/
  (bnewton_array n bf bf' bs = Raise RuntimeError /\ fnewton_array n f f' xs = Raise RuntimeError).
Proof.
  intros E B F. unfold bnewton_array, fnewton_array. rewrite B, F. destruct (existsb _ (map2 _ _ _)); [left; eexists; split; reflexivity|]. destruct (existsb _ fl); [|left; eexists; split; reflexivity]. destruct (forallb _ fl); [right; split; reflexivity|left; eexists; split; reflexivity].
Qed.
