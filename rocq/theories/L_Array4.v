(** Proofs about cross sections that are called with arrays, lists and floats. *)
From Coq Require Import List ZArith Bool Arith Lia.
From Flocq Require Import Core BinarySingleNaN.
From Verif Require Import Py M_Num M_CrossSection M_Ieee M_Ieee2 M_Ieee3 M_Array M_Array2 S_Array S_Array2 L_Array L_Array2 L_Array3.
Import ListNotations.
Open Scope py_scope.

Section Induction.
Variable P : source -> Prop.
Hypothesis PC : forall L c, P (Compton L c).
Hypothesis PL : forall d E_r Ir, P (Line d E_r Ir).
Hypothesis PT : forall t, P (Table t).
Hypothesis PK : forall r, P (Constant r).
Hypothesis PW : forall rs ss, Forall P rs -> P (Weighted rs ss).
Fixpoint source_all (v : source) : P v :=
  match v with
  | Compton L c => PC L c
  | Line d E_r Ir => PL d E_r Ir
  | Table t => PT t
  | Constant r => PK r
  | Weighted rs ss => PW rs ss ((fix all (l : list source) : Forall P l := match l with [] => Forall_nil _ | v :: l => Forall_cons _ (source_all v) (all l) end) rs)
  end.
End Induction.

(** The two loops, with any start. *)
Definition aloop (E : arg) (ss : list b64) := fix loop (rs : list source) (i : nat) (acc : out arg) : out arg :=
  match rs with
  | [] => acc
  | r :: rs' => loop rs' (S i) (let! a := acc in let! s := get ss i in let! p := times (float s) (acall r E) in added a p)
  end.
Definition bloop (E : b64) (ss : list b64) := fix loop (rs : list bvalue) (i : nat) (acc : out b64) : out b64 :=
  match rs with
  | [] => acc
  | r :: rs' => loop rs' (S i) (let! a := acc in let! s := get ss i in let! x := bcall r E in Ok (badd a (bmul s x)))
  end.
Lemma acall_weighted rs ss E : acall (Weighted rs ss) E = aloop E ss rs 0%nat (Ok (Float (of_Z 0))). Proof. reflexivity. Qed.
Lemma bcall_sum rs ss E : bcall (BSum rs ss) E = bloop E ss rs 0%nat (Ok (of_Z 0)). Proof. reflexivity. Qed.

(** *** Arrays *)
Section Array.
Variable a : nd.
Let s := nd_shape a.
Let e (i : list nat) := nd_at a (stretch s i).
Definition gives (o : out arg) (f : b64 -> out b64) (n : bool) : Prop :=
  match o with
  | Raise ex => forall x, f x = Raise ex
  | Ok (Float r) => n = true /\ forall x, f x = Ok r
  | Ok (Nd b) => n = false /\ nd_shape b = nd_shape a /\
      exists g, (forall x, f x = Ok (g x)) /\ forall i, nd_at b (stretch (nd_shape a) i) = g (nd_at a (stretch (nd_shape a) i))
  | _ => False
  end.
Lemma gives_value o g f : value true o (Some s) (fun i => g (e i)) -> (forall x, f x = Ok (g x)) -> gives o f false.
Proof.
  intros [(x & -> & X) N] F. specialize (N eq_refl). destruct x as [b|b|b]; try contradiction. destruct X as [X Y]. cbn. split; [reflexivity|]. split; [exact X|].
  exists g. split; [exact F|]. intros i. symmetry. apply Y.
Qed.
Lemma gives_times o f n c : gives o f n -> gives (times (float c) o) (fun x => let! y := f x in Ok (bmul c y)) n.
Proof.
  unfold times, operator, float. destruct o as [x| |ex]; cbn [bind]; [|contradiction|]. 2:{ intros H x. now rewrite H. }
  destruct x as [r|b|b]; cbn.
  - intros [-> H]. split; [reflexivity|]. intros x. now rewrite H.
  - intros (-> & B & g & F & G). split; [reflexivity|]. rewrite B. split; [reflexivity|]. exists (fun x => bmul c (g x)). split.
    + intros x. now rewrite F.
    + intros i. rewrite (stretch_below _ _ _ (below_refl _)). now rewrite G.
  - contradiction.
Qed.
Lemma gives_added x y f h n m : gives (Ok x) f n -> gives (Ok y) h m ->
  gives (added x y) (fun z => let! p := f z in let! q := h z in Ok (badd p q)) (n && m).
Proof.
  intros X Y. destruct x as [r|b|b]; cbn in X; [| |contradiction].
  - destruct X as [-> X]. destruct y as [q|c|c]; cbn in Y; [| |contradiction].
    + destruct Y as [-> Y]. cbn. split; [reflexivity|]. intros z. now rewrite X, Y.
    + destruct Y as (-> & C & g & F & G). cbn. split; [reflexivity|]. split; [exact C|]. exists (fun z => badd r (g z)). split; [intros z; now rewrite X, F|].
      intros i. rewrite C, (stretch_below _ _ _ (below_refl _)). now rewrite G.
  - destruct X as (-> & B & g & F & G). cbn [andb].
    assert (J : exists u, nd_map2 badd b (asarray y) = Ok u /\ nd_shape u = nd_shape a /\ join_shape (nd_shape b) (nd_shape (asarray y)) = Some (nd_shape b) /\
      exists k, (forall x, (let! p := f x in let! q := h x in Ok (badd p q)) = Ok (k x)) /\
        forall i, nd_at u (stretch (nd_shape a) i) = k (nd_at a (stretch (nd_shape a) i))).
    { destruct y as [q|c|c]; cbn in Y; [| |contradiction].
      - destruct Y as [_ Y]. unfold nd_map2, asarray, nd0. cbn [nd_shape]. rewrite join_nil_r. eexists. split; [reflexivity|]. cbn [nd_shape nd_at]. split; [exact B|]. split; [reflexivity|].
        exists (fun x => badd (g x) q). split; [intros x; now rewrite F, Y|]. intros i. rewrite B, (stretch_below _ _ _ (below_refl _)). now rewrite G.
      - destruct Y as (_ & C & k & FK & GK). unfold nd_map2, asarray. rewrite B, C, join_idem. eexists. split; [reflexivity|]. cbn [nd_shape nd_at]. split; [reflexivity|]. split; [reflexivity|].
        exists (fun x => badd (g x) (k x)). split; [intros x; now rewrite F, FK|]. intros i. rewrite (stretch_below _ _ _ (below_refl _)). now rewrite G, GK. }
    destruct J as (u & U & US & JS & k & FK & GK).
    assert (A : added (Nd b) y = Ok (Nd u)).
    { unfold added. destruct (nd_shape b) as [|d t] eqn:ES.
      - unfold plus, operator. cbn [bind]. cbn [asarray]. rewrite U. reflexivity.
      - rewrite JS. destruct (list_eq_dec Nat.eq_dec (d :: t) (d :: t)) as [_|N]; [|contradiction N; reflexivity]. rewrite U. reflexivity. }
    rewrite A. cbn. split; [reflexivity|]. split; [exact US|]. exists k. split; assumption.
Qed.
Lemma gives_ext o f h n : gives o f n -> (forall x, f x = h x) -> gives o h n.
Proof.
  intros G E. destruct o as [[r|b|b]| |ex]; cbn in *; auto.
  - destruct G as [G H]. split; [exact G|]. intros x. now rewrite <- E.
  - destruct G as (N & B & g & F & G). split; [exact N|]. split; [exact B|]. exists g. split; [|exact G]. intros x. now rewrite <- E.
  - intros x. now rewrite <- E.
Qed.
Lemma apdf_array d : value true (apdf d (Nd a)) (Some s) (fun i => density d (e i)).
Proof.
  assert (A : value true (Ok (Nd a)) (Some (shape (Nd a))) (el (Nd a))) by (apply v_array; eexists; reflexivity).
  destruct d as [pdf|eta n c|p E_r]; unfold apdf.
  - exact (v_ufunc_arg pdf (Nd a)).
  - assert (N : value true (Ok (Nd (nd0 eta))) (Some []) (fun _ => eta)). { split; [|intros _; exact I]. exists (Nd (nd0 eta)). cbn. auto. }
    pose proof (v_plus _ _ _ _ _ _ _ _ (v_times _ _ _ _ _ _ _ _ (v_minus _ _ _ _ _ _ _ _ (v_int 1) N) (v_ufunc_arg n (Nd a))) (v_times _ _ _ _ _ _ _ _ N (v_ufunc_arg c (Nd a)))) as H.
    revert H. shapes. exact (fun H => H).
  - pose proof (v_ufunc _ p _ _ _ (v_minus _ _ _ _ _ _ _ _ A (v_float E_r))) as H. revert H. shapes. exact (fun H => H).
Qed.
Lemma line_array d E_r Ir : gives (ares_call d E_r Ir (Nd a) true) (fun x => Ok (bres_call (density d) E_r Ir x true)) false.
Proof.
  unfold ares_call. cbn [bind]. refine (gives_value _ (fun x => bmul Ir (density d x)) _ _ (fun x => eq_refl)).
  pose proof (v_times _ _ _ _ _ _ _ _ (v_float Ir) (apdf_array d)) as H. revert H. shapes. exact (fun H => H).
Qed.
Lemma table_array t : gives (axrmac_call t (Nd a)) (fun x => Ok (t_power t (t_interpolate t (t_log10 t x)))) false.
Proof.
  unfold axrmac_call. refine (gives_value _ (fun x => t_power t (t_interpolate t (t_log10 t x))) _ _ (fun x => eq_refl)).
  exact (v_ufunc _ (t_power t) _ _ _ (v_ufunc _ (t_interpolate t) _ _ _ (v_ufunc_arg (t_log10 t) (Nd a)))).
Qed.
Lemma compton_array L c : gives (akn_cs_total L c (Nd a)) (bkn_cs_total NumpyFloat L c) false.
Proof.
  assert (T : exists g, forall x, bkn_cs_total NumpyFloat L c x = Ok (g x)) by (eexists; intros x; reflexivity).
  destruct T as [g T].
  assert (V : exists h, value true (akn_cs_total L c (Nd a)) (Some s) h /\ forall i, bkn_cs_total NumpyFloat L c (e i) = Ok (h i)).
  { assert (A : value true (Ok (Nd a)) (Some (shape (Nd a))) (el (Nd a))) by (apply v_array; eexists; reflexivity). eexists. split.
    - unfold akn_cs_total. eapply v_bind.
      + eapply v_over; [exact A|build|reflexivity].
      + intros x t Ht X. cbv beta zeta. eapply v_shape; [build|reflexivity|]. rewrite ojoin_nil_r in Ht. injection Ht as <-. shapes. reflexivity.
      + rewrite ojoin_nil_r. discriminate.
    - intros i. reflexivity. }
  destruct V as (h & [(y & -> & Y) N] & H). specialize (N eq_refl). destruct y as [b|b|b]; try contradiction. destruct Y as [Y1 Y2]. cbn. split; [reflexivity|].
  split; [exact Y1|]. exists g. split; [exact T|]. intros i. specialize (H i). rewrite T, Y2 in H. unfold e, s in H. congruence.
Qed.
Lemma acall_array v : gives (acall v (Nd a)) (bcall (numbers NumpyFloat v)) (constants_only v).
Proof.
  induction v as [L c|d E_r Ir|t|r|rs ss IH] using source_all.
  - apply compton_array.
  - apply line_array.
  - apply table_array.
  - cbn. auto.
  - rewrite acall_weighted. cbn [numbers]. cbn [constants_only].
    apply (gives_ext _ (fun x => bloop x ss (map (numbers NumpyFloat) rs) 0%nat (Ok (of_Z 0)))); [|intros x; reflexivity].
    assert (G : forall i o f n, gives o f n -> gives (aloop (Nd a) ss rs i o) (fun x => bloop x ss (map (numbers NumpyFloat) rs) i (f x)) (n && forallb constants_only rs)).
    { induction IH as [|v rs Hv IH IHrs]; intros i o f n G; cbn [map aloop bloop forallb].
      - now rewrite andb_true_r.
      - rewrite andb_assoc. apply (IHrs (S i) _ (fun x => let! p := f x in let! c := get ss i in let! q := bcall (numbers NumpyFloat v) x in Ok (badd p (bmul c q))) (n && constants_only v)).
        destruct o as [x| |ex]; [|contradiction|cbn [bind]; intros x; cbn in G; now rewrite G]. cbn [bind].
        assert (T : (exists g, forall z, f z = Ok (g z))).
        { destruct x; cbn in G; [destruct G as [_ G]; exists (fun _ => b); exact G|destruct G as (_ & _ & g & G & _); eauto|contradiction]. }
        destruct (get ss i) as [c| |ex] eqn:EG; cbn [bind]; destruct T as [g T].
        + pose proof (gives_times _ _ _ c Hv) as P. destruct (times (float c) (acall v (Nd a))) as [y| |ex]; [|contradiction|].
          * cbn [bind]. eapply gives_ext; [apply (gives_added _ _ _ _ _ _ G P)|]. intros z. cbv beta. rewrite T. cbn [bind]. destruct (bcall (numbers NumpyFloat v) z); reflexivity.
          * intros z. cbn in P. specialize (P z). rewrite T. cbn [bind]. destruct (bcall _ z); cbn in *; congruence.
        + unfold get in EG. destruct (nth_error ss i); discriminate.
        + intros z. rewrite T. reflexivity. }
    apply (G 0%nat (Ok (Float (of_Z 0))) (fun _ => Ok (of_Z 0)) true). cbn. auto.
Qed.
Lemma gives_elementwise o f : gives o f false -> elementwise_or_raise f a o.
Proof.
  destruct o as [[r|b|b]| |ex]; cbn; [intros [? _]; discriminate| |contradiction|contradiction|].
  - intros (_ & B & g & F & G). right. right. exists b. split; [reflexivity|]. rewrite B. cbn [map]. change (shape (Nd a)) with (nd_shape a). split.
    + change (broadcast [nd_shape a] (nd_shape a)). apply joins_some. cbn. apply join_nil_r.
    + intros i I. cbn [fn1]. rewrite F. rewrite <- el_spec by (destruct I as [I _]; rewrite I; apply Nat.le_refl). unfold el. cbn [asarray]. change (shape (Nd a)) with (nd_shape a).
      rewrite <- G. now rewrite (stretch_index _ _ I).
  - intros H. left. eauto.
Qed.
End Array.
Lemma called_array v a : if constants_only v then exists o, (forall x, bcall (numbers NumpyFloat v) x = o) /\ acall v (Nd a) = python_float o
  else elementwise_or_raise (bcall (numbers NumpyFloat v)) a (acall v (Nd a)).
Proof.
  pose proof (acall_array a v) as H. destruct (constants_only v) eqn:C; [|now apply gives_elementwise].
  destruct (acall v (Nd a)) as [[r|b|b]| |ex]; cbn in H; try contradiction.
  - destruct H as [_ H]. exists (Ok r). auto.
  - destruct H. discriminate.
  - exists (Raise ex). auto.
Qed.

(** *** Floats *)
Lemma number_times o p c : is_number o p -> is_number (times (float c) o) (let! y := p in Ok (bmul c y)).
Proof.
  destruct o as [[r|b|b]| |ex]; cbn; try contradiction; [intros -> ; reflexivity| |intros ->; reflexivity]. intros [-> ->]. cbn. auto.
Qed.
Lemma number_added x y p q : is_number (Ok x) p -> is_number (Ok y) q -> is_number (added x y) (let! a := p in let! b := q in Ok (badd a b)).
Proof.
  destruct x as [r|b|b]; cbn; [intros ->|intros [S ->]|contradiction]; destruct y as [u|c|c]; cbn; try contradiction; [intros ->|intros [S' ->]|intros ->|intros [S' ->]]; cbn; try reflexivity.
  all: rewrite ?S, ?S'; cbn [join_shape plus operator bind asarray]; unfold plus, operator, nd_map2; cbn [bind asarray nd0 nd_shape nd_at]; rewrite ?S, ?S'; cbn; auto.
Qed.
Lemma called_float v e : is_number (acall v (Float e)) (bcall (numbers PythonFloat v) e).
Proof.
  induction v as [L c|d E_r Ir|t|r|rs ss IH] using source_all.
  - cbn [acall numbers bcall]. rewrite total_float. destruct (bkn_cs_total PythonFloat L c e) eqn:K; cbn; auto. exfalso. revert K. unfold bkn_cs_total, bdivide, bpower_m, bpower.
    repeat (match goal with |- context [if ?b then _ else _] => destruct b end; cbn [bind]; try discriminate).
  - destruct d; cbn; auto.
  - cbn. auto.
  - reflexivity.
  - rewrite acall_weighted. cbn [numbers]. rewrite bcall_sum.
    assert (G : forall i o p, is_number o p -> is_number (aloop (Float e) ss rs i o) (bloop e ss (map (numbers PythonFloat) rs) i p)).
    { induction IH as [|v rs Hv IH IHrs]; intros i o p G; cbn [map aloop bloop]; [exact G|]. apply IHrs.
      destruct o as [x| |ex]; [|contradiction|cbn in G; subst p; reflexivity]. cbn [bind].
      assert (P : exists r, p = Ok r) by (destruct x; cbn in G; [eauto|destruct G; eauto|contradiction]). destruct P as [r ->]. cbn [bind].
      destruct (get ss i) as [c| |ex] eqn:EG; cbn [bind]; [|unfold get in EG; destruct (nth_error ss i); discriminate|reflexivity].
      pose proof (number_times _ _ c Hv) as T. destruct (times (float c) (acall v (Float e))) as [y| |ex]; [|contradiction|].
      - cbn [bind]. pose proof (number_added _ _ _ _ G T) as A. cbn [bind] in A. destruct (bcall _ e); exact A.
      - cbn [bind]. cbn in T. cbn. destruct (bcall _ e); cbn in *; congruence. }
    apply G. reflexivity.
Qed.

(** *** Lists *)
Lemma called_list v a : calculates v = false -> acall v (Seq a) = acall v (Nd a).
Proof.
  induction v as [L c|d E_r Ir|t|r|rs ss IH] using source_all; cbn [calculates]; try discriminate; try reflexivity.
  - destruct d; [reflexivity|reflexivity|discriminate].
  - intros C. rewrite !acall_weighted. generalize (Ok (Float (of_Z 0))). generalize 0%nat. induction IH as [|v rs Hv IH IHrs]; intros i o; cbn [aloop]; [reflexivity|].
    cbn [existsb] in C. apply orb_false_elim in C as [C1 C2]. rewrite (Hv C1). apply (IHrs C2).
Qed.
Lemma aloop_raise E ss ex : forall rs i, aloop E ss rs i (Raise ex) = Raise ex.
Proof. induction rs; intros i; [reflexivity|]. apply IHrs. Qed.
Lemma weighted_runs v a : weighted v = true -> (exists x, acall v (Nd a) = Ok x).
Proof.
  intros W. pose proof (acall_array a v) as H. destruct (acall v (Nd a)) as [x| |ex]; [eauto|contradiction|]. exfalso. cbn in H. specialize (H (of_Z 0)). revert H.
  assert (N : exists r, bcall (numbers NumpyFloat v) (of_Z 0) = Ok r); [|destruct N as [r ->]; discriminate].
  induction v as [L c|d E_r Ir|t|r|rs ss IH] using source_all; try (eexists; reflexivity).
  cbn [numbers]. rewrite bcall_sum. cbn [weighted] in W. apply andb_prop in W as [W1 W2]. apply Nat.leb_le in W1.
  assert (G : forall i r, (i + length rs <= length ss)%nat -> exists q, bloop (of_Z 0) ss (map (numbers NumpyFloat) rs) i (Ok r) = Ok q).
  { clear W1. induction IH as [|v rs Hv IH IHrs]; intros i r LE; cbn [map bloop]; [eauto|]. cbn [forallb] in W2. apply andb_prop in W2 as [W2 W3]. destruct (Hv W2) as [q Q]. cbn [bind].
    cbn [length] in LE. destruct (get ss i) as [c| |ex'] eqn:EG; cbn [bind].
    - rewrite Q. cbn [bind]. apply (IHrs W3). lia.
    - unfold get in EG. destruct (nth_error ss i); discriminate.
    - unfold get in EG. destruct (nth_error ss i) eqn:NE; [discriminate|]. apply nth_error_None in NE. lia. }
  apply G. lia.
Qed.
Lemma refused_list v a : weighted v = true -> calculates v = true -> acall v (Seq a) = Raise TypeError.
Proof.
  induction v as [L c|d E_r Ir|t|r|rs ss IH] using source_all; cbn [calculates weighted]; try discriminate; try reflexivity.
  - destruct d; try discriminate. reflexivity.
  - intros W C. apply andb_prop in W as [W1 W2]. apply Nat.leb_le in W1. rewrite acall_weighted.
    assert (G : forall i x f n, gives a (Ok x) f n -> (i + length rs <= length ss)%nat -> aloop (Seq a) ss rs i (Ok x) = Raise TypeError).
    { clear W1. induction IH as [|v rs Hv IH IHrs]; intros i x f n X LE; [discriminate C|]. cbn [forallb] in W2. apply andb_prop in W2 as [W2 W3]. cbn [existsb] in C.
      cbn [aloop bind]. cbn [length] in LE. destruct (get ss i) as [c| |ex'] eqn:EG; cbn [bind].
      - destruct (calculates v) eqn:CV.
        + rewrite (Hv W2 eq_refl). cbn [times operator float bind]. unfold times, operator, float. cbn [bind]. apply aloop_raise.
        + rewrite (called_list v a CV). destruct (weighted_runs v a W2) as [y Y]. pose proof (acall_array a v) as A. rewrite Y in A |- *.
          pose proof (gives_times a _ _ _ c A) as T. destruct (times (float c) (Ok y)) as [z| |ex] eqn:TE; [|contradiction|].
          * cbn [bind]. pose proof (gives_added a _ _ _ _ _ _ X T) as P. destruct (added x z) as [w| |ex] eqn:AE; [|contradiction|].
            -- eapply (IHrs W3 C); [exact P|lia].
            -- exfalso. cbn in P. specialize (P (of_Z 0)). cbn in X, T. destruct x as [r|b|b]; cbn in X; [destruct X as [_ X]|destruct X as (_ & _ & g & X & _)|contradiction];
               rewrite X in P; cbn [bind] in P; (destruct z as [r'|b'|b']; cbn in T; [destruct T as [_ T]|destruct T as (_ & _ & g' & T & _)|contradiction]; rewrite T in P; cbn in P; discriminate).
          * exfalso. unfold times, operator, float in TE. cbn [bind] in TE. destruct y; cbn in TE; try discriminate. cbn in A. contradiction.
      - unfold get in EG. destruct (nth_error ss i); discriminate.
      - unfold get in EG. destruct (nth_error ss i) eqn:NE; [discriminate|]. apply nth_error_None in NE. lia. }
    apply (G 0%nat (Float (of_Z 0)) (fun _ => Ok (of_Z 0)) true); [cbn; auto|lia].
Qed.
