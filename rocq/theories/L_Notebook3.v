(** Rates in the layered target. *)
From Coq Require Import Reals List ZArith Lra Lia Psatz.
From Coquelicot Require Import Coquelicot.
From Verif Require Import Py Spec M_Num M_Grid M_Constituents M_Thermal M_Dist M_Resonance M_PseudoVoigt M_Notebook S_Resonance S_PseudoVoigt S_Notebook
  L_RInt L_Resonance L_Resonance6 L_PseudoVoigt L_PseudoVoigt6 L_Voigt2 L_Notebook L_Notebook2.
Import ListNotations.
Open Scope R_scope.
Open Scope py_scope.

Definition slab_ok (a b : R) (l : slab) : Prop := 0 <= sl_depth l /\
  forall E, a <= E <= b -> continuity_pt (sl_part l) E /\ continuity_pt (sl_total l) E /\ 0 <= sl_part l E <= sl_total l E /\ 0 < sl_total l E.
Lemma transmission_continuous a b ls E : List.Forall (slab_ok a b) ls -> a <= E <= b -> continuity_pt (transmission ls) E.
Proof.
  intros F H. induction F as [|l ls [_ Hl] F IH]; [apply continuity_pt_const; now intros x y|].
  apply (continuity_pt_mult (fun E => exp (- (sl_total l E * sl_depth l))) (transmission ls)); [|exact IH].
  apply (continuity_pt_comp (fun E => - (sl_total l E * sl_depth l)) exp); [|apply derivable_continuous_pt, derivable_pt_exp].
  apply continuity_pt_opp. apply continuity_pt_mult; [apply (Hl E H)|apply continuity_pt_const; now intros x y].
Qed.
Lemma reacted_ex a b before l : a <= b -> List.Forall (slab_ok a b) before -> slab_ok a b l -> ex_RInt (reacted before l) a b.
Proof.
  intros Hab F [D H]. apply (continuous_int a b Hab). intros E HE. destruct (H E HE) as (C1 & C2 & _ & P).
  apply (continuity_pt_mult (fun E => transmission before E * (sl_part l E / sl_total l E)) (fun E => 1 - exp (- (sl_total l E * sl_depth l)))).
  - apply (continuity_pt_mult (transmission before) (fun E => sl_part l E / sl_total l E)); [now apply (transmission_continuous a b)|].
    apply (continuity_pt_div (sl_part l) (sl_total l)); [exact C1|exact C2|lra].
  - apply (continuity_pt_minus (fun _ => 1)); [apply continuity_pt_const; now intros x y|].
    apply (continuity_pt_comp (fun E => - (sl_total l E * sl_depth l)) exp); [|apply derivable_continuous_pt, derivable_pt_exp].
    apply continuity_pt_opp. apply continuity_pt_mult; [exact C2|apply continuity_pt_const; now intros x y].
Qed.
Lemma layer_iterated a b before l c d : a <= b -> List.Forall (slab_ok a b) before -> slab_ok a b l -> sl_depth l = d ->
  iterated_integral (fun E rho => rate before l (rho - c) E) a b c (c + d) (RInt (reacted before l) a b).
Proof.
  intros Hab F [D H] <-.
  assert (Cg : forall E, a <= E <= b -> continuity_pt (fun E => transmission before E * sl_part l E) E).
  { intros E HE. apply (continuity_pt_mult (transmission before) (sl_part l)); [now apply (transmission_continuous a b)|apply (H E HE)]. }
  assert (Cs : forall E, a <= E <= b -> continuity_pt (sl_total l) E) by (intros E HE; apply (H E HE)).
  assert (Ps : forall E, a <= E <= b -> 0 < sl_total l E) by (intros E HE; apply (H E HE)).
  split.
  - intros y _. eapply ex_RInt_ext; [|exact (layer_ex _ _ a b Hab Cg Cs (y - c))]. intros E _. unfold rate. do 2 f_equal. ring.
  - evar_last; [eapply is_RInt_ext; [|exact (layer_integral_from _ _ a b Hab Cg Cs Ps c (sl_depth l))]|].
    + intros y _. apply RInt_ext. intros E _. unfold rate. do 2 f_equal. ring.
    + apply RInt_ext. intros E HE. rewrite Rmin_left, Rmax_right in HE by lra. unfold reacted. pose proof (Ps E ltac:(lra)).
      replace (- sl_total l E * sl_depth l) with (- (sl_total l E * sl_depth l)) by ring. match goal with |- ?u = ?v => change (@eq R u v) end. field. lra.
Qed.
(** Never more than in a thin target without attenuation. *)
Lemma transmission_le_1 a b ls E : List.Forall (slab_ok a b) ls -> a <= E <= b -> transmission ls E <= 1.
Proof.
  intros F H. induction F as [|l ls [D Hl] F IH]; cbn; [lra|]. destruct (Hl E H) as (_ & _ & _ & P).
  pose proof (exp_le_1 (sl_total l E * sl_depth l) ltac:(apply Rmult_le_pos; lra)). pose proof (transmission_pos ls E). nra.
Qed.
Lemma reacted_thin a b before l E : List.Forall (slab_ok a b) before -> slab_ok a b l -> a <= E <= b ->
  0 <= reacted before l E <= transmission before E * (sl_part l E * sl_depth l) /\
  transmission before E * (sl_part l E * sl_depth l) - reacted before l E <= sl_depth l ^ 2 / 2 * (sl_part l E * sl_total l E).
Proof.
  intros F [D H] HE. destruct (H E HE) as (_ & _ & P & T). split; [split|].
  - apply (reacted_bounds before l E D P T).
  - unfold reacted. pose proof (proj2 (exp_quadratic (sl_total l E * sl_depth l) ltac:(apply Rmult_le_pos; lra))) as X.
    pose proof (transmission_pos before E). rewrite Rmult_assoc. apply Rmult_le_compat_l; [lra|].
    replace (sl_part l E * sl_depth l) with (sl_part l E / sl_total l E * (sl_total l E * sl_depth l)) by (field; lra).
    apply Rmult_le_compat_l; [|exact X]. apply Rmult_le_pos; [lra|left; now apply Rinv_0_lt_compat].
  - unfold reacted. pose proof (proj1 (exp_quadratic (sl_total l E * sl_depth l) ltac:(apply Rmult_le_pos; lra))) as X.
    pose proof (transmission_pos before E) as B. pose proof (transmission_le_1 a b before E F HE) as B1.
    set (u := sl_total l E * sl_depth l) in *. set (e := exp (- u)) in *. set (g := sl_part l E) in *. set (s := sl_total l E) in *. set (tr := transmission before E) in *.
    assert (Q : 0 <= g / s) by (apply Rmult_le_pos; [lra|left; now apply Rinv_0_lt_compat]).
    replace (tr * (g * sl_depth l) - tr * (g / s) * (1 - e)) with (tr * (g / s) * (u - (1 - e))) by (unfold u; field; apply Rgt_not_eq; exact T).
    replace (sl_depth l ^ 2 / 2 * (g * s)) with (1 * (g / s) * (u ^ 2 / 2)) by (unfold u; field; apply Rgt_not_eq; exact T).
    apply Rmult_le_compat; [apply Rmult_le_pos; [now left|exact Q]| |apply Rmult_le_compat_r; [exact Q|exact B1]|lra].
    pose proof (proj2 (exp_quadratic u ltac:(unfold u; apply Rmult_le_pos; [left; exact T|exact D]))). fold e in H0. lra.
Qed.

(** *** One layer *)
Section One.
  Variables (nquad : nquad_fn) (eps : R) (nr sr : cross_section) (n r : R -> R) (x a b d : R).
  Hypothesis N : nquad_accurate eps nquad.
  Hypothesis Hab : a <= b.
  Hypothesis Hd : 0 <= d.
  Hypothesis Hx : 0 <= x.
  Hypothesis Hn : forall E, a <= E <= b -> nr E = Ok (n E) /\ continuity_pt n E /\ 0 <= n E.
  Hypothesis Hr : forall E, a <= E <= b -> sr E = Ok (r E) /\ continuity_pt r E /\ 0 <= r E.
  Hypothesis Hs : forall E, a <= E <= b -> 0 < n E + x * r E.
  Lemma slab_of_ok : slab_ok a b (slab_of d n x r).
  Proof.
    split; [exact Hd|]. intros E HE. destruct (Hn E HE) as (_ & C1 & P1). destruct (Hr E HE) as (_ & C2 & P2). cbn.
    assert (C : continuity_pt (fun E => x * r E) E) by (apply continuity_pt_scal; exact C2).
    split; [exact C|]. split; [apply continuity_pt_plus; [exact C1|exact C]|]. split; [nra|now apply Hs].
  Qed.
  Lemma one_layer : exists v w, count_rate nquad nr sr x (a, b) d = Ok v /\ count_rate_thin_target nquad nr sr x (a, b) d = Ok w /\
    Rabs (v - RInt (reacted [] (slab_of d n x r)) a b) <= eps /\ Rabs (w - x * d * RInt r a b) <= eps /\
    0 <= w - v + 2 * eps /\ w - v <= d ^ 2 / 2 * RInt (fun E => x * r E * (n E + x * r E)) a b + 2 * eps.
  Proof.
    pose proof slab_of_ok as S. set (l := slab_of d n x r) in *.
    pose proof (layer_iterated a b [] l 0 d Hab ltac:(constructor) S eq_refl) as I1. rewrite Rplus_0_l in I1.
    assert (V1 : forall E rho, a <= E <= b -> 0 <= rho <= d -> alpha E rho nr sr x = Ok (rate [] l (rho - 0) E)).
    { intros E rho HE _. destruct (Hn E HE) as (A1 & _). destruct (Hr E HE) as (A2 & _). rewrite (alpha_value E rho nr sr x _ _ A1 A2). unfold rate, l, slab_of. cbn [transmission sl_part sl_total]. rewrite Rminus_0_r. f_equal. ring. }
    assert (Rx : ex_RInt r a b) by (apply (continuous_int a b Hab); intros E HE; apply (Hr E HE)).
    assert (I2 : iterated_integral (fun E rho => x * r E) a b 0 d (x * d * RInt r a b)).
    { split; [intros y _; apply (ex_RInt_scal r); exact Rx|].
      evar_last; [apply (is_RInt_ext (fun _ => x * RInt r a b)); [|apply is_RInt_const]|].
      - intros y _. symmetry. apply (RInt_scal r). exact Rx.
      - unfold scal. cbn. unfold mult. cbn. ring. }
    destruct (N _ _ a b 0 d _ Hab Hd V1 I1) as (v & Ev & Bv).
    assert (V2 : forall E rho, a <= E <= b -> 0 <= rho <= d -> alpha E 0 nr sr x = Ok (x * r E)).
    { intros E rho HE _. destruct (Hn E HE) as (A1 & _). destruct (Hr E HE) as (A2 & _). rewrite (alpha_value E 0 nr sr x _ _ A1 A2). rewrite Rmult_0_r, Ropp_0, exp_0. f_equal. ring. }
    destruct (N (fun E rho => alpha E 0 nr sr x) _ a b 0 d _ Hab Hd V2 I2) as (w & Ew & Bw).
    exists v, w. split; [exact Ev|]. split; [exact Ew|]. split; [exact Bv|]. split; [exact Bw|].
    assert (T : forall E, a <= E <= b -> 0 <= reacted [] l E <= 1 * (x * r E * d) /\ 1 * (x * r E * d) - reacted [] l E <= d ^ 2 / 2 * (x * r E * (n E + x * r E))).
    { intros E HE. exact (reacted_thin a b [] l E ltac:(constructor) S HE). }
    assert (X1 : ex_RInt (reacted [] l) a b) by (apply reacted_ex; auto).
    assert (X2 : is_RInt (fun E => 1 * (x * r E * d)) a b (x * d * RInt r a b)).
    { evar_last; [apply (is_RInt_ext (fun E => (x * d) * r E)); [intros; match goal with |- ?u = ?v => change (@eq R u v) end; ring|apply (is_RInt_scal r); apply (RInt_correct r); exact Rx]|reflexivity]. }
    assert (X3 : ex_RInt (fun E => x * r E * (n E + x * r E)) a b).
    { apply (continuous_int a b Hab). intros E HE. destruct (Hn E HE) as (_ & C1 & _). destruct (Hr E HE) as (_ & C2 & _).
      assert (C : continuity_pt (fun E => x * r E) E) by (apply continuity_pt_scal; exact C2). apply continuity_pt_mult; [exact C|]. apply continuity_pt_plus; [exact C1|exact C]. }
    assert (L1 : RInt (reacted [] l) a b <= x * d * RInt r a b).
    { rewrite <- (is_RInt_unique _ _ _ _ X2). apply RInt_le; [exact Hab|exact X1|eexists; exact X2|]. intros E HE. apply T. lra. }
    assert (L2 : x * d * RInt r a b - RInt (reacted [] l) a b <= d ^ 2 / 2 * RInt (fun E => x * r E * (n E + x * r E)) a b).
    { pose proof (is_RInt_minus _ _ _ _ _ _ X2 (RInt_correct _ _ _ X1)) as M. change (minus (x * d * RInt r a b) (RInt (reacted [] l) a b)) with (x * d * RInt r a b - RInt (reacted [] l) a b) in M.
      rewrite <- (is_RInt_unique _ _ _ _ M). rewrite <- (RInt_scal (V := R_CompleteNormedModule) _ _ _ _ X3).
      apply RInt_le; [exact Hab|eexists; exact M|apply (ex_RInt_scal (V := R_NormedModule)); exact X3|]. intros E HE. apply T. lra. }
    apply Rabs_le_between in Bv. apply Rabs_le_between in Bw. split; lra.
  Qed.
End One.

(** *** Four layers *)
Lemma layer_number nquad eps f before l c d a b : nquad_accurate eps nquad -> a <= b -> List.Forall (slab_ok a b) before -> slab_ok a b l -> sl_depth l = d ->
  (forall E rho, a <= E <= b -> f E rho = Ok (rate before l (rho - c) E)) ->
  exists v, nquad f (a, b) (c, c + d) = Ok v /\ Rabs (v - RInt (reacted before l) a b) <= eps /\ 0 <= RInt (reacted before l) a b <= d * RInt (sl_part l) a b.
Proof.
  intros N Hab F S D V. pose proof (layer_iterated a b before l c d Hab F S D) as I.
  assert (Hd : c <= c + d) by (destruct S; lra).
  destruct (N f (fun E rho => rate before l (rho - c) E) a b c (c + d) _ Hab Hd ltac:(intros; now apply V) I) as (v & Ev & Bv). exists v. split; [exact Ev|]. split; [exact Bv|].
  pose proof (reacted_ex a b before l Hab F S) as X.
  assert (Px : ex_RInt (sl_part l) a b) by (apply (continuous_int a b Hab); intros E HE; apply (proj2 S E HE)).
  split.
  - apply (RInt_ge_0 _ _ _ Hab X). intros E HE. apply (reacted_thin a b before l E F S ltac:(lra)).
  - rewrite <- (RInt_scal (V := R_CompleteNormedModule) _ _ _ _ Px). apply RInt_le; [exact Hab|exact X|apply (ex_RInt_scal (V := R_NormedModule)); exact Px|].
    intros E HE. destruct (reacted_thin a b before l E F S ltac:(lra)) as [[_ L] _]. change (reacted before l E <= d * sl_part l E). rewrite <- D.
    pose proof (transmission_le_1 a b before E F ltac:(lra)). destruct S as [S1 S2]. destruct (S2 E ltac:(lra)) as (_ & _ & P & _).
    assert (0 <= sl_part l E * sl_depth l) by (apply Rmult_le_pos; lra). pose proof (transmission_pos before E). nra.
Qed.
