(** Self absorption: analysis. *)
From Coq Require Import Reals List Lra Psatz.
From Coquelicot Require Import Coquelicot.
From Verif Require Import Py Spec S_Notebook L_Notebook L_Notebook2 L_Notebook3.
Import ListNotations.
Open Scope R_scope.

Lemma pure_reacted before d f E : 0 < f E -> reacted before (pure_slab d f) E = transmission before E * (1 - exp (- (f E * d))).
Proof. intros H. unfold reacted. cbn. field. lra. Qed.
Lemma pure_passed d f E : transmission [pure_slab d f] E = exp (- (f E * d)).
Proof. cbn. ring. Qed.

(** The quotient of the probabilities of reactions in two layers decreases with the cross section. *)
Lemma exp_m1_ratio x y : 0 < x <= y -> y * (exp x - 1) <= x * (exp y - 1).
Proof.
  intros [Hx [Hy | ->]]; [|lra].
  assert (D : forall z, is_derive (fun z => x * (exp z - 1) - z * (exp x - 1)) z (x * exp z - (exp x - 1))) by (intros z; auto_derive; [trivial|ring]).
  destruct (MVT_gen (fun z => x * (exp z - 1) - z * (exp x - 1)) x y (fun z => x * exp z - (exp x - 1))) as (c & [C1 C2] & C3).
  - intros z _. apply D.
  - intros z _. apply continuity_pt_filterlim. apply (ex_derive_continuous (V := R_NormedModule) (fun z : R => x * (exp z - 1) - z * (exp x - 1)) z). eexists. apply D.
  - rewrite Rmin_left in C1 by lra. rewrite Rmax_right in C2 by lra.
    assert (exp x <= exp c) by (destruct C1 as [C1| -> ]; [left; now apply exp_increasing|lra]).
    assert (E2 : exp x - 1 <= x * exp x).
    { pose proof (exp_ineq1_le (- x)). rewrite exp_Ropp in H0. pose proof (exp_pos x). apply (Rmult_le_compat_r (exp x)) in H0; [|lra]. rewrite Rinv_l in H0 by lra. lra. }
    assert (0 <= (x * exp c - (exp x - 1)) * (y - x)) by (apply Rmult_le_pos; [|lra]; nra). lra.
Qed.
Lemma ratio_decreases r1 r2 s t : 0 < r1 <= r2 -> 0 < s <= t ->
  (1 - exp (- (t * r2))) / (1 - exp (- (t * r1))) <= (1 - exp (- (s * r2))) / (1 - exp (- (s * r1))).
Proof.
  intros [H1 H2] [Hs [Ht | ->]]; [|lra].
  assert (P : forall u r, 0 < u -> 0 < r -> 0 < 1 - exp (- (u * r))).
  { intros u r Hu Hr. assert (0 < u * r) by now apply Rmult_lt_0_compat. assert (exp (- (u * r)) < exp 0) by (apply exp_increasing; lra). rewrite exp_0 in *. lra. }
  set (g := fun u => (1 - exp (- (u * r2))) / (1 - exp (- (u * r1)))).
  set (dg := fun u => (r2 * exp (- (u * r2)) * (1 - exp (- (u * r1))) - r1 * exp (- (u * r1)) * (1 - exp (- (u * r2)))) / (1 - exp (- (u * r1))) ^ 2).
  assert (D : forall u, 0 < u -> is_derive g u (dg u)).
  { intros u Hu. pose proof (P u r1 Hu H1). unfold g, dg. auto_derive; [lra|]. field. lra. }
  destruct (MVT_gen g s t dg) as (c & [C1 C2] & C3).
  - intros u [Hu _]. rewrite Rmin_left in Hu by lra. apply D. lra.
  - intros u [Hu _]. rewrite Rmin_left in Hu by lra. apply continuity_pt_filterlim. apply (ex_derive_continuous (V := R_NormedModule) g u). eexists. apply D. lra.
  - rewrite Rmin_left in C1 by lra. change (g t <= g s). assert (Hc : 0 < c) by lra.
    assert (dg c <= 0).
    { unfold dg. pose proof (P c r1 Hc H1) as P1. apply Rmult_le_0_r; [|left; apply Rinv_0_lt_compat; now apply pow_lt].
      assert (X : 0 < c * r1 <= c * r2) by (split; [now apply Rmult_lt_0_compat|apply Rmult_le_compat_l; lra]).
      pose proof (exp_m1_ratio _ _ X) as Q. rewrite !exp_Ropp. pose proof (exp_pos (c * r1)). pose proof (exp_pos (c * r2)).
      set (A := exp (c * r1)) in *. set (B := exp (c * r2)) in *.
      replace (r2 * / B * (1 - / A) - r1 * / A * (1 - / B)) with ((r2 * (A - 1) - r1 * (B - 1)) * (/ A * / B)) by (field; lra).
      apply Rmult_le_0_r; [|left; apply Rmult_lt_0_compat; now apply Rinv_0_lt_compat].
      assert (c * (r2 * (A - 1) - r1 * (B - 1)) <= 0) by lra. nra. }
    nra.
Qed.

Section Loss.
  Variables (f : R -> R) (lo hi : R).
  Hypothesis Hlh : lo < hi.
  Hypothesis Cf : forall E, lo <= E <= hi -> continuity_pt f E.
  Hypothesis Pf : forall E, lo <= E <= hi -> 0 < f E.

  Definition W (rs : R) (E : R) : R := 1 - exp (- (f E * rs)).
  Definition A (ra : R) (E : R) : R := exp (- (f E * ra)).
  Definition D (rs : R) : R := RInt (W rs) lo hi.
  Definition N (ra rs : R) : R := RInt (fun E => A ra E * W rs E) lo hi.

  Lemma loss_NA ra rs : loss (pure_slab ra f) (pure_slab rs f) lo hi = 1 - N ra rs / D rs.
  Proof.
    unfold loss.
    assert (X : RInt (reacted [pure_slab ra f] (pure_slab rs f)) lo hi = N ra rs).
    { apply RInt_ext. intros E. rewrite Rmin_left, Rmax_right by lra. intros HE. rewrite pure_reacted by (apply Pf; lra). rewrite pure_passed. reflexivity. }
    assert (Y : RInt (reacted [] (pure_slab rs f)) lo hi = D rs).
    { apply RInt_ext. intros E. rewrite Rmin_left, Rmax_right by lra. intros HE. rewrite pure_reacted by (apply Pf; lra). change (transmission [] E) with 1. apply Rmult_1_l. }
    now rewrite X, Y.
  Qed.
  Lemma A_cont ra E : lo <= E <= hi -> continuity_pt (A ra) E.
  Proof.
    intros H. apply (continuity_pt_comp (fun E => - (f E * ra)) exp); [|apply derivable_continuous_pt, derivable_pt_exp].
    apply continuity_pt_opp, continuity_pt_mult; [auto|apply continuity_pt_const; now intros x y].
  Qed.
  Lemma W_cont rs E : lo <= E <= hi -> continuity_pt (W rs) E.
  Proof. intros H. apply continuity_pt_minus; [apply continuity_pt_const; now intros x y|now apply A_cont]. Qed.
  Lemma AW_cont ra rs E : lo <= E <= hi -> continuity_pt (fun E => A ra E * W rs E) E.
  Proof. intros H. apply continuity_pt_mult; [now apply A_cont|now apply W_cont]. Qed.
  Lemma cont_ex g : (forall E, lo <= E <= hi -> continuity_pt g E) -> ex_RInt g lo hi.
  Proof. apply continuous_int. lra. Qed.
  Lemma W_pos rs E : 0 < rs -> lo <= E <= hi -> 0 < W rs E.
  Proof. intros Hr HE. unfold W. specialize (Pf E HE). assert (0 < f E * rs) by now apply Rmult_lt_0_compat. assert (exp (- (f E * rs)) < exp 0) by (apply exp_increasing; lra). rewrite exp_0 in *. lra. Qed.
  Lemma pos_int g : (forall E, lo <= E <= hi -> continuity_pt g E) -> (forall E, lo <= E <= hi -> 0 < g E) -> 0 < RInt g lo hi.
  Proof. intros C P. apply RInt_gt_0; [exact Hlh|intros; apply P; lra|intros; apply continuity_pt_filterlim, C; lra]. Qed.
  Lemma lt_int g h : (forall E, lo <= E <= hi -> continuity_pt g E) -> (forall E, lo <= E <= hi -> continuity_pt h E) -> (forall E, lo <= E <= hi -> g E < h E) -> RInt g lo hi < RInt h lo hi.
  Proof.
    intros C1 C2 P. assert (Q : 0 < RInt (fun E => h E - g E) lo hi).
    { apply pos_int; [intros E HE; apply continuity_pt_minus; auto|intros E HE; specialize (P E HE); lra]. }
    pose proof (RInt_minus (V := R_CompleteNormedModule) h g lo hi (cont_ex _ C2) (cont_ex _ C1)) as X.
    change (RInt (fun E => h E - g E) lo hi = RInt h lo hi - RInt g lo hi) in X. lra.
  Qed.
  Lemma le_int g h : (forall E, lo <= E <= hi -> continuity_pt g E) -> (forall E, lo <= E <= hi -> continuity_pt h E) -> (forall E, lo <= E <= hi -> g E <= h E) -> RInt g lo hi <= RInt h lo hi.
  Proof. intros C1 C2 P. apply RInt_le; [lra|now apply cont_ex|now apply cont_ex|intros; apply P; lra]. Qed.

  Lemma D_pos rs : 0 < rs -> 0 < D rs.
  Proof. intros H. apply pos_int; [intros; now apply W_cont|intros; now apply W_pos]. Qed.
  Lemma N_pos ra rs : 0 < rs -> 0 < N ra rs.
  Proof. intros H. apply pos_int; [intros; now apply AW_cont|intros; apply Rmult_lt_0_compat; [apply exp_pos|now apply W_pos]]. Qed.
  Lemma N_zero rs : N 0 rs = D rs.
  Proof. apply RInt_ext. intros E _. unfold A. rewrite Rmult_0_r, Ropp_0, exp_0. match goal with |- ?u = ?v => change (@eq R u v) end. ring. Qed.
  Lemma N_decreases ra ra' rs : 0 < rs -> ra < ra' -> N ra' rs < N ra rs.
  Proof.
    intros Hr H. apply lt_int; [intros; now apply AW_cont|intros; now apply AW_cont|]. intros E HE. apply Rmult_lt_compat_r; [now apply W_pos|].
    apply exp_increasing. specialize (Pf E HE). nra.
  Qed.
  Lemma N_between ra rs m M : 0 <= ra -> 0 < rs -> (forall E, lo <= E <= hi -> m <= f E <= M) -> exp (- (M * ra)) * D rs <= N ra rs <= exp (- (m * ra)) * D rs.
  Proof.
    intros Ha Hr B. unfold N, D.
    assert (X : forall c, c * RInt (W rs) lo hi = RInt (fun E => c * W rs E) lo hi).
    { intros c. symmetry. apply (RInt_scal (V := R_CompleteNormedModule) (W rs)). apply cont_ex. intros; now apply W_cont. }
    assert (E1 : forall x y, x <= y -> exp x <= exp y) by (intros x y [H|<-]; [left; now apply exp_increasing|lra]).
    rewrite !X. split; apply le_int; try (intros; now apply AW_cont); try (intros; apply continuity_pt_scal; now apply W_cont);
      intros E HE; (apply Rmult_le_compat_r; [left; now apply W_pos|]); apply E1; specialize (B E HE); nra.
  Qed.
  (** The thicker the scatterer the less the absorber matters. *)
  Lemma N_scatterer ra r1 r2 : 0 <= ra -> 0 < r1 <= r2 -> N ra r1 / D r1 <= N ra r2 / D r2.
  Proof.
    intros Ha [H1 H2]. pose proof (D_pos r1 H1) as P1. assert (H2' : 0 < r2) by lra. pose proof (D_pos r2 H2') as P2.
    destruct Ha as [Ha | <-]; [|rewrite !N_zero; unfold Rdiv; rewrite !Rinv_r by lra; lra].
    set (m := N ra r1 / D r1). pose proof (N_pos ra r1 H1) as PN. assert (Pm : 0 < m) by (apply Rdiv_lt_0_compat; lra).
    assert (Lm : m < 1). { unfold m. apply (Rmult_lt_reg_r (D r1)); [lra|]. unfold Rdiv. rewrite Rmult_assoc, Rinv_l, Rmult_1_r, Rmult_1_l by lra. rewrite <- (N_zero r1). now apply N_decreases. }
    set (s := - ln m / ra).
    assert (Ps : 0 < s). { unfold s. apply Rdiv_lt_0_compat; [|lra]. rewrite <- ln_1. assert (ln m < ln 1) by (apply ln_increasing; lra). rewrite ln_1 in *. lra. }
    assert (Es : exp (- (s * ra)) = m). { replace (- (s * ra)) with (ln m) by (unfold s; field; lra). now apply exp_ln. }
    set (q := (1 - exp (- (s * r2))) / (1 - exp (- (s * r1)))).
    assert (K : RInt (fun E => (A ra E - m) * (q * W r1 E)) lo hi <= RInt (fun E => (A ra E - m) * W r2 E) lo hi).
    { apply le_int.
      - intros E HE. apply continuity_pt_mult; [apply continuity_pt_minus; [now apply A_cont|apply continuity_pt_const; now intros x y]|apply continuity_pt_scal; now apply W_cont].
      - intros E HE. apply continuity_pt_mult; [apply continuity_pt_minus; [now apply A_cont|apply continuity_pt_const; now intros x y]|now apply W_cont].
      - intros E HE. pose proof (W_pos r1 E H1 HE) as PW. pose proof (Pf E HE) as PfE.
        assert (V : W r2 E = (W r2 E / W r1 E) * W r1 E) by (field; lra). rewrite V, <- !Rmult_assoc. apply Rmult_le_compat_r; [lra|].
        destruct (Rle_or_lt (f E) s) as [L|L].
        + pose proof (ratio_decreases r1 r2 (f E) s (conj H1 H2) (conj PfE L)) as Q. fold q in Q. change (q <= W r2 E / W r1 E) in Q.
          apply Rmult_le_compat_l; [|exact Q]. enough (m <= A ra E) by lra. rewrite <- Es. unfold A. destruct L as [L|L]; [left; apply exp_increasing; nra|rewrite L; lra].
        + pose proof (ratio_decreases r1 r2 s (f E) (conj H1 H2) (conj Ps (Rlt_le _ _ L))) as Q. fold q in Q. change (W r2 E / W r1 E <= q) in Q.
          assert (A ra E <= m) by (rewrite <- Es; unfold A; left; apply exp_increasing; nra). nra. }
    assert (S : forall r c, RInt (fun E => (A ra E - m) * (c * W r E)) lo hi = c * (N ra r - m * D r)).
    { intros r c. rewrite (RInt_ext _ (fun E => c * ((A ra E * W r E) - m * W r E))) by (intros; match goal with |- ?u = ?v => change (@eq R u v) end; ring).
      assert (X1 : ex_RInt (fun E => A ra E * W r E) lo hi) by (apply cont_ex; intros; now apply AW_cont).
      assert (X2 : ex_RInt (W r) lo hi) by (apply cont_ex; intros; now apply W_cont).
      assert (X3 : ex_RInt (fun E => m * W r E) lo hi) by (apply (ex_RInt_scal (V := R_CompleteNormedModule) (W r) lo hi m); exact X2).
      pose proof (RInt_scal (V := R_CompleteNormedModule) (fun E => A ra E * W r E - m * W r E) lo hi c) as Q1.
      pose proof (RInt_minus (V := R_CompleteNormedModule) (fun E => A ra E * W r E) (fun E => m * W r E) lo hi X1 X3) as Q2.
      pose proof (RInt_scal (V := R_CompleteNormedModule) (W r) lo hi m X2) as Q3.
      etransitivity; [apply Q1; apply (ex_RInt_minus (V := R_CompleteNormedModule)); assumption|]. unfold scal, minus, plus, opp in *; cbn in *. unfold mult in *; cbn in *. f_equal.
      etransitivity; [exact Q2|]. unfold N, D. rewrite Q3. reflexivity. }
    rewrite (S r1 q) in K. rewrite (RInt_ext _ (fun E => (A ra E - m) * (1 * W r2 E))) in K by (intros; match goal with |- ?u = ?v => change (@eq R u v) end; ring).
    rewrite (S r2 1) in K. replace (N ra r1 - m * D r1) with 0 in K by (unfold m; field; lra). fold m.
    apply (Rmult_le_reg_r (D r2)); [lra|]. unfold Rdiv. rewrite Rmult_assoc, Rinv_l by lra. lra.
  Qed.

  Definition Loss ra rs := loss (pure_slab ra f) (pure_slab rs f) lo hi.
  Lemma Loss_range ra rs : 0 <= ra -> 0 < rs -> 0 <= Loss ra rs < 1.
  Proof.
    intros Ha Hr. unfold Loss. rewrite loss_NA. pose proof (D_pos rs Hr). pose proof (N_pos ra rs Hr).
    assert (N ra rs <= D rs) by (destruct Ha as [Ha| <-]; [rewrite <- N_zero; left; now apply N_decreases|rewrite N_zero; lra]).
    assert (0 < N ra rs / D rs) by now apply Rdiv_lt_0_compat.
    assert (N ra rs / D rs <= 1) by (apply (Rmult_le_reg_r (D rs)); [lra|]; unfold Rdiv; rewrite Rmult_assoc, Rinv_l by lra; lra). lra.
  Qed.
  Lemma Loss_zero rs : 0 < rs -> Loss 0 rs = 0.
  Proof. intros Hr. unfold Loss. rewrite loss_NA, N_zero. pose proof (D_pos rs Hr). field. lra. Qed.
  Lemma Loss_absorber ra ra' rs : 0 < rs -> ra < ra' -> Loss ra rs < Loss ra' rs.
  Proof.
    intros Hr H. unfold Loss. rewrite !loss_NA. pose proof (D_pos rs Hr). pose proof (N_decreases ra ra' rs Hr H).
    assert (N ra' rs / D rs < N ra rs / D rs) by (apply Rmult_lt_compat_r; [now apply Rinv_0_lt_compat|lra]). lra.
  Qed.
  Lemma Loss_scatterer ra r1 r2 : 0 <= ra -> 0 < r1 <= r2 -> Loss ra r2 <= Loss ra r1.
  Proof. intros Ha H. unfold Loss. rewrite !loss_NA. pose proof (N_scatterer ra r1 r2 Ha H). lra. Qed.
  Lemma Loss_between ra rs m M : 0 <= ra -> 0 < rs -> (forall E, lo <= E <= hi -> m <= f E <= M) -> 1 - exp (- (m * ra)) <= Loss ra rs <= 1 - exp (- (M * ra)).
  Proof.
    intros Ha Hr B. unfold Loss. rewrite loss_NA. pose proof (D_pos rs Hr) as P. destruct (N_between ra rs m M Ha Hr B) as [L U].
    assert (exp (- (M * ra)) <= N ra rs / D rs) by (apply (Rmult_le_reg_r (D rs)); [lra|]; unfold Rdiv; rewrite Rmult_assoc, Rinv_l by lra; lra).
    assert (N ra rs / D rs <= exp (- (m * ra))) by (apply (Rmult_le_reg_r (D rs)); [lra|]; unfold Rdiv; rewrite Rmult_assoc, Rinv_l by lra; lra). lra.
  Qed.
End Loss.
