(** The Gaussian integral. *)
From Coq Require Import Reals List Lra Lia.
From Coquelicot Require Import Coquelicot.
From Verif Require Import L_RInt M_Dist.
Open Scope R_scope.

Definition e2 (x : R) : R := exp (- (x ^ 2) / 2).
Definition bf (t x : R) : R := exp (- (t ^ 2 * (1 + x ^ 2)) / 2) / (1 + x ^ 2).
Definition bf' (t x : R) : R := - t * exp (- (t ^ 2 * (1 + x ^ 2)) / 2).

Lemma one_sq_pos x : 0 < 1 + x ^ 2.
Proof. nra. Qed.

Lemma e2_cont (x : R) : continuous e2 x.
Proof. apply (ex_derive_continuous (V := R_NormedModule)). unfold e2. auto_derive. trivial. Qed.
Lemma bf_deriv (t x : R) : is_derive (fun u => bf u x) t (bf' t x).
Proof.
  pose proof (one_sq_pos x). unfold bf, bf'. auto_derive; [lra|].
  set (A := exp _). replace (exp _) with A by (unfold A; f_equal; field).
  field. lra.
Qed.
Lemma bf_cont (t x : R) : continuous (bf t) x.
Proof.
  apply (ex_derive_continuous (V := R_NormedModule)). unfold bf. auto_derive.
  pose proof (one_sq_pos x). lra.
Qed.
Lemma bf'_cont2 t x : continuity_2d_pt bf' t x.
Proof.
  unfold bf'. apply continuity_2d_pt_mult.
  - apply continuity_2d_pt_opp. apply continuity_2d_pt_id1.
  - apply (continuity_1d_2d_pt_comp exp (fun u v => - (u ^ 2 * (1 + v ^ 2)) / 2)).
    + apply derivable_continuous_pt, derivable_pt_exp.
    + apply (continuity_2d_pt_ext (fun u v => (- (1/2)) * ((u * u) * (1 + v * v)))).
      * intros u v. field.
      * apply continuity_2d_pt_mult; [apply continuity_2d_pt_const|].
        apply continuity_2d_pt_mult.
        -- apply continuity_2d_pt_mult; apply continuity_2d_pt_id1.
        -- apply continuity_2d_pt_plus; [apply continuity_2d_pt_const|].
           apply continuity_2d_pt_mult; apply continuity_2d_pt_id2.
Qed.
Lemma bf_ex_RInt t a b : ex_RInt (bf t) a b.
Proof. apply (ex_RInt_continuous (V := R_CompleteNormedModule)). intros; apply bf_cont. Qed.
Lemma e2_ex_RInt a b : ex_RInt e2 a b.
Proof. apply (ex_RInt_continuous (V := R_CompleteNormedModule)). intros; apply e2_cont. Qed.

Definition A (t : R) : R := RInt e2 0 t.
Definition B (t : R) : R := RInt (bf t) 0 1.

Lemma A_deriv (t : R) : is_derive A t (e2 t).
Proof.
  unfold A. apply (is_derive_RInt e2 (fun u => RInt e2 0 u) 0 t).
  - exists (mkposreal 1 Rlt_0_1). intros y _. apply (RInt_correct (V := R_CompleteNormedModule)). apply e2_ex_RInt.
  - apply e2_cont.
Qed.

Lemma B_deriv (t : R) : is_derive B t (- e2 t * A t).
Proof.
  assert (E : - e2 t * A t = RInt (fun x => Derive (fun u => bf u x) t) 0 1).
  { transitivity (RInt (fun x => - e2 t * (t * e2 (t * x + 0))) 0 1).
    - rewrite (RInt_scal_R (fun x => t * e2 (t * x + 0))).
      + f_equal. rewrite (RInt_comp_lin_R e2 t 0 0 1) by apply e2_ex_RInt.
        unfold A. replace (t * 0 + 0) with 0 by ring. replace (t * 1 + 0) with t by ring. reflexivity.
      + apply (ex_RInt_comp_lin (V := R_NormedModule) e2 t 0 0 1). apply e2_ex_RInt.
    - apply RInt_ext_R. intros x _.
      replace (Derive (fun u : R => bf u x) t) with (bf' t x)
        by (symmetry; apply is_derive_unique, bf_deriv). unfold bf', e2.
      replace (- (t ^ 2 * (1 + x ^ 2)) / 2) with (- t ^ 2 / 2 + - (t * x + 0) ^ 2 / 2) by field.
      rewrite exp_plus. ring. }
  rewrite E. unfold B. apply is_derive_RInt_param.
  - exists (mkposreal 1 Rlt_0_1). intros y _ x _. eexists; apply bf_deriv.
  - intros x _. apply (continuity_2d_pt_ext bf').
    + intros u v. symmetry. apply is_derive_unique, bf_deriv.
    + apply bf'_cont2.
  - exists (mkposreal 1 Rlt_0_1). intros y _. apply bf_ex_RInt.
Qed.

Lemma B_0 : B 0 = PI / 4.
Proof.
  unfold B. rewrite <- atan_1.
  apply (is_RInt_unique (V := R_CompleteNormedModule)).
  replace (atan 1) with (minus (atan 1) (atan 0)) by (rewrite atan_0; unfold minus, plus, opp; cbn; ring).
  apply (is_RInt_derive (V := R_CompleteNormedModule) atan (bf 0)).
  - intros x _. unfold bf. auto_derive; [trivial|].
    replace (- (0 ^ 2 * (1 + x ^ 2)) / 2) with 0 by field. rewrite exp_0. unfold Rsqr. field. nra.
  - intros x _. apply bf_cont.
Qed.

Lemma A2_2B t : A t ^ 2 + 2 * B t = PI / 2.
Proof.
  assert (D : forall u, is_derive (fun t => A t ^ 2 + 2 * B t) u 0).
  { intros u. replace 0 with (2 * A u * e2 u + 2 * (- e2 u * A u)) by ring.
    apply (is_derive_plus (V := R_NormedModule)).
    - replace (2 * A u * e2 u) with (INR 2 * e2 u * A u ^ 1) by (cbn; ring).
      apply (is_derive_pow A 2 u (e2 u)), A_deriv.
    - apply (is_derive_scal B u 2), B_deriv. }
  assert (Z : A t ^ 2 + 2 * B t = A 0 ^ 2 + 2 * B 0).
  { destruct (MVT_gen (fun t => A t ^ 2 + 2 * B t) 0 t (fun _ => 0)) as [c [_ H]].
    - intros; apply D.
    - intros x _. apply continuity_pt_filterlim. apply (is_derive_cont (fun t => A t ^ 2 + 2 * B t) x 0), D.
    - lra. }
  rewrite Z, B_0. unfold A. rewrite (RInt_point (V := R_CompleteNormedModule)). change (zero : R) with 0. lra.
Qed.

Lemma B_bounds t : 0 <= B t <= PI / 4 * e2 t.
Proof.
  split.
  - apply RInt_ge_0; [lra|apply bf_ex_RInt|]. intros x _. unfold bf.
    left. apply Rdiv_lt_0_compat; [apply exp_pos|apply one_sq_pos].
  - rewrite <- B_0. unfold B. rewrite Rmult_comm.
    change (e2 t * ?y) with (scal (e2 t) y).
    rewrite <- (RInt_scal (V := R_CompleteNormedModule)) by apply bf_ex_RInt.
    apply RInt_le; [lra|apply bf_ex_RInt| |].
    + apply (ex_RInt_scal (V := R_NormedModule)), bf_ex_RInt.
    + intros x _. unfold bf, e2. change (scal ?a ?b) with (a * b). pose proof (one_sq_pos x).
      replace (- (0 ^ 2 * (1 + x ^ 2)) / 2) with 0 by field. rewrite exp_0.
      replace (exp (- t ^ 2 / 2) * (1 / (1 + x ^ 2))) with (exp (- t ^ 2 / 2) / (1 + x ^ 2)) by (field; lra).
      apply Rmult_le_compat_r; [left; now apply Rinv_0_lt_compat|].
      destruct (Req_dec (t * x) 0) as [Z|NZ].
      * right. f_equal. replace (t ^ 2 * (1 + x ^ 2)) with (t ^ 2 + (t * x) ^ 2) by ring. rewrite Z. field.
      * left. apply exp_increasing. assert (0 < (t * x) ^ 2) by nra. nra.
Qed.

Lemma e2_le t : 0 < t -> e2 t <= 2 / t ^ 2.
Proof.
  intros Ht. unfold e2. assert (0 < t ^ 2) by nra.
  replace (- t ^ 2 / 2) with (- (t ^ 2 / 2)) by field. rewrite exp_Ropp.
  pose proof (exp_ineq1_le (t ^ 2 / 2)).
  replace (2 / t ^ 2) with (/ (t ^ 2 / 2)) by (field; nra).
  apply Rinv_le_contravar; lra.
Qed.

Lemma A_pos t : 0 <= t -> 0 <= A t.
Proof. intros H. apply RInt_ge_0; [lra|apply e2_ex_RInt|]. intros; left; apply exp_pos. Qed.

Lemma A_eq t : 0 <= t -> A t = sqrt (PI / 2 - 2 * B t).
Proof.
  intros H. rewrite <- (A2_2B t). replace (A t ^ 2 + 2 * B t - 2 * B t) with (Rsqr (A t)) by (unfold Rsqr; ring).
  symmetry. apply sqrt_Rsqr. now apply A_pos.
Qed.

Lemma B_lim : is_lim B p_infty 0.
Proof.
  apply (is_lim_le_le_loc (fun _ => 0) (fun t => PI / 2 * / t ^ 2)).
  - exists 0. intros t Ht. pose proof (B_bounds t) as [H1 H2]. split; [exact H1|].
    pose proof (e2_le t Ht). pose proof PI_RGT_0.
    eapply Rle_trans; [exact H2|]. replace (PI / 2 * / t ^ 2) with (PI / 4 * (2 / t ^ 2)) by (field; lra).
    apply Rmult_le_compat_l; lra.
  - apply is_lim_const.
  - replace (Finite 0) with (Rbar_mult (PI / 2) 0) by (cbn; f_equal; ring).
    apply (is_lim_scal_l (fun t => / t ^ 2)).
    replace (Finite 0) with (Rbar_inv p_infty) by reflexivity.
    apply is_lim_inv; [|discriminate].
    apply (is_lim_ext (fun x => x * x)); [intros; ring|].
    apply (is_lim_mult (fun x => x) (fun x => x) p_infty p_infty p_infty); try apply is_lim_id. exact I.
Qed.

Lemma A_lim : is_lim A p_infty (sqrt (PI / 2)).
Proof.
  apply (is_lim_ext_loc (fun t => sqrt (PI / 2 - 2 * B t))).
  - exists 0. intros t Ht. symmetry. apply A_eq. lra.
  - apply (is_lim_comp_continuous (fun t => PI / 2 - 2 * B t) sqrt p_infty (PI / 2)).
    + replace (Finite (PI / 2)) with (Finite (PI / 2 - 2 * 0)) by (f_equal; ring).
      apply (is_lim_minus (fun _ => PI / 2) (fun t => 2 * B t) p_infty (PI / 2) (2 * 0)).
      * apply is_lim_const.
      * apply (is_lim_scal_l B 2 p_infty 0 B_lim).
      * reflexivity.
    + apply continuity_pt_filterlim, continuity_pt_sqrt. pose proof PI_RGT_0; lra.
Qed.

Lemma gauss0_e2 t : gauss0 t = / sqrt (2 * PI) * e2 t.
Proof. unfold gauss0, e2. unfold Rdiv. ring. Qed.
Lemma gauss0_A t : RInt gauss0 0 t = / sqrt (2 * PI) * A t.
Proof.
  unfold A. transitivity (RInt (fun x => scal (/ sqrt (2 * PI)) (e2 x)) 0 t).
  - apply (RInt_ext (V := R_CompleteNormedModule)). intros x _. apply gauss0_e2.
  - rewrite (RInt_scal (V := R_CompleteNormedModule)); [reflexivity|apply e2_ex_RInt].
Qed.
Lemma gauss0_lim : is_lim (fun t => RInt gauss0 0 t) p_infty (1 / 2).
Proof.
  apply (is_lim_ext (fun t => / sqrt (2 * PI) * A t)); [intros; symmetry; apply gauss0_A|].
  pose proof PI_RGT_0.
  replace (Finite (1 / 2)) with (Rbar_mult (/ sqrt (2 * PI)) (sqrt (PI / 2))).
  - apply is_lim_scal_l, A_lim.
  - cbn. f_equal. replace (2 * PI) with (2 * 2 * (PI / 2)) by field.
    rewrite (sqrt_mult (2 * 2)) by lra. rewrite sqrt_square by lra.
    field. apply Rgt_not_eq, sqrt_lt_R0; lra.
Qed.
