From Coq Require Import Reals List Lia Lra Psatz.
From Coquelicot Require Import Coquelicot.
From Verif Require Import Py M_Num M_Thermal S_Thermal L_RInt L_Thermal.
Import ListNotations.
Open Scope R_scope.

Lemma deriv_incr (f f' : R -> R) a b : a < b ->
  (forall x, a <= x <= b -> is_derive f x (f' x)) -> (forall x, a < x < b -> 0 < f' x) -> f a < f b.
Proof.
  intros Hab D P.
  destruct (MVT_cor2 f f' a b Hab) as (c & E & Hc).
  - intros c Hc. apply is_derive_Reals. now apply D.
  - assert (0 < f' c * (b - a)). { apply Rmult_lt_0_compat; auto. lra. } lra.
Qed.

Notation f := debye_integrand.

Lemma exp_m1_gt t : 0 < t -> t < exp t - 1.
Proof. intros. pose proof (exp_ineq1 t ltac:(lra)). lra. Qed.
Lemma exp_m1_pos t : 0 < t -> 0 < exp t - 1.
Proof. intros. pose proof (exp_m1_gt t H). lra. Qed.

Lemma inv_exp_pos t : 0 < t -> 0 < 1 / (exp t - 1) < 1 / t.
Proof.
  intros H. pose proof (exp_m1_gt t H). split.
  - apply Rdiv_lt_0_compat; lra.
  - apply Rmult_lt_compat_l; [lra|]. apply Rinv_lt_contravar; nra.
Qed.

(** h(t) = (t - 2) e^t + t + 2 > 0, i.e. t (1/(e^t-1) + 1/2) > 1. *)
Lemma coth_ineq t : 0 < t -> 1 < t * (1 / (exp t - 1) + 1 / 2).
Proof.
  intros H. pose proof (exp_m1_pos t H) as P.
  assert (A : forall t, 0 < t -> 0 < (t - 1) * exp t + 1).
  { intros x Hx. replace 0 with ((0 - 1) * exp 0 + 1) by (rewrite exp_0; ring).
    apply (deriv_incr (fun x => (x - 1) * exp x + 1) (fun x => x * exp x)); auto.
    - intros; auto_derive; auto. ring.
    - intros. apply Rmult_lt_0_compat. lra. apply exp_pos. }
  assert (B : 0 < (t - 2) * exp t + t + 2).
  { replace 0 with ((0 - 2) * exp 0 + 0 + 2) by (rewrite exp_0; ring).
    apply (deriv_incr (fun x => (x - 2) * exp x + x + 2) (fun x => (x - 1) * exp x + 1)); auto.
    - intros; auto_derive; auto. ring.
    - intros. apply A. lra. }
  replace (t * (1 / (exp t - 1) + 1 / 2)) with (1 + ((t - 2) * exp t + t + 2) / (2 * (exp t - 1))) by (field; lra).
  assert (0 < ((t - 2) * exp t + t + 2) / (2 * (exp t - 1))) by (apply Rdiv_lt_0_compat; lra). lra.
Qed.

(** y (1/(e^y-1) + 1/2) is strictly increasing. *)
Lemma sinh_gt y : 0 < y -> 0 < exp y - exp (- y) - 2 * y.
Proof.
  intros H. replace 0 with (exp 0 - exp (-0) - 2 * 0) at 1 by (rewrite Ropp_0, exp_0; ring).
  apply (deriv_incr (fun y => exp y - exp (- y) - 2 * y) (fun y => exp y + exp (- y) - 2)); auto.
  - intros; auto_derive; auto. ring.
  - intros x Hx. rewrite exp_Ropp. pose proof (exp_m1_pos x ltac:(lra)). pose proof (exp_pos x).
    replace (exp x + / exp x - 2) with ((exp x - 1) ^ 2 / exp x) by (field; lra).
    apply Rdiv_lt_0_compat; auto. nra.
Qed.
Definition gfun (y : R) : R := y * (1 / (exp y - 1) + 1 / 2).
Lemma g_incr y z : 0 < y < z -> gfun y < gfun z.
Proof.
  intros [H H']. apply (deriv_incr gfun (fun y => exp y * (exp y - exp (- y) - 2 * y) / (2 * (exp y - 1) ^ 2))); auto.
  - intros x Hx. pose proof (exp_m1_pos x ltac:(lra)). pose proof (exp_pos x). unfold gfun. auto_derive.
    + lra.
    + rewrite exp_Ropp. field. split; lra.
  - intros x Hx. pose proof (exp_m1_pos x ltac:(lra)). apply Rdiv_lt_0_compat.
    + apply Rmult_lt_0_compat. apply exp_pos. apply sinh_gt; lra.
    + nra.
Qed.
Lemma g_upper y : 0 < y -> gfun y < 1 + y ^ 2 / 4.
Proof.
  intros H. unfold gfun.
  assert (E : 1 + y + y ^ 2 / 2 <= exp y).
  { pose proof (exp_ge_taylor y 2 ltac:(lra)) as T. simpl in T. lra. }
  assert (P : 1 / (exp y - 1) <= 1 / (y * (1 + y / 2))).
  { apply Rmult_le_compat_l; [lra|]. apply Rinv_le_contravar; nra. }
  assert (Q : y * (1 / (exp y - 1)) <= 1 / (1 + y / 2)).
  { apply Rle_trans with (y * (1 / (y * (1 + y / 2)))). apply Rmult_le_compat_l; lra. right. field. lra. }
  assert (S : 1 / (1 + y / 2) < 1 - y / 2 + y ^ 2 / 4).
  { apply (Rmult_lt_reg_r (1 + y / 2)); [lra|]. replace (1 / (1 + y / 2) * (1 + y / 2)) with 1 by (field; lra).
    replace ((1 - y / 2 + y ^ 2 / 4) * (1 + y / 2)) with (1 + y ^ 3 / 8) by field. pose proof (pow_lt y 3 H). lra. }
  lra.
Qed.

(** Continuity of the integrand, also at 0. *)
Lemma f_bound t : Rabs t <= 1 -> Rabs (f t) <= 3 * t ^ 2.
Proof.
  intros H. unfold f.
  assert (G : Rabs (t * (1 / (exp t - 1))) <= 2).
  { destruct (Rtotal_order t 0) as [L|[->|G]].
    - rewrite Rabs_left1 in H by lra.
      assert (e : exp t * (1 - t) <= 1).
      { pose proof (exp_ineq1_le (- t)) as X. rewrite exp_Ropp in X.
        apply (Rmult_le_compat_l (exp t)) in X; [|left; apply exp_pos]. rewrite Rinv_r in X. lra.
        pose proof (exp_pos t); lra. }
      assert (e2 : exp t - 1 <= t / 2).
      { pose proof (exp_pos t). nra. }
      replace (t * (1 / (exp t - 1))) with ((- t) * (1 / (1 - exp t))) by (field; lra).
      rewrite Rabs_pos_eq.
      + apply (Rmult_le_reg_r (1 - exp t)); [lra|]. replace (- t * (1 / (1 - exp t)) * (1 - exp t)) with (- t) by (field; lra). lra.
      + apply Rmult_le_pos. lra. left. apply Rdiv_lt_0_compat; lra.
    - rewrite Rmult_0_l, Rabs_R0. lra.
    - destruct (inv_exp_pos t G) as [P Q]. rewrite Rabs_pos_eq by nra.
      assert (t * (1 / (exp t - 1)) <= t * (1 / t)) by (apply Rmult_le_compat_l; lra).
      replace (t * (1 / t)) with 1 in H0 by (field; lra). lra. }
  replace (t ^ 3 * (1 / (exp t - 1) + 1 / 2)) with (t ^ 2 * (t * (1 / (exp t - 1)) + t / 2))
    by (set (u := 1 / (exp t - 1)); field).
  rewrite Rabs_mult, (Rabs_pos_eq (t ^ 2)) by apply pow2_ge_0. rewrite (Rmult_comm 3).
  apply Rmult_le_compat_l. apply pow2_ge_0.
  eapply Rle_trans. apply Rabs_triang. assert (Rabs (t / 2) <= 1).
  { unfold Rdiv. rewrite Rabs_mult, (Rabs_pos_eq (/ 2)) by lra. lra. } lra.
Qed.

Lemma f_cont t : continuous f t.
Proof.
  destruct (Req_dec t 0) as [->|N].
  - assert (f0 : f 0 = 0) by (unfold f; ring).
    unfold continuous. rewrite f0. apply (proj2 (filterlim_locally f 0)).
    intros eps.
    assert (Hd : 0 < Rmin 1 (eps / 3)).
    { apply Rmin_pos. lra. apply Rdiv_lt_0_compat. apply cond_pos. lra. }
    exists (mkposreal _ Hd). intros y Hy.
    change (Rabs (y - 0) < Rmin 1 (eps / 3)) in Hy. rewrite Rminus_0_r in Hy.
    change (Rabs (f y - 0) < eps). rewrite Rminus_0_r.
    assert (A : Rabs y < 1) by (eapply Rlt_le_trans; [exact Hy|apply Rmin_l]).
    assert (B : Rabs y < eps / 3) by (eapply Rlt_le_trans; [exact Hy|apply Rmin_r]).
    eapply Rle_lt_trans. apply f_bound; lra.
    rewrite <- (pow2_abs y). pose proof (Rabs_pos y). pose proof (cond_pos eps). nra.
  - apply (ex_derive_continuous (V := R_NormedModule)). unfold f. auto_derive.
    intros H. assert (exp t = exp 0) by (rewrite exp_0; lra). apply exp_inv in H0. auto.
Qed.

Lemma ex_f a b : ex_RInt f a b.
Proof. apply ex_RInt_cont. apply f_cont. Qed.

Lemma cont_poly (p : R -> R) : (forall x, ex_derive p x) -> forall x, continuous p x.
Proof. intros. now apply (ex_derive_continuous (V := R_NormedModule)). Qed.

Lemma RInt_pow2 x : RInt (fun t => t ^ 2) 0 x = x ^ 3 / 3.
Proof.
  apply RInt_val. replace (x ^ 3 / 3) with (x ^ 3 / 3 - 0 ^ 3 / 3) by field.
  apply (RInt_deriv (fun t => t ^ 3 / 3) (fun t => t ^ 2)); intros.
  - auto_derive; auto. field.
  - apply cont_poly. intros; auto_derive; auto.
Qed.
Lemma RInt_pow3h x : RInt (fun t => t ^ 3 / 2) 0 x = x ^ 4 / 8.
Proof.
  apply RInt_val. replace (x ^ 4 / 8) with (x ^ 4 / 8 - 0 ^ 4 / 8) by field.
  apply (RInt_deriv (fun t => t ^ 4 / 8) (fun t => t ^ 3 / 2)); intros.
  - auto_derive; auto. field.
  - apply cont_poly. intros; auto_derive; auto.
Qed.
Lemma RInt_pow23 x : RInt (fun t => t ^ 2 + t ^ 3 / 2) 0 x = x ^ 3 / 3 + x ^ 4 / 8.
Proof.
  apply RInt_val. replace (x ^ 3 / 3 + x ^ 4 / 8) with ((x ^ 3 / 3 + x ^ 4 / 8) - (0 ^ 3 / 3 + 0 ^ 4 / 8)) by field.
  apply (RInt_deriv (fun t => t ^ 3 / 3 + t ^ 4 / 8) (fun t => t ^ 2 + t ^ 3 / 2)); intros.
  - auto_derive; auto. field.
  - apply cont_poly. intros; auto_derive; auto.
Qed.
Lemma RInt_pow24 x : RInt (fun t => t ^ 2 + t ^ 4 / 4) 0 x = x ^ 3 / 3 + x ^ 5 / 20.
Proof.
  apply RInt_val. replace (x ^ 3 / 3 + x ^ 5 / 20) with ((x ^ 3 / 3 + x ^ 5 / 20) - (0 ^ 3 / 3 + 0 ^ 5 / 20)) by field.
  apply (RInt_deriv (fun t => t ^ 3 / 3 + t ^ 5 / 20) (fun t => t ^ 2 + t ^ 4 / 4)); intros.
  - auto_derive; auto. field.
  - apply cont_poly. intros; auto_derive; auto.
Qed.

Lemma I_bounds x : 0 < x ->
  x ^ 3 / 3 < RInt f 0 x /\ x ^ 4 / 8 < RInt f 0 x /\ RInt f 0 x < x ^ 3 / 3 + x ^ 4 / 8 /\
  RInt f 0 x < x ^ 3 / 3 + x ^ 5 / 20.
Proof.
  intros H.
  assert (C : forall p : R -> R, (forall x, ex_derive p x) -> forall y, 0 <= y <= x -> continuous p y).
  { intros; now apply cont_poly. }
  repeat split.
  - rewrite <- (RInt_pow2 x). apply RInt_lt; auto.
    + intros; apply f_cont.
    + apply C. intros; auto_derive; auto.
    + intros t Ht. pose proof (coth_ineq t ltac:(lra)). unfold f.
      replace (t ^ 3 * (1 / (exp t - 1) + 1 / 2)) with (t ^ 2 * (t * (1 / (exp t - 1) + 1 / 2))) by ring.
      assert (0 < t ^ 2) by (apply pow_lt; lra). set (u := t * (1 / (exp t - 1) + 1 / 2)) in *. nra.
  - rewrite <- (RInt_pow3h x). apply RInt_lt; auto.
    + intros; apply f_cont.
    + apply C. intros; auto_derive; auto.
    + intros t Ht. pose proof (inv_exp_pos t ltac:(lra)). unfold f.
      assert (0 < t ^ 3) by (apply pow_lt; lra). nra.
  - rewrite <- (RInt_pow23 x). apply RInt_lt; auto.
    + apply C. intros; auto_derive; auto.
    + intros; apply f_cont.
    + intros t Ht. pose proof (inv_exp_pos t ltac:(lra)). unfold f.
      assert (0 < t ^ 3) by (apply pow_lt; lra).
      replace (t ^ 2 + t ^ 3 / 2) with (t ^ 3 * (1 / t + 1 / 2)) by (field; lra). nra.
  - rewrite <- (RInt_pow24 x). apply RInt_lt; auto.
    + apply C. intros; auto_derive; auto.
    + intros; apply f_cont.
    + intros t Ht. pose proof (g_upper t ltac:(lra)) as G. unfold f. unfold gfun in G.
      replace (t ^ 3 * (1 / (exp t - 1) + 1 / 2)) with (t ^ 2 * (t * (1 / (exp t - 1) + 1 / 2))) by ring.
      assert (0 < t ^ 2) by (apply pow_lt; lra). set (u := t * (1 / (exp t - 1) + 1 / 2)) in *. nra.
Qed.

Lemma lamb_bounds T T_D : 0 < T -> 0 < T_D ->
  T < lamb_temperature T T_D /\ 3 / 8 * T_D < lamb_temperature T T_D /\
  lamb_temperature T T_D < T + 3 / 8 * T_D /\
  lamb_temperature T T_D < T + 3 / 20 * T_D ^ 2 / T.
Proof.
  intros HT HD. unfold lamb_temperature. change (fun t => t ^ 3 * (1 / (exp t - 1) + 1 / 2)) with f.
  set (x := T_D / T). assert (Hx : 0 < x) by (apply Rdiv_lt_0_compat; auto).
  assert (R1 : T / T_D = / x) by (unfold x; field; lra). rewrite R1.
  assert (R2 : T_D = x * T) by (unfold x; field; lra). rewrite R2.
  destruct (I_bounds x Hx) as (B1 & B2 & B3 & B4).
  assert (K : 0 < 3 * T * (/ x) ^ 3).
  { apply Rmult_lt_0_compat. lra. apply pow_lt. now apply Rinv_0_lt_compat. }
  repeat split.
  - replace T with (3 * T * (/ x) ^ 3 * (x ^ 3 / 3)) at 1 by (field; lra). now apply Rmult_lt_compat_l.
  - replace (3 / 8 * (x * T)) with (3 * T * (/ x) ^ 3 * (x ^ 4 / 8)) by (field; lra). now apply Rmult_lt_compat_l.
  - replace (T + 3 / 8 * (x * T)) with (3 * T * (/ x) ^ 3 * (x ^ 3 / 3 + x ^ 4 / 8)) by (field; lra). now apply Rmult_lt_compat_l.
  - replace (T + 3 / 20 * (x * T) ^ 2 / T) with (3 * T * (/ x) ^ 3 * (x ^ 3 / 3 + x ^ 5 / 20)) by (field; lra). now apply Rmult_lt_compat_l.
Qed.

(** Substitution t = x s. *)
Lemma I_subst x : 0 < x -> RInt f 0 x = RInt (fun s => x * f (x * s)) 0 1.
Proof.
  intros H. pose proof (RInt_comp_lin (V := R_CompleteNormedModule) f x 0 0 1) as S.
  replace (x * 0 + 0) with 0 in S by ring. replace (x * 1 + 0) with x in S by ring.
  rewrite <- S by apply ex_f. apply RInt_ext. intros s _. unfold scal; simpl. unfold mult; simpl.
  now rewrite Rplus_0_r.
Qed.
Lemma fx_cont x c s : continuous (fun s => c * f (x * s)) s.
Proof.
  apply (continuous_mult (fun _ => c)). apply continuous_const.
  apply (continuous_comp (fun s => x * s) f).
  - apply cont_poly. intros; auto_derive; auto.
  - apply f_cont.
Qed.
Lemma lamb_subst T T_D : 0 < T -> 0 < T_D ->
  lamb_temperature T T_D = RInt (fun s => 3 * T * (T / T_D) ^ 2 * f (T_D / T * s)) 0 1.
Proof.
  intros HT HD. unfold lamb_temperature. change (fun t => t ^ 3 * (1 / (exp t - 1) + 1 / 2)) with f.
  assert (Hx : 0 < T_D / T) by (apply Rdiv_lt_0_compat; auto).
  rewrite I_subst by auto. rewrite <- RInt_scal_R.
  - apply RInt_ext. intros s _. match goal with |- ?a = ?b => change (@eq R a b) end. field. lra.
  - apply ex_RInt_cont. intros; apply fx_cont.
Qed.

Lemma f_g t : f t = t ^ 2 * gfun t.
Proof. unfold f, gfun. ring. Qed.

Lemma lamb_mono_TD T T_D T_D' : 0 < T -> 0 < T_D < T_D' -> lamb_temperature T T_D < lamb_temperature T T_D'.
Proof.
  intros HT [H H']. rewrite !lamb_subst by lra. apply RInt_lt; try (intros; apply fx_cont). lra.
  intros s Hs. rewrite !f_g.
  replace (3 * T * (T / T_D) ^ 2 * ((T_D / T * s) ^ 2 * gfun (T_D / T * s))) with (3 * T * s ^ 2 * gfun (T_D / T * s)) by (field; lra).
  replace (3 * T * (T / T_D') ^ 2 * ((T_D' / T * s) ^ 2 * gfun (T_D' / T * s))) with (3 * T * s ^ 2 * gfun (T_D' / T * s)) by (field; lra).
  apply Rmult_lt_compat_l. apply Rmult_lt_0_compat; nra.
  apply g_incr. split.
  - apply Rmult_lt_0_compat. apply Rdiv_lt_0_compat; lra. lra.
  - apply Rmult_lt_compat_r. lra. apply Rmult_lt_compat_r; auto. now apply Rinv_0_lt_compat.
Qed.
Lemma lamb_mono_T T T' T_D : 0 < T < T' -> 0 < T_D -> lamb_temperature T T_D < lamb_temperature T' T_D.
Proof.
  intros [H H'] HD. rewrite !lamb_subst by lra. apply RInt_lt; try (intros; apply fx_cont). lra.
  intros s Hs. unfold f.
  replace (3 * T * (T / T_D) ^ 2 * ((T_D / T * s) ^ 3 * (1 / (exp (T_D / T * s) - 1) + 1 / 2)))
    with (3 * T_D * s ^ 3 * (1 / (exp (T_D / T * s) - 1) + 1 / 2)).
  2:{ field. repeat split; try lra.
      assert (0 < T_D / T * s). { apply Rmult_lt_0_compat. apply Rdiv_lt_0_compat; lra. lra. }
      pose proof (exp_m1_pos _ H0). replace (T_D * s / T) with (T_D / T * s) by (field; lra). lra. }
  replace (3 * T' * (T' / T_D) ^ 2 * ((T_D / T' * s) ^ 3 * (1 / (exp (T_D / T' * s) - 1) + 1 / 2)))
    with (3 * T_D * s ^ 3 * (1 / (exp (T_D / T' * s) - 1) + 1 / 2)).
  2:{ field. repeat split; try lra.
      assert (0 < T_D / T' * s). { apply Rmult_lt_0_compat. apply Rdiv_lt_0_compat; lra. lra. }
      pose proof (exp_m1_pos _ H0). replace (T_D * s / T') with (T_D / T' * s) by (field; lra). lra. }
  assert (0 < s ^ 3) by (apply pow_lt; lra).
  apply Rmult_lt_compat_l. nra. apply Rplus_lt_compat_r.
  assert (P : 0 < T_D / T' * s). { apply Rmult_lt_0_compat. apply Rdiv_lt_0_compat; lra. lra. }
  assert (Q : T_D / T' * s < T_D / T * s).
  { apply Rmult_lt_compat_r. lra. apply Rmult_lt_compat_l. lra. apply Rinv_lt_contravar; nra. }
  pose proof (exp_m1_pos _ P). pose proof (exp_increasing _ _ Q).
  apply Rmult_lt_compat_l. lra. apply Rinv_lt_contravar; [|lra]. apply Rmult_lt_0_compat; lra.
Qed.

Lemma lamb_homogeneous c T T_D : 0 < c -> 0 < T -> 0 < T_D ->
  lamb_temperature (c * T) (c * T_D) = c * lamb_temperature T T_D.
Proof.
  intros. unfold lamb_temperature. replace (c * T / (c * T_D)) with (T / T_D) by (field; lra).
  replace (c * T_D / (c * T)) with (T_D / T) by (field; lra). ring.
Qed.

(** ** The model *)
Lemma debye_value quad T T_D : 0 < T -> 0 < T_D ->
  debye_scalar quad T T_D = Ok (3 * T * (T / T_D) ^ 3 * fst (quad f 0 (T_D / T))).
Proof.
  intros. unfold debye_scalar. rewrite !fdiv_ok by lra. cbn [bind]. f_equal. ring.
Qed.
Lemma debye_error quad T T_D : 0 < T -> 0 < T_D -> quad_error_ok quad f 0 (T_D / T) ->
  exists Teff, debye_scalar quad T T_D = Ok Teff /\
    Rabs (Teff - lamb_temperature T T_D) <= 3 * T * (T / T_D) ^ 3 * snd (quad f 0 (T_D / T)).
Proof.
  intros HT HD Q. eexists; split; [now apply debye_value|].
  unfold lamb_temperature. change (fun t => t ^ 3 * (1 / (exp t - 1) + 1 / 2)) with f.
  rewrite <- Rmult_minus_distr_l, Rabs_mult.
  assert (0 <= 3 * T * (T / T_D) ^ 3).
  { apply Rmult_le_pos. lra. apply pow_le. left. now apply Rdiv_lt_0_compat. }
  rewrite (Rabs_pos_eq (3 * T * _)) by auto. apply Rmult_le_compat_l; auto.
Qed.
Lemma debye_raises quad T T_D : T = 0 \/ T_D = 0 <-> debye_scalar quad T T_D = Raise ZeroDivisionError.
Proof.
  unfold debye_scalar. split.
  - intros [->| ->]; unfold fdiv.
    + destruct (Req_EM_T T_D 0); auto. simpl. destruct (Req_EM_T 0 0); tauto.
    + destruct (Req_EM_T 0 0); tauto.
  - unfold fdiv. destruct (Req_EM_T T_D 0); auto. simpl. destruct (Req_EM_T T 0); auto. simpl. discriminate.
Qed.
Lemma debye_homogeneous quad c T T_D : c <> 0 -> T <> 0 -> T_D <> 0 -> exists Teff,
  debye_scalar quad T T_D = Ok Teff /\ debye_scalar quad (c * T) (c * T_D) = Ok (c * Teff).
Proof.
  intros. unfold debye_scalar.
  assert (c * T <> 0) by (apply Rmult_integral_contrapositive_currified; auto).
  assert (c * T_D <> 0) by (apply Rmult_integral_contrapositive_currified; auto).
  rewrite !fdiv_ok by auto. cbn [bind]. eexists; split; [reflexivity|].
  f_equal. replace (c * T / (c * T_D)) with (T / T_D) by (field; auto).
  replace (c * T_D / (c * T)) with (T_D / T) by (field; auto). ring.
Qed.
Lemma debye_exact quad T T_D : 0 < T -> 0 < T_D -> fst (quad f 0 (T_D / T)) = RInt f 0 (T_D / T) ->
  debye_scalar quad T T_D = Ok (lamb_temperature T T_D).
Proof. intros HT HD Q. rewrite debye_value by auto. unfold lamb_temperature. f_equal. f_equal. exact Q. Qed.

Lemma lamb_low_limit T_D : 0 < T_D -> filterlim (fun T => lamb_temperature T T_D) (at_right 0) (locally (3 / 8 * T_D)).
Proof.
  intros HD. apply filterlim_locally. intros eps. exists eps. intros T HT HT0.
  change (Rabs (T - 0) < eps) in HT. rewrite Rminus_0_r, Rabs_pos_eq in HT by lra.
  change (Rabs (lamb_temperature T T_D - 3 / 8 * T_D) < eps).
  destruct (lamb_bounds T T_D HT0 HD) as (B1 & B2 & B3 & _). rewrite Rabs_pos_eq; lra.
Qed.
Lemma lamb_high_limit T_D : 0 < T_D -> is_lim (fun T => lamb_temperature T T_D - T) p_infty 0.
Proof.
  intros HD. apply is_lim_spec. intros eps.
  assert (K : 0 < 3 / 20 * T_D ^ 2) by (apply Rmult_lt_0_compat; [lra|apply pow_lt; auto]).
  exists (3 / 20 * T_D ^ 2 / eps). intros T HT. pose proof (cond_pos eps) as He.
  assert (HT0 : 0 < T). { eapply Rlt_trans; [|exact HT]. now apply Rdiv_lt_0_compat. }
  destruct (lamb_bounds T T_D HT0 HD) as (B1 & B2 & B3 & B4).
  rewrite Rminus_0_r, Rabs_pos_eq by lra.
  apply Rlt_trans with (3 / 20 * T_D ^ 2 / T). lra.
  apply (Rmult_lt_reg_r T); auto. replace (3 / 20 * T_D ^ 2 / T * T) with (3 / 20 * T_D ^ 2) by (field; lra).
  apply (Rmult_lt_compat_l eps) in HT; auto. replace (eps * (3 / 20 * T_D ^ 2 / eps)) with (3 / 20 * T_D ^ 2) in HT by (field; lra). lra.
Qed.

Lemma codata_ok : constants_ok codata.
Proof. unfold constants_ok, codata; simpl. repeat split; try lra. Qed.
Lemma recoil_example : conserves_four_momentum 4 2 (2 + 1 / 2).
Proof. apply recoil_conserves_only; lra. Qed.

Lemma debye_bounds quad T T_D : 0 < T -> 0 < T_D ->
  quad_error_ok quad (fun t => t ^ 3 * (1 / (exp t - 1) + 1 / 2)) 0 (T_D / T) ->
  exists Teff err, debye_scalar quad T T_D = Ok Teff /\
    err = 3 * T * (T / T_D) ^ 3 * snd (quad (fun t => t ^ 3 * (1 / (exp t - 1) + 1 / 2)) 0 (T_D / T)) /\
    T - err < Teff /\ 3 / 8 * T_D - err < Teff /\ Teff < T + 3 / 8 * T_D + err /\
    Teff < T + 3 / 20 * T_D ^ 2 / T + err.
Proof.
  intros HT HD Q. destruct (debye_error quad T T_D HT HD Q) as (Teff & E & B).
  exists Teff, (3 * T * (T / T_D) ^ 3 * snd (quad f 0 (T_D / T))). split; auto. split; auto.
  destruct (lamb_bounds T T_D HT HD) as (B1 & B2 & B3 & B4).
  apply Rabs_le_between in B. set (err := 3 * T * (T / T_D) ^ 3 * snd (quad f 0 (T_D / T))) in *.
  repeat split; lra.
Qed.
Lemma debye_exact_bounds quad T T_D : 0 < T -> 0 < T_D ->
  let f := fun t => t ^ 3 * (1 / (exp t - 1) + 1 / 2) in
  fst (quad f 0 (T_D / T)) = RInt f 0 (T_D / T) ->
  exists Teff, debye_scalar quad T T_D = Ok Teff /\ Teff = lamb_temperature T T_D /\
    T < Teff /\ 3 / 8 * T_D < Teff /\ Teff < T + 3 / 8 * T_D.
Proof.
  intros HT HD g Q. exists (lamb_temperature T T_D). split. now apply debye_exact. split; auto.
  destruct (lamb_bounds T T_D HT HD) as (B1 & B2 & B3 & B4). auto.
Qed.
Lemma quad_exists : exists quad, forall f a b, ex_RInt f a b -> quad_error_ok quad f a b.
Proof.
  exists (fun f a b => (RInt f a b, 0)). intros. unfold quad_error_ok; simpl.
  rewrite Rminus_eq_0, Rabs_R0. lra.
Qed.
Lemma debye_monotone quad : (forall f a b, ex_RInt f a b -> fst (quad f a b) = RInt f a b) ->
  (forall T T' T_D, 0 < T < T' -> 0 < T_D -> exists x y,
     debye_scalar quad T T_D = Ok x /\ debye_scalar quad T' T_D = Ok y /\ x < y) /\
  (forall T T_D T_D', 0 < T -> 0 < T_D < T_D' -> exists x y,
     debye_scalar quad T T_D = Ok x /\ debye_scalar quad T T_D' = Ok y /\ x < y).
Proof.
  intros Q. split; intros.
  - exists (lamb_temperature T T_D), (lamb_temperature T' T_D).
    split; [apply debye_exact; try lra; apply Q, ex_f|]. split; [apply debye_exact; try lra; apply Q, ex_f|].
    now apply lamb_mono_T.
  - exists (lamb_temperature T T_D), (lamb_temperature T T_D').
    split; [apply debye_exact; try lra; apply Q, ex_f|]. split; [apply debye_exact; try lra; apply Q, ex_f|].
    now apply lamb_mono_TD.
Qed.
Lemma debye_outcome quad T T_D : (exists r, debye_scalar quad T T_D = Ok r) \/ debye_scalar quad T T_D = Raise ZeroDivisionError.
Proof.
  unfold debye_scalar, fdiv. destruct (Req_EM_T T_D 0); auto. simpl. destruct (Req_EM_T T 0); simpl; eauto.
Qed.
Lemma debye_arrays quad T T_D : T <> [] -> length T = length T_D ->
  (List.Exists (fun t => t = 0) T \/ List.Exists (fun t => t = 0) T_D ->
     effective_temperature_debye_approximation quad T T_D = Raise ZeroDivisionError) /\
  (forall l, effective_temperature_debye_approximation quad T T_D = Ok l ->
     length l = length T /\
     forall i, (i < length T)%nat -> debye_scalar quad (nth i T 0) (nth i T_D 0) = Ok (nth i l 0)).
Proof.
  intros N L. unfold effective_temperature_debye_approximation. destruct T as [|t0 T0]; [congruence|].
  set (T := t0 :: T0) in *. clearbody T. clear N. revert T_D L. induction T as [|t T IH]; intros [|d T_D] L; simpl in L; try discriminate.
  - split.
    + intros [X|X]; inversion X.
    + intros l H. simpl in H. inversion H. split; auto. simpl. lia.
  - injection L as L. destruct (IH T_D L) as [IH1 IH2]. simpl map2. cbn [sequence]. split.
    + intros X.
      destruct (debye_outcome quad t d) as [[r E]|E]; rewrite E; cbn [bind]; auto.
      rewrite IH1; auto.
      assert (~ (t = 0 \/ d = 0)). { intros Y. apply (proj1 (debye_raises quad t d)) in Y. congruence. }
      destruct X as [X|X]; inversion X; subst; try tauto.
    + intros l H. destruct (debye_scalar quad t d) eqn:E; cbn [bind] in H; try discriminate.
      destruct (sequence (map2 (debye_scalar quad) T T_D)) eqn:S; cbn [bind] in H; try discriminate.
      inversion H; subst. destruct (IH2 _ eq_refl) as [A B]. split. simpl; lia.
      intros [|i] Hi; simpl; auto. simpl in Hi. apply B. lia.
Qed.
