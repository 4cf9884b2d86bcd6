(** Rounding in the total Klein-Nishina cross section. *)
From Coq Require Import Reals List ZArith Lra Lia Psatz.
From Flocq Require Import Core.
From Verif Require Import Py M_Num M_Grid M_CrossSection M_KleinNishina L_KleinNishina L_KleinNishina2 M_Float S_Float M_Float2 S_Float2 L_Float L_Float2 L_Float3.
Import ListNotations.
Open Scope R_scope.

(** ** Relative errors of positive numbers *)
Definition q : R := 1 - u.
Definition near (k : nat) (v V : R) : Prop := 0 < V /\ V * q ^ k <= v /\ v * q ^ k <= V.
Lemma u_tiny : u <= / 1024.
Proof. eapply Rle_trans; [apply u_small|]. right. simpl. field. Qed.
Lemma q_pos : 0 < q < 1.
Proof. unfold q. pose proof u_pos. pose proof u_tiny. lra. Qed.
Lemma qk_pos k : 0 < q ^ k <= 1.
Proof. pose proof q_pos. split; [apply pow_lt; lra|]. rewrite <- (pow1 k). apply pow_incr. lra. Qed.
Lemma near_exact x : 0 < x -> near 0 x x.
Proof. intros. repeat split; cbn; lra. Qed.
Lemma near_pos k v V : near k v V -> 0 < v.
Proof. intros (H1 & H2 & _). pose proof (qk_pos k). assert (0 < V * q ^ k) by (apply Rmult_lt_0_compat; lra). lra. Qed.
Lemma near_weaken k j v V : (k <= j)%nat -> near k v V -> near j v V.
Proof.
  intros H N. pose proof (near_pos _ _ _ N) as Pv. destruct N as (H1 & H2 & H3). pose proof (qk_pos k). assert (K : q ^ j <= q ^ k).
  { replace j with (k + (j - k))%nat by lia. rewrite pow_add. pose proof (qk_pos (j - k)). rewrite <- (Rmult_1_r (q ^ k)) at 2. apply Rmult_le_compat_l; lra. }
  split; [exact H1|]. split; nra.
Qed.
Lemma near_mult k j v V w W : near k v V -> near j w W -> near (k + j) (v * w) (V * W).
Proof.
  intros N M. pose proof (near_pos _ _ _ N) as Pv. pose proof (near_pos _ _ _ M) as Pw. destruct N as (H1 & H2 & H3). destruct M as (G1 & G2 & G3).
  pose proof (qk_pos k). pose proof (qk_pos j). unfold near. rewrite pow_add. split; [now apply Rmult_lt_0_compat|]. split.
  - replace (V * W * (q ^ k * q ^ j)) with ((V * q ^ k) * (W * q ^ j)) by ring. apply Rmult_le_compat; try assumption; apply Rmult_le_pos; lra.
  - replace (v * w * (q ^ k * q ^ j)) with ((v * q ^ k) * (w * q ^ j)) by ring. apply Rmult_le_compat; try assumption; apply Rmult_le_pos; lra.
Qed.
Lemma near_inv k v V : near k v V -> near k (/ v) (/ V).
Proof.
  intros N. pose proof (near_pos _ _ _ N) as Pv. destruct N as (H1 & H2 & H3). split; [now apply Rinv_0_lt_compat|]. split.
  - apply (Rmult_le_reg_r (V * v)); [nra|]. replace (/ V * q ^ k * (V * v)) with (v * q ^ k) by (field; lra). replace (/ v * (V * v)) with V by (field; lra). exact H3.
  - apply (Rmult_le_reg_r (V * v)); [nra|]. replace (/ v * q ^ k * (V * v)) with (V * q ^ k) by (field; lra). replace (/ V * (V * v)) with v by (field; lra). exact H2.
Qed.
Lemma near_div k j v V w W : near k v V -> near j w W -> near (k + j) (v / w) (V / W).
Proof. intros N M. apply near_mult; [exact N|now apply near_inv]. Qed.
Lemma near_add k v V w W : near k v V -> near k w W -> near k (v + w) (V + W).
Proof. intros (H1 & H2 & H3) (G1 & G2 & G3). split; [lra|]. split; lra. Qed.
Lemma near_err e v V k : Rabs e <= u -> near k v V -> near (S k) (v * (1 + e)) V.
Proof.
  intros He N. pose proof (near_pos _ _ _ N) as Pv. destruct N as (H1 & H2 & H3). apply Rabs_le_inv in He. pose proof (qk_pos k) as Q. pose proof q_pos as Q'. pose proof u_pos. pose proof u_tiny.
  unfold near. cbn [pow]. split; [exact H1|]. split.
  - replace (V * (q * q ^ k)) with (V * q ^ k * q) by ring. apply Rmult_le_compat; [apply Rmult_le_pos; lra|lra|exact H2|unfold q in *; lra].
  - replace (v * (1 + e) * (q * q ^ k)) with (v * q ^ k * ((1 + e) * q)) by ring. assert ((1 + e) * q <= 1) by (unfold q; nra). assert (0 <= v * q ^ k) by (apply Rmult_le_pos; lra). nra.
Qed.
Lemma near_rel c v V k : (c * u <= 1 - q ^ k) -> 0 < V -> Rabs (v - V) <= c * u * V -> near k v V.
Proof.
  intros Hc HV H. apply Rabs_le_inv in H. pose proof (qk_pos k). assert (c * u * V <= (1 - q ^ k) * V) by (apply Rmult_le_compat_r; lra). split; [exact HV|]. split; [lra|].
  assert (v <= V * (2 - q ^ k)) by lra. assert (v * q ^ k <= V * (2 - q ^ k) * q ^ k) by (apply Rmult_le_compat_r; lra). assert ((2 - q ^ k) * q ^ k <= 1) by nra. nra.
Qed.
(** Sums never underflow, products do not if they are large enough. *)
Lemma near_fadd k v V w W : double v -> double w -> near k v V -> near k w W -> near (S k) (fadd v w) (V + W).
Proof. intros Dv Dw N M. destruct (fadd_error v w Dv Dw) as (e & He & ->). apply near_err; [exact He|now apply near_add]. Qed.
Definition tiny : R := bpow radix2 (-1000).
Lemma half_le_q k : (k <= 100)%nat -> / 2 <= q ^ k.
Proof.
  intros H. assert (B : forall n, 1 - INR n * u <= q ^ n).
  { induction n; [cbn; lra|]. rewrite S_INR. cbn [pow]. pose proof u_pos. pose proof q_pos. unfold q in *. pose proof (pos_INR n). nra. }
  eapply Rle_trans; [|apply B]. apply le_INR in H. replace (INR 100) with 100 in H by (simpl; ring). pose proof u_pos. pose proof u_tiny. nra.
Qed.
Lemma near_rnd k v V : (k <= 100)%nat -> tiny <= V -> near k v V -> near (S k) (rnd v) V.
Proof.
  intros Hk HV N. pose proof (near_pos _ _ _ N) as Pv. pose proof (half_le_q k Hk).
  destruct (rnd_error_normal v) as (e & He & ->); [|now apply near_err].
  rewrite Rabs_pos_eq by lra. destruct N as (H1 & H2 & _). apply Rle_trans with (tiny * / 2).
  - unfold tiny. change (/ 2) with (bpow radix2 (-1)). rewrite <- bpow_plus. apply bpow_le. lia.
  - eapply Rle_trans; [|exact H2]. apply Rmult_le_compat; try lra. apply bpow_ge_0.
Qed.
Lemma near_fmul k j v V w W : (k + j <= 100)%nat -> tiny <= V * W -> near k v V -> near j w W -> near (S (k + j)) (fmul v w) (V * W).
Proof. intros H T N M. apply near_rnd; [exact H|exact T|now apply near_mult]. Qed.
Lemma near_fquo k j v V w W : (k + j <= 100)%nat -> tiny <= V / W -> near k v V -> near j w W -> near (S (k + j)) (fquo v w) (V / W).
Proof. intros H T N M. apply near_rnd; [exact H|exact T|now apply near_div]. Qed.
Lemma double_2 : double 2. Proof. apply double_int. lia. Qed.
Lemma double_8 : double 8. Proof. apply double_int. lia. Qed.
Lemma fmul_2 x : double x -> fmul 2 x = 2 * x.
Proof.
  intros D. apply rnd_id. unfold double, fexp64 in *. apply FLT_format_generic in D; [|reflexivity]. destruct D as [f Ef Hm He]. destruct f as [m e]. cbn in Hm, He.
  apply generic_format_FLT. exists (Float radix2 m (e + 1)); [|exact Hm|cbn; lia]. rewrite Ef. unfold F2R. cbn [Fnum Fexp]. rewrite bpow_plus. change (bpow radix2 1) with 2. ring.
Qed.
(** Powers of two in the two notations. *)
Lemma bpow_neg n : bpow radix2 (- Z.of_nat n) = / 2 ^ n.
Proof. rewrite bpow_opp. f_equal. rewrite bpow_powerRZ, <- pow_powerRZ. reflexivity. Qed.
Lemma moderate_tiny : tiny <= / 2 ^ 900 /\ 0 < tiny.
Proof. split; [|apply bpow_gt_0]. change 900%nat with (Z.to_nat 900). rewrite <- bpow_neg. apply bpow_le. lia. Qed.
Lemma near_trans k j v V W : near k v V -> near j V W -> near (k + j) v W.
Proof.
  intros N M. pose proof (near_pos _ _ _ N) as Pv. pose proof (near_pos _ _ _ M) as PV. destruct N as (H1 & H2 & H3). destruct M as (G1 & G2 & G3). pose proof (qk_pos k). pose proof (qk_pos j).
  unfold near. rewrite pow_add. split; [exact G1|]. split.
  - apply Rle_trans with (V * q ^ k); [|exact H2]. replace (W * (q ^ k * q ^ j)) with (W * q ^ j * q ^ k) by ring. apply Rmult_le_compat_r; lra.
  - apply Rle_trans with (V * q ^ j); [|exact G3]. replace (v * (q ^ k * q ^ j)) with (v * q ^ k * q ^ j) by ring. apply Rmult_le_compat_r; lra.
Qed.
Lemma bernoulli n : 1 - INR n * u <= q ^ n.
Proof. induction n; [cbn; lra|]. rewrite S_INR. cbn [pow]. pose proof u_pos. pose proof q_pos. unfold q in *. pose proof (pos_INR n). nra. Qed.
Lemma near_abs k v V : (k <= 20)%nat -> near k v V -> Rabs (v - V) <= (INR k + 1) * u * V.
Proof.
  intros Hk N. pose proof (near_pos _ _ _ N) as Pv. destruct N as (H1 & H2 & H3). pose proof (bernoulli k) as B. pose proof u_pos as U. pose proof u_tiny as U2. pose proof (pos_INR k) as K0.
  apply le_INR in Hk. replace (INR 20) with 20 in Hk by (simpl; ring). set (n := INR k) in *. pose proof (qk_pos k) as Q. apply Rabs_le. split; [nra|].
  assert (v * (1 - n * u) <= V) by nra. assert (1 <= (1 + (n + 1) * u) * (1 - n * u)).
  { assert (n * (n + 1) * u <= 1) by nra. nra. }
  assert (v <= v * ((1 + (n + 1) * u) * (1 - n * u))) by nra. assert (0 <= 1 + (n + 1) * u) by nra. nra.
Qed.
Lemma pow_3 : 2 * u <= 1 - q ^ 3.
Proof. pose proof u_pos. pose proof u_tiny. unfold q. nra. Qed.
Lemma pow_5 : 4 * u <= 1 - q ^ 5.
Proof. pose proof u_pos as U. pose proof u_tiny as U2. unfold q. replace (1 - (1 - u) ^ 5) with (5 * u - 10 * (u * u) + 10 * (u * u * u) - 5 * (u * u * u * u) + u * u * u * u * u) by ring.
  assert (u * u <= / 1024 * u) by nra. assert (0 <= u * u * u) by (repeat apply Rmult_le_pos; lra). assert (u * u * u * u <= / 1024 * u) by (assert (u * u * u <= / 1024) by nra; nra).
  assert (0 <= u * u * u * u * u) by (repeat apply Rmult_le_pos; lra). lra. Qed.
Lemma eta_u : eta <= u * / 1024.
Proof.
  unfold eta, u. replace (/ 2 * bpow radix2 (-1074)) with (bpow radix2 (-1075)) by (change (/ 2) with (bpow radix2 (-1)); rewrite <- bpow_plus; reflexivity).
  apply Rle_trans with (bpow radix2 (-63)); [apply bpow_le; lia|]. change (-63)%Z with (- Z.of_nat 63)%Z. rewrite bpow_neg. right. simpl. field.
Qed.
Lemma mul_abs x y X Y : Rabs x <= X -> Rabs y <= Y -> Rabs (x * y) <= X * Y.
Proof. intros. rewrite Rabs_mult. apply Rmult_le_compat; auto using Rabs_pos. Qed.
Lemma add_abs x y X Y : Rabs x <= X -> Rabs y <= Y -> Rabs (x + y) <= X + Y.
Proof. intros. eapply Rle_trans; [apply Rabs_triang|]. lra. Qed.

Section Total.
  Variables (m : libm) (x : R).
  Hypothesis Hm : libm_ok m.
  Hypothesis Dx : double x.
  Hypothesis Hx : moderate x.
  Lemma mod_pos : 0 < / 2 ^ 100. Proof. apply Rinv_0_lt_compat, pow_lt. lra. Qed.
  Lemma x_pos : 0 < x. Proof. pose proof mod_pos. destruct Hx. lra. Qed.
  Lemma tiny_x : tiny <= x * / 2 ^ 700.
  Proof.
    destruct Hx as [H _]. apply Rle_trans with (/ 2 ^ 100 * / 2 ^ 700).
    - rewrite <- Rinv_mult, <- pow_add. unfold tiny. change (-1000)%Z with (- Z.of_nat 1000)%Z. rewrite bpow_neg. apply Rinv_le_contravar; [apply pow_lt; lra|]. apply Rle_pow; [lra|]. apply Nat.leb_le. reflexivity.
    - apply Rmult_le_compat_r; [|exact H]. left. apply Rinv_0_lt_compat, pow_lt. lra.
  Qed.
  Lemma tiny_x1 : tiny <= x.
  Proof. eapply Rle_trans; [apply tiny_x|]. pose proof x_pos. assert (/ 2 ^ 700 <= 1) by (rewrite <- Rinv_1; apply Rinv_le_contravar; [lra|apply pow_R1_Rle; lra]). nra. Qed.
  Let y := fadd 1 (fmul 2 x).
  Let L := ln (1 + 2 * x).
  Let A := (2 * x * (2 + x * (1 + x) * (8 + x))) / ((1 + 2 * x) ^ 2).
  Let P := (x - 2) * x - 2.
  Let Q := x * x + 2 * x + 2.
  Let a := fquo (fmul (fmul 2 x) (fadd 2 (fmul (fmul x (fadd 1 x)) (fadd 8 x)))) (m_square m y).
  Let t := fmul (fsub (fmul (fsub x 2) x) 2) (m_log m y).
  Lemma y_ge : 1 <= y.
  Proof. apply rnd_ge; [apply double_1|]. rewrite fmul_2 by exact Dx. pose proof x_pos. lra. Qed.
  Lemma y_err : exists e, Rabs e <= u /\ y = (1 + 2 * x) * (1 + e).
  Proof. unfold y. destruct (fadd_error 1 (fmul 2 x) double_1 (rnd_double _)) as (e & He & E). rewrite fmul_2 in * by exact Dx. eauto. Qed.
  Lemma y_near : near 1 y (1 + 2 * x).
  Proof. pose proof x_pos. destruct y_err as (e & He & ->). apply near_err; [exact He|]. apply near_exact. lra. Qed.
  Lemma square_near : near 5 (m_square m y) ((1 + 2 * x) ^ 2).
  Proof.
    destruct Hm as (_ & _ & S & _). destruct (S y (rnd_double _) y_ge) as [_ E]. change unit_roundoff with u in E. pose proof y_ge.
    apply (near_trans 3 2) with (y ^ 2); [apply (near_rel 2); [apply pow_3|apply pow_lt; lra|exact E]|].
    replace (y ^ 2) with (y * y) by ring. replace ((1 + 2 * x) ^ 2) with ((1 + 2 * x) * (1 + 2 * x)) by ring. apply (near_mult 1 1); apply y_near.
  Qed.
  Lemma A_ge : 2 * x <= A.
  Proof.
    pose proof x_pos. unfold A. assert (0 < (1 + 2 * x) ^ 2) by (apply pow_lt; lra). apply (Rmult_le_reg_r ((1 + 2 * x) ^ 2)); [assumption|]. unfold Rdiv. rewrite (Rmult_assoc _ (/ _)), Rinv_l, Rmult_1_r by lra.
    apply Rmult_le_compat_l; [lra|]. assert (0 <= x * x * x) by (repeat apply Rmult_le_pos; lra). nra.
  Qed.
  Lemma A_le : A <= 4 * (x + x * x).
  Proof.
    pose proof x_pos. unfold A. assert (0 < (1 + 2 * x) ^ 2) by (apply pow_lt; lra). apply (Rmult_le_reg_r ((1 + 2 * x) ^ 2)); [assumption|]. unfold Rdiv. rewrite (Rmult_assoc _ (/ _)), Rinv_l, Rmult_1_r by lra.
    assert (0 <= x * x) by (apply Rmult_le_pos; lra). assert (0 <= x * x * x) by (repeat apply Rmult_le_pos; lra). assert (0 <= x * x * x * x) by (repeat apply Rmult_le_pos; lra). nra.
  Qed.
  Lemma a_near : near 12 a A.
  Proof.
    pose proof x_pos as X. pose proof tiny_x1 as T. unfold a, A. rewrite fmul_2 by exact Dx.
    assert (N0 : near 0 x x) by now apply near_exact. assert (N2 : near 0 (2 * x) (2 * x)) by (apply near_exact; lra).
    assert (N3 : near 1 (fadd 1 x) (1 + x)) by (apply near_fadd; [apply double_1|exact Dx|apply near_exact; lra|exact N0]).
    assert (N4 : near 1 (fadd 8 x) (8 + x)) by (apply near_fadd; [apply double_8|exact Dx|apply near_exact; lra|exact N0]).
    assert (N5 : near 2 (fmul x (fadd 1 x)) (x * (1 + x))) by (apply (near_fmul 0 1); [lia|nra|exact N0|exact N3]).
    assert (N6 : near 4 (fmul (fmul x (fadd 1 x)) (fadd 8 x)) (x * (1 + x) * (8 + x))) by (apply (near_fmul 2 1); [lia|assert (0 < x * (1 + x)) by nra; nra|exact N5|exact N4]).
    assert (Pn : 0 < x * (1 + x) * (8 + x)) by (apply Rmult_lt_0_compat; nra).
    assert (N7 : near 5 (fadd 2 (fmul (fmul x (fadd 1 x)) (fadd 8 x))) (2 + x * (1 + x) * (8 + x))).
    { apply near_fadd; [apply double_2|apply rnd_double| |exact N6]. apply (near_weaken 0); [lia|]. apply near_exact. lra. }
    assert (N8 : near 6 (fmul (2 * x) (fadd 2 (fmul (fmul x (fadd 1 x)) (fadd 8 x)))) (2 * x * (2 + x * (1 + x) * (8 + x)))) by (apply (near_fmul 0 5); [lia|apply Rle_trans with (2 * x * 2); [lra|apply Rmult_le_compat_l; lra]|exact N2|exact N7]).
    apply (near_fquo 6 5); [lia| |exact N8|apply square_near]. pose proof A_ge as G. unfold A in G. lra.
  Qed.
  Lemma L_bounds : 0 <= L <= 2 * x.
  Proof.
    pose proof x_pos. unfold L. split; [rewrite <- ln_1; left; apply ln_increasing; lra|]. apply Rle_trans with (ln (exp (2 * x))); [|rewrite ln_exp; lra]. left. apply ln_increasing; [lra|]. apply exp_ineq1. apply Rgt_not_eq. lra.
  Qed.
  Lemma log_err : Rabs (m_log m y - L) <= u * (2 * L + 3).
  Proof.
    pose proof x_pos as X. destruct Hm as (_ & S & _). destruct (S y (rnd_double _) y_ge) as [_ E]. change unit_roundoff with u in E. pose proof u_pos as U. pose proof u_tiny as U2. pose proof L_bounds as LB.
    assert (K : - (2 * u) <= ln y - L <= u).
    { destruct y_err as (e & He & Ey). apply Rabs_le_inv in He. assert (1 <= 1 + 2 * x) by lra. rewrite Ey. unfold L. rewrite ln_mult by lra. split.
      - assert (M : - ln (/ (1 + e)) <= ln (1 + e)) by (rewrite ln_Rinv by lra; lra). assert (N : ln (/ (1 + e)) <= / (1 + e) - 1).
        { apply (Rplus_le_reg_r 1). replace (/ (1 + e) - 1 + 1) with (/ (1 + e)) by ring. set (z := / (1 + e)). assert (0 < z) by (apply Rinv_0_lt_compat; lra). rewrite Rplus_comm. rewrite <- (exp_ln z) at 2 by assumption.
          destruct (Req_dec (ln z) 0) as [Z|NZ]; [rewrite Z, exp_0; lra|]. left. now apply exp_ineq1. }
        assert (/ (1 + e) <= 1 + 2 * u); [|lra]. apply (Rmult_le_reg_r (1 + e)); [lra|]. rewrite Rinv_l by lra. nra.
      - assert (ln (1 + e) <= e); [|lra]. destruct (Req_dec e 0) as [->|NZ]; [rewrite Rplus_0_r, ln_1; lra|]. rewrite <- (ln_exp e) at 2. left. apply ln_increasing; [lra|]. now apply exp_ineq1. }
    apply Rabs_le_inv in E. apply Rabs_le. assert (u * ln y <= u * (L + u)) by (apply Rmult_le_compat_l; lra). nra.
  Qed.
  Lemma poly_err : Rabs (fsub (fmul (fsub x 2) x) 2 - P) <= 5 * u * Q /\ Rabs P <= Q.
  Proof.
    pose proof x_pos as X. pose proof u_pos as U. pose proof u_tiny as U2. pose proof eta_u as EU. pose proof eta_pos as EP.
    destruct (fsub_error x 2 Dx double_2) as (e1 & H1 & E1). destruct (rnd_error (fsub x 2 * x)) as (e2 & h & H2 & Hh & E2). fold (fmul (fsub x 2) x) in E2.
    destruct (fsub_error (fmul (fsub x 2) x) 2 (rnd_double _) double_2) as (e3 & H3 & E3).
    set (D := (x - 2) * x). assert (HD : Rabs D <= x * x + 2 * x).
    { unfold D. apply Rabs_le. split; nra. }
    assert (HP : Rabs P <= Q). { unfold P, Q. fold D. unfold Rminus. eapply Rle_trans; [apply Rabs_triang|]. rewrite Rabs_Ropp, (Rabs_pos_eq 2) by lra. lra. }
    assert (B2 : Rabs (fmul (fsub x 2) x - D) <= 3 * u * Q).
    { rewrite E2, E1. replace ((x - 2) * (1 + e1) * x * (1 + e2) + h - D) with (D * (e1 + e2 + e1 * e2) + h) by (unfold D; ring).
      assert (Rabs (e1 + e2 + e1 * e2) <= u + u + u * u) by (repeat apply add_abs; auto; now apply mul_abs).
      eapply Rle_trans; [apply add_abs; [apply mul_abs; [exact HD|eassumption]|exact Hh]|]. unfold Q.
      assert (W : 0 <= x * x + 2 * x) by nra. set (w := x * x + 2 * x) in *. assert (w * (u + u + u * u) <= w * (3 * u)) by (apply Rmult_le_compat_l; nra). nra. }
    split; [|exact HP]. rewrite E3. replace ((fmul (fsub x 2) x - 2) * (1 + e3) - P) with ((fmul (fsub x 2) x - D) + e3 * ((fmul (fsub x 2) x - D) + P)) by (unfold P, D; ring).
    assert (Q0 : 0 <= Q) by (unfold Q; nra).
    eapply Rle_trans; [apply add_abs; [exact B2|apply mul_abs; [exact H3|apply add_abs; [exact B2|exact HP]]]|]. assert (u * (3 * u * Q) <= u * Q) by (replace (u * (3 * u * Q)) with (3 * u * (u * Q)) by ring; assert (0 <= u * Q) by nra; nra). nra.
  Qed.
  Lemma t_err : Rabs (t - P * L) <= u * (Q * (10 * L + 6)).
  Proof.
    pose proof x_pos as X. pose proof u_pos as U. pose proof u_tiny as U2. pose proof eta_u as EU. pose proof eta_pos as EP. pose proof L_bounds as [L0 _]. destruct poly_err as [PE PQ]. pose proof log_err as LE.
    unfold t. set (p := fsub (fmul (fsub x 2) x) 2) in *. set (l := m_log m y) in *. unfold fmul. destruct (rnd_error (p * l)) as (e & h & He & Hh & ->).
    assert (Q1 : 2 <= Q) by (unfold Q; nra).
    assert (B : Rabs (p * l - P * L) <= u * (Q * (8 * L + 4))).
    { replace (p * l - P * L) with ((p - P + P) * (l - L) + (p - P) * L) by ring.
      eapply Rle_trans; [apply add_abs; [apply mul_abs; [apply add_abs; [exact PE|exact PQ]|exact LE]|apply mul_abs; [exact PE|rewrite Rabs_pos_eq by exact L0; apply Rle_refl]]|].
      replace ((5 * u * Q + Q) * (u * (2 * L + 3)) + 5 * u * Q * L) with (u * (Q * ((1 + 5 * u) * (2 * L + 3) + 5 * L))) by ring. apply Rmult_le_compat_l; [lra|]. apply Rmult_le_compat_l; [lra|]. nra. }
    replace (p * l * (1 + e) + h - P * L) with ((p * l - P * L) + e * ((p * l - P * L) + P * L) + h) by ring.
    eapply Rle_trans; [apply add_abs; [apply add_abs; [exact B|apply mul_abs; [exact He|apply add_abs; [exact B|apply mul_abs; [exact PQ|rewrite Rabs_pos_eq by exact L0; apply Rle_refl]]]]|exact Hh]|].
    assert (QL : 0 <= Q * L) by nra. assert (u * (u * (Q * (8 * L + 4))) <= u * (/ 1024 * (Q * (8 * L + 4)))).
    { apply Rmult_le_compat_l; [lra|]. apply Rmult_le_compat_r; [|lra]. nra. }
    assert (eta <= u * Q) by nra. assert (0 <= u * Q) by nra. assert (0 <= u * (Q * L)) by nra. nra.
  Qed.
  Lemma brace_err : Rabs (fadd a t - (A + P * L)) <= u * (15 * A + 12 * (Q * L) + 7 * Q) /\ Rabs (A + P * L) <= A + Q * L.
  Proof.
    pose proof x_pos as X. pose proof u_pos as U. pose proof u_tiny as U2. pose proof L_bounds as [L0 _]. pose proof t_err as TE. destruct poly_err as [_ PQ]. pose proof A_ge as A0.
    assert (AE : Rabs (a - A) <= 13 * u * A). { pose proof (near_abs 12 a A ltac:(lia) a_near) as K. replace (INR 12 + 1) with 13 in K by (simpl; ring). exact K. }
    assert (Q1 : 2 <= Q) by (unfold Q; nra). assert (QL : 0 <= Q * L) by nra.
    assert (PL : Rabs (P * L) <= Q * L) by (apply mul_abs; [exact PQ|rewrite Rabs_pos_eq by exact L0; apply Rle_refl]).
    assert (G : Rabs (A + P * L) <= A + Q * L) by (apply add_abs; [rewrite Rabs_pos_eq by lra; apply Rle_refl|exact PL]).
    split; [|exact G]. destruct (fadd_error a t (rnd_double _) (rnd_double _)) as (e & He & ->).
    replace ((a + t) * (1 + e) - (A + P * L)) with ((a - A) + (t - P * L) + e * ((a - A) + (t - P * L) + (A + P * L))) by ring.
    eapply Rle_trans; [apply add_abs; [apply add_abs; [exact AE|exact TE]|apply mul_abs; [exact He|apply add_abs; [apply add_abs; [exact AE|exact TE]|exact G]]]|].
    replace (13 * u * A + u * (Q * (10 * L + 6)) + u * (13 * u * A + u * (Q * (10 * L + 6)) + (A + Q * L))) with
      (u * (13 * A + Q * (10 * L + 6) + (u * (13 * A + Q * (10 * L + 6)) + (A + Q * L)))) by ring.
    apply Rmult_le_compat_l; [lra|]. assert (u * (13 * A + Q * (10 * L + 6)) <= / 1024 * (13 * A + Q * (10 * L + 6))) by (apply Rmult_le_compat_r; nra). nra.
  Qed.
  (** *** The logarithm is taken of a rounded number *)
  Lemma u_20 : u <= / 2 ^ 20.
  Proof. unfold u. apply Rinv_le_contravar; [apply pow_lt; lra|]. apply Rle_pow; [lra|lia]. Qed.
  Lemma t_err_y : Rabs (t - P * ln y) <= u * (Q * (10 * ln y)) + eta.
  Proof.
    pose proof x_pos as X. pose proof u_pos as U. pose proof u_tiny as U2. destruct poly_err as [PE PQ]. destruct Hm as (_ & S & _). destruct (S y (rnd_double _) y_ge) as [_ LE]. change unit_roundoff with u in LE.
    pose proof y_ge as Y. assert (L0 : 0 <= ln y) by (destruct (Req_dec y 1) as [->|]; [rewrite ln_1; lra|rewrite <- ln_1; left; apply ln_increasing; lra]).
    unfold t. set (p := fsub (fmul (fsub x 2) x) 2) in *. set (l := m_log m y) in *. set (la := ln y) in *. unfold fmul. destruct (rnd_error (p * l)) as (e & h & He & Hh & ->).
    assert (Q1 : 2 <= Q) by (unfold Q; nra). assert (AL : Rabs la <= la) by (rewrite Rabs_pos_eq; lra). assert (QL : 0 <= Q * la) by nra.
    assert (B : Rabs (p * l - P * la) <= u * (Q * (8 * la))).
    { replace (p * l - P * la) with ((p - P + P) * (l - la) + (p - P) * la) by ring.
      eapply Rle_trans; [apply add_abs; [apply mul_abs; [apply add_abs; [exact PE|exact PQ]|exact LE]|apply mul_abs; [exact PE|exact AL]]|].
      replace ((5 * u * Q + Q) * (2 * u * la) + 5 * u * Q * la) with (u * (Q * la) * (7 + 10 * u)) by ring. replace (u * (Q * (8 * la))) with (u * (Q * la) * 8) by ring. apply Rmult_le_compat_l; [nra|lra]. }
    replace (p * l * (1 + e) + h - P * la) with ((p * l - P * la) + e * ((p * l - P * la) + P * la) + h) by ring.
    eapply Rle_trans; [apply add_abs; [apply add_abs; [exact B|apply mul_abs; [exact He|apply add_abs; [exact B|apply mul_abs; [exact PQ|exact AL]]]]|exact Hh]|].
    apply Rplus_le_compat_r. replace (u * (Q * (8 * la)) + u * (u * (Q * (8 * la)) + Q * la)) with (u * (Q * la) * (9 + 8 * u)) by ring. replace (u * (Q * (10 * la))) with (u * (Q * la) * 10) by ring. apply Rmult_le_compat_l; [nra|lra].
  Qed.
  Let d := y - (1 + 2 * x).
  Lemma brace_neg : x <= / 2 ^ 18 -> 4 * x ^ 3 + u / 4 <= d -> fadd a t <= - (13 / 10 * d).
  Proof.
    intros Hs Hd. pose proof x_pos as X. pose proof u_pos as U. pose proof u_20 as U2. pose proof eta_u as EU. pose proof t_err_y as TE. destruct poly_err as [_ PQ]. pose proof A_ge as A0. pose proof A_le as A1. pose proof y_ge as Y.
    assert (X3 : 0 < x ^ 3) by (apply pow_lt; lra). assert (Hd0 : 0 < d) by lra. replace (2 ^ 18) with 262144 in Hs by ring. replace (2 ^ 20) with 1048576 in U2 by ring.
    assert (Hd1 : d <= 2 * u). { unfold d. destruct y_err as (e & He & ->). apply Rabs_le_inv in He. nra. }
    assert (Ly : ln y <= 2 * x + 2 * u). { assert (ln y <= y - 1); [|unfold d in *; lra]. destruct (Req_dec y 1) as [->|]; [rewrite ln_1; lra|]. apply Rle_trans with (ln (exp (y - 1))); [|rewrite ln_exp; lra]. left. apply ln_increasing; [lra|]. replace y with (1 + (y - 1)) at 1 by ring. apply exp_ineq1. lra. }
    assert (Dy : 99 / 100 * d <= ln y - L).
    { set (z := (1 + 2 * x) / y). assert (Pz : 0 < z) by (apply Rdiv_lt_0_compat; lra). assert (Ez : L - ln y = ln z) by (unfold z, Rdiv; rewrite ln_mult, ln_Rinv by (try apply Rinv_0_lt_compat; lra); unfold L; ring).
      assert (Lz : ln z <= z - 1). { destruct (Req_dec z 1) as [->|NZ]; [rewrite ln_1; lra|]. apply Rle_trans with (ln (exp (z - 1))); [|rewrite ln_exp; lra]. left. apply ln_increasing; [lra|]. replace z with (1 + (z - 1)) at 1 by ring. apply exp_ineq1. lra. }
      assert (Dz : 1 - z = d / y) by (unfold z, d; field; lra). assert (99 / 100 * d <= d / y); [|lra]. apply (Rmult_le_reg_r y); [lra|]. unfold Rdiv at 2. rewrite (Rmult_assoc d), Rinv_l by lra. assert (y <= 101 / 100) by (unfold d in *; lra). nra. }
    assert (HH : A + P * L <= 8 / 3 * x ^ 3).
    { pose proof (hh_lt x X) as K. replace (hh x) with (/ x ^ 3 * (A + P * L)) in K by (unfold hh, A, P, L; ring). apply (Rmult_lt_compat_l (x ^ 3)) in K; [|exact X3]. rewrite <- Rmult_assoc, Rinv_r in K by lra. lra. }
    assert (P2 : P <= -2) by (unfold P; nra).
    assert (G : A + P * ln y <= 8 / 3 * x ^ 3 - 198 / 100 * d). { replace (P * ln y) with (P * L + P * (ln y - L)) by ring. nra. }
    assert (AE : Rabs (a - A) <= 13 * u * A). { pose proof (near_abs 12 a A ltac:(lia) a_near) as K. replace (INR 12 + 1) with 13 in K by (simpl; ring). exact K. }
    assert (Q2 : 0 <= Q <= 21 / 10) by (unfold Q; split; nra). assert (L0 : 0 <= ln y) by (pose proof L_bounds; lra).
    assert (E1 : 13 * u * A <= u / 4000). { assert (A <= 41 / 10 * x) by nra. nra. }
    assert (E2 : u * (Q * (10 * ln y)) <= u / 3000). { assert (Q * (10 * ln y) <= 21 / 10 * (10 * (2 * x + 2 * u))) by (apply Rmult_le_compat; lra). nra. }
    apply Rabs_le_inv in AE. apply Rabs_le_inv in TE. assert (AT : a + t <= - (131 / 100 * d)) by lra.
    destruct (fadd_error a t (rnd_double _) (rnd_double _)) as (e & He & ->). apply Rabs_le_inv in He. assert (E4 : 1 - / 1048576 <= 1 + e) by lra. apply Rle_trans with (- (131 / 100 * d) * (1 + e)); [apply Rmult_le_compat_r; lra|]. clear - E4 Hd0. nra.
  Qed.
  Lemma brace_low : x <= / 2 ^ 55 -> fadd a t = a.
  Proof.
    intros H. assert (Ey : y = 1).
    { unfold y, fadd. rewrite fmul_2 by exact Dx. pose proof x_pos. assert (K : / 2 ^ 55 = / 36028797018963968) by (f_equal; rewrite pow_IZR; reflexivity). rewrite K in H.
      rewrite (rnd_lit _ 4503599627370496 (-52) (/ 4503599627370496)); [lra|lia|lia|lia|reflexivity|lra..]. }
    unfold t. rewrite Ey. destruct Hm as (-> & _). unfold fmul at 1. rewrite Rmult_0_r, rnd_0. unfold fadd. rewrite Rplus_0_r. apply rnd_id, rnd_double.
  Qed.
  Variable s : R.
  Hypothesis Hs : moderate s.
  Let w := fmul (fmul np_pi s) (m_pow_m3 m x).
  Let W := PI * s * / x ^ 3.
  Lemma s_pos : 0 < s. Proof. pose proof mod_pos. destruct Hs. lra. Qed.
  Lemma x3_le : x ^ 3 <= 2 ^ 300.
  Proof. replace 300%nat with (100 * 3)%nat by reflexivity. rewrite pow_mult. apply pow_incr. pose proof x_pos. destruct Hx. lra. Qed.
  Lemma W_ge : / 2 ^ 400 <= W.
  Proof.
    pose proof s_pos. pose proof x_pos. pose proof PI_RGT_0. pose proof PI2_3_2. assert (0 < x ^ 3) by (apply pow_lt; lra). unfold W. replace 400%nat with (100 + 300)%nat by reflexivity. rewrite pow_add, Rinv_mult. apply Rmult_le_compat.
    - left. apply mod_pos.
    - left. apply Rinv_0_lt_compat, pow_lt. lra.
    - destruct Hs. unfold PI2 in *. nra.
    - apply Rinv_le_contravar; [assumption|apply x3_le].
  Qed.
  Lemma tiny_inv n : (n <= 900)%nat -> tiny <= / 2 ^ n.
  Proof. intros H. destruct moderate_tiny as [T _]. eapply Rle_trans; [exact T|]. apply Rinv_le_contravar; [apply pow_lt; lra|]. apply Rle_pow; [lra|exact H]. Qed.
  Lemma w_near : near 8 w W.
  Proof.
    pose proof s_pos. pose proof x_pos. pose proof PI_RGT_0 as PI0. pose proof PI2_3_2 as PI3. unfold PI2 in PI3. pose proof (tiny_inv 100 ltac:(apply Nat.leb_le; reflexivity)) as T1. pose proof W_ge as WG. pose proof (tiny_inv 400 ltac:(apply Nat.leb_le; reflexivity)) as T2.
    assert (N1 : near 1 np_pi PI). { apply near_rnd; [lia| |now apply near_exact]. assert (/ 2 ^ 100 <= 1) by (rewrite <- Rinv_1; apply Rinv_le_contravar; [lra|apply pow_R1_Rle; lra]). lra. }
    assert (N2 : near 2 (fmul np_pi s) (PI * s)). { apply (near_fmul 1 0); [lia| |exact N1|now apply near_exact]. destruct Hs. nra. }
    destruct Hm as (_ & _ & _ & S). destruct (S x Dx Hx) as [_ E]. change unit_roundoff with u in E.
    assert (N3 : near 5 (m_pow_m3 m x) (/ x ^ 3)) by (apply (near_rel 4); [apply pow_5|apply Rinv_0_lt_compat, pow_lt; assumption|exact E]).
    apply (near_fmul 2 5); [lia| |exact N2|exact N3]. fold W. lra.
  Qed.
  Lemma total_err : Rabs (fmul w (fadd a t) - PI * s * hh x) <= 1024 * u * (PI * s * (1 + / x ^ 3)).
  Proof.
    pose proof x_pos as X. pose proof s_pos as S0. pose proof u_pos as U. pose proof u_tiny as U2. pose proof L_bounds as [L0 L1]. pose proof A_ge as A0. pose proof A_le as A1. pose proof PI_RGT_0 as PI0.
    replace (PI * s * hh x) with (W * (A + P * L)) by (unfold W, hh, A, P, L; ring).
    destruct brace_err as [BE BG]. set (b := fadd a t) in *. set (G := A + P * L) in *.
    assert (WE : Rabs (w - W) <= 9 * u * W). { pose proof (near_abs 8 w W ltac:(lia) w_near) as K. replace (INR 8 + 1) with 9 in K by (simpl; ring). exact K. }
    assert (W0 : 0 < W) by (destruct w_near; assumption). assert (Q1 : 2 <= Q) by (unfold Q; nra). assert (QL : 0 <= Q * L) by nra.
    set (V := A + Q * L + Q). assert (V0 : 0 <= V) by (unfold V; lra).
    assert (BE' : Rabs (b - G) <= u * (15 * V)) by (eapply Rle_trans; [exact BE|]; apply Rmult_le_compat_l; [lra|]; unfold V; lra).
    assert (BG' : Rabs G <= V) by (unfold V; lra).
    unfold fmul at 1. destruct (rnd_error (w * b)) as (e & h & He & Hh & ->).
    replace (w * b * (1 + e) + h - W * G) with ((w - W) * ((b - G) + G) + W * (b - G) + e * (((w - W) + W) * ((b - G) + G)) + h) by ring.
    assert (AW : Rabs W <= W) by (rewrite Rabs_pos_eq; lra).
    eapply Rle_trans.
    { apply add_abs; [apply add_abs; [apply add_abs|]|exact Hh].
      - apply mul_abs; [exact WE|apply add_abs; [exact BE'|exact BG']].
      - apply mul_abs; [exact AW|exact BE'].
      - apply mul_abs; [exact He|]. apply mul_abs; [apply add_abs; [exact WE|exact AW]|apply add_abs; [exact BE'|exact BG']]. }
    assert (UV : 0 <= W * V) by nra.
    apply Rle_trans with (u * (W * V) * 27 + eta).
    { apply Rplus_le_compat_r. replace (9 * u * W * (u * (15 * V) + V) + W * (u * (15 * V)) + u * ((9 * u * W + W) * (u * (15 * V) + V))) with
        (u * (W * V) * (9 * (15 * u + 1) + 15 + (9 * u + 1) * (15 * u + 1))) by ring. apply Rmult_le_compat_l; [nra|]. nra. }
    assert (VB : V <= 26 * (1 + x ^ 3)).
    { assert (Q * L <= Q * (2 * x)) by (apply Rmult_le_compat_l; lra). assert (x <= 1 + x ^ 3) by (destruct (Rle_or_lt x 1); [assert (0 <= x ^ 3) by (apply pow_le; lra); lra|nra]).
      assert (x * x <= 1 + x ^ 3) by (destruct (Rle_or_lt x 1); [assert (0 <= x ^ 3) by (apply pow_le; lra); nra|nra]). unfold V, Q in *. simpl in *. lra. }
    assert (X3 : 0 < x ^ 3) by (apply pow_lt; lra). assert (WV : W * V <= 26 * (PI * s * (1 + / x ^ 3))).
    { apply Rle_trans with (W * (26 * (1 + x ^ 3))); [apply Rmult_le_compat_l; lra|]. right. unfold W. field. lra. }
    assert (ET : eta <= u * (PI * s * (1 + / x ^ 3))).
    { assert (PS : / 2 ^ 100 <= PI * s) by (destruct Hs; pose proof PI2_3_2 as PI3; unfold PI2 in PI3; nra). assert (0 < / x ^ 3) by now apply Rinv_0_lt_compat. pose proof mod_pos.
      apply Rle_trans with (u * (/ 2 ^ 100)).
      - unfold eta, u. replace (/ 2 * bpow radix2 (-1074)) with (bpow radix2 (-1075)) by (change (/ 2) with (bpow radix2 (-1)); rewrite <- bpow_plus; reflexivity).
        rewrite <- Rinv_mult, <- pow_add. change (53 + 100)%nat with 153%nat. apply Rle_trans with (bpow radix2 (-153)); [apply bpow_le; lia|]. change (-153)%Z with (- Z.of_nat 153)%Z. rewrite bpow_neg. apply Rle_refl.
      - apply Rmult_le_compat_l; [lra|]. apply Rle_trans with (PI * s * 1); [lra|]. apply Rmult_le_compat_l; lra. }
    assert (Z : 0 <= u * (PI * s * (1 + / x ^ 3))) by (pose proof eta_pos; lra). nra.
  Qed.
  Lemma total_neg : x <= / 2 ^ 18 -> 4 * x ^ 3 + u / 4 <= d -> fmul w (fadd a t) <= - (PI * s / 2 * (d / x ^ 3)).
  Proof.
    intros H1 H2. pose proof (brace_neg H1 H2) as B. pose proof x_pos as X. pose proof u_pos as U. assert (X3 : 0 < x ^ 3) by (apply pow_lt; lra). assert (D0 : 0 < d) by lra.
    pose proof W_ge as WG. assert (W0 : 0 < W) by (destruct w_near; assumption). assert (w_lo : W * / 2 <= w) by (destruct w_near as (_ & K & _); eapply Rle_trans; [|exact K]; apply Rmult_le_compat_l; [lra|]; apply half_le_q; lia).
    replace (PI * s / 2 * (d / x ^ 3)) with (W * d / 2) by (unfold W; field; lra). pose proof w_near as NW. pose proof (near_abs 8 w W ltac:(lia) NW) as WE. replace (INR 8 + 1) with 9 in WE by (simpl; ring). apply Rabs_le_inv in WE.
    pose proof u_tiny as U2. assert (WL : 99 / 100 * W <= w) by nra. set (b := fadd a t) in *. assert (WB : 12 / 10 * (W * d) <= w * - b) by (apply Rle_trans with (99 / 100 * W * (13 / 10 * d)); [nra|]; apply Rmult_le_compat; lra).
    assert (T : tiny <= W * d).
    { eapply Rle_trans; [apply (tiny_inv 455); apply Nat.leb_le; reflexivity|]. replace 455%nat with (400 + 55)%nat by reflexivity. rewrite pow_add, Rinv_mult. apply Rmult_le_compat; [left; apply Rinv_0_lt_compat, pow_lt; lra|left; apply Rinv_0_lt_compat, pow_lt; lra|exact WG|].
      apply Rle_trans with (u / 4); [|lra]. unfold u. rewrite (pow_add 2 53 2 : 2 ^ 55 = _), Rinv_mult. right. replace (2 ^ 2) with 4 by ring. reflexivity. }
    assert (W1 : 0 < W * d) by nra.
    assert (K : near 1 (rnd (w * - b)) (w * - b)) by (apply near_rnd; [lia|lra|apply near_exact; lra]). destruct K as (_ & K & _). pose proof (half_le_q 1 ltac:(lia)).
    unfold fmul. replace (w * b) with (- (w * - b)) by ring. rewrite rnd_opp. apply Ropp_le_contravar. eapply Rle_trans; [|exact K]. apply Rle_trans with (12 / 10 * (W * d) * / 2); [lra|]. apply Rmult_le_compat; lra.
  Qed.
  Lemma total_low : x <= / 2 ^ 55 -> PI * s * / x ^ 2 <= fmul w (fadd a t).
  Proof.
    intros H. rewrite brace_low by exact H. pose proof x_pos as X. pose proof A_ge as A0. pose proof W_ge as WG. assert (W0 : 0 < W) by (destruct w_near; assumption).
    assert (T : tiny <= W * A).
    { eapply Rle_trans; [apply (tiny_inv 500); apply Nat.leb_le; reflexivity|]. replace 500%nat with (400 + 100)%nat by reflexivity. rewrite pow_add, Rinv_mult. apply Rmult_le_compat; [left; apply Rinv_0_lt_compat, pow_lt; lra|left; apply Rinv_0_lt_compat, pow_lt; lra|exact WG|]. destruct Hx. lra. }
    destruct (near_fmul 8 12 w W a A ltac:(lia) T w_near a_near) as (_ & K & _). pose proof (half_le_q 21 ltac:(lia)) as HQ. eapply Rle_trans; [|exact K]. apply Rle_trans with (W * (2 * x) * / 2).
    - right. unfold W. field. lra.
    - apply Rmult_le_compat; [nra|lra|apply Rmult_le_compat_l; lra|exact HQ].
  Qed.
End Total.
