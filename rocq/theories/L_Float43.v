(** The Debye model with rounding: the effective temperature. *)
From Coq Require Import Reals List ZArith Lra Lia Psatz.
From Flocq Require Import Core.
From Coquelicot Require Import Coquelicot.
From Verif Require Import Py Spec M_Num M_Thermal S_Thermal M_Float S_Float M_Float4 M_Float10 S_Float10 L_Debye L_Float L_Float2 L_Float7 L_Float9 L_Float12 L_Float36 L_Float42.
Import ListNotations.
Open Scope R_scope.
Open Scope py_scope.

Section Main.
Context (l : dlib) (OK : dlib_ok l).
Lemma prefactor T T_D : double T -> double T_D -> rng 30 T -> rng 30 (T_D / T) -> 
  near 8 (fmul (fmul 3 (d_cube l (fquo T T_D))) T) (3 * (T / T_D) ^ 3 * T).
Proof.
  intros D D' RT RX. pose proof (rng_pos _ _ RT) as T0.
  assert (TD0 : 0 < T_D). { replace T_D with (T_D / T * T) by (field; lra). apply Rmult_lt_0_compat; auto. eapply rng_pos; eauto. }
  assert (RY : rng 30 (T / T_D)). { replace (T / T_D) with (/ (T_D / T)) by (field; lra). now apply rng_inv. }
  assert (N1 : near 1 (fquo T T_D) (T / T_D)). { apply (near_fquo 0 0); try lia. apply (rng_tiny 30); auto; lia. now apply near_exact. now apply near_exact. }
  set (v := fquo T T_D) in *. pose proof (near_pos _ _ _ N1) as v0.
  assert (N3 : near 3 (v ^ 3) ((T / T_D) ^ 3)). { replace (v ^ 3) with (v * v * v) by ring. replace ((T / T_D) ^ 3) with (T / T_D * (T / T_D) * (T / T_D)) by ring. change 3%nat with (1 + 1 + 1)%nat. now repeat apply near_mult. }
  assert (VR : / 2 ^ 70 <= v <= 2 ^ 70).
  { destruct N1 as (P & A & B). pose proof (half_le_q 1 ltac:(lia)) as HQ. pose proof (qk_pos 1) as Q. destruct RY as [Y1 Y2].
    assert (/ 2 ^ 31 = / 2 * / 2 ^ 30) by (rewrite <- Rinv_mult; reflexivity). pose proof (ipow2_pos 30). pose proof (pow2_pos 30). split.
    - eapply Rle_trans; [apply (ipow2_le 31 70); lia|]. nra.
    - eapply Rle_trans; [|apply (pow2_le 31 70); lia]. change (2 ^ 31) with (2 * 2 ^ 30). nra. }
  destruct (proj2 OK v (rnd_double _) VR) as [DC EC]. change unit_roundoff with u in EC.
  assert (N4 : near 3 (d_cube l v) (v ^ 3)). { apply (near_rel 2). apply pow_3. now apply pow_lt. auto. }
  assert (N6 : near 6 (d_cube l v) ((T / T_D) ^ 3)). { change 6%nat with (3 + 3)%nat. eapply near_trans; eauto. }
  assert (R3 : rng 90 ((T / T_D) ^ 3)). { replace ((T / T_D) ^ 3) with (T / T_D * (T / T_D) * (T / T_D)) by ring. change 90%nat with (30 + 30 + 30)%nat. now repeat apply rng_mult. }
  assert (R4 : rng 2 3) by (split; simpl; lra).
  assert (N7 : near 7 (fmul 3 (d_cube l v)) (3 * (T / T_D) ^ 3)). { apply (near_fmul 0 6); try lia. apply (rng_tiny 92); [lia|]. now apply (rng_mult 2 90). apply near_exact; lra. auto. }
  apply (near_fmul 7 0); try lia; auto. apply (rng_tiny 122); [lia|]. apply (rng_mult 92 30); auto. now apply (rng_mult 2 90). now apply near_exact.
Qed.
Lemma debye_accuracy eps kappa quad T T_D : double T -> double T_D -> / 2 ^ 30 <= T <= 2 ^ 30 -> / 2 ^ 30 <= T_D / T <= 2 ^ 30 ->
  0 <= eps <= / 4 -> 0 <= kappa <= / 2 ^ 20 -> quadrature eps kappa quad (fdebye_integrand l) f (fquo T_D T) ->
  exists r, fdebye_scalar l quad T T_D = Ok r /\ Rabs (r - lamb_temperature T T_D) <= (eps + 2 * kappa + (60 + 80 * (T / T_D)) * u) * lamb_temperature T T_D.
Proof.
  intros D D' RT RX He Hk Q. assert (T0 : 0 < T) by (apply (rng_pos 30); exact RT). assert (X0 : 0 < T_D / T) by (apply (rng_pos 30); exact RX).
  assert (TD0 : 0 < T_D). { replace T_D with (T_D / T * T) by (field; lra). now apply Rmult_lt_0_compat. }
  pose proof (prefactor T T_D D D' RT RX) as NP. set (x := T_D / T) in *.
  assert (NX : near 1 (fquo T_D T) x). { apply (near_fquo 0 0); try lia. apply (rng_tiny 30); auto; lia. now apply near_exact. now apply near_exact. }
  set (x' := fquo T_D T) in *. pose proof (near_pos _ _ _ NX) as x'0.
  assert (VR : / 2 ^ 31 <= x' <= 2 ^ 31).
  { destruct NX as (P & A & B). pose proof (half_le_q 1 ltac:(lia)) as HQ. pose proof (qk_pos 1) as Qk. destruct RX as [Y1 Y2].
    assert (/ 2 ^ 31 = / 2 * / 2 ^ 30) by (rewrite <- Rinv_mult; reflexivity). pose proof (ipow2_pos 30). pose proof (pow2_pos 30). split; [nra|]. change (2 ^ 31) with (2 * 2 ^ 30). nra. }
  destruct (quad_error l OK eps kappa quad x' He Hk VR Q) as (r & Er & Rr).
  pose proof (I_near 1 x x' X0 NX) as NI. apply near_rel_abs in NI; [|lia]. apply near_rel_abs in NP; [|lia]. cbn [Nat.add] in NI.
  unfold fdebye_scalar. fold x'. destruct (Req_EM_T T_D 0) as [|_]; [lra|]. destruct (Req_EM_T T 0) as [|_]; [lra|]. rewrite Er. cbn [bind]. eexists. split; [reflexivity|].
  set (p := fmul (fmul 3 (d_cube l (fquo T T_D))) T) in *. 
  assert (L : lamb_temperature T T_D = 3 * (T / T_D) ^ 3 * T * RInt f 0 x). { unfold lamb_temperature. change (fun t => t ^ 3 * (1 / (exp t - 1) + 1 / 2)) with f. fold x. ring. }
  pose proof u_pos as U. assert (U' : u <= / 2 ^ 53) by (unfold u; lra). assert (V0 : 0 < T / T_D) by now apply Rdiv_lt_0_compat.
  assert (V : T / T_D <= 2 ^ 30). { replace (T / T_D) with (/ x) by (unfold x; field; lra). rewrite <- (Rinv_inv (2 ^ 30)). apply Rinv_le_contravar; [apply ipow2_pos|tauto]. }
  assert (VX : / x' <= 1002 / 1000 * (T / T_D)).
  { destruct NX as (_ & A & _). replace (T / T_D) with (/ x) by (unfold x; field; lra). rewrite pow_1 in A. apply Rmult_le_reg_l with (x' * x); [nra|]. replace (x' * x * / x') with x by (field; lra). replace (x' * x * (1002 / 1000 * / x)) with (1002 / 1000 * x') by (field; lra).
    assert (999 / 1000 <= q) by (pose proof u_tiny; unfold q; lra).  nra. }
  set (y := T / T_D) in *. assert (W : y * u <= / 2 ^ 23). { apply Rle_trans with (2 ^ 30 * / 2 ^ 53). apply Rmult_le_compat; lra. simpl pow; lra. }
  set (a := eps + 13 / 10 * kappa + (31 + 74 * y) * u).
  assert (Rr' : rel a r (RInt f 0 x')). { eapply rel_weaken; [|exact Rr]. unfold a. apply Rplus_le_compat_l, Rmult_le_compat_r; [lra|]. unfold Rdiv. lra. }
  assert (A0 : 0 <= a). { unfold a. assert (0 <= y * u) by nra. nra. }
  assert (K : kappa <= / 1000000). { eapply Rle_trans; [apply Hk|]. simpl pow; lra. }
  assert (A1 : a <= 26 / 100). { unfold a. simpl pow in U', W. replace ((31 + 74 * y) * u) with (31 * u + 74 * (y * u)) by ring. lra. }
  assert (R2 : rel (a + 7 * u) r (RInt f 0 x)).
  { destruct NI as [PI' EI]. split; auto. pose proof (rel_bounds (5 * u) (RInt f 0 x') (RInt f 0 x)) as BI. 
    assert (EI' : Rabs (RInt f 0 x' - RInt f 0 x) <= 5 * u * RInt f 0 x). { eapply Rle_trans; [exact EI|]. apply Rmult_le_compat_r; [lra|]. apply Rmult_le_compat_r; [lra|]. simpl INR. lra. }
    specialize (BI (conj PI' EI')). destruct Rr' as [_ E]. replace (r - RInt f 0 x) with ((r - RInt f 0 x') + (RInt f 0 x' - RInt f 0 x)) by ring. eapply Rle_trans; [apply Rabs_triang|].
    set (I := RInt f 0 x) in *. set (I' := RInt f 0 x') in *. assert (a * I' <= a * (I * (1 + 5 * u))) by (apply Rmult_le_compat_l; lra). assert (I * u * a <= I * u * (26 / 100)) by (apply Rmult_le_compat_l; nra). lra. }
  assert (NP' : rel (9 * u) p (3 * y ^ 3 * T)). { eapply rel_weaken; [|exact NP]. apply Rmult_le_compat_r; [lra|]. simpl INR; lra. }
  assert (M : rel (9 * u + (a + 7 * u) + 9 * u * (a + 7 * u)) (p * r) (lamb_temperature T T_D)). { rewrite L. apply rel_mult; auto; lra. }
  assert (UU : u <= / 1000000). { simpl pow in U'. lra. }
  assert (M' : rel (a + 20 * u) (p * r) (lamb_temperature T T_D)). { eapply rel_weaken; [|exact M]. nra. }
  destruct (lamb_bounds T T_D T0 TD0) as (LB & _).
  apply rel_rnd in M'; [| |split; lra].
  - destruct M' as [_ M']. eapply Rle_trans; [exact M'|]. apply Rmult_le_compat_r; [lra|]. unfold a. unfold a in A1. assert (0 <= y * u) by nra. nra.
  - apply Rle_trans with T; [|lra]. apply Rle_trans with (/ 2 ^ 30); [|tauto]. rewrite <- (bpow_neg 30). apply bpow_le. lia.
Qed.
End Main.

(** ** A quadrature exists *)
Definition one_node_quad : fquad_fn := fun f' a b => let! y := f' b in Ok (RInt f 0 b / f b * y).
Lemma f_incr s t : 0 < s < t -> f s < f t.
Proof.
  intros H. rewrite !f_g. assert (1 < gfun s) by (apply coth_ineq; lra). pose proof (g_incr s t H). assert (s ^ 2 < t ^ 2) by (simpl; nra).
  apply Rle_lt_trans with (s ^ 2 * gfun t); [apply Rmult_le_compat_l; [apply pow2_ge_0|lra]|]. apply Rmult_lt_compat_r; lra.
Qed.
Lemma I_le_last x : 0 < x -> RInt f 0 x <= x * f x.
Proof.
  intros H. replace (x * f x) with (RInt (fun _ => f x) 0 x). 2:{ rewrite RInt_const. unfold scal. simpl. unfold mult. simpl. ring. }
  apply RInt_le; [lra|apply ex_f|apply ex_RInt_const|]. intros t Ht. left. apply f_incr. lra.
Qed.
Lemma one_node f' x : double x -> / 2 ^ 40 <= x -> quadrature 0 0 one_node_quad f' f x.
Proof.
  intros D H. assert (x0 : 0 < x) by (pose proof (ipow2_pos 40); lra). pose proof (f_pos x x0) as P. destruct (I_bounds x x0) as (B & _). assert (0 < x ^ 3) by now apply pow_lt.
  assert (I0 : 0 < RInt f 0 x) by lra. pose proof (I_le_last x x0) as L. set (W := RInt f 0 x / f x). assert (W0 : 0 < W) by now apply Rdiv_lt_0_compat.
  assert (WE : W * f x = RInt f 0 x). { unfold W. set (I := RInt f 0 x) in *. unfold Rdiv. rewrite Rmult_assoc, Rinv_l by lra. apply Rmult_1_r. }
  exists [(x, W)]. unfold rule_value. cbn [map fst snd]. split; [|split; [|split]].
  - constructor; [|constructor]. cbn [fst snd]. repeat split; auto; lra.
  - cbn. rewrite Rplus_0_r, WE, Rminus_eq_0, Rabs_R0. lra.
  - cbn. rewrite Rplus_0_r. assert (W <= x). { apply Rmult_le_reg_r with (f x); auto. lra. } nra.
  - intros g G. specialize (G (x, W) (or_introl eq_refl)). cbn [fst] in G. exists (W * g x). unfold one_node_quad. rewrite G. cbn [bind]. split; auto. cbn. rewrite Rplus_0_r, Rminus_eq_0, Rabs_R0. lra.
Qed.
(** ** Correct rounding *)
Lemma exp_ge_1 t : 0 <= t -> 1 <= exp t.
Proof. intros [H| <-]; [|rewrite exp_0; lra]. pose proof (exp_m1_gt t H). lra. Qed.
Lemma correct_dlib_ok : dlib_ok correct_dlib.
Proof.
  pose proof u_pos. split; cbn [d_exp d_cube correct_dlib].
  - intros t D H1. destruct (Rle_dec t 709); [|lra]. split; [apply rnd_double|]. assert (t0 : 0 < t) by (pose proof (ipow2_pos 40); lra).
    pose proof (exp_ge_1 t ltac:(lra)) as G. pose proof (rnd_rel_any (exp t)) as E. rewrite Rabs_pos_eq in E by lra. change unit_roundoff with u.
    eapply Rle_trans; [apply E|nra]. apply Rle_trans with (bpow radix2 0); [apply bpow_le; lia|exact G].
  - intros t D [H1 _]. split; [apply rnd_double|]. assert (t0 : 0 < t) by (pose proof (ipow2_pos 70); lra). assert (0 < t ^ 3) by now apply pow_lt.
    pose proof (rnd_rel_any (t ^ 3)) as E. rewrite Rabs_pos_eq in E by lra. change unit_roundoff with u. eapply Rle_trans; [apply E|nra].
    apply Rle_trans with ((/ 2 ^ 70) ^ 3). 2:{ apply pow_incr. split; auto. left; apply ipow2_pos. }
    rewrite <- (bpow_neg 70). replace (bpow radix2 (- Z.of_nat 70) ^ 3) with (bpow radix2 (- Z.of_nat 70) * bpow radix2 (- Z.of_nat 70) * bpow radix2 (- Z.of_nat 70)) by ring. rewrite <- !bpow_plus. apply bpow_le. lia.
Qed.
(** ** Very hot targets *)
Lemma exp_small t : 0 <= t <= / 4 -> exp t <= 1 + 2 * t.
Proof.
  intros [[P| <-] H]; [|rewrite exp_0; lra]. pose proof (exp_m1_gt (t / 2) ltac:(lra)).
  assert (M : 1 - t / 2 <= exp (- (t / 2))). { pose proof (exp_ineq1_le (- (t / 2))). lra. }
  assert (E : exp (t / 2) * exp (- (t / 2)) = 1) by (rewrite <- exp_plus; replace (t / 2 + - (t / 2)) with 0 by ring; apply exp_0).
  assert (X : exp (t / 2) * (1 - t / 2) <= 1). { apply Rle_trans with (exp (t / 2) * exp (- (t / 2))); [|lra]. apply Rmult_le_compat_l; [left; apply exp_pos|auto]. }
  replace t with (t / 2 + t / 2) at 1 by field. rewrite exp_plus. set (e := exp (t / 2)) in *. 
  assert (e <= 1 + 3 / 4 * t). { nra. } nra.
Qed.
Lemma exp_rounds t : 0 < t <= / 2 ^ 55 -> rnd (exp t) = 1.
Proof.
  intros [H1 H2]. assert (S : / 2 ^ 55 <= / 4) by (simpl pow; lra). pose proof (exp_small t ltac:(lra)) as E. pose proof (exp_ge_1 t ltac:(lra)) as G.
  replace 1 with (IZR (2 ^ 52) * bpow radix2 (-52)). 2:{ change (2 ^ 52)%Z with (Zpower radix2 52). rewrite IZR_Zpower, <- bpow_plus by lia. reflexivity. }
  assert (B : bpow radix2 (-52) = / 2 ^ 52) by (change (-52)%Z with (- Z.of_nat 52)%Z; apply bpow_neg).
  assert (O : IZR (2 ^ 52) * bpow radix2 (-52) = 1). { rewrite B. simpl pow. lra. }
  apply rnd_val; try lia; rewrite ?Rmult_minus_distr_r, ?Rmult_plus_distr_r, O, ?B; simpl pow in *; lra.
Qed.
Lemma debye_hot : double (2 ^ 55) /\ double 1 /\ fquo 1 (2 ^ 55) = / 2 ^ 55 /\ (forall t, 0 < t <= fquo 1 (2 ^ 55) -> fdebye_integrand correct_dlib t = NaN) /\
  2 ^ 55 < lamb_temperature (2 ^ 55) 1 < 2 ^ 55 + 1.
Proof.
  assert (E : fquo 1 (2 ^ 55) = / 2 ^ 55). { unfold fquo, Rdiv. rewrite Rmult_1_l. apply rnd_id. rewrite <- (bpow_neg 55). apply double_bpow. lia. }
  assert (P : 1 <= 2 ^ 55) by (simpl pow; lra).
  split; [|split; [apply double_1|split; [exact E|split]]].
  - replace (2 ^ 55) with (bpow radix2 55) by (change 55%Z with (Z.of_nat 55); rewrite bpow_powerRZ, <- pow_powerRZ; reflexivity). apply double_bpow. lia.
  - rewrite E. intros t Ht. unfold fdebye_integrand, correct_dlib. cbn [d_exp d_cube]. assert (/ 2 ^ 55 <= 1) by (simpl pow; lra). destruct (Rle_dec t 709); [|lra].
    rewrite exp_rounds by auto. unfold fsub. rewrite Rminus_eq_0, rnd_0. destruct (Req_EM_T 0 0); [reflexivity|lra].
  - destruct (lamb_bounds (2 ^ 55) 1 ltac:(lra) ltac:(lra)) as (A & _ & B & _). lra.
Qed.
Lemma debye_zero l quad T T_D : T = 0 \/ T_D = 0 -> fdebye_scalar l quad T T_D = Raise ZeroDivisionError.
Proof. intros H. unfold fdebye_scalar. destruct (Req_EM_T T_D 0); auto. destruct (Req_EM_T T 0); auto. lra. Qed.
Lemma double_Z z : (Z.abs z <= 2 ^ 53)%Z -> double (IZR z).
Proof. apply double_IZR. Qed.
Lemma aluminium : exists Teff, fdebye_scalar correct_dlib one_node_quad 293 428 = Ok Teff /\
  Rabs (Teff - lamb_temperature 293 428) <= 115 * unit_roundoff * lamb_temperature 293 428.
Proof.
  assert (D1 : double 293) by (apply double_Z; lia). assert (D2 : double 428) by (apply double_Z; lia).
  destruct (debye_accuracy correct_dlib correct_dlib_ok 0 0 one_node_quad 293 428 D1 D2) as (r & E & B); try (simpl pow; lra).
  - apply one_node. apply rnd_double. unfold fquo. apply Rle_trans with 1; [simpl pow; lra|]. apply rnd_ge; [apply double_1|lra].
  - exists r. split; auto. eapply Rle_trans; [exact B|]. apply Rmult_le_compat_r.
    + destruct (lamb_bounds 293 428 ltac:(lra) ltac:(lra)) as (L & _). lra.
    + change unit_roundoff with u. pose proof u_pos. nra.
Qed.
