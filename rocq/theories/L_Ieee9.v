(** Examples for binary64 numbers. *)
From Coq Require Import Reals List ZArith Lia Lra Bool String.
From Flocq Require Import Core BinarySingleNaN.
From Verif Require Import Py M_Num M_CrossSection M_Constituents M_Thermal M_PseudoVoigt M_Float S_Float M_Float2 M_Float4 S_Float4 M_Float6 M_Float8 S_Float8
  L_Float10 L_Float12 L_Float32 M_Ieee M_Ieee2 S_Ieee L_Ieee L_Ieee2 L_Ieee3 L_Ieee4 L_Ieee5 L_Ieee6 L_Ieee7 L_Ieee8.
Import ListNotations.
Open Scope R_scope.

Lemma of_R_rep x : Rabs (rnd x) < big -> rep (of_R x) (rnd x).
Proof.
  intros H. assert (D : double (rnd x)) by (apply generic_format_round; typeclasses eauto).
  pose proof (D : generic_format _ _ _) as G. unfold generic_format in G. unfold of_R.
  set (m := Ztrunc (scaled_mantissa radix2 fexp64 (rnd x))) in *. set (e := cexp radix2 fexp64 (rnd x)) in *.
  pose proof (binary_normalize_correct 53 1024 prec_53 emax_1024 mode_NE m e false) as C. cbv zeta in C. rewrite <- G in C.
  rewrite (round_generic radix2 _ _ (rnd x)) in C by exact D.
  rewrite Rlt_bool_true in C by exact H. split; apply C.
Qed.
Lemma of_R_double x : double x -> Rabs x < big -> rep (of_R x) x.
Proof.
  intros D H. assert (E : rnd x = x) by (apply round_generic; try typeclasses eauto; exact D).
  rewrite <- E at 2. apply of_R_rep. now rewrite E.
Qed.
Lemma pow_big n : (n < 1024)%Z -> bpow radix2 n < big. Proof. apply bpow_lt. Qed.

Lemma correct_same : same_clib correct_blib correct_clib.
Proof.
  unfold same_clib, correct_blib, correct_clib. cbn [b_square b_exp c_square c_exp]. split; [|split; [|reflexivity]].
  - intros b x R H. replace (x ^ 2) with (x * x) in * by ring. apply (mul_rep b b x x R R).
    eapply Rle_lt_trans; [exact H|]. rewrite <- bpow_pow. apply bpow_lt. lia.
  - intros b x R Hx. pose proof R as [F E]. assert (X : rep (of_R (exp (B2R b))) (rnd (exp x))).
    { rewrite E. apply of_R_rep. eapply Rle_lt_trans with (bpow radix2 0); [|apply bpow_lt; lia].
      apply rnd_bpow; [lia|]. change (bpow radix2 0) with 1. rewrite Rabs_pos_eq by apply Rlt_le, exp_pos.
      rewrite <- exp_0. destruct Hx as [Hx| ->]; [apply Rlt_le, exp_increasing; exact Hx|lra]. }
    destruct b as [ |s| | ]; try discriminate; exact X.
Qed.
Lemma correct_pv_same : same_pvlib correct_blib correct_pvlib.
Proof.
  unfold same_pvlib. split; [exact correct_same|]. unfold correct_blib, correct_pvlib. cbn [b_log b_pow v_log v_pow].
  split.
  - change (B2R (of_Z 2)) with (B2R (of_Z 2)). rewrite (proj2 (Z_rep 2 ltac:(lia))). apply of_R_rep.
    eapply Rle_lt_trans with (bpow radix2 1); [|apply bpow_lt; lia]. apply rnd_bpow; [lia|]. change (bpow radix2 1) with 2.
    pose proof ln_lt_2. rewrite Rabs_pos_eq by lra.
    assert (ln 2 < 2); [|lra]. rewrite <- (ln_exp 2) at 2. apply ln_increasing; [lra|]. pose proof (exp_ineq1 2 ltac:(lra)). lra.
  - intros b x b' y [_ ->] [_ ->] Hx Hy. apply of_R_rep.
    eapply Rle_lt_trans with (bpow radix2 400); [|apply bpow_lt; lia]. apply rnd_bpow; [lia|].
    assert (P : 0 < / 2 ^ 400) by (apply Rinv_0_lt_compat, pow_lt; lra).
    unfold Rpower. rewrite Rabs_pos_eq by apply Rlt_le, exp_pos.
    assert (L4 : bpow radix2 400 = exp (400 * ln 2)).
    { rewrite bpow_powerRZ. change (IZR radix2) with 2. rewrite powerRZ_Rpower by lra. reflexivity. }
    pose proof ln_lt_2. rewrite L4. assert (y * ln x <= 400 * ln 2).
    { assert (ln x <= 400 * ln 2). { rewrite <- (ln_exp (400 * ln 2)), <- L4. apply Rcomplements.ln_le; [lra|]. rewrite (bpow_pow 400 : bpow radix2 400 = 2 ^ 400). apply Hx. }
      destruct (Rle_dec 0 (ln x)); nra. }
    destruct (Req_dec (y * ln x) (400 * ln 2)) as [-> |N]; [lra|]. apply Rlt_le, exp_increasing. lra.
Qed.

(** A transition. *)
Definition ieee_k : constants :=
  {| k_hbarc := 200; k_hbarc_old := 200; k_alpha := / 137; k_me := / 2; k_u_MeV := 931; k_u_kg := / 10 ^ 27; k_kB_eV := / 2 ^ 13 |}.
Lemma double_inv2 n : (n <= 1000)%nat -> double (/ 2 ^ n). Proof. intros H. rewrite <- bpow_inv. apply bpow_double. lia. Qed.
Lemma small_big x : Rabs x <= 2 ^ 60 -> Rabs x < big.
Proof. intros H. eapply Rle_lt_trans; [exact H|]. rewrite <- bpow_pow. apply bpow_lt. lia. Qed.
Lemma inv2_le n : / 2 ^ n <= 1.
Proof. rewrite <- Rinv_1. apply Rinv_le; [lra|]. apply pow_R1_Rle. lra. Qed.
Lemma inv2_rep n : (n <= 1000)%nat -> rep (of_R (/ 2 ^ n)) (/ 2 ^ n).
Proof.
  intros H. apply of_R_double; [now apply double_inv2|]. apply small_big.
  assert (0 < / 2 ^ n) by (apply Rinv_0_lt_compat, pow_lt; lra). rewrite Rabs_pos_eq by lra. pose proof (inv2_le n). pose proof (pow_R1_Rle 2 60 ltac:(lra)). lra.
Qed.
Lemma Z_of_R z : (Z.abs z <= 2 ^ 53)%Z -> rep (of_R (IZR z)) (IZR z).
Proof.
  intros H. apply of_R_double; [now apply double_IZR|]. rewrite <- abs_IZR. eapply Rle_lt_trans; [apply IZR_le; exact H|].
  change (IZR (2 ^ 53)) with (bpow radix2 53). apply bpow_lt. lia.
Qed.
Lemma ieee_constants : same_constants (of_constants ieee_k) ieee_k.
Proof. split; [|split]; cbn [of_constants ieee_k b_hbarc b_u_MeV b_kB_eV k_hbarc k_u_MeV k_kB_eV]; [apply Z_of_R; lia|apply Z_of_R; lia|apply inv2_rep; lia]. Qed.
Lemma ieee_floats : floats ieee_k lost_i lost_m None. Proof. exact lost_floats. Qed.
Lemma ieee_i : same_state (of_state lost_i) lost_i.
Proof. repeat split; cbn [of_state lost_i b_excitation_energy st_excitation_energy]; apply (Z_of_R 0); lia. Qed.
Lemma ieee_m : same_state (of_state lost_m) lost_m.
Proof.
  split; [reflexivity|]. split; [reflexivity|]. split; [apply (Z_of_R 1); lia|].
  cbn [of_state lost_m b_decays st_decays option_map fst snd map]. split; [|apply inv2_rep; lia].
  constructor; [|constructor]. split; [reflexivity|]. apply inv2_rep. lia.
Qed.
Lemma ieee_thermal : thermal ieee_k 1000 1.
Proof.
  assert (K : / 2 ^ 60 <= / 1048576 /\ 1048576 <= 2 ^ 60).
  { replace 1048576 with (2 ^ 20) by ring. split; [apply Rinv_le; [apply pow_lt; lra|]|]; apply Rle_pow; try lra; lia. }
  destruct K as [K1 K2]. unfold thermal, plausible, ieee_k; cbn [k_kB_eV k_u_MeV].
  assert (H13 : / 2 ^ 13 = / 8192) by (f_equal; ring). rewrite H13. set (a := / 2 ^ 60) in *. set (b := 2 ^ 60) in *. clearbody a b. repeat split; lra.
Qed.
Lemma ieee_pv : width lost_m = Ok (/ 2 ^ 60) /\ pv_floats ieee_k (fsub (st_excitation_energy lost_m) (st_excitation_energy lost_i)) (/ 2 ^ 60) 1000 0.
Proof.
  split; [reflexivity|]. cbn [lost_m lost_i st_excitation_energy].
  assert (E : fsub 1 0 = 1). { unfold fsub. rewrite Rminus_0_r. apply round_generic; try typeclasses eauto. apply (double_IZR 1). lia. }
  rewrite E. destruct ieee_thermal as (T1 & T2 & T3 & T4).
  pose proof (inv2_le 61). pose proof (pow_R1_Rle 2 61 ltac:(lra)).
  split; [apply (double_IZR 1); lia|]. split; [lra|]. split; [apply double_inv2; lia|].
  split; [exact T1|]. split; [exact T2|]. split; [exact T3|]. split; [now left|].
  assert (P : 0 < / 2 ^ 60) by (apply Rinv_0_lt_compat, pow_lt; lra).
  split; [right|left; lra]. split; [lra|]. pose proof (inv2_le 60). pose proof (pow_R1_Rle 2 60 ltac:(lra)). lra.
Qed.

(** A grid that starts with nan. *)
Lemma linspace_nan : exists a b, finite a /\ finite b /\ blinspace a b 3 = Ok [B754_nan; B754_infinity false; b].
Proof. exists (of_Z (-3 * 2 ^ 1022)), (of_Z (3 * 2 ^ 1022)). repeat split; vm_compute; reflexivity. Qed.
(** Darboux sums that overflow. *)
Lemma darboux_nan : exists fx x, Forall finite fx /\ Forall finite x /\
  bdarboux (Some (Index 0)) fx x = (B754_infinity false, B754_nan).
Proof.
  exists [of_Z (2 ^ 1023); of_Z (2 ^ 1023)], [of_Z 0; of_Z 4].
  split; [|split]; [repeat constructor|repeat constructor|vm_compute; reflexivity].
Qed.
(** A sum in which an infinite member meets the factor zero. *)
Lemma sum_nan : exists f, bcall (BSum [BLeaf f; BConst (of_Z 1)] [of_Z 0; of_Z 1]) (of_Z 1) = Ok B754_nan.
Proof. exists (fun _ => Ok (B754_infinity false)). vm_compute. reflexivity. Qed.

Lemma pow_bnd E x n : rep E x -> Rabs x <= 2 ^ n -> bnd E x (Z.of_nat n).
Proof. intros R H. split; [exact R|]. rewrite bpow_pow. exact H. Qed.
Lemma mul_nan (a : b64) : bmul a B754_nan = B754_nan. Proof. destruct a; reflexivity. Qed.
Lemma quo_nan (a : b64) : bquo a B754_nan = B754_nan. Proof. destruct a; reflexivity. Qed.
Lemma nan_quo (a : b64) : bquo B754_nan a = B754_nan. Proof. destruct a; reflexivity. Qed.
Lemma nan_sub (a : b64) : bsub B754_nan a = B754_nan. Proof. destruct a; reflexivity. Qed.
Lemma nan_add (a : b64) : badd B754_nan a = B754_nan. Proof. destruct a; reflexivity. Qed.
Lemma add_nan (a : b64) : badd a B754_nan = B754_nan. Proof. destruct a; reflexivity. Qed.
Lemma cauchy_nan l s : bcauchy_pdf l s B754_nan = B754_nan.
Proof. unfold bcauchy_pdf. destruct (Bltb _ _); [|reflexivity]. cbv zeta. rewrite nan_sub, (nan_quo s). rewrite mul_nan, add_nan, quo_nan, nan_quo. reflexivity. Qed.
Lemma breit_wigner_nan L c B k bi i bm m bfin fin absolute : same_clib L c -> clib_ok c -> same_constants B k -> floats k i m fin ->
  same_state bi i -> same_state bm m -> same_final bfin fin -> bBreitWigner_call L B bi bm bfin B754_nan absolute = Ok B754_nan.
Proof.
  intros SL KL Sc Fl Si Sm Sf.
  destruct (resonance_agree _ _ _ _ _ _ _ _ _ _ SL KL Sc Fl Si Sm Sf) as (E_r & Ir & e & r & Eb & Ef & WE & WI & _).
  unfold bBreitWigner_call. rewrite Eb. cbn [bind fst snd].
  pose proof Fl as (_ & _ & _ & _ & _ & _ & d & w & Ed & Pw & _).
  destruct Sm as (_ & _ & _ & Sd). rewrite Ed in Sd. unfold bwidth.
  destruct (b_decays bm) as [[bd bw]|] eqn:Ebd; [|contradiction]. cbn [bind]. f_equal. unfold bres_call.
  destruct absolute; [|rewrite nan_add]; rewrite (cauchy_nan E_r (bmul (literal 1 2) bw)); apply mul_nan.
Qed.
