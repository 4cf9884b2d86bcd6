(** Total Klein-Nishina cross sections with binary64 numbers. *)
From Coq Require Import Reals List ZArith Lia Lra Bool.
From Flocq Require Import Core BinarySingleNaN.
From Verif Require Import Py M_Num M_KleinNishina M_Float S_Float L_Float M_Float2 S_Float2 M_Float5 M_Ieee M_Ieee2 M_Ieee3 S_Ieee S_Ieee3
  L_Ieee L_Ieee2 L_Ieee4 L_Ieee5 L_Ieee6 L_Ieee7 L_Ieee9.
Import ListNotations.
Open Scope R_scope.

Definition nf (b : b64) : Prop := is_finite b = false.
Lemma nf_not (b : b64) : ~ finite b <-> nf b.
Proof. unfold finite, nf. destruct (is_finite b); split; congruence. Qed.
Lemma nf_mul_l a b : nf a -> nf (bmul a b).
Proof. unfold nf. intros H. destruct (is_finite (bmul a b)) eqn:F; auto. apply mul_finite in F. destruct F as (F & _). congruence. Qed.
Lemma nf_mul_r a b : nf b -> nf (bmul a b).
Proof. unfold nf. intros H. destruct (is_finite (bmul a b)) eqn:F; auto. apply mul_finite in F. destruct F as (_ & F & _). congruence. Qed.
Lemma nf_add_l a b : nf a -> nf (badd a b).
Proof. unfold nf. intros H. destruct (is_finite (badd a b)) eqn:F; auto. apply add_finite in F. destruct F as (F & _). congruence. Qed.
Lemma nf_add_r a b : nf b -> nf (badd a b).
Proof. unfold nf. intros H. destruct (is_finite (badd a b)) eqn:F; auto. apply add_finite in F. destruct F as (_ & F & _). congruence. Qed.
Lemma nf_sub_l a b : nf a -> nf (bsub a b).
Proof. unfold nf. intros H. destruct (is_finite (bsub a b)) eqn:F; auto. apply sub_finite in F. destruct F as (F & _). congruence. Qed.
Lemma nf_sub_r a b : nf b -> nf (bsub a b).
Proof. unfold nf. intros H. destruct (is_finite (bsub a b)) eqn:F; auto. apply sub_finite in F. destruct F as (_ & F & _). congruence. Qed.
Lemma nf_quo_l a b : nf a -> nf (bquo a b).
Proof. unfold nf, bquo. destruct a, b; cbn; auto; discriminate. Qed.
Lemma nf_quo_0 a b : bzero b = true -> nf (bquo a b).
Proof. unfold nf, bquo. destruct a, b; cbn; auto; discriminate. Qed.

(** The numerator. *)
Definition bnum (x : b64) : b64 := bmul (bmul (of_Z 2) x) (badd (of_Z 2) (bmul (bmul x (badd (of_Z 1) x)) (badd (of_Z 8) x))).
Lemma rnd_large x e : (-1074 <= e)%Z -> bpow radix2 e <= Rabs x -> bpow radix2 e <= Rabs (rnd x).
Proof. intros He H. apply abs_round_ge_generic; try typeclasses eauto; auto. now apply bpow_double. Qed.
Lemma of_Z_val z : (Z.abs z <= 2 ^ 53)%Z -> B2R (of_Z z) = IZR z.
Proof. intros H. apply Z_rep. exact H. Qed.
Lemma of_Z_fin z : (Z.abs z <= 2 ^ 53)%Z -> is_finite (of_Z z) = true.
Proof. intros H. apply Z_rep. exact H. Qed.
Lemma large_shift x n : 0 <= n <= 8 -> 2 ^ 400 <= Rabs x -> bpow radix2 399 <= Rabs (n + x).
Proof.
  intros Hn H. assert (E : 2 ^ 400 = 2 * bpow radix2 399) by (change 399%Z with (Z.of_nat 399); rewrite bpow_pow; reflexivity).
  assert (8 <= bpow radix2 399) by (change 8 with (bpow radix2 3); apply bpow_le; lia).
  unfold Rabs in *. destruct (Rcase_abs x), (Rcase_abs (n + x)); lra.
Qed.
Lemma num_finite x : is_finite (bnum x) = true -> is_finite x = true /\ Rabs (B2R x) < 2 ^ 400.
Proof.
  intros H. unfold bnum in H. apply mul_finite in H. destruct H as (H1 & H2 & _).
  apply mul_finite in H1. destruct H1 as (_ & Fx & _). split; [exact Fx|].
  apply add_finite in H2. destruct H2 as (_ & H2 & _). pose proof (abs_B2R_lt_emax 53 1024 (bmul (bmul x (badd (of_Z 1) x)) (badd (of_Z 8) x))) as B.
  apply mul_finite in H2. destruct H2 as (HP & H8 & E2). rewrite E2 in B. clear E2.
  apply mul_finite in HP. destruct HP as (_ & H1 & E1). rewrite E1 in B. clear E1.
  apply add_finite in H8. destruct H8 as (_ & _ & E8). rewrite E8 in B. clear E8.
  apply add_finite in H1. destruct H1 as (_ & _ & E1). rewrite E1 in B. clear E1.
  rewrite !of_Z_val in B by (cbn; lia). set (r := B2R x) in *. apply Rnot_le_lt. intros L. apply (Rlt_irrefl (bpow radix2 1024)).
  eapply Rle_lt_trans; [|exact B]. clear B.
  assert (P : forall a b e e' g, (-1074 <= g)%Z -> (g <= e + e')%Z -> bpow radix2 e <= Rabs a -> bpow radix2 e' <= Rabs b -> bpow radix2 g <= Rabs (fmul a b)).
  { intros a b e e' g Hg Hg' Ha Hb. apply rnd_large; auto. rewrite Rabs_mult.
    eapply Rle_trans; [apply bpow_le; exact Hg'|]. rewrite bpow_plus. apply Rmult_le_compat; auto; apply bpow_ge_0. }
  assert (A : forall n, 0 <= n <= 8 -> bpow radix2 399 <= Rabs (fadd n r)) by (intros n Hn; apply rnd_large; [lia|]; now apply large_shift).
  assert (R4 : bpow radix2 400 <= Rabs r) by (change 400%Z with (Z.of_nat 400); rewrite bpow_pow; exact L).
  apply (P _ _ 799%Z 399%Z); [lia|lia| |apply A; lra]. apply (P _ _ 400%Z 399%Z); [lia|lia|exact R4|apply A; lra].
Qed.
Lemma small_y x : is_finite x = true -> Rabs (B2R x) < 2 ^ 400 ->
  rep (badd (of_Z 1) (bmul (of_Z 2) x)) (fadd 1 (fmul 2 (B2R x))) /\ Rabs (fadd 1 (fmul 2 (B2R x))) <= 2 ^ 500.
Proof.
  intros F H.
  assert (B : bnd x (B2R x) 400) by (split; [apply rep_refl; exact F|]; change 400%Z with (Z.of_nat 400); rewrite bpow_pow; lra).
  pose proof (bnd_mul _ _ _ _ _ _ (win_bnd _ _ _ _ two_win) B ltac:(lia)) as M.
  assert (O : bnd (of_Z 1) 1 0). { split; [apply (Z_rep 1); cbn; lia|]. rewrite Rabs_R1. cbn. lra. }
  pose proof (bnd_add _ _ _ _ _ _ O M ltac:(lia)) as A. split; [apply A|].
  change 500%nat with (Z.to_nat 500). rewrite <- bpow_pow. apply (bnd_weaken _ _ _ 500 A). cbn. lia.
Qed.
Lemma square_nf L x : klib_special L -> nf (k_square L (badd (of_Z 1) (bmul (of_Z 2) x))) -> nf (bnum x).
Proof.
  intros (S1 & _) H. unfold nf in *. destruct (is_finite (bnum x)) eqn:F; auto. apply num_finite in F. destruct F as [F B].
  destruct (small_y x F B) as [[Fy Ey] By]. specialize (S1 _ Fy). rewrite Ey in S1. specialize (S1 By). unfold finite in S1. congruence.
Qed.

(** The value of a numpy float. *)
Definition bkn_value (L : klib) (c : bkn) (x : b64) : b64 :=
  let y := badd (of_Z 1) (bmul (of_Z 2) x) in
  bmul (bmul (bmul bpi (bk_scale_factor c)) (k_pow_m3 L x))
       (badd (bquo (bnum x) (k_square L y)) (bmul (bsub (bmul (bsub x (of_Z 2)) x) (of_Z 2)) (k_log L y))).
Lemma numpy_value L c E : bkn_cs_total NumpyFloat L c E = Ok (bkn_value L c (bquo E (bk_mc2 c))).
Proof. reflexivity. Qed.
Lemma value_num L c x : nf (bnum x) -> nf (bkn_value L c x).
Proof. intros H. apply nf_mul_r, nf_add_l, nf_quo_l, H. Qed.
Lemma value_pow L c x : nf (k_pow_m3 L x) -> nf (bkn_value L c x).
Proof. intros H. apply nf_mul_l, nf_mul_r, H. Qed.
Lemma value_square L c x : klib_special L -> nf (k_square L (badd (of_Z 1) (bmul (of_Z 2) x))) -> nf (bkn_value L c x).
Proof. intros S H. apply value_num. eapply square_nf; eauto. Qed.
Lemma value_square_0 L c x : bzero (k_square L (badd (of_Z 1) (bmul (of_Z 2) x))) = true -> nf (bkn_value L c x).
Proof. intros H. apply nf_mul_r, nf_add_l, nf_quo_0, H. Qed.
Lemma binf_nf b : binf b = true -> nf b. Proof. destruct b; cbn; intros; try discriminate; reflexivity. Qed.
Lemma num_nf x : nf x -> nf (bnum x). Proof. intros H. apply nf_mul_l, nf_mul_r, H. Qed.

Lemma total_kinds L c E : klib_special L -> instead_of_raising (bkn_cs_total PythonFloat L c E) (bkn_cs_total NumpyFloat L c E).
Proof.
  intros S. pose proof S as (_ & _ & _ & _ & S0 & _). rewrite numpy_value. unfold instead_of_raising, bkn_cs_total, bdivide, bpower_m, bpower, not_finite.
  destruct (bzero (bk_mc2 c)) eqn:Z; cbn [bind].
  { eexists. split; [reflexivity|]. apply nf_not, value_num, num_nf, nf_quo_0, Z. }
  set (x := bquo E (bk_mc2 c)). destruct (bzero x) eqn:X; cbn [bind].
  { eexists. split; [reflexivity|]. apply nf_not, value_pow. destruct x; try discriminate. rewrite S0. reflexivity. }
  destruct (is_finite x && binf (k_pow_m3 L x)) eqn:P; cbn [bind].
  { eexists. split; [reflexivity|]. apply nf_not, value_pow, binf_nf. apply andb_prop in P. apply P. }
  destruct (is_finite (badd (of_Z 1) (bmul (of_Z 2) x)) && binf (k_square L (badd (of_Z 1) (bmul (of_Z 2) x)))) eqn:Q; cbn [bind].
  { eexists. split; [reflexivity|]. apply nf_not, value_square; auto. apply binf_nf. apply andb_prop in Q. apply Q. }
  destruct (bzero (k_square L (badd (of_Z 1) (bmul (of_Z 2) x)))) eqn:W; cbn [bind].
  { eexists. split; [reflexivity|]. apply nf_not, value_square_0, W. }
  reflexivity.
Qed.

(** A finite value is the value without any limit of numbers. *)
Lemma finite_bzero b : is_finite b = true -> (bzero b = true <-> B2R b = 0).
Proof. intros F. apply rep_zero. now apply rep_refl. Qed.
Lemma total_finite L m b c E v : klib_special L -> same_libm L m -> same_particle b c -> bkn_cs_total NumpyFloat L b E = Ok v -> finite v ->
  finite E /\ fkn_cs_total m c (B2R E) = Ok (B2R v).
Proof.
  intros S (M1 & M2 & _ & M4) [[Fm Em] [Fs Es]] H Fv. rewrite numpy_value in H. injection H as <-.
  pose proof S as (S1 & _ & S3 & _ & S0 & _).
  set (x := bquo E (bk_mc2 b)) in *.
  unfold finite in Fv. pose proof Fv as Fv'. unfold bkn_value in Fv. cbv zeta in Fv.
  apply mul_finite in Fv. destruct Fv as (F1 & F2 & E0).
  apply mul_finite in F1. destruct F1 as (F1 & Fp & E1).
  apply mul_finite in F1. destruct F1 as (_ & _ & E1').
  apply add_finite in F2. destruct F2 as (Fa & Fb & E2).
  assert (Fn : is_finite (bnum x) = true).
  { destruct (is_finite (bnum x)) eqn:F; auto. pose proof (value_num L b x F) as C. unfold nf in C. congruence. }
  pose proof (num_finite x Fn) as [Fx Bx].
  destruct (small_y x Fx Bx) as [[Fy Ey] By].
  assert (Fq : is_finite (k_square L (badd (of_Z 1) (bmul (of_Z 2) x))) = true) by (apply S1; [exact Fy|rewrite Ey; exact By]).
  apply quo_finite in Fa; [|exact Fq]. destruct Fa as (_ & Nq & Ea).
  apply mul_finite in Fb. destruct Fb as (Fc & Fl & Eb).
  apply sub_finite in Fc. destruct Fc as (Fc & _ & Ec).
  apply mul_finite in Fc. destruct Fc as (Fd & _ & Ec').
  apply sub_finite in Fd. destruct Fd as (_ & _ & Ed).
  unfold bnum in Fn. apply mul_finite in Fn. destruct Fn as (G1 & G2 & En).
  apply mul_finite in G1. destruct G1 as (_ & _ & En1).
  apply add_finite in G2. destruct G2 as (_ & G2 & En2).
  apply mul_finite in G2. destruct G2 as (G3 & G4 & En3).
  apply mul_finite in G3. destruct G3 as (_ & G5 & En4).
  apply add_finite in G4. destruct G4 as (_ & _ & En5).
  apply add_finite in G5. destruct G5 as (_ & _ & En6).
  assert (Nx : B2R x <> 0).
  { intros Z. apply finite_bzero in Z; auto. destruct x; try discriminate. rewrite S0 in Fp. discriminate. }
  assert (Nm : B2R (bk_mc2 b) <> 0).
  { intros Z. apply finite_bzero in Z; auto. pose proof (nf_quo_0 E _ Z) as C. fold x in C. unfold nf in C. congruence. }
  assert (Qx : is_finite E = true /\ B2R x = fquo (B2R E) (B2R (bk_mc2 b))).
  { destruct (quo_finite E (bk_mc2 b) Fm Fx) as (A & _ & B). split; auto. }
  destruct Qx as [FE Ex]. split; [exact FE|].
  unfold fkn_cs_total. rewrite <- Em, <- Ex.
  destruct (Req_EM_T (B2R (bk_mc2 b)) 0) as [C|_]; [contradiction|].
  destruct (Req_EM_T (B2R x) 0) as [C|_]; [contradiction|].
  cbv zeta. rewrite <- Ey, <- (M1 _ Fy Fq).
  destruct (Req_EM_T (B2R (k_square L (badd (of_Z 1) (bmul (of_Z 2) x)))) 0) as [C|_]; [contradiction|].
  destruct (Rlt_dec 0 (B2R (badd (of_Z 1) (bmul (of_Z 2) x)))) as [P|P].
  - destruct (M4 _ Fy P) as [_ El].
    f_equal. unfold bkn_value. cbv zeta. rewrite E0, E1, E1', E2, Ea, Eb, Ec, Ec', Ed. unfold bnum.
    rewrite En, En1, En2, En3, En4, En5, En6, El, (M2 _ Fx Fp), Es.
    destruct (win_rep _ _ _ _ win_pi) as [_ ->]. rewrite !of_Z_val by (cbn; lia). reflexivity.
  - exfalso. apply (S3 _ Fy); [lra|exact Fl].
Qed.
