(** Cumulative distribution functions at rounded arguments. *)
From Coq Require Import Reals List ZArith Lra Lia Psatz.
From Coquelicot Require Import Coquelicot.
From Flocq Require Import Core.
From Verif Require Import Py Spec M_Num M_Dist M_Grid M_CrossSection M_Resonance S_Resonance M_Float S_Float M_Float4 M_Float6 S_Float6
  L_RInt L_Gauss L_Dist L_Float L_Float5 L_Float7.
Import ListNotations.
Open Scope R_scope.

Definition pdf0 (f : family) (t : R) : R := match f with Cauchy => / (PI * (1 + t ^ 2)) | Normal => gauss0 t end.
Definition F0 (f : family) (t : R) : R := line_cdf f 0 1 t.
Lemma unit_arg t : (t - 0) / 1 = t.
Proof. field. Qed.
Lemma F0_density f : density_of (pdf0 f) (F0 f).
Proof.
  destruct f.
  - refine (density_ext _ _ (pdf0 Cauchy) (F0 Cauchy) (fun _ => eq_refl) _ cauchy0_density). intros x. unfold F0, line_cdf, cauchy_cdf. now rewrite unit_arg.
  - refine (density_ext _ _ (pdf0 Normal) (F0 Normal) (fun _ => eq_refl) _ norm0_density). intros x. unfold F0, line_cdf, norm_cdf. now rewrite unit_arg.
Qed.
Lemma line_F0 f l s x : line_cdf f l s x = F0 f ((x - l) / s).
Proof. unfold F0. destruct f; unfold line_cdf, cauchy_cdf, norm_cdf; now rewrite unit_arg. Qed.

Lemma PI_3 : 3 < PI.
Proof. pose proof PI2_3_2. lra. Qed.
Lemma gauss0_half t : gauss0 t <= / 2 /\ Rabs t * gauss0 t <= / 2.
Proof.
  unfold gauss0. pose proof PI_3. assert (S2 : 2 <= sqrt (2 * PI)).
  { apply Rle_trans with (sqrt (2 * 2)); [rewrite sqrt_square; lra|apply sqrt_le_1; lra]. }
  pose proof (exp_pos (- t ^ 2 / 2)) as P.
  assert (E1 : exp (- t ^ 2 / 2) <= 1) by (rewrite <- exp_0; destruct (Rle_lt_or_eq_dec 0 (t ^ 2) (pow2_ge_0 t)) as [H1|H1]; [left; apply exp_increasing; lra|rewrite <- H1; right; f_equal; field]).
  assert (E2 : Rabs t * exp (- t ^ 2 / 2) <= 1).
  { assert (G : 1 + t ^ 2 / 2 <= exp (t ^ 2 / 2)).
    { destruct (Req_dec (t ^ 2 / 2) 0) as [->|N]; [rewrite exp_0; lra|]. left. now apply exp_ineq1. }
    replace (- t ^ 2 / 2) with (- (t ^ 2 / 2)) by field. rewrite exp_Ropp.
    apply (Rmult_le_reg_r (exp (t ^ 2 / 2))); [apply exp_pos|]. rewrite Rmult_assoc, Rinv_l, Rmult_1_r, Rmult_1_l by (pose proof (exp_pos (t ^ 2 / 2)); lra).
    rewrite (pow2_abs t) in G || idtac. assert (t ^ 2 = Rabs t ^ 2) as X by now rewrite pow2_abs. rewrite X in *. pose proof (Rabs_pos t). nra. }
  split; apply (Rmult_le_reg_r (sqrt (2 * PI))); try lra; unfold Rdiv; [rewrite Rmult_assoc|rewrite 2 Rmult_assoc]; rewrite Rinv_l by lra; lra.
Qed.
Lemma cauchy0_half t : / (PI * (1 + t ^ 2)) <= / 2 /\ Rabs t * / (PI * (1 + t ^ 2)) <= / 2.
Proof.
  pose proof PI_3. pose proof (pow2_ge_0 t). assert (X : t ^ 2 = Rabs t ^ 2) by now rewrite pow2_abs. pose proof (Rabs_pos t).
  assert (P : 0 < PI * (1 + t ^ 2)) by nra. assert (P2 : 3 * (1 + t ^ 2) <= PI * (1 + t ^ 2)) by (apply Rmult_le_compat_r; lra).
  split; apply (Rmult_le_reg_r (PI * (1 + t ^ 2))); try lra; rewrite ?Rmult_assoc, Rinv_l by lra; [lra|]. rewrite X in *. nra.
Qed.
Lemma pdf0_half f t : pdf0 f t <= / 2 /\ Rabs t * pdf0 f t <= / 2.
Proof. destruct f; [apply cauchy0_half|apply gauss0_half]. Qed.

Lemma F0_mvt f x y : exists c, Rmin x y <= c <= Rmax x y /\ F0 f y - F0 f x = pdf0 f c * (y - x).
Proof.
  destruct (MVT_gen (F0 f) x y (pdf0 f)) as (c & B & E).
  - intros. apply (dens_derive _ _ (F0_density f)).
  - intros. apply (dens_Fcont _ _ (F0_density f)).
  - now exists c.
Qed.
Lemma F0_lip f x y : Rabs (F0 f y - F0 f x) <= / 2 * Rabs (y - x).
Proof.
  destruct (F0_mvt f x y) as (c & _ & ->). rewrite Rabs_mult. apply Rmult_le_compat_r; [apply Rabs_pos|].
  rewrite Rabs_pos_eq; [apply pdf0_half|]. left. apply (dens_pos _ _ (F0_density f)).
Qed.
Lemma F0_rel f x e : Rabs e <= / 4 -> Rabs (F0 f (x * (1 + e)) - F0 f x) <= Rabs e.
Proof.
  intros He. destruct (F0_mvt f x (x * (1 + e))) as (c & B & ->). replace (x * (1 + e) - x) with (x * e) by ring.
  assert (C : 3 / 4 * Rabs x <= Rabs c).
  { apply Rabs_le_inv in He. destruct (Rle_dec 0 x) as [Hx|Hx].
    - rewrite (Rabs_pos_eq x) by exact Hx. eapply Rle_trans; [|apply Rle_abs]. eapply Rle_trans; [|apply B]. apply Rmin_glb; nra.
    - apply Rnot_le_lt in Hx. rewrite (Rabs_left x) by exact Hx. rewrite <- Rabs_Ropp. eapply Rle_trans; [|apply Rle_abs].
      assert (c <= 3 / 4 * x); [|lra]. eapply Rle_trans; [apply B|]. apply Rmax_lub; nra. }
  pose proof (pdf0_half f c) as (_ & K). pose proof (dens_pos _ _ (F0_density f) c) as P. rewrite !Rabs_mult, (Rabs_pos_eq (pdf0 f c)) by lra.
  pose proof (Rabs_pos e). pose proof (Rabs_pos x).
  assert (pdf0 f c * Rabs x <= 1) by nra. nra.
Qed.
Lemma F0_range f x : 0 < F0 f x < 1.
Proof. apply (dens_range _ _ (F0_density f)). Qed.

(** Two relative errors and an absolute one. *)
Lemma two_rel e e' : Rabs e <= u -> Rabs e' <= u -> Rabs (e + e' + e * e') <= 33 / 16 * u.
Proof.
  intros H H'. pose proof u_tiny. pose proof u_pos. eapply Rle_trans; [apply Rabs_triang|]. rewrite Rabs_mult.
  pose proof (Rabs_triang e e'). pose proof (Rabs_pos e). pose proof (Rabs_pos e').
  assert (Rabs e * Rabs e' <= u * / 1024) by (apply Rmult_le_compat; lra). lra.
Qed.

(** ** The cumulative distribution function *)
Section Line.
Variables (f : family) (d : fdist) (l s : R).
Hypothesis (K : fdist_ok f d) (L : fline l s).
Let F := line_cdf f l s.
Lemma s_pos : 0 < s.
Proof. destruct L as (_ & _ & H). pose proof (pow_lt 2 200 ltac:(lra)). apply Rinv_0_lt_compat in H0. lra. Qed.
Lemma fcdf_ok x : double x -> exists p, fcdf d l s x = Ok p /\ double p /\ 0 <= p <= 1 /\ Rabs (p - F x) <= 7 * u.
Proof.
  intros Dx. pose proof s_pos as Ps. unfold fcdf. destruct (Rlt_dec 0 s); [|lra]. eexists. split; [reflexivity|]. destruct L as (Dl & Ds & _). destruct K as [K1 _].
  destruct (K1 (fquo (fsub x l) s) (rnd_double _)) as (D1 & R1 & E1). split; [exact D1|]. split; [exact R1|]. change unit_roundoff with u in E1. fold (F0 f) in E1.
  unfold F. rewrite line_F0. destruct (fsub_error x l Dx Dl) as (e & He & Ee). destruct (rnd_error (fsub x l / s)) as (e' & h & He' & Hh & Eh).
  assert (T : fquo (fsub x l) s = (x - l) / s * (1 + (e + e' + e * e')) + h).
  { unfold fquo. rewrite Eh, Ee. unfold Rdiv. ring. }
  pose proof (two_rel e e' He He') as E2. pose proof eta_u. pose proof u_pos. pose proof u_tiny.
  change (line_cdf f 0 1 (fquo (fsub x l) s)) with (F0 f (fquo (fsub x l) s)) in E1. rewrite T in E1 at 2.
  pose proof (F0_rel f ((x - l) / s) (e + e' + e * e') ltac:(lra)) as E3.
  pose proof (F0_lip f ((x - l) / s * (1 + (e + e' + e * e'))) ((x - l) / s * (1 + (e + e' + e * e')) + h)) as E4.
  replace (_ + h - _) with h in E4 by ring.
  apply Rabs_le_inv in E1, E3, E4. apply Rabs_le. lra.
Qed.

(** ** Quantiles *)
Lemma fppf_ok q : double q -> 0 < q < 1 -> exists x, fppf d l s q = Ok (Finite x) /\ double x /\ Rabs (F x - q) <= (11 + Rabs l / s) * u.
Proof.
  intros Dq Hq. pose proof s_pos as Ps. unfold fppf. destruct (Rlt_dec 0 s); [|lra]. destruct (Rlt_dec q 0); [lra|]. destruct (Rlt_dec 1 q); [lra|].
  destruct (Req_EM_T q 0); [lra|]. destruct (Req_EM_T q 1); [lra|]. eexists. split; [reflexivity|]. split; [apply rnd_double|].
  destruct L as (Dl & Ds & Ls). destruct K as [_ K2]. destruct (K2 q Dq Hq) as (Dt & Et). change unit_roundoff with u in Et. set (t := f_ppf0 d q) in *.
  change (line_cdf f 0 1 t) with (F0 f t) in Et. unfold F. rewrite line_F0. destruct (rnd_error (t * s)) as (e & h & He & Hh & Eh).
  destruct (fadd_error (fmul t s) l (rnd_double _) Dl) as (e' & He' & Ee).
  set (z := (h * (1 + e') + l * e') / s).
  assert (T : (fadd (fmul t s) l - l) / s = t * (1 + (e + e' + e * e')) + z).
  { rewrite Ee. unfold fmul. rewrite Eh. unfold z. field. lra. }
  rewrite T. pose proof (two_rel e e' He He') as E2. pose proof eta_u. pose proof u_pos. pose proof u_tiny.
  pose proof (F0_rel f t (e + e' + e * e') ltac:(lra)) as E3. pose proof (F0_lip f (t * (1 + (e + e' + e * e'))) (t * (1 + (e + e' + e * e')) + z)) as E4.
  replace (t * (1 + (e + e' + e * e')) + z - t * (1 + (e + e' + e * e'))) with z in E4 by ring.
  assert (Z : Rabs z <= u * / 2 + Rabs l / s * u).
  { unfold z, Rdiv. rewrite Rabs_mult, (Rabs_pos_eq (/ s)) by (left; now apply Rinv_0_lt_compat).
    assert (S1 : / s <= 2 ^ 200). { rewrite <- (Rinv_inv (2 ^ 200)). apply Rinv_le_contravar; [|exact Ls]. apply Rinv_0_lt_compat, pow_lt. lra. }
    assert (X : Rabs (h * (1 + e') + l * e') <= 2 * eta + Rabs l * u).
    { eapply Rle_trans; [apply Rabs_triang|]. rewrite !Rabs_mult. apply Rplus_le_compat.
      - rewrite Rmult_comm. apply Rmult_le_compat; try apply Rabs_pos; [|exact Hh]. pose proof (Rabs_triang 1 e') as X. rewrite Rabs_R1 in X. lra.
      - apply Rmult_le_compat_l; [apply Rabs_pos|exact He']. }
    assert (Pi : 0 < / s) by now apply Rinv_0_lt_compat.
    apply (Rmult_le_compat_r (/ s)) in X; [|lra]. eapply Rle_trans; [exact X|]. rewrite Rmult_plus_distr_r.
    assert (Y : 2 * eta * / s <= u * / 2).
    { pose proof eta_pos. apply Rle_trans with (2 * eta * 2 ^ 200); [apply Rmult_le_compat_l; lra|]. unfold eta, u.
      replace (/ 2 ^ 53 * / 2) with (bpow radix2 (-54)) by (change (bpow radix2 (-54)) with (/ 18014398509481984); simpl; lra). rewrite (pow_IZR 2 200). change (IZR (2 ^ Z.of_nat 200)) with (bpow radix2 200).
      replace (2 * (/ 2 * bpow radix2 (-1074)) * bpow radix2 200) with (bpow radix2 (-1074) * bpow radix2 200) by field. rewrite <- bpow_plus. apply bpow_le. lia. }
    replace (Rabs l * u * / s) with (Rabs l * / s * u) by ring. lra. }
  assert (Pl : 0 <= Rabs l / s * u) by (apply Rmult_le_pos; [apply Rmult_le_pos; [apply Rabs_pos|left; now apply Rinv_0_lt_compat]|lra]).
  apply Rabs_le_inv in Et, E3, E4. apply Rabs_le. lra.
Qed.
End Line.
