(** Concrete cases for C93 and C94. *)
From Coq Require Import Reals List ZArith Lra Lia Psatz String.
From Coquelicot Require Import Coquelicot.
From Verif Require Import Py Spec M_Num M_Grid M_Constituents M_Thermal M_Dist M_Resonance M_PseudoVoigt M_Notebook S_Resonance S_PseudoVoigt S_Voigt S_Notebook
  L_RInt L_Grid L_Thermal L_Resonance L_Resonance2 L_Resonance3 L_Resonance6 L_PseudoVoigt L_PseudoVoigt2 L_PseudoVoigt4 L_PseudoVoigt6 L_PseudoVoigt8 L_Voigt2 L_Notebook L_Notebook2 L_Notebook3 L_Notebook4 L_Notebook5 L_Notebook6.
Import ListNotations.
Open Scope R_scope.

(** Width of the line: at most that of the two contributions together. *)
Lemma Gamma5_le g l : 0 <= g -> 0 <= l -> Gamma5 g l <= (g + l) ^ 5.
Proof.
  intros Hg Hl. unfold Gamma5. assert (forall a b : nat, 0 <= g ^ a * l ^ b) as P by (intros; apply Rmult_le_pos; now apply pow_le).
  pose proof (P 4%nat 1%nat). pose proof (P 3%nat 2%nat). pose proof (P 2%nat 3%nat). pose proof (P 1%nat 4%nat). cbn [pow] in *. nra.
Qed.
Lemma pow_lt_l x y : 0 <= x -> x < y -> x ^ 5 < y ^ 5.
Proof.
  intros Hx H. assert (x ^ 2 <= y ^ 2) by (apply pow_incr; lra). assert (x ^ 4 <= y ^ 4) by (apply pow_incr; lra). assert (0 < y ^ 4) by (apply pow_lt; lra).
  replace (x ^ 5) with (x * x ^ 4) by ring. replace (y ^ 5) with (y * y ^ 4) by ring. nra.
Qed.
Lemma line_width k E w amu T p : pv_params k E w amu T -> PseudoVoigtDistribution k E w amu T = Ok p ->
  2 * k_kB_eV k * / 10 ^ 6 * T <= amu * k_u_MeV k -> pv_Gamma p <= 2 * E + w.
Proof.
  intros P EP HT. destruct (pv_build _ _ _ _ _ P) as (p' & EP' & V & _ & _ & _ & D & PD & _ & GG & G5 & _). rewrite EP in EP'. injection EP' as <-.
  destruct P as (K & Ha & H0 & HE & Hw & _). rewrite (doppler_value k amu T E K Ha H0) in D. injection D as D.
  assert (L : sqrt (ln 2) <= 1). { rewrite <- sqrt_1. apply sqrt_le_1_alt. assert (ln 2 < ln (exp 1)) by (apply ln_increasing; [lra|]; pose proof (exp_ineq1 1 ltac:(lra)); lra). rewrite ln_exp in *. lra. }
  assert (Q : sqrt (2 * k_kB_eV k * / 10 ^ 6 * T / (amu * k_u_MeV k)) <= 1).
  { rewrite <- sqrt_1. apply sqrt_le_1_alt. assert (0 < amu * k_u_MeV k) by (apply Rmult_lt_0_compat; [exact Ha|apply K]).
    apply (Rmult_le_reg_r (amu * k_u_MeV k)); [lra|]. unfold Rdiv. rewrite Rmult_assoc, Rinv_l by lra. lra. }
  set (q := sqrt (2 * k_kB_eV k * / 10 ^ 6 * T / (amu * k_u_MeV k))) in *. pose proof (sqrt_pos (ln 2)). assert (0 <= q) by apply sqrt_pos.
  assert (PG : 0 <= pv_Gamma_G p) by (rewrite GG; apply Rmult_le_pos; [lra|exact PD]).
  assert (LG : pv_Gamma_G p <= 2 * E). { rewrite GG, <- D. assert (E * q <= E) by nra. assert (0 <= E * q) by (apply Rmult_le_pos; lra). assert (sqrt (ln 2) * (E * q) <= 1 * (E * q)) by (apply Rmult_le_compat_r; lra). change (2 * sqrt (ln 2) * (E * q) <= 2 * E). lra. }
  destruct (Rle_or_lt (pv_Gamma p) (2 * E + w)) as [|C]; [assumption|]. exfalso.
  assert ((2 * E + w) ^ 5 < pv_Gamma p ^ 5) by (apply pow_lt_l; lra).
  pose proof (Gamma5_le (pv_Gamma_G p) w PG Hw). assert ((pv_Gamma_G p + w) ^ 5 <= (2 * E + w) ^ 5) by (apply pow_incr; lra). lra.
Qed.


Lemma warm_line w : 0 < w <= 1 -> exists r p, voigt_line r p /\ pv_Gamma p <= 10 ^ 9 /\ r_energy r = 1.
Proof.
  intros Hw. destruct (voigt_example true w 300 ltac:(lra) ltac:(lra)) as (r & V & W & HE & HI & P). destruct (pv_build _ _ _ _ _ P) as (p & EP & _). exists r, p.
  split; [exists true, codata, ground, (excited_with w), 12, 300, None, w; auto 10|]. split; [|exact HE].
  eapply Rle_trans; [eapply line_width; [exact P|exact EP|cbn; lra]|]. rewrite HE. lra.
Qed.
Lemma target_example : exists t n p q, voigt_line (t_116 t) p /\ voigt_line (t_112 t) q /\ pv_Gamma p <= 10 ^ 9 /\ pv_Gamma q <= 10 ^ 9 /\
  (0 <= t_enrichment_116 t /\ 0 <= t_enrichment_112 t) /\ (0 <= t_I t /\ 0 <= t_II t /\ 0 <= t_III t /\ 0 <= t_IV t) /\ forall a b, positive_between a b (t_nr t) n.
Proof.
  destruct (warm_line (1 / 1000) ltac:(lra)) as (r & p & V & G & _). destruct (warm_line (1 / 2000) ltac:(lra)) as (r' & q & V' & G' & _).
  exists {| t_nr := fun E => Ok (1 + E * E); t_116 := r; t_112 := r'; t_enrichment_116 := 95 / 100; t_enrichment_112 := 951 / 1000; t_I := 1; t_II := 2; t_III := 3; t_IV := 4 |}, (fun E => 1 + E * E), p, q.
  cbn. repeat (split; [first [assumption|lra]|]). intros a b E _. split; [reflexivity|]. split; [|nra].
  apply continuity_pt_plus; [apply continuity_pt_const; now intros x y|]. apply continuity_pt_mult; apply derivable_continuous_pt, derivable_pt_id.
Qed.
(** The numbers of 6Li.ipynb: 6Li.ipynb:73, 81, 108-111. *)
Definition lithium_carbonate : lithium := {| li_6 := 6.015; li_7 := 7.016; li_C := 12.011; li_O := 15.999; li_mean := 95 / 100 |}.
Lemma experiment_example : exists p, experiment codata lithium_carbonate (8.17 / 10 ^ 6) 411 (999 / 1000) p.
Proof.
  assert (P : pv_params codata E_Li (8.17 / 10 ^ 6) (li_6 lithium_carbonate) 411) by (unfold pv_params, E_Li; split; [apply codata_ok|cbn; lra]).
  destruct (pv_build _ _ _ _ _ P) as (p & EP & _). exists p. unfold experiment. split; [apply codata_ok|]. split; [unfold li_ok, lithium_ok; cbn; lra|].
  repeat (split; [lra|]). split; [exact EP|]. eapply Rle_trans; [eapply line_width; [exact P|exact EP|cbn; lra]|]. unfold E_Li. lra.
Qed.
