(** The outermost quantiles of the approximation in the pseudo-Voigt distribution. *)
From Coq Require Import Reals List ZArith Lra.
From Flocq Require Import Core.
From Coquelicot Require Import Rbar.
From Verif Require Import Py Spec M_Num M_Grid M_Constituents M_Thermal M_Dist M_CrossSection M_Resonance M_PseudoVoigt M_Float S_Float M_Float2 M_Float3 S_Float3 M_Float4 S_Float4 M_Float6 S_Float6 M_Float8 S_Float8
  S_Resonance S_PseudoVoigt L_Float L_Float7 L_Float9 L_Float10 L_Float27 L_Float28 L_Float29 L_Float31 L_Float32.
Import ListNotations.
Open Scope R_scope.

Lemma sign_sub a b : double a -> double b -> (a < b -> fsub a b < 0) /\ (a = b -> fsub a b = 0) /\ (b < a -> 0 < fsub a b).
Proof.
  intros A B. destruct (fsub_error a b A B) as (e & He & ->). assert (U : u <= 1 / 2).
  { unfold u. lra. }
  apply Rabs_le_inv in He. repeat split; intros H; [|subst; ring|]; nra.
Qed.
Lemma scaled_pos w x : 0 < w -> (x = p_infty \/ x = m_infty) -> fscale_inf w x = Ok x.
Proof.
  intros W [->| ->]; unfold fscale_inf; (destruct (Req_EM_T w 0); [lra|]); cbn; (destruct (Rle_dec 0 w) as [H|H]; [|elim H; now left]); (destruct (Rle_lt_or_eq_dec 0 w H); [reflexivity|lra]).
Qed.
Lemma scaled_neg w x : w < 0 -> (x = p_infty \/ x = m_infty) -> fscale_inf w x = Ok (Rbar_opp x).
Proof.
  intros W [->| ->]; unfold fscale_inf; (destruct (Req_EM_T w 0); [lra|]); cbn; (destruct (Rle_dec 0 w) as [H|H]; [elim (Rlt_not_le _ _ W H)|reflexivity]).
Qed.
Lemma scaled_zero x : (x = p_infty \/ x = m_infty) -> fscale_inf 0 x = NaN.
Proof. intros [->| ->]; unfold fscale_inf; (destruct (Req_EM_T 0 0); [reflexivity|lra]). Qed.
Lemma outermost L k E w amu T p p' : pvlib_ok L -> pv_params k E w amu T -> pv_floats k E w amu T ->
  PseudoVoigtDistribution k E w amu T = Ok p -> fPseudoVoigtDistribution L k E w amu T = Ok p' ->
  (0 < pv_eta p' < 1 -> fpv_fallback L p' [0] = Ok (Some [m_infty]) /\ fpv_fallback L p' [1] = Ok (Some [p_infty])) /\
  (~ 0 < pv_eta p' < 1 -> fpv_fallback L p' [0] = NaN /\ fpv_fallback L p' [1] = NaN).
Proof.
  intros HL HP HF EP EP'. destruct (both L k E w amu T p p' HL HP HF EP EP') as (C & _).
  destruct (good_sG p' p C) as [NG _]. destruct (good_sL p' p C) as [NL _]. pose proof (near_pos _ _ _ NG) as PG. pose proof (near_pos _ _ _ NL) as PL.
  pose proof (cl_eta_double _ _ C) as De. assert (D1 : double 1) by (change 1 with (bpow radix2 0); apply double_bpow; Lia.lia).
  destruct (sign_sub 1 (pv_eta p') D1 De) as (S1 & S2 & S3).
  assert (Q : forall q x, (q = 0 /\ x = m_infty) \/ (q = 1 /\ x = p_infty) -> fpv_fallback L p' [q] =
    omap Some (omap (fun y => [y]) (bind (fscale_inf (fsub 1 (pv_eta p')) x) (fun a => bind (fscale_inf (pv_eta p') x) (fun b => fadd_inf a b))))).
  { intros q x Hq. assert (F : forall d l s, 0 < s -> fppf d l s q = Ok x).
    { intros d l s Hs. unfold fppf. destruct (Rlt_dec 0 s); [|contradiction]. destruct Hq as [[-> ->]|[-> ->]].
      - destruct (Rlt_dec 0 0); [lra|]. destruct (Rlt_dec 1 0); [lra|]. destruct (Req_EM_T 0 0); [reflexivity|lra].
      - destruct (Rlt_dec 1 0); [lra|]. destruct (Rlt_dec 1 1); [lra|]. destruct (Req_EM_T 1 0); [lra|]. destruct (Req_EM_T 1 1); [reflexivity|lra]. }
    unfold fpv_fallback. f_equal. unfold traverse. cbn [map sequence]. rewrite (F _ _ _ PG), (F _ _ _ PL). cbn [bind].
    destruct (fscale_inf _ x); cbn [bind]; [|reflexivity|reflexivity]. destruct (fscale_inf _ x); cbn [bind]; [|reflexivity|reflexivity]. destruct (fadd_inf _ _); reflexivity. }
  rewrite !(Q 0 m_infty (or_introl (conj eq_refl eq_refl))), !(Q 1 p_infty (or_intror (conj eq_refl eq_refl))). clear Q. split.
  - intros [E0 E1]. specialize (S3 E1). rewrite !(scaled_pos _ m_infty), !(scaled_pos _ p_infty) by auto. split; reflexivity.
  - intros N. destruct (Rtotal_order 1 (pv_eta p')) as [H|[H|H]].
    + specialize (S1 H). rewrite (scaled_neg _ m_infty S1), (scaled_neg _ p_infty S1) by auto. cbn [bind]. rewrite (scaled_pos _ m_infty), (scaled_pos _ p_infty) by (auto; lra). split; reflexivity.
    + specialize (S2 H). rewrite S2. rewrite !(scaled_zero m_infty), !(scaled_zero p_infty) by auto. split; reflexivity.
    + specialize (S3 H). rewrite (scaled_pos _ m_infty S3), (scaled_pos _ p_infty S3) by auto. cbn [bind]. destruct (Rtotal_order (pv_eta p') 0) as [Z|[Z|Z]]; [|rewrite Z, (scaled_zero m_infty), (scaled_zero p_infty) by auto; split; reflexivity|lra].
      rewrite (scaled_neg _ m_infty Z), (scaled_neg _ p_infty Z) by auto. split; reflexivity.
Qed.
