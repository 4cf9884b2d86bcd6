(** The total Klein-Nishina cross section with rounding: error, negative values, and the limit of low energies. *)
From Coq Require Import Reals List ZArith Lra Lia Psatz.
From Flocq Require Import Core.
From Verif Require Import Py M_Num M_Grid M_CrossSection M_KleinNishina L_KleinNishina L_KleinNishina2 M_Float S_Float M_Float2 S_Float2 L_Float L_Float2 L_Float3 L_Float7.
Import ListNotations.
Open Scope R_scope.

Lemma double_mod : double (/ 2 ^ 100) /\ double (2 ^ 100).
Proof.
  split.
  - rewrite <- (bpow_neg 100). apply double_bpow. lia.
  - replace (2 ^ 100) with (bpow radix2 100); [apply double_bpow; lia|]. rewrite pow_IZR. reflexivity.
Qed.
Lemma moderate_rnd x : moderate x -> moderate (rnd x).
Proof. intros [H1 H2]. destruct double_mod. split; [now apply rnd_ge|now apply rnd_le_d]. Qed.
Lemma fkn_unfold m c E : libm_ok m -> 0 < kn_mc2 c -> moderate (E / kn_mc2 c) ->
  let x := fquo E (kn_mc2 c) in
  double x /\ moderate x /\
  fkn_cs_total m c E = Ok (fmul (fmul (fmul np_pi (kn_scale_factor c)) (m_pow_m3 m x))
    (fadd (fquo (fmul (fmul 2 x) (fadd 2 (fmul (fmul x (fadd 1 x)) (fadd 8 x)))) (m_square m (fadd 1 (fmul 2 x))))
          (fmul (fsub (fmul (fsub x 2) x) 2) (m_log m (fadd 1 (fmul 2 x)))))).
Proof.
  intros Hm Hc HE x. assert (Dx : double x) by apply rnd_double. assert (Mx : moderate x) by now apply moderate_rnd. split; [exact Dx|]. split; [exact Mx|].
  unfold fkn_cs_total. destruct (Req_EM_T (kn_mc2 c) 0); [lra|]. fold x. pose proof (x_pos x Mx). destruct (Req_EM_T x 0); [lra|].
  pose proof (near_pos _ _ _ (square_near m x Hm Dx Mx)). destruct (Req_EM_T (m_square m (fadd 1 (fmul 2 x))) 0); [lra|].
  pose proof (y_ge x Dx Mx). destruct Rlt_dec; [reflexivity|lra].
Qed.
Lemma quo_shift c E : 0 < kn_mc2 c -> moderate (E / kn_mc2 c) -> Rabs (fquo E (kn_mc2 c) * kn_mc2 c - E) <= u * E.
Proof.
  intros Hc HE. assert (X : 0 < E / kn_mc2 c) by (pose proof mod_pos; destruct HE; lra).
  assert (E0 : 0 < E) by (replace E with (E / kn_mc2 c * kn_mc2 c) by (field; lra); now apply Rmult_lt_0_compat).
  unfold fquo. destruct (rnd_error_normal (E / kn_mc2 c)) as (e & He & ->).
  - rewrite Rabs_pos_eq by lra. destruct HE as [HE _]. eapply Rle_trans; [|exact HE]. rewrite <- (bpow_neg 100). apply bpow_le. lia.
  - replace (E / kn_mc2 c * (1 + e) * kn_mc2 c - E) with (e * E) by (field; lra). rewrite Rabs_mult, (Rabs_pos_eq E) by lra. apply Rmult_le_compat_r; lra.
Qed.
Lemma fkn_error m c E : libm_ok m -> 0 < kn_mc2 c -> moderate (E / kn_mc2 c) -> moderate (kn_scale_factor c) ->
  exists E' s v, Rabs (E' - E) <= unit_roundoff * E /\ kn_cs_total c E' = Ok s /\ fkn_cs_total m c E = Ok v /\
    Rabs (v - s) <= 384 * unit_roundoff * thomson_limit c * (1 + (kn_mc2 c / E') ^ 3).
Proof.
  intros Hm Hc HE Hs. destruct (fkn_unfold m c E Hm Hc HE) as (Dx & Mx & ->). set (x := fquo E (kn_mc2 c)) in *. pose proof (x_pos x Mx) as X.
  exists (x * kn_mc2 c), (PI * kn_scale_factor c * hh x). eexists. split; [now apply quo_shift|]. split; [|split; [reflexivity|]].
  - rewrite total_ok by (try lra; now apply Rmult_lt_0_compat). do 3 f_equal. field. lra.
  - eapply Rle_trans; [now apply total_err|]. change unit_roundoff with u. right. unfold thomson_limit. field. lra.
Qed.
Lemma fkn_negative m c E : libm_ok m -> 0 < kn_mc2 c -> moderate (E / kn_mc2 c) -> moderate (kn_scale_factor c) ->
  let x := fquo E (kn_mc2 c) in let d := fadd 1 (2 * x) - (1 + 2 * x) in
  x <= / 2 ^ 18 -> 4 * x ^ 3 + unit_roundoff / 4 <= d ->
  exists v, fkn_cs_total m c E = Ok v /\ v <= - (3 / 16 * thomson_limit c * (d / x ^ 3)).
Proof.
  intros Hm Hc HE Hs x d Hx Hd. destruct (fkn_unfold m c E Hm Hc HE) as (Dx & Mx & ->). fold x. fold x in Dx, Mx. pose proof (x_pos x Mx) as X. eexists. split; [reflexivity|].
  assert (Ed : d = fadd 1 (fmul 2 x) - (1 + 2 * x)) by (unfold d; now rewrite fmul_2).
  eapply Rle_trans; [apply total_neg; auto; rewrite <- Ed; exact Hd|]. rewrite <- Ed. right. unfold thomson_limit. field. lra.
Qed.
Lemma fkn_low m c E : libm_ok m -> 0 < kn_mc2 c -> moderate (E / kn_mc2 c) -> moderate (kn_scale_factor c) ->
  let x := fquo E (kn_mc2 c) in x <= / 2 ^ 55 ->
  exists v, fkn_cs_total m c E = Ok v /\ 3 / 8 * thomson_limit c * / x ^ 2 <= v.
Proof.
  intros Hm Hc HE Hs x Hx. destruct (fkn_unfold m c E Hm Hc HE) as (Dx & Mx & ->). fold x. fold x in Dx, Mx. pose proof (x_pos x Mx) as X. eexists. split; [reflexivity|].
  eapply Rle_trans; [|now apply total_low]. right. unfold thomson_limit. field. lra.
Qed.
Lemma kn_exact c E : 0 < kn_mc2 c -> 0 < E -> 0 < kn_scale_factor c -> exists s, kn_cs_total c E = Ok s /\ 0 < s < thomson_limit c.
Proof.
  intros Hc HE Hs. rewrite total_ok by assumption. eexists. split; [reflexivity|]. assert (X : 0 < E / kn_mc2 c) by now apply Rdiv_lt_0_compat. pose proof (hh_pos _ X). pose proof (hh_lt _ X). pose proof PI_RGT_0.
  assert (0 < PI * kn_scale_factor c) by now apply Rmult_lt_0_compat. unfold thomson_limit. split; [now apply Rmult_lt_0_compat|]. nra.
Qed.

(** ** Correctly rounded functions meet the conditions *)
Definition round_libm : libm := {| m_log := fun y => rnd (ln y); m_square := fun y => rnd (y ^ 2); m_pow_m3 := fun x => rnd (/ x ^ 3) |}.
Lemma rnd_rel x k : 0 < x -> bpow radix2 (-1022) <= x -> 1 <= k -> Rabs (rnd x - x) <= k * unit_roundoff * x.
Proof.
  intros X H K. destruct (rnd_error_normal x) as (e & He & ->); [rewrite Rabs_pos_eq; lra|]. change unit_roundoff with u. replace (x * (1 + e) - x) with (e * x) by ring. rewrite Rabs_mult, (Rabs_pos_eq x) by lra.
  apply Rmult_le_compat_r; [lra|]. pose proof u_pos. nra.
Qed.
Lemma ln_lower z : 0 < z -> z / (1 + z) <= ln (1 + z).
Proof.
  intros Hz. assert (M : - ln (/ (1 + z)) <= ln (1 + z)) by (rewrite ln_Rinv by lra; lra). set (r := / (1 + z)) in *. assert (Pr : 0 < r) by (apply Rinv_0_lt_compat; lra).
  assert (ln r <= r - 1). { destruct (Req_dec r 1) as [->|]; [rewrite ln_1; lra|]. apply Rle_trans with (ln (exp (r - 1))); [|rewrite ln_exp; lra]. left. apply ln_increasing; [lra|]. replace r with (1 + (r - 1)) at 1 by ring. apply exp_ineq1. lra. }
  replace (z / (1 + z)) with (1 - r); [lra|]. unfold r. field. lra.
Qed.
Lemma double_gap y : double y -> 1 < y -> 1 + / 2 ^ 52 <= y.
Proof.
  intros D H. pose proof (succ_le_lt radix2 fexp64 1 y double_1 D H) as K. rewrite succ_eq_pos in K by lra. rewrite ulp_neq_0 in K by lra. unfold cexp in K.
  rewrite (mag_unique radix2 1 1) in K by (rewrite Rabs_R1; simpl; lra). change (fexp64 1) with (-52)%Z in K. change (-52)%Z with (- Z.of_nat 52)%Z in K. rewrite bpow_neg in K. exact K.
Qed.
Lemma normal_inv n : (n <= 900)%nat -> bpow radix2 (-1022) <= / 2 ^ n.
Proof. intros H. eapply Rle_trans; [|apply tiny_inv; exact H]. unfold tiny. apply bpow_le. lia. Qed.
Lemma round_libm_ok : libm_ok round_libm.
Proof.
  split; [|split; [|split]]; cbn [m_log m_square m_pow_m3 round_libm].
  - rewrite ln_1. apply rnd_0.
  - intros y D H. split; [apply rnd_double|]. destruct (Req_dec y 1) as [->|N]; [rewrite ln_1, rnd_0, Rminus_0_r, Rabs_R0; lra|]. pose proof (double_gap y D ltac:(lra)) as G.
    assert (K : / 2 ^ 53 <= ln y).
    { set (e := / 2 ^ 52) in *. assert (He : 0 < e <= 1). { unfold e. split; [apply Rinv_0_lt_compat, pow_lt; lra|]. rewrite <- Rinv_1. apply Rinv_le_contravar; [lra|apply pow_R1_Rle; lra]. }
      replace (/ 2 ^ 53) with (e / 2) by (unfold e; rewrite (pow_add 2 52 1 : 2 ^ 53 = _), Rinv_mult, pow_1; reflexivity). apply Rle_trans with (ln (1 + e)).
      - eapply Rle_trans; [|apply ln_lower; lra]. unfold Rdiv. apply Rmult_le_compat_l; [lra|]. apply Rinv_le_contravar; lra.
      - destruct G as [G|<-]; [left; apply ln_increasing; lra|lra]. }
    assert (0 < / 2 ^ 53) by (apply Rinv_0_lt_compat, pow_lt; lra). apply rnd_rel; [lra| |lra]. eapply Rle_trans; [|exact K]. apply normal_inv. apply Nat.leb_le. reflexivity.
  - intros y D H. split; [apply rnd_double|]. assert (1 <= y ^ 2) by nra. apply rnd_rel; [lra| |lra]. eapply Rle_trans; [apply (normal_inv 0); lia|]. simpl. lra.
  - intros x D H. split; [apply rnd_double|]. pose proof (x_pos x H) as X. assert (X3 : 0 < x ^ 3) by now apply pow_lt. apply rnd_rel; [now apply Rinv_0_lt_compat| |lra].
    eapply Rle_trans; [apply (normal_inv 300); apply Nat.leb_le; reflexivity|]. apply Rinv_le_contravar; [exact X3|now apply x3_le].
Qed.

(** ** 0.8 eV photons and electrons *)
Definition electron_mass : R := rnd (51099895 / 100000000).
Definition low_energy : R := rnd (8 / 10000000).
Lemma electron_mass_val : electron_mass = 4602669361613429 * / 9007199254740992.
Proof. unfold electron_mass. rewrite (rnd_lit _ 4602669361613429 (-53) (/ 9007199254740992)); [lra|lia|lia|lia|reflexivity|lra..]. Qed.
Lemma low_energy_val : low_energy = 7555786372591432 * / 9444732965739290427392.
Proof. unfold low_energy. rewrite (rnd_lit _ 7555786372591432 (-73) (/ 9444732965739290427392)); [lra|lia|lia|lia|reflexivity|lra..]. Qed.
Lemma low_quotient : fquo low_energy electron_mass = 7393152542281577 * / 4722366482869645213696.
Proof.
  unfold fquo. rewrite low_energy_val, electron_mass_val. replace (7555786372591432 * / 9444732965739290427392 / (4602669361613429 * / 9007199254740992)) with (7555786372591432 * 9007199254740992 / (9444732965739290427392 * 4602669361613429)) by (field; lra).
  set (z := 7555786372591432 * 9007199254740992 / (9444732965739290427392 * 4602669361613429)). assert (Z : z * (9444732965739290427392 * 4602669361613429) = 7555786372591432 * 9007199254740992) by (unfold z; field; lra).
  clearbody z. rewrite (rnd_lit _ 7393152542281577 (-72) (/ 4722366482869645213696)); [lra|lia|lia|lia|reflexivity|lra..].
Qed.
Lemma low_sum : fadd 1 (2 * (7393152542281577 * / 4722366482869645213696)) = 4503613728689890 * / 4503599627370496.
Proof. unfold fadd. rewrite (rnd_lit _ 4503613728689890 (-52) (/ 4503599627370496)); [lra|lia|lia|lia|reflexivity|lra..]. Qed.
Lemma negative_at m c : libm_ok m -> kn_mc2 c = electron_mass -> moderate (kn_scale_factor c) ->
  exists v s, fkn_cs_total m c low_energy = Ok v /\ kn_cs_total c low_energy = Ok s /\ 0 < s < thomson_limit c /\ v <= - (3 * thomson_limit c).
Proof.
  intros Hm Hc Hs. assert (M0 : 0 < kn_mc2 c) by (rewrite Hc, electron_mass_val; lra). pose proof (s_pos _ Hs) as S0. assert (E0 : 0 < low_energy) by (rewrite low_energy_val; lra).
  assert (HE : moderate (low_energy / kn_mc2 c)).
  { rewrite Hc, low_energy_val, electron_mass_val. assert (K : / 1000000000 <= 7555786372591432 * / 9444732965739290427392 / (4602669361613429 * / 9007199254740992) <= 1000000000).
    { set (z := 7555786372591432 * / 9444732965739290427392 / (4602669361613429 * / 9007199254740992)). assert (Z : z * (9444732965739290427392 * 4602669361613429) = 7555786372591432 * 9007199254740992) by (unfold z; field; lra). clearbody z. lra. }
    assert (1000000000 <= 2 ^ 100) by (apply Rle_trans with (2 ^ 30); [lra|apply Rle_pow; [lra|lia]]). split; [|lra]. eapply Rle_trans; [|apply (proj1 K)]. apply Rinv_le_contravar; lra. }
  destruct (kn_exact c low_energy M0 E0 S0) as (s & Es & Bs). destruct (fkn_negative m c low_energy Hm M0 HE Hs) as (v & Ev & Bv).
  - rewrite Hc, low_quotient. replace (2 ^ 18) with 262144 by ring. lra.
  - rewrite Hc, low_quotient, low_sum. unfold unit_roundoff. replace (2 ^ 53) with 9007199254740992 by (rewrite pow_IZR; reflexivity). lra.
  - exists v, s. split; [exact Ev|]. split; [exact Es|]. split; [exact Bs|]. eapply Rle_trans; [exact Bv|]. rewrite Hc, low_quotient, low_sum. apply Ropp_le_contravar. assert (T : 0 < thomson_limit c) by lra.
    set (x := 7393152542281577 * / 4722366482869645213696). set (d := _ - (1 + 2 * x)). assert (D : 16 * x ^ 3 <= d) by (unfold d, x; lra). assert (X : 0 < x ^ 3) by (apply pow_lt; unfold x; lra).
    assert (16 <= d / x ^ 3). { apply (Rmult_le_reg_r (x ^ 3)); [exact X|]. unfold Rdiv. rewrite (Rmult_assoc d), Rinv_l by lra. lra. } nra.
Qed.
Lemma fkn_positive m c E : libm_ok m -> 0 < kn_mc2 c -> / 2 ^ 13 <= E / kn_mc2 c <= / 16 -> moderate (kn_scale_factor c) ->
  exists v, fkn_cs_total m c E = Ok v /\ thomson_limit c / 2 <= v <= 11 / 10 * thomson_limit c.
Proof.
  intros Hm Hc [H1 H2] Hs. assert (K13 : / 2 ^ 100 <= / 2 ^ 13) by (apply Rinv_le_contravar; [apply pow_lt; lra|apply Rle_pow; [lra|lia]]). assert (K100 : 1 <= 2 ^ 100) by (apply pow_R1_Rle; lra).
  assert (HE : moderate (E / kn_mc2 c)) by (split; lra). destruct (fkn_unfold m c E Hm Hc HE) as (Dx & Mx & ->). eexists. split; [reflexivity|]. set (x := fquo E (kn_mc2 c)) in *. pose proof (x_pos x Mx) as X.
  assert (X1 : / 2 ^ 13 <= x) by (apply rnd_ge; [rewrite <- (bpow_neg 13); apply double_bpow; lia|exact H1]).
  assert (X2 : x <= / 16) by (apply rnd_le_d; [replace (/ 16) with (bpow radix2 (-4)) by reflexivity; apply double_bpow; lia|exact H2]).
  pose proof (total_err m x Hm Dx Mx _ Hs) as TE. apply Rabs_le_inv in TE. pose proof (hh_near x X) as HN. pose proof (hh_lt x X) as HL. pose proof PI_RGT_0. pose proof (s_pos _ Hs). assert (PS : 0 < PI * kn_scale_factor c) by now apply Rmult_lt_0_compat. pose proof u_pos as U.
  assert (X3 : / x ^ 3 <= 2 ^ 39). { rewrite <- (Rinv_inv (2 ^ 39)). apply Rinv_le_contravar; [apply Rinv_0_lt_compat, pow_lt; lra|]. replace 39%nat with (13 * 3)%nat by reflexivity. rewrite pow_mult, <- pow_inv. apply pow_incr. split; [left; apply Rinv_0_lt_compat, pow_lt; lra|exact X1]. }
  assert (B : 1024 * u * (PI * kn_scale_factor c * (1 + / x ^ 3)) <= / 8 * (PI * kn_scale_factor c)).
  { assert (UB : 1024 * u * (1 + / x ^ 3) <= / 8).
    { apply Rle_trans with (1024 * u * (1 + 2 ^ 39)); [apply Rmult_le_compat_l; lra|]. unfold u. replace (2 ^ 53) with 9007199254740992 by (rewrite pow_IZR; reflexivity). replace (2 ^ 39) with 549755813888 by (rewrite pow_IZR; reflexivity). lra. }
    replace (1024 * u * (PI * kn_scale_factor c * (1 + / x ^ 3))) with (1024 * u * (1 + / x ^ 3) * (PI * kn_scale_factor c)) by ring. apply Rmult_le_compat_r; lra. }
  unfold thomson_limit. set (p := PI * kn_scale_factor c) in *. replace (8 * PI / 3 * kn_scale_factor c) with (8 / 3 * p) by (unfold p; field). assert (5 / 3 * p <= p * hh x <= 8 / 3 * p) by (split; nra). lra.
Qed.
