From Coq Require Import Reals List Lia Lra Psatz.
From Coquelicot Require Import Coquelicot.
From Verif Require Import Py M_Num M_Thermal S_Thermal L_RInt.
Import ListNotations.
Open Scope R_scope.

Lemma fdiv_ok a b : b <> 0 -> fdiv a b = Ok (a / b).
Proof. intros. unfold fdiv. destruct (Req_EM_T b 0); tauto. Qed.
Lemma fdiv_0 a : fdiv a 0 = Raise ZeroDivisionError.
Proof. unfold fdiv. destruct (Req_EM_T 0 0); tauto. Qed.
Lemma np_sqrt_ok x : 0 <= x -> np_sqrt x = Ok (sqrt x).
Proof. intros. unfold np_sqrt. destruct (Rlt_dec x 0); auto. lra. Qed.
Lemma np_sqrt_neg x : x < 0 -> np_sqrt x = NaN.
Proof. intros. unfold np_sqrt. destruct (Rlt_dec x 0); auto. lra. Qed.

(** ** Recoil *)
Lemma recoil_value k amu D : 0 < k_u_MeV k -> amu <> 0 ->
  FreeNucleusRecoil k amu D = Ok (D + D ^ 2 / (2 * (amu * k_u_MeV k))).
Proof.
  intros. unfold FreeNucleusRecoil. rewrite fdiv_ok; simpl.
  - f_equal. field. split; auto. lra.
  - apply Rmult_integral_contrapositive_currified; [|lra]. apply Rmult_integral_contrapositive_currified; lra.
Qed.
Lemma recoil_conserves_only m D E : 0 < m -> 0 <= D ->
  conserves_four_momentum m D E <-> E = D + D ^ 2 / (2 * m).
Proof.
  intros Hm HD. unfold conserves_four_momentum. split.
  - intros [HE H].
    assert (S : (E + m) ^ 2 = (m + D) ^ 2 + E ^ 2).
    { rewrite H at 1. rewrite <- Rsqr_pow2. apply Rsqr_sqrt. nra. }
    apply (Rmult_eq_reg_r (2 * m)); [|lra]. field_simplify; try lra.
  - intros ->. split.
    + apply Rplus_le_le_0_compat; auto. apply Rmult_le_pos. nra. left. apply Rinv_0_lt_compat. lra.
    + symmetry. apply sqrt_lem_1.
      * apply Rplus_le_le_0_compat; apply pow2_ge_0.
      * assert (0 <= D ^ 2 / (2 * m)). { apply Rmult_le_pos. nra. left. apply Rinv_0_lt_compat. lra. } lra.
      * field. lra.
Qed.
Lemma recoil_mono_D m D D' : 0 < m -> 0 <= D < D' -> D + D ^ 2 / (2 * m) < D' + D' ^ 2 / (2 * m).
Proof.
  intros Hm [H0 H1]. apply Rplus_lt_le_compat; auto. apply Rmult_le_compat_r.
  left; apply Rinv_0_lt_compat; lra. nra.
Qed.
Lemma recoil_mono_m m m' D : 0 < m < m' -> 0 < D -> D + D ^ 2 / (2 * m') < D + D ^ 2 / (2 * m).
Proof.
  intros [H0 H1] H. apply Rplus_lt_compat_l. apply Rmult_lt_compat_l. nra.
  apply Rinv_lt_contravar; nra.
Qed.

Lemma free_recoil k amu D : constants_ok k -> 0 < amu -> 0 <= D ->
  exists E, FreeNucleusRecoil k amu D = Ok E /\ D <= E /\
    conserves_four_momentum (amu * k_u_MeV k) D E /\
    forall E', conserves_four_momentum (amu * k_u_MeV k) D E' -> E' = E.
Proof.
  intros K Ha HD. assert (0 < k_u_MeV k) by (destruct K; intuition).
  assert (0 < amu * k_u_MeV k) by nra.
  eexists; split; [apply recoil_value; lra|]. split; [|split].
  - assert (0 <= D ^ 2 / (2 * (amu * k_u_MeV k))).
    { apply Rmult_le_pos. nra. left. apply Rinv_0_lt_compat. lra. } lra.
  - now apply recoil_conserves_only.
  - intros E' H'. now apply recoil_conserves_only in H'.
Qed.
Lemma free_recoil_mono k : constants_ok k ->
  (forall amu D D', 0 < amu -> 0 <= D < D' -> exists E E',
     FreeNucleusRecoil k amu D = Ok E /\ FreeNucleusRecoil k amu D' = Ok E' /\ E < E') /\
  (forall amu amu' D, 0 < amu < amu' -> 0 < D -> exists E E',
     FreeNucleusRecoil k amu D = Ok E /\ FreeNucleusRecoil k amu' D = Ok E' /\ E' < E).
Proof.
  intros K. assert (Hk : 0 < k_u_MeV k) by (destruct K; intuition). split.
  - intros. do 2 eexists. split; [apply recoil_value; lra|]. split; [apply recoil_value; lra|].
    apply recoil_mono_D; auto. nra.
  - intros. do 2 eexists. split; [apply recoil_value; lra|]. split; [apply recoil_value; lra|].
    apply recoil_mono_m; auto. split. nra. apply Rmult_lt_compat_r; lra.
Qed.
Lemma recoil_degenerate k D : NoRecoil D = Ok D /\ FreeNucleusRecoil k 0 D = Raise ZeroDivisionError.
Proof.
  split; auto. unfold FreeNucleusRecoil. replace (2 * 0 * k_u_MeV k) with 0 by ring. now rewrite fdiv_0.
Qed.

(** ** Doppler width *)
Definition c_of (k : constants) : R := 2 * k_kB_eV k * / 10 ^ 6.
Lemma c_pos k : constants_ok k -> 0 < c_of k.
Proof. intros K. unfold c_of. assert (0 < k_kB_eV k) by (destruct K; intuition). apply Rmult_lt_0_compat; lra. Qed.
Lemma width_value k amu T E : constants_ok k -> 0 < amu -> 0 <= T ->
  get_doppler_width k {| mb_amu := amu; mb_effective_temperature := T |} E
  = Ok (E * sqrt (c_of k * T / (amu * k_u_MeV k))).
Proof.
  intros K Ha HT. pose proof (c_pos k K). assert (0 < k_u_MeV k) by (destruct K; intuition).
  unfold get_doppler_width; simpl mb_amu; simpl mb_effective_temperature.
  fold (c_of k). rewrite fdiv_ok by nra. cbn [bind].
  rewrite np_sqrt_ok. reflexivity.
  apply Rmult_le_pos. nra. left; apply Rinv_0_lt_compat; nra.
Qed.
Lemma temp_value k w amu E : constants_ok k -> E <> 0 ->
  get_effective_temperature k w amu E = Ok (w ^ 2 * (amu * k_u_MeV k) / (c_of k * E ^ 2)).
Proof.
  intros K HE. pose proof (c_pos k K). assert (0 < E * E) by nra.
  unfold get_effective_temperature. rewrite fdiv_ok.
  - f_equal. unfold c_of in *. field. split; auto. lra.
  - replace (E * E * 2 * k_kB_eV k * / 10 ^ 6) with (E * E * c_of k) by (unfold c_of; ring). nra.
Qed.
Lemma temperature_of_width k amu T E : constants_ok k -> 0 < amu -> 0 <= T -> E <> 0 ->
  exists w, get_doppler_width k {| mb_amu := amu; mb_effective_temperature := T |} E = Ok w /\
    get_effective_temperature k w amu E = Ok T.
Proof.
  intros K Ha HT HE. eexists; split; [now apply width_value|]. rewrite temp_value by auto.
  pose proof (c_pos k K). assert (0 < k_u_MeV k) by (destruct K; intuition). assert (0 < E * E) by nra.
  f_equal. rewrite Rpow_mult_distr, pow2_sqrt.
  - field. repeat split; lra.
  - apply Rmult_le_pos. nra. left; apply Rinv_0_lt_compat; nra.
Qed.
Lemma width_of_temperature k amu w E : constants_ok k -> 0 < amu -> 0 <= w -> 0 < E ->
  exists T, get_effective_temperature k w amu E = Ok T /\ 0 <= T /\
    get_doppler_width k {| mb_amu := amu; mb_effective_temperature := T |} E = Ok w.
Proof.
  intros K Ha Hw HE. pose proof (c_pos k K). assert (0 < k_u_MeV k) by (destruct K; intuition).
  assert (P : 0 <= w ^ 2 * (amu * k_u_MeV k) / (c_of k * E ^ 2)).
  { apply Rmult_le_pos. apply Rmult_le_pos; nra. left; apply Rinv_0_lt_compat. apply Rmult_lt_0_compat; nra. }
  eexists; split; [apply temp_value; auto; lra|]. split; auto.
  rewrite width_value by auto. f_equal.
  replace (c_of k * (w ^ 2 * (amu * k_u_MeV k) / (c_of k * E ^ 2)) / (amu * k_u_MeV k)) with ((w / E) ^ 2).
  - rewrite sqrt_pow2. field. lra. apply Rmult_le_pos; auto. left; now apply Rinv_0_lt_compat.
  - field. repeat split; lra.
Qed.
Lemma width_scaling k amu T E c : constants_ok k -> 0 < amu -> 0 <= T -> 0 < c -> exists w,
  get_doppler_width k {| mb_amu := amu; mb_effective_temperature := T |} E = Ok w /\
  get_doppler_width k {| mb_amu := amu; mb_effective_temperature := T |} (c * E) = Ok (c * w) /\
  get_doppler_width k {| mb_amu := amu; mb_effective_temperature := c ^ 2 * T |} E = Ok (c * w) /\
  get_doppler_width k {| mb_amu := c ^ 2 * amu; mb_effective_temperature := T |} E = Ok (w / c).
Proof.
  intros K Ha HT Hc. pose proof (c_pos k K). assert (0 < k_u_MeV k) by (destruct K; intuition).
  assert (P : 0 <= c_of k * T / (amu * k_u_MeV k)).
  { apply Rmult_le_pos. nra. left; apply Rinv_0_lt_compat; nra. }
  assert (Q : 0 < c ^ 2) by nra.
  eexists; split; [now apply width_value|]. split; [|split].
  - rewrite width_value by auto. f_equal; ring.
  - rewrite width_value; auto; [|nra]. f_equal.
    replace (c_of k * (c ^ 2 * T) / (amu * k_u_MeV k)) with (c ^ 2 * (c_of k * T / (amu * k_u_MeV k))) by (field; lra).
    rewrite sqrt_mult; auto; [|lra]. rewrite sqrt_pow2 by lra. ring.
  - rewrite width_value; auto; [|nra]. f_equal.
    replace (c_of k * T / (c ^ 2 * amu * k_u_MeV k)) with ((/ c) ^ 2 * (c_of k * T / (amu * k_u_MeV k))) by (field; lra).
    rewrite sqrt_mult; auto; [|apply pow2_ge_0]. rewrite sqrt_pow2. field; lra. left; now apply Rinv_0_lt_compat.
Qed.
Lemma doppler_degenerate k amu T E w : constants_ok k ->
  get_doppler_width k {| mb_amu := 0; mb_effective_temperature := T |} E = Raise ZeroDivisionError /\
  (0 < amu -> T < 0 -> get_doppler_width k {| mb_amu := amu; mb_effective_temperature := T |} E = NaN) /\
  get_effective_temperature k w amu 0 = Raise ZeroDivisionError.
Proof.
  intros K. pose proof (c_pos k K). assert (0 < k_u_MeV k) by (destruct K; intuition). repeat split.
  - unfold get_doppler_width; simpl mb_amu. rewrite Rmult_0_l, fdiv_0. auto.
  - intros. unfold get_doppler_width; simpl mb_amu; simpl mb_effective_temperature. fold (c_of k).
    rewrite fdiv_ok by nra. cbn [bind]. rewrite np_sqrt_neg; auto.
    apply Ropp_lt_cancel. rewrite Ropp_0. unfold Rdiv. rewrite Ropp_mult_distr_l.
    apply Rmult_lt_0_compat. nra. apply Rinv_0_lt_compat; nra.
  - unfold get_effective_temperature. replace (0 * 0 * 2 * k_kB_eV k * / 10 ^ 6) with 0 by ring. apply fdiv_0.
Qed.
