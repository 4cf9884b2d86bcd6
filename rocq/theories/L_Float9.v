(** Rounding in resonances. *)
From Coq Require Import Reals List ZArith Lra Lia Psatz String.
From Flocq Require Import Core.
From Verif Require Import Py Spec M_Num M_Constituents M_Thermal M_Dist M_Resonance M_Float S_Float M_Float2 S_Float2 M_Float4 S_Float4
  L_Float L_Float2 L_Float3 L_Float7.
Import ListNotations.
Open Scope R_scope.

(** ** Positive numbers with a relative error and a range *)
Definition rng (n : nat) (x : R) : Prop := / 2 ^ n <= x <= 2 ^ n.
Lemma pow2_pos n : 0 < 2 ^ n. Proof. apply pow_lt. lra. Qed.
Lemma ipow2_pos n : 0 < / 2 ^ n. Proof. apply Rinv_0_lt_compat, pow2_pos. Qed.
Lemma pow2_le n m : (n <= m)%nat -> 2 ^ n <= 2 ^ m.
Proof. intros. apply Rle_pow; [lra|assumption]. Qed.
Lemma ipow2_le n m : (n <= m)%nat -> / 2 ^ m <= / 2 ^ n.
Proof. intros. apply Rinv_le_contravar; [apply pow2_pos|now apply pow2_le]. Qed.
Lemma rng_pos n x : rng n x -> 0 < x.
Proof. intros [H _]. pose proof (ipow2_pos n). lra. Qed.
Lemma rng_weaken n m x : (n <= m)%nat -> rng n x -> rng m x.
Proof. intros H [A B]. pose proof (pow2_le _ _ H). pose proof (ipow2_le _ _ H). split; lra. Qed.
Lemma rng_mult n m x y : rng n x -> rng m y -> rng (n + m) (x * y).
Proof.
  intros [A B] [C D]. pose proof (ipow2_pos n). pose proof (ipow2_pos m). unfold rng. rewrite pow_add.
  split; [|apply Rmult_le_compat; lra]. rewrite Rinv_mult. apply Rmult_le_compat; lra.
Qed.
Lemma rng_inv n x : rng n x -> rng n (/ x).
Proof.
  intros H. pose proof (rng_pos _ _ H). destruct H as [A B]. pose proof (pow2_pos n). split; [now apply Rinv_le_contravar|].
  rewrite <- (Rinv_inv (2 ^ n)). apply Rinv_le_contravar; [apply ipow2_pos|assumption].
Qed.
Lemma rng_div n m x y : rng n x -> rng m y -> rng (n + m) (x / y).
Proof. intros. apply rng_mult; [assumption|now apply rng_inv]. Qed.
Lemma rng_tiny n x : (n <= 900)%nat -> rng n x -> tiny <= x.
Proof. intros H [A _]. pose proof moderate_tiny. pose proof (ipow2_le _ _ H). lra. Qed.

Lemma rng_one n : rng n 1.
Proof. pose proof (pow2_le 0 n ltac:(lia)) as A. pose proof (ipow2_le 0 n ltac:(lia)) as B. rewrite pow_O in A, B. rewrite Rinv_1 in B. split; assumption. Qed.

Definition good (k n : nat) (v V : R) : Prop := near k v V /\ rng n V.
Lemma good_exact n x : rng n x -> good 0 n x x.
Proof. intros H. split; [apply near_exact; eapply rng_pos; eassumption|assumption]. Qed.
Lemma good_weaken k n k' n' v V : (k <= k')%nat -> (n <= n')%nat -> good k n v V -> good k' n' v V.
Proof. intros A B [N G]. split; [eapply near_weaken; eassumption|eapply rng_weaken; eassumption]. Qed.
Lemma good_fmul k n j m v V w W : (k + j <= 100)%nat -> (n + m <= 900)%nat -> good k n v V -> good j m w W -> good (S (k + j)) (n + m) (fmul v w) (V * W).
Proof. intros A B [N G] [N' G']. pose proof (rng_mult _ _ _ _ G G') as T. split; [apply near_fmul; try assumption; eapply rng_tiny; eassumption|assumption]. Qed.
Lemma good_fquo k n j m v V w W : (k + j <= 100)%nat -> (n + m <= 900)%nat -> good k n v V -> good j m w W -> good (S (k + j)) (n + m) (fquo v w) (V / W).
Proof. intros A B [N G] [N' G']. pose proof (rng_div _ _ _ _ G G') as T. split; [apply near_fquo; try assumption; eapply rng_tiny; eassumption|assumption]. Qed.
Lemma good_rnd k n v V : (k <= 100)%nat -> (n <= 900)%nat -> good k n v V -> good (S k) n (rnd v) V.
Proof. intros A B [N G]. split; [apply near_rnd; try assumption; eapply rng_tiny; eassumption|assumption]. Qed.
Lemma near_bound k v V : (k <= 100)%nat -> near k v V -> Rabs (v - V) <= (INR k + 1) * u * V.
Proof.
  intros Hk N. pose proof (near_pos _ _ _ N) as Pv. destruct N as (H1 & H2 & H3). pose proof (bernoulli k) as B. pose proof u_pos as U. pose proof u_tiny as U2. pose proof (pos_INR k) as K0.
  apply le_INR in Hk. replace (INR 100) with 100 in Hk by (simpl; ring). set (n := INR k) in *. pose proof (qk_pos k) as Q.
  assert (U3 : u <= / 2 ^ 20). { unfold u. apply ipow2_le. lia. }
  assert (n * (n + 1) * u <= 1) by nra.
  apply Rabs_le. split; [nra|].
  assert (v * (1 - n * u) <= V) by nra. assert (1 <= (1 + (n + 1) * u) * (1 - n * u)) by nra.
  assert (v <= v * ((1 + (n + 1) * u) * (1 - n * u))) by nra. assert (0 <= 1 + (n + 1) * u) by nra. nra.
Qed.
Lemma good_square c k n v V : clib_ok c -> (k <= 40)%nat -> (n <= 68)%nat -> double v -> good k n v V -> good (3 + (k + k)) (n + n) (c_square c v) (V ^ 2).
Proof.
  intros [HC _] Hk Hn D [N G]. pose proof (near_pos _ _ _ N) as Pv. pose proof (rng_pos _ _ G) as PV.
  assert (Rv : / 2 ^ 70 <= v <= 2 ^ 70).
  { destruct N as (_ & H2 & H3). pose proof (half_le_q k ltac:(lia)) as Q. pose proof (rng_weaken _ _ _ Hn G) as [G1 G2].
    replace (2 ^ 70) with (2 ^ 68 * 4) by (change 70%nat with (68 + 2)%nat; rewrite pow_add; ring). pose proof (pow2_pos 68) as P. rewrite Rinv_mult. pose proof (ipow2_pos 68). split; [nra|nra]. }
  destruct (HC v D Rv) as [_ E]. split.
  - apply (near_trans 3 (k + k)) with (v ^ 2).
    + apply (near_rel 2); [exact pow_3|now apply pow_lt|exact E].
    + replace (v ^ 2) with (v * v) by ring. replace (V ^ 2) with (V * V) by ring. now apply near_mult.
  - replace (V ^ 2) with (V * V) by ring. now apply rng_mult.
Qed.

Lemma near_pi : near 1 np_pi PI.
Proof.
  pose proof PI_RGT_0. apply near_rnd; [lia| |now apply near_exact]. 
  apply Rle_trans with (/ 2 ^ 900); [apply moderate_tiny|]. pose proof (ipow2_le 0 900 ltac:(lia)) as H1. rewrite pow_O, Rinv_1 in H1.
  pose proof PI2_1. lra.
Qed.
Lemma rng_pi : rng 2 PI.
Proof. pose proof PI_4. pose proof PI2_1. split; simpl; lra. Qed.
Lemma good_pi : good 1 2 np_pi PI.
Proof. split; [apply near_pi|apply rng_pi]. Qed.

(** ** 1 + y * y with y = (x - l) / s, also if it underflows *)
Lemma near_dev l s W x k : (k <= 45)%nat -> double x -> double l -> near k s W -> let y := fquo (fsub x l) s in
  near (5 + (k + k)) (fmul y y) (((x - l) / W) ^ 2) \/ (((x - l) / W) ^ 2 <= / 2 ^ 480 /\ 0 <= fmul y y <= 27 * / 2 ^ 480).
Proof.
  intros Hk Dx Dl NS y. assert (PS : 0 < W) by apply NS. pose proof (near_pos _ _ _ NS) as Ps.
  destruct (fsub_error x l Dx Dl) as (e & He & Es). set (D := x - l) in *. pose proof u_pos as U. pose proof u_tiny as U2.
  destruct (Rle_dec (/ 2 ^ 480) (Rabs (D / W))) as [L|L].
  - (* no underflow *)
    assert (ND : near 1 (Rabs (fsub x l)) (Rabs D)).
    { assert (HD : 0 < Rabs D). { apply Rabs_pos_lt. intros Z. rewrite Z in L. unfold Rdiv in L. rewrite Rmult_0_l, Rabs_R0 in L. pose proof (ipow2_pos 480). lra. }
      rewrite Es, Rabs_mult. apply Rabs_le_inv in He. rewrite (Rabs_pos_eq (1 + e)) by lra. apply near_err; [now apply Rabs_le|now apply near_exact]. }
    assert (Ny : near (S (1 + k)) (Rabs y) (Rabs (D / W))).
    { unfold y, fquo. replace (Rabs (rnd (fsub x l / s))) with (rnd (Rabs (fsub x l) / s)).
      2: { unfold rnd. rewrite <- round_NE_abs by apply valid64. f_equal. unfold Rdiv. now rewrite Rabs_mult, Rabs_inv, (Rabs_pos_eq s) by lra. }
      unfold Rdiv at 2. rewrite Rabs_mult, Rabs_inv, (Rabs_pos_eq W) by lra. apply near_rnd; [lia| |now apply near_div].
      unfold Rdiv in L. rewrite Rabs_mult, Rabs_inv, (Rabs_pos_eq W) in L by lra. eapply Rle_trans; [apply moderate_tiny|]. eapply Rle_trans; [|exact L]. apply ipow2_le. lia. }
    assert (Nyy : near (S (S (1 + k) + S (1 + k))) (fmul y y) ((D / W) ^ 2)).
    { replace (fmul y y) with (fmul (Rabs y) (Rabs y)) by (unfold fmul; f_equal; rewrite <- Rabs_mult, Rabs_pos_eq by nra; reflexivity).
      replace ((D / W) ^ 2) with (Rabs (D / W) * Rabs (D / W)) by (rewrite <- Rabs_mult, Rabs_pos_eq by nra; ring).
      apply near_fmul; [lia| |exact Ny|exact Ny]. apply Rle_trans with (/ 2 ^ 480 * / 2 ^ 480); [|pose proof (ipow2_pos 480); apply Rmult_le_compat; lra].
      rewrite <- Rinv_mult, <- pow_add. unfold tiny. change (-1000)%Z with (- Z.of_nat 1000)%Z. rewrite bpow_neg. apply ipow2_le. lia. }
    left. eapply near_weaken; [|exact Nyy]. lia.
  - apply Rnot_le_lt in L. set (t := / 2 ^ 480) in *.
    assert (T : 0 < t <= / 2 ^ 60) by (split; [apply ipow2_pos|apply ipow2_le; lia]).
    assert (Y2 : (D / W) ^ 2 <= t). { rewrite <- (Rabs_pos_eq ((D / W) ^ 2)) by apply pow2_ge_0. rewrite <- RPow_abs. pose proof (Rabs_pos (D / W)). assert (/ 2 ^ 60 <= 1) by (rewrite <- Rinv_1; apply Rinv_le_contravar; [lra|apply pow_R1_Rle; lra]). nra. }
    assert (E0 : 0 < eta <= t).
    { split; [apply eta_pos|]. unfold eta. change (-1074)%Z with (- Z.of_nat 1074)%Z. rewrite bpow_neg. pose proof (ipow2_le 480 1074 ltac:(lia)). pose proof (ipow2_pos 1074). unfold t. lra. }
    assert (Yb : Rabs y <= 5 * t).
    { unfold y, fquo. eapply Rle_trans; [apply rnd_abs_le|].
      assert (Rabs (fsub x l / s) <= 3 * t); [|nra].
      rewrite Es. unfold Rdiv in L |- *. rewrite !Rabs_mult, Rabs_inv, (Rabs_pos_eq s) by lra. rewrite Rabs_mult, Rabs_inv, (Rabs_pos_eq W) in L by lra.
      apply Rabs_le_inv in He. rewrite (Rabs_pos_eq (1 + e)) by lra.
      destruct (near_inv _ _ _ NS) as (H1 & _ & H3). pose proof (half_le_q k ltac:(lia)) as Q.
      assert (Is : 0 < / s) by now apply Rinv_0_lt_compat. assert (/ s <= 2 * / W) by nra.
      assert (Rabs D * / s <= 2 * t). { apply Rle_trans with (Rabs D * (2 * / W)); [apply Rmult_le_compat_l; [apply Rabs_pos|assumption]|]. nra. }
      assert (0 <= Rabs D * / s) by (apply Rmult_le_pos; [apply Rabs_pos|lra]). nra. }
    assert (Z0 : 0 <= fmul y y) by (apply rnd_nonneg; nra).
    assert (T1 : / 2 ^ 60 <= / 1024) by (replace 1024 with (2 ^ 10) by ring; apply ipow2_le; lia).
    assert (Z1 : fmul y y <= 27 * t).
    { pose proof (rnd_abs_le (y * y)) as K. rewrite (Rabs_pos_eq (rnd _)) in K by exact Z0. rewrite Rabs_mult in K. fold (fmul y y) in K. pose proof (Rabs_pos y).
      assert (Rabs y * Rabs y <= 25 * t * t) by nra. nra. }
    right. split; [exact Y2|split; [exact Z0|exact Z1]].
Qed.
Lemma t_u : 27 * / 2 ^ 480 <= u.
Proof.
  unfold u. apply Rle_trans with (32 * / 2 ^ 480); [pose proof (ipow2_pos 480); lra|]. replace (32 * / 2 ^ 480) with (/ 2 ^ 475); [apply ipow2_le; lia|].
      change 480%nat with (475 + 5)%nat. rewrite pow_add, Rinv_mult. replace (2 ^ 5) with 32 by ring. field. 
Qed.
Lemma near_lorentz l s W x k : (k <= 45)%nat -> double x -> double l -> near k s W ->
  let y := fquo (fsub x l) s in near (6 + (k + k)) (fadd 1 (fmul y y)) (1 + ((x - l) / W) ^ 2).
Proof.
  intros Hk Dx Dl NS y. assert (Dy : double (fmul y y)) by apply rnd_double. destruct (near_dev l s W x k Hk Dx Dl NS) as [N|(Y2 & Z0 & Z1)].
  - fold y in N. apply near_fadd; [exact double_1|exact Dy| |exact N]. eapply near_weaken; [|apply near_exact; lra]. lia.
  - fold y in Z0, Z1. pose proof t_u as T2. pose proof u_pos. destruct (fadd_error 1 (fmul y y) double_1 Dy) as (e' & He' & ->). pose proof (ipow2_pos 480). set (t := / 2 ^ 480) in *.
    pose proof (pow2_ge_0 ((x - l) / W)) as Y0. set (z := ((x - l) / W) ^ 2) in *. set (y2 := fmul y y) in *.
    apply (near_weaken 2); [lia|]. apply near_err; [exact He'|]. apply (near_rel 1); [rewrite pow_1; unfold q; lra|lra|].
    apply Rabs_le. split; nra.
Qed.
Lemma rng_lorentz n m D W : rng m W -> Rabs D <= 2 ^ n -> rng (S (n + m + (n + m))) (1 + (D / W) ^ 2).
Proof.
  intros H B. pose proof (rng_pos _ _ H) as PW. pose proof (pow2_ge_0 (D / W)) as Y0. pose proof (ipow2_pos m).
  split.
  - pose proof (ipow2_le 0 (S (n + m + (n + m))) ltac:(lia)) as K. rewrite pow_O, Rinv_1 in K. lra.
  - assert (Y : (D / W) ^ 2 <= 2 ^ (n + m + (n + m))).
    { rewrite <- (Rabs_pos_eq ((D / W) ^ 2)) by exact Y0. replace ((D / W) ^ 2) with ((D / W) * (D / W)) by ring. rewrite Rabs_mult, pow_add. 
      assert (Rabs (D / W) <= 2 ^ (n + m)). { unfold Rdiv. rewrite Rabs_mult, Rabs_inv, (Rabs_pos_eq W), pow_add by lra. destruct (rng_inv _ _ H) as [K1 K2].
        apply Rmult_le_compat; [apply Rabs_pos|lra|exact B|exact K2]. }
      apply Rmult_le_compat; try apply Rabs_pos; assumption. }
    rewrite <- (tech_pow_Rmult 2). assert (1 <= 2 ^ (n + m + (n + m))) by (apply pow_R1_Rle; lra). lra.
Qed.

(** ** The Lorentz profile *)
Lemma fcauchy_good l s x w : double x -> double l -> plausible w -> s = fmul (1 / 2) w -> Rabs (x - l) <= 2 ^ 63 ->
  exists p, fcauchy_pdf l s x = Ok p /\ good 13 318 p (cauchy_pdf l (1 / 2 * w) x).
Proof.
  intros Dx Dl P -> B.
  assert (Gh : good 0 1 (1 / 2) (1 / 2)) by (apply good_exact; split; simpl; lra).
  assert (Gs : good 1 61 (fmul (1 / 2) w) (1 / 2 * w)).
  { apply (good_fmul 0 1 0 60); [lia|lia|exact Gh|]. apply good_exact. exact P. }
  unfold fcauchy_pdf. destruct (Rlt_dec 0 _) as [_|N]; [|elim N; destruct Gs as [K _]; apply (near_pos _ _ _ K)].
  eexists. split; [reflexivity|]. destruct Gs as [Ns Rs].
  set (W := 1 / 2 * w) in *. set (s := fmul (1 / 2) w) in *.
  replace (cauchy_pdf l W x) with (1 / PI / (1 + ((x - l) / W) ^ 2) / W).
  2: { unfold cauchy_pdf. pose proof PI_RGT_0. pose proof (rng_pos _ _ Rs). pose proof (pow2_ge_0 ((x - l) / W)). assert (PQ : 0 < 1 + ((x - l) / W) ^ 2) by lra. set (z := 1 + ((x - l) / W) ^ 2) in *. clearbody z. field. split; [|split]; lra. }
  assert (G1 : good 2 2 (fquo 1 np_pi) (1 / PI)).
  { apply (good_fquo 0 0 1 2); [lia|lia| |apply good_pi]. apply good_exact, rng_one. }
  pose proof (near_lorentz l s W x 1 ltac:(lia) Dx Dl Ns) as NL. cbv zeta in NL.
  pose proof (rng_lorentz 63 61 (x - l) W Rs B) as RL.
  eapply good_weaken; [| |apply (good_fquo 11 251 1 61); [lia|lia| |split; [exact Ns|exact Rs]]]; [lia|lia|].
  eapply good_weaken; [| |apply (good_fquo 2 2 8 249); [lia|lia|exact G1|split; [exact NL|exact RL]]]; lia.
Qed.

(** ** The energy-integrated cross section *)
Lemma good_factor a b : (0 <= a < 2 ^ 10)%Z -> (0 <= b < 2 ^ 10)%Z ->
  fadd (IZR a) 1 = IZR a + 1 /\ 0 < IZR b + 1 /\ good 1 20 (fquo (fadd (IZR b) 1) (fadd (IZR a) 1)) ((IZR b + 1) / (IZR a + 1)).
Proof.
  intros A B. assert (E : forall z, (0 <= z < 2 ^ 10)%Z -> fadd (IZR z) 1 = IZR z + 1 /\ rng 10 (IZR z + 1)).
  { intros z Z. split.
    - unfold fadd. rewrite <- plus_IZR. apply rnd_id. apply double_IZR. lia.
    - rewrite <- plus_IZR. assert (1 <= IZR (z + 1) <= 1024) by (split; apply IZR_le; lia). split; [|simpl; lra]. pose proof (ipow2_le 0 10 ltac:(lia)) as K. rewrite pow_O, Rinv_1 in K. lra. }
  destruct (E a A) as [E1 R1]. destruct (E b B) as [E2 R2]. split; [exact E1|]. split; [eapply rng_pos; eassumption|].
  rewrite E1, E2. apply (good_fquo 0 10 0 10); [lia|lia|now apply good_exact|now apply good_exact].
Qed.

Section BW.
Context (c : clib) (k : constants) (i m : state) (fin : option state).
Hypothesis HC : clib_ok c.
Hypothesis HF : floats k i m fin.
Let D : R := st_excitation_energy m - st_excitation_energy i.
Let Er : R := fsub (st_excitation_energy m) (st_excitation_energy i).

Lemma Er_props : double Er /\ Rabs (Er - D) <= u * D /\ rng 61 Er.
Proof.
  destruct HF as (_ & _ & _ & D1 & D2 & P & _). fold D in P.
  split; [apply rnd_double|]. destruct (fsub_error _ _ D2 D1) as (e & He & E). fold Er in E. fold D in E.
  apply Rabs_le_inv in He. pose proof u_pos. pose proof u_tiny.
  assert (PD : 0 < D) by (eapply (rng_pos 60); exact P). rewrite E. split.
  - replace (D * (1 + e) - D) with (e * D) by ring. rewrite Rabs_mult, (Rabs_pos_eq D) by lra. apply Rmult_le_compat_r; [lra|]. now apply Rabs_le.
  - destruct P as [P1 P2]. unfold rng. replace (2 ^ 61) with (2 * 2 ^ 60) by (rewrite <- tech_pow_Rmult; reflexivity). rewrite Rinv_mult. pose proof (ipow2_pos 60). split; nra.
Qed.

Lemma fResonance_good : exists r Ir w, Resonance k i (with_energy m (st_excitation_energy i + Er)) fin NoRecoil = Ok r /\
  fResonance c k i m fin NoRecoil = Ok (Er, Ir) /\ r_energy r = Er /\ width m = Ok w /\ plausible w /\
  good 16 446 Ir (r_integrated r).
Proof.
  destruct HF as (Ph & Ji & Jm & D1 & D2 & P & (d & w & Hd & Pw & Hg)).
  destruct Er_props as (DE & _ & RE). destruct (good_factor _ _ Ji Jm) as (F1 & _ & GF).
  destruct (Hg i (or_introl eq_refl)) as (g & Eg & Pg).
  assert (W : width m = Ok w) by (unfold width; now rewrite Hd).
  assert (PW : partial_widths m = Ok d) by (unfold partial_widths; now rewrite Hd).
  assert (PD : IZR (st_two_J i) + 1 <> 0).
  { destruct Ji as [J _]. apply IZR_le in J. lra. }
  assert (BR : exists fb b, get_final_state_branching_ratio (with_energy m (st_excitation_energy i + Er)) fin = Ok b /\
     fget_final_state_branching_ratio m fin = Ok fb /\ good 1 120 fb b).
  { destruct fin as [f|].
    - destruct (Hg f (or_intror eq_refl)) as (h & Eh & Ph'). exists (fquo h w), (h / w).
      assert (w <> 0) by (apply Rgt_not_eq; eapply (rng_pos 60); exact Pw).
      unfold get_final_state_branching_ratio, fget_final_state_branching_ratio. 
      change (partial_widths (with_energy _ _)) with (partial_widths m). change (width (with_energy _ _)) with (width m).
      rewrite PW, W. cbn [bind]. rewrite Eh. cbn [bind]. unfold fdiv. destruct (Req_EM_T w 0); [contradiction|]. split; [reflexivity|]. split; [reflexivity|].
      apply (good_fquo 0 60 0 60); [lia|lia|now apply good_exact|now apply good_exact].
    - exists 1, 1. split; [reflexivity|]. split; [reflexivity|]. apply (good_weaken 0 0); [lia|lia|]. apply good_exact, rng_one. }
  destruct BR as (fb & b & B1 & B2 & B3).
  assert (GC : good 7 124 (c_square c (fmul np_pi (k_hbarc k))) ((PI * k_hbarc k) ^ 2)).
  { apply (good_square c 2 62); [exact HC|lia|lia|apply rnd_double|]. apply (good_fmul 1 2 0 60); [lia|lia|apply good_pi|now apply good_exact]. }
  assert (GE : good 3 122 (c_square c Er) (Er ^ 2)).
  { apply (good_square c 0 61); [exact HC|lia|lia|exact DE|now apply good_exact]. }
  assert (GI : good 16 446 (fmul (fmul (fmul (fquo (c_square c (fmul np_pi (k_hbarc k))) (c_square c Er))
      (fquo (fadd (IZR (st_two_J m)) 1) (fadd (IZR (st_two_J i)) 1))) g) fb)
      ((PI * k_hbarc k) ^ 2 / Er ^ 2 * ((IZR (st_two_J m) + 1) / (IZR (st_two_J i) + 1)) * g * b)).
  { apply (good_fmul 14 326 1 120); [lia|lia| |exact B3].
    apply (good_fmul 13 266 0 60); [lia|lia| |now apply good_exact].
    apply (good_fmul 11 246 1 20); [lia|lia| |exact GF]. apply (good_fquo 7 124 3 122); [lia|lia|exact GC|exact GE]. }
  unfold Resonance, fResonance, NoRecoil. change (st_excitation_energy (with_energy _ ?e)) with e.
  replace (st_excitation_energy i + Er - st_excitation_energy i) with Er by ring. fold Er. cbn [bind].
  unfold get_statistical_factor, fget_statistical_factor. change (st_two_J (with_energy m _)) with (st_two_J m).
  unfold fdiv at 1. rewrite F1. destruct (Req_EM_T (IZR (st_two_J i) + 1) 0); [contradiction|]. cbn [bind]. rewrite B1, B2. cbn [bind].
  unfold get_energy_integrated_cross_section, fget_energy_integrated_cross_section. change (partial_widths (with_energy _ _)) with (partial_widths m).
  rewrite PW. unfold fdiv. destruct (Req_EM_T (Er ^ 2) 0) as [Z|_]; [elim (Rgt_not_eq _ _ (rng_pos _ _ (proj2 GE)) Z)|].
  destruct (Req_EM_T (c_square c Er) 0) as [Z|_]; [elim (Rgt_not_eq _ _ (near_pos _ _ _ (proj1 GE)) Z)|].
  cbn [bind]. rewrite Eg. cbn [bind]. eexists. eexists. exists w. split; [reflexivity|]. split; [reflexivity|]. split; [reflexivity|]. split; [exact W|]. split; [exact Pw|].
  rewrite F1 in GI. exact GI.
Qed.

Lemma fBreitWigner_good E (a : bool) : double E -> Rabs E <= 2 ^ 60 -> 
  exists r s v, BreitWigner k i (with_energy m (st_excitation_energy i + Er)) fin = Ok r /\ r_energy r = Er /\
    res_call r (if a then E else fadd E Er) true = Ok s /\ fBreitWigner_call c k i m fin E a = Ok v /\
    0 < s /\ Rabs (v - s) <= 32 * u * s.
Proof.
  intros DE BE. destruct fResonance_good as (r & Ir & w & H1 & H2 & H3 & H4 & H5 & H6). destruct Er_props as (DEr & _ & RE).
  set (x := if a then E else fadd E Er).
  assert (Dx : double x) by (unfold x; destruct a; [exact DE|apply rnd_double]).
  assert (Bx : Rabs (x - Er) <= 2 ^ 63).
  { pose proof u_pos. pose proof u_tiny. destruct RE as [R1 R2]. pose proof (ipow2_pos 61). assert (0 < 2 ^ 60) by (apply pow_lt; lra).
    replace (2 ^ 61) with (2 * 2 ^ 60) in R2 by (rewrite <- tech_pow_Rmult; reflexivity). replace (2 ^ 63) with (8 * 2 ^ 60) by (change 63%nat with (3 + 60)%nat; rewrite pow_add; ring).
    apply Rabs_le_inv in BE. unfold x. destruct a.
    - apply Rabs_le. lra.
    - destruct (fadd_error E Er DE DEr) as (e & He & ->). apply Rabs_le_inv in He. apply Rabs_le. split; nra. }
  destruct (fcauchy_good Er (fmul (1 / 2) w) x w Dx DEr H5 eq_refl Bx) as (p & P1 & P2).
  exists (with_dist r cauchy [Er; 1 / 2 * w]), (r_integrated r * cauchy_pdf Er (1 / 2 * w) x), (fmul Ir p).
  split. { unfold BreitWigner. rewrite H1. cbn [bind]. change (width (with_energy _ _)) with (width m). rewrite H4. cbn [bind]. now rewrite H3. }
  split; [exact H3|].
  assert (PW : 0 < 1 / 2 * w) by (pose proof (rng_pos 60 w H5); lra).
  split. { unfold res_call. cbn. destruct (Rlt_dec 0 (1 / 2 * w)); [reflexivity|contradiction]. }
  split. { unfold fBreitWigner_call. rewrite H2. cbn [bind]. rewrite H4. cbn [bind]. unfold fres_call. fold x. cbv zeta. rewrite P1. reflexivity. }
  pose proof (good_fmul 16 446 13 318 Ir _ p _ ltac:(lia) ltac:(lia) H6 P2) as G.
  split; [eapply rng_pos; apply G|]. destruct G as [N _]. apply near_bound in N; [|lia]. eapply Rle_trans; [exact N|].
  pose proof u_pos. assert (0 < r_integrated r * cauchy_pdf Er (1 / 2 * w) x). { apply Rmult_lt_0_compat; eapply rng_pos; [apply H6|apply P2]. }
  replace (INR (S (16 + 13)) + 1) with 31 by (simpl; ring). nra.
Qed.
End BW.
