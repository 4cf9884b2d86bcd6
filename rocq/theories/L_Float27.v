(** Rounding in the parameters of the pseudo-Voigt distribution. *)
From Coq Require Import Reals List ZArith Lra Lia Psatz.
From Flocq Require Import Core.
From Verif Require Import Py Spec M_Num M_Thermal M_Dist M_Resonance M_PseudoVoigt M_Float S_Float M_Float4 S_Float4 M_Float6 S_Float6 M_Float8 S_Float8
  S_Resonance S_PseudoVoigt L_PseudoVoigt L_Float L_Float3 L_Float7 L_Float9 L_Float11.
Import ListNotations.
Open Scope R_scope.

(** ** Numbers that may vanish *)
Definition good0 (k n : nat) (v V : R) : Prop := good k n v V \/ v = 0 /\ V = 0.
Lemma good0_weaken k n k' n' v V : (k <= k')%nat -> (n <= n')%nat -> good0 k n v V -> good0 k' n' v V.
Proof. intros A B [H|H]; [left; eapply good_weaken; eassumption|now right]. Qed.
Lemma good0_fmul k n j m v V w W : (k + j <= 20 * 1000)%nat -> (n + m <= 900)%nat -> good0 k n v V -> good0 j m w W -> good0 (S (k + j)) (n + m) (fmul v w) (V * W).
Proof.
  intros A B [H|[-> ->]] [H'|[-> ->]]; [left; now apply goodb_fmul|right..]; unfold fmul; rewrite ?Rmult_0_r, ?Rmult_0_l; split; try reflexivity; apply rnd_0.
Qed.
Lemma good0_fquo k n j m v V w W : (k + j <= 20 * 1000)%nat -> (n + m <= 900)%nat -> good0 k n v V -> good j m w W -> good0 (S (k + j)) (n + m) (fquo v w) (V / W).
Proof.
  intros A B [H|[-> ->]] H'; [left; now apply goodb_fquo|right]. unfold fquo, Rdiv. rewrite !Rmult_0_l. split; [apply rnd_0|reflexivity].
Qed.
Lemma rng_add n x y : rng n x -> rng n y -> rng (S n) (x + y).
Proof.
  intros [A B] [C D]. pose proof (ipow2_pos n). split; [|rewrite <- (tech_pow_Rmult 2); lra].
  pose proof (ipow2_le n (S n) ltac:(lia)). lra.
Qed.
Lemma good0_fadd k n v V w W : double v -> double w -> good0 k n v V -> good0 k n w W -> good0 (S k) (S n) (fadd v w) (V + W).
Proof.
  intros Dv Dw [[N R]|[-> ->]] [[N' R']|[-> ->]].
  - left. split; [now apply near_fadd|now apply rng_add].
  - left. unfold fadd. rewrite !Rplus_0_r, rnd_id by assumption. split; [eapply near_weaken; [|eassumption]; lia|eapply rng_weaken; [|eassumption]; lia].
  - left. unfold fadd. rewrite !Rplus_0_l, rnd_id by assumption. split; [eapply near_weaken; [|eassumption]; lia|eapply rng_weaken; [|eassumption]; lia].
  - right. unfold fadd. rewrite Rplus_0_l. split; [apply rnd_0|reflexivity].
Qed.
Lemma good0_bound k n v V : (k <= 20 * 1000)%nat -> good0 k n v V -> 0 <= V /\ Rabs (v - V) <= (INR k + 1) * u * V.
Proof.
  intros A [[N R]|[-> ->]].
  - split; [left; apply (rng_pos _ _ R)|now apply near_boundb].
  - rewrite Rminus_0_r, Rmult_0_r, Rabs_R0. lra.
Qed.
Lemma near_relb c v V k : c + 1 <= INR k -> (k <= 20 * 1000)%nat -> 0 < V -> Rabs (v - V) <= c * u * V -> near k v V.
Proof.
  intros Hc Hk PV H. apply (near_rel c); auto. pose proof (q_exp k) as Q. pose proof u_pos as U. pose proof u_30 as U3. 
  apply le_INR in Hk. rewrite mult_INR in Hk. replace (INR 20) with 20 in Hk by (rewrite INR_IZR_INZ; reflexivity). replace (INR 1000) with 1000 in Hk by (rewrite INR_IZR_INZ; reflexivity).
  set (n := INR k) in *. pose proof (pos_INR k : 0 <= n) as n0. set (z := n * u) in *. assert (z0 : 0 <= z) by (unfold z; nra).
  assert (E : exp (- z) <= / (1 + z)). { rewrite exp_Ropp. apply Rinv_le_contravar; [lra|]. destruct (Req_dec z 0) as [->|]; [rewrite exp_0; lra|]. left. apply exp_ineq1. lra. }
  assert (I : / (1 + z) <= 1 - z + z * z). { apply (Rmult_le_reg_r (1 + z)); [lra|]. rewrite Rinv_l by lra. assert (0 <= z * z * z) by (apply Rmult_le_pos; nra). nra. }
  assert (z * z <= u). { unfold z. assert (n * n <= 400000000) by nra. assert (n * n * u <= 1) by nra. nra. }
  unfold z in *. nra.
Qed.

(** ** The Doppler width *)
Lemma doppler_good0 k E w amu T : pv_floats k E w amu T -> exists d d',
  get_doppler_width k {| mb_amu := amu; mb_effective_temperature := T |} E = Ok d /\
  fget_doppler_width k {| mb_amu := amu; mb_effective_temperature := T |} E = Ok d' /\ good0 5 60 d' d /\ (d = 0 -> T = 0).
Proof.
  intros (DE & RE & Dw & Pk & Pu & Pa & HT & _). destruct HT as [->|(PT & PD)].
  - exists 0, 0. 
    assert (GD : good 1 120 (fmul amu (k_u_MeV k)) (amu * k_u_MeV k)) by (apply (good_fmul 0 60 0 60); [lia|lia|now apply good_exact|now apply good_exact]).
    unfold get_doppler_width, fget_doppler_width, fdiv, np_sqrt. cbn [mb_amu mb_effective_temperature].
    destruct (Req_EM_T (amu * k_u_MeV k) 0) as [Z|_]; [elim (Rgt_not_eq _ _ (rng_pos _ _ (proj2 GD)) Z)|].
    destruct (Req_EM_T (fmul amu (k_u_MeV k)) 0) as [Z|_]; [elim (Rgt_not_eq _ _ (near_pos _ _ _ (proj1 GD)) Z)|]. cbn [bind].
    replace (2 * k_kB_eV k * / 10 ^ 6 * 0 / (amu * k_u_MeV k)) with 0 by (unfold Rdiv; ring).
    assert (Z : forall a b, fquo (fmul a 0) b = 0) by (intros; unfold fquo, fmul, Rdiv; rewrite Rmult_0_r, rnd_0, Rmult_0_l; apply rnd_0).
    rewrite Z. destruct (Rlt_dec 0 0); [lra|]. cbn [bind]. unfold fsqrt, fmul. rewrite sqrt_0, rnd_0, Rmult_0_r, rnd_0.
    repeat split. right. auto.
  - destruct (fdoppler_good k amu T E (conj Pk (conj Pu (conj Pa PT))) RE) as (d & d' & H1 & H2 & [N R]).
    exists d, d'. split; [exact H1|]. split; [exact H2|]. split; [left; split; [exact N|exact (PD d H1)]|]. intros ->. pose proof (rng_pos _ _ R). lra.
Qed.

(** ** Gamma *)
Lemma fifth : rnd (1 / 5) = 3602879701896397 / 18014398509481984 /\ double (rnd (1 / 5)).
Proof.
  split; [|apply rnd_double]. rewrite (rnd_lit _ 7205759403792794 (-55) (/ 36028797018963968)); [lra|lia|lia|lia|reflexivity|lra..].
Qed.
Lemma ln_rng n x : rng n x -> Rabs (ln x) <= INR n * ln 2.
Proof.
  intros H. pose proof (rng_pos _ _ H) as P. destruct H as [A B]. pose proof (pow2_pos n) as P2. rewrite <- ln_pow by lra.
  apply Rabs_le. split.
  - rewrite <- ln_Rinv by exact P2. destruct A as [A|A]; [left; apply ln_increasing; [now apply Rinv_0_lt_compat|exact A]|right; now rewrite A].
  - destruct B as [B|B]; [left; now apply ln_increasing|right; now rewrite B].
Qed.
Lemma near_fifth k x X G : near (5 * k) x X -> 0 < G -> G ^ 5 = X -> near k (Rpower x (1 / 5)) G.
Proof.
  intros N PG E. pose proof (near_pos _ _ _ N) as Px. destruct N as (P & H1 & H2). 
  assert (P5 : 0 < Rpower x (1 / 5)) by apply exp_pos. set (y := Rpower x (1 / 5)) in *.
  assert (Y : y ^ 5 = x).
  { unfold y. rewrite <- Rpower_pow by exact P5. fold y. unfold y. rewrite Rpower_mult. replace (1 / 5 * INR 5) with 1 by (simpl; field). now apply Rpower_1. }
  pose proof (qk_pos k) as Q. rewrite <- Y, <- E, Nat.mul_comm, pow_mult, <- Rpow_mult_distr in H1, H2.
  split; [exact PG|]. split; apply pow5_le; try exact H1; try exact H2; try lra; apply Rmult_le_pos; lra.
Qed.
Lemma rng_fifth k x : 0 < x -> rng (5 * k) (x ^ 5) -> rng k x.
Proof.
  intros P [A B]. pose proof (pow2_pos k) as P2. pose proof (ipow2_pos k) as P3. rewrite Nat.mul_comm, pow_mult in A, B. rewrite <- pow_inv in A.
  split; apply pow5_le; try assumption; lra.
Qed.
Lemma near_Rpower x n : rng 316 x -> INR n = 23 -> near n (Rpower x (rnd (1 / 5))) (Rpower x (1 / 5)).
Proof.
  intros R Hn. unfold Rpower. apply near_exp. rewrite Hn. pose proof (ln_rng _ _ R) as L. pose proof ln2_lt. replace (INR 316) with 316 in L by (rewrite INR_IZR_INZ; reflexivity).
  rewrite <- Rmult_minus_distr_r, Rabs_mult. replace (rnd (1 / 5) - 1 / 5) with (u / 10) by (rewrite (proj1 fifth); unfold u; lra).
  pose proof u_pos. rewrite Rabs_pos_eq by lra. pose proof (Rabs_pos (ln x)). nra.
Qed.
Lemma lit_good n x : (n <= 900)%nat -> rng n x -> good 1 n (rnd x) x.
Proof. intros A R. apply good_rnd; [lia|exact A|now apply good_exact]. Qed.

Section Constants.
  Variable L : pvlib.
  Hypothesis HL : pvlib_ok L.
  Lemma log_good : good 4 2 (fmul 2 (fsqrt (v_log L 2))) (2 * sqrt (ln 2)).
  Proof.
    destruct HL as (_ & _ & H & _). change unit_roundoff with u in H. apply (goodb_fmul 0 1 3 1); [lia|lia|apply good_two|].
    apply (good_fsqrt 2 1); [lia|lia|]. pose proof ln2_pos as P. pose proof ln2_lt as P1. split.
    - apply (near_weaken 3); [lia|]. apply (near_rel 2); [exact pow_3|exact P|exact H].
    - pose proof ln_lt_2. split; simpl; lra.
  Qed.

  Lemma fGamma_good g' g w G : good0 10 62 g' g -> double w -> w = 0 \/ plausible w -> 0 < G -> G ^ 5 = Gamma5 g w ->
    exists G', fget_Gamma L g' w = Ok G' /\ double G' /\ good 38 63 G' G.
  Proof.
    intros Hg Dw Hw PG E. unfold fget_Gamma. cbv zeta.
    assert (W : good0 0 60 w w) by (destruct Hw as [->|H]; [right; auto|left; now apply good_exact]).
    assert (G2 : good0 21 124 (fmul g' g') (g * g)) by (apply (good0_fmul 10 62 10 62); [lia|lia|assumption|assumption]).
    assert (G4 : good0 43 248 (fmul (fmul g' g') (fmul g' g')) (g * g * (g * g))) by (apply (good0_fmul 21 124 21 124); [lia|lia|assumption|assumption]).
    assert (W2 : good0 1 120 (fmul w w) (w * w)) by (apply (good0_fmul 0 60 0 60); [lia|lia|assumption|assumption]).
    assert (W3 : good0 2 180 (fmul (fmul w w) w) (w * w * w)) by (apply (good0_fmul 1 120 0 60); [lia|lia|assumption|assumption]).
    assert (W4 : good0 3 240 (fmul (fmul w w) (fmul w w)) (w * w * (w * w))) by (apply (good0_fmul 1 120 1 120); [lia|lia|assumption|assumption]).
    set (g2 := fmul g' g') in *. set (g4 := fmul g2 g2) in *. set (w2 := fmul w w) in *. set (w3 := fmul w2 w) in *. set (w4 := fmul w2 w2) in *.
    assert (T1 : good0 54 310 (fmul g4 g') (g * g * (g * g) * g)) by (apply (good0_fmul 43 248 10 62); [lia|lia|assumption|assumption]).
    assert (T2 : good0 54 310 (fmul (fmul (rnd 2.69269) g4) w) (2.69269 * (g * g * (g * g)) * w)).
    { eapply good0_weaken; [| |apply (good0_fmul 45 250 0 60); [lia|lia| |exact W]]; [lia|lia|]. apply (good0_fmul 1 2 43 248); [lia|lia| |exact G4].
      left. apply lit_good; [lia|]. split; simpl; lra. }
    assert (T3 : good0 54 310 (fmul (fmul (fmul (rnd 2.42843) g2) g') w2) (2.42843 * (g * g) * g * (w * w))).
    { eapply good0_weaken; [| |apply (good0_fmul 34 188 1 120); [lia|lia| |exact W2]]; [lia|lia|]. apply (good0_fmul 23 126 10 62); [lia|lia| |exact Hg]. apply (good0_fmul 1 2 21 124); [lia|lia| |exact G2].
      left. apply lit_good; [lia|]. split; simpl; lra. }
    assert (T4 : good0 54 310 (fmul (fmul (rnd 4.47163) g2) w3) (4.47163 * (g * g) * (w * w * w))).
    { eapply good0_weaken; [| |apply (good0_fmul 23 127 2 180); [lia|lia| |exact W3]]; [lia|lia|]. apply (good0_fmul 1 3 21 124); [lia|lia| |exact G2].
      left. apply lit_good; [lia|]. split; simpl; lra. }
    assert (T5 : good0 54 310 (fmul (fmul (rnd 0.07842) g') w4) (0.07842 * g * (w * w * (w * w)))).
    { eapply good0_weaken; [| |apply (good0_fmul 12 66 3 240); [lia|lia| |exact W4]]; [lia|lia|]. apply (good0_fmul 1 4 10 62); [lia|lia| |exact Hg].
      left. apply lit_good; [lia|]. split; simpl; lra. }
    assert (T6 : good0 54 310 (fmul w4 w) (w * w * (w * w) * w)).
    { eapply good0_weaken; [| |apply (good0_fmul 3 240 0 60); [lia|lia|exact W4|exact W]]; lia. }
    set (t1 := fmul g4 g') in *. set (t2 := fmul (fmul (rnd 2.69269) g4) w) in *. set (t3 := fmul (fmul (fmul (rnd 2.42843) g2) g') w2) in *.
    set (t4 := fmul (fmul (rnd 4.47163) g2) w3) in *. set (t5 := fmul (fmul (rnd 0.07842) g') w4) in *. set (t6 := fmul w4 w) in *.
    assert (Da : forall a b, double (fadd a b)) by (intros; apply rnd_double). assert (Dm : double t1 /\ double t2 /\ double t3 /\ double t4 /\ double t5 /\ double t6) by (repeat split; apply rnd_double). destruct Dm as (Dm1 & Dm2 & Dm3 & Dm4 & Dm5 & Dm6).
    pose proof (good0_fadd _ _ _ _ _ _ Dm1 Dm2 T1 T2) as A1.
    pose proof (good0_fadd _ _ _ _ _ _ (Da _ _) Dm3 A1 (good0_weaken 54 310 55 311 _ _ ltac:(lia) ltac:(lia) T3)) as A2.
    pose proof (good0_fadd _ _ _ _ _ _ (Da _ _) Dm4 A2 (good0_weaken 54 310 56 312 _ _ ltac:(lia) ltac:(lia) T4)) as A3.
    pose proof (good0_fadd _ _ _ _ _ _ (Da _ _) Dm5 A3 (good0_weaken 54 310 57 313 _ _ ltac:(lia) ltac:(lia) T5)) as A4.
    pose proof (good0_fadd _ _ _ _ _ _ (Da _ _) Dm6 A4 (good0_weaken 54 310 58 314 _ _ ltac:(lia) ltac:(lia) T6)) as A5.
    set (sum := fadd _ t6) in *. match type of A5 with good0 _ _ _ ?X => replace X with (G ^ 5) in A5 by (rewrite E; unfold Gamma5; ring) end.
    assert (Ds : double sum) by apply rnd_double. clearbody sum. clear - HL PG A5 Ds.
    assert (P5 : 0 < G ^ 5) by now apply pow_lt. destruct A5 as [[N R]|[_ Z]]; [|lra]. pose proof (near_pos _ _ _ N) as Ps.
    destruct (Rlt_dec sum 0) as [Z|_]; [elim (Rlt_asym _ _ Z Ps)|]. destruct (Req_EM_T sum 0) as [Z|_]; [elim (Rgt_not_eq _ _ Ps Z)|]. eexists. split; [reflexivity|].
    assert (Rs : rng 316 sum).
    { destruct N as (_ & N1 & N2). destruct R as [R1 R2]. pose proof (half_le_qb 59 ltac:(lia)) as Q. pose proof (ipow2_pos 315). pose proof (pow2_pos 315).
      assert (/ 2 ^ 316 = / 2 ^ 315 * / 2) by (rewrite <- (tech_pow_Rmult 2 315), Rinv_mult; ring).
      split; [nra|]. rewrite <- (tech_pow_Rmult 2 315). nra. }
    destruct HL as (_ & _ & _ & HP & _). destruct fifth as [F1 F2].
    destruct (HP sum (rnd (1 / 5))) as [D1 D2]; [exact Ds|exact F2|apply (rng_weaken 316 400); [lia|exact Rs]|rewrite F1; lra|].
    change unit_roundoff with u in D2. split; [exact D1|]. split.
    - apply (near_trans 26 12) with (Rpower sum (1 / 5)).
      + apply (near_trans 3 23) with (Rpower sum (rnd (1 / 5))); [apply (near_rel 2); [exact pow_3|apply exp_pos|exact D2]|].
        apply near_Rpower; [exact Rs|simpl; ring].
      + apply near_fifth with (G ^ 5); auto. eapply near_weaken; [|exact N]. lia.
    - apply rng_fifth; [exact PG|exact R].
  Qed.
End Constants.

(** ** The mixing parameter *)
Lemma eta_frac r : eta_of r = 136603 / 100000 * r - 47719 / 100000 * r ^ 2 + 11116 / 100000 * r ^ 3.
Proof. reflexivity. Qed.
Lemma eta_ge r : 0 <= r <= 1 -> r <= eta_of r <= 137 / 100 * r.
Proof.
  intros H. rewrite eta_frac. assert (0 <= r * (1 - r) * (36603 / 100000 - 11116 / 100000 * r)) by (apply Rmult_le_pos; [apply Rmult_le_pos|]; lra).
  assert (0 <= r ^ 2 * (47719 / 100000 - 11116 / 100000 * r)) by (apply Rmult_le_pos; [apply pow2_ge_0|lra]). split; lra.
Qed.
Lemma feta_good G' G w : good 38 63 G' G -> double w -> w = 0 \/ plausible w -> w <= G ->
  exists e', fget_eta G' w = Ok e' /\ double e' /\ Rabs (e' - eta_of (w / G)) <= 116 * u * eta_of (w / G) /\ (w = 0 -> e' = 0) /\
  (w <> 0 -> rng 124 (eta_of (w / G))).
Proof.
  intros HG Dw Hw Le. pose proof (near_pos _ _ _ (proj1 HG)) as PG'. pose proof (rng_pos _ _ (proj2 HG)) as PG.
  assert (W0 : 0 <= w) by (destruct Hw as [->|H]; [lra|left; exact (rng_pos 60 _ H)]).
  unfold fget_eta. destruct (Req_EM_T G' 0) as [Z|_]; [lra|]. cbv zeta. eexists. split; [reflexivity|]. split; [apply rnd_double|].
  assert (W : good0 0 60 w w) by (destruct Hw as [->|H]; [right; auto|left; now apply good_exact]).
  assert (W2 : good0 1 120 (fmul w w) (w * w)) by (apply (good0_fmul 0 60 0 60); [lia|lia|assumption|assumption]).
  assert (W3 : good0 2 180 (fmul (fmul w w) w) (w * w * w)) by (apply (good0_fmul 1 120 0 60); [lia|lia|assumption|assumption]).
  assert (I : good0 39 63 (fquo 1 G') (1 / G)) by (left; apply (goodb_fquo 0 0 38 63); [lia|lia|apply good_exact, rng_one|exact HG]).
  assert (I2 : good0 79 126 (fmul (fquo 1 G') (fquo 1 G')) (1 / G * (1 / G))) by (apply (good0_fmul 39 63 39 63); [lia|lia|assumption|assumption]).
  set (w2 := fmul w w) in *. set (w3 := fmul w2 w) in *. set (i := fquo 1 G') in *. set (i2 := fmul i i) in *.
  assert (T1 : good0 42 124 (fmul (fmul (rnd 1.36603) w) i) (1.36603 * w * (1 / G))).
  { apply (good0_fmul 2 61 39 63); [lia|lia| |exact I]. apply (good0_fmul 1 1 0 60); [lia|lia| |exact W]. left. apply lit_good; [lia|]. split; simpl; lra. }
  assert (T2 : good0 83 248 (fmul (fmul (rnd 0.47719) w2) i2) (0.47719 * (w * w) * (1 / G * (1 / G)))).
  { apply (good0_fmul 3 122 79 126); [lia|lia| |exact I2]. apply (good0_fmul 1 2 1 120); [lia|lia| |exact W2]. left. apply lit_good; [lia|]. split; simpl; lra. }
  assert (T3 : good0 124 373 (fmul (fmul (fmul (rnd 0.11116) w3) i2) i) (0.11116 * (w * w * w) * (1 / G * (1 / G)) * (1 / G))).
  { apply (good0_fmul 84 310 39 63); [lia|lia| |exact I]. apply (good0_fmul 4 184 79 126); [lia|lia| |exact I2]. apply (good0_fmul 1 4 2 180); [lia|lia| |exact W3]. left. apply lit_good; [lia|]. split; simpl; lra. }
  set (t1 := fmul (fmul (rnd 1.36603) w) i) in *. set (t2 := fmul (fmul (rnd 0.47719) w2) i2) in *. set (t3 := fmul (fmul (fmul (rnd 0.11116) w3) i2) i) in *.
  assert (Dt : double t1 /\ double t2 /\ double t3) by (repeat split; apply rnd_double). destruct Dt as (Dt1 & Dt2 & Dt3).
  set (r := w / G). assert (R0 : 0 <= r <= 1).
  { unfold r. split; [apply Rmult_le_pos; [exact W0|left; now apply Rinv_0_lt_compat]|]. apply (Rmult_le_reg_r G); [exact PG|]. unfold Rdiv. rewrite Rmult_assoc, Rinv_l by lra. lra. }
  replace (1.36603 * w * (1 / G)) with (1.36603 * r) in T1 by (unfold r, Rdiv; ring).
  replace (0.47719 * (w * w) * (1 / G * (1 / G))) with (0.47719 * r ^ 2) in T2 by (unfold r, Rdiv; ring).
  replace (0.11116 * (w * w * w) * (1 / G * (1 / G)) * (1 / G)) with (0.11116 * r ^ 3) in T3 by (unfold r, Rdiv; ring).
  change 1.36603 with (136603 / 100000) in T1. change 0.47719 with (47719 / 100000) in T2. change 0.11116 with (11116 / 100000) in T3.
  clearbody t1 t2 t3. clear I I2 W2 W3 W. clearbody i2. clearbody i w3. clearbody w2.
  apply good0_bound in T1; [|lia]. apply good0_bound in T2; [|lia]. apply good0_bound in T3; [|lia].
  replace (INR 42 + 1) with 43 in T1 by (rewrite INR_IZR_INZ; simpl; ring). replace (INR 83 + 1) with 84 in T2 by (rewrite INR_IZR_INZ; simpl; ring). replace (INR 124 + 1) with 125 in T3 by (rewrite INR_IZR_INZ; simpl; ring).
  destruct T1 as [_ T1]. destruct T2 as [_ T2]. destruct T3 as [_ T3]. apply Rabs_le_inv in T1, T2, T3.
  pose proof u_pos as U. pose proof u_30 as U3. pose proof (eta_ge r R0) as B.
  assert (R2 : 0 <= r ^ 2 <= r) by nra. assert (R3 : 0 <= r ^ 3 <= r) by (replace (r ^ 3) with (r ^ 2 * r) by ring; nra).
  assert (UR : 0 <= u * r <= / 1000000000 * r) by nra. assert (U2 : 0 <= u * r ^ 2 <= u * r) by nra. assert (U4 : 0 <= u * r ^ 3 <= u * r) by nra.
  split; [|split].
  - destruct (fsub_error t1 t2 Dt1 Dt2) as (e & He & E1). destruct (fadd_error (fsub t1 t2) t3 (rnd_double _) Dt3) as (e2 & He2 & E2).
    rewrite E2, E1. apply Rabs_le_inv in He, He2. rewrite eta_frac in *.
    set (b := t1 - t2) in *. assert (Bb : - (2 * r) <= b <= 2 * r) by (unfold b; lra).
    assert (B1 : b * (1 + e) <= 136603 / 100000 * r - 47719 / 100000 * r ^ 2 + (1003 / 10) * (u * r)).
    { assert (b * e <= (13661 / 10000) * r * u); [|unfold b in *; lra].
      assert (b <= (13661 / 10000) * r) by (unfold b; lra). assert (- ((13661 / 10000) * r) <= b) by (unfold b; lra). nra. }
    assert (B2 : 136603 / 100000 * r - 47719 / 100000 * r ^ 2 - (1003 / 10) * (u * r) <= b * (1 + e)).
    { assert (- ((13661 / 10000) * r * u) <= b * e); [|unfold b in *; lra].
      assert (b <= (13661 / 10000) * r) by (unfold b; lra). assert (- ((13661 / 10000) * r) <= b) by (unfold b; lra). nra. }
    set (b2 := b * (1 + e) + t3) in *. assert (B3 : Rabs (b2 - (136603 / 100000 * r - 47719 / 100000 * r ^ 2 + 11116 / 100000 * r ^ 3)) <= (1143 / 10) * (u * r)) by (apply Rabs_le; unfold b2; lra).
    apply Rabs_le_inv in B3. assert (Bb2 : - (7 / 5 * r) <= b2 <= 7 / 5 * r) by lra.
    assert (- (7 / 5 * (u * r)) <= b2 * e2 <= 7 / 5 * (u * r)) by nra.
    assert (u * r <= u * (136603 / 100000 * r - 47719 / 100000 * r ^ 2 + 11116 / 100000 * r ^ 3)) by (apply Rmult_le_compat_l; lra).
    apply Rabs_le. lra.
  - intros Z. assert (r = 0) by (unfold r; rewrite Z; unfold Rdiv; ring). rewrite H in *.
    assert (t1 = 0) by lra. assert (t2 = 0) by lra. assert (t3 = 0) by lra. rewrite H0, H1, H2. unfold fadd, fsub. rewrite Rminus_0_r, rnd_0, Rplus_0_r. apply rnd_0.
  - intros NZ. destruct Hw as [Z|H]; [contradiction|]. pose proof (rng_div _ _ _ _ (H : rng 60 w) (proj2 HG)) as RR. fold r in RR. destruct RR as [RR _].
    pose proof (ipow2_le (60 + 63) 124 ltac:(lia)). split; [lra|]. pose proof (pow2_le 1 124 ltac:(lia)) as K. rewrite pow_1 in K. lra.
Qed.
