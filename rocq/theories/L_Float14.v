(** Accuracy of differential Klein-Nishina cross sections with rounding. *)
From Coq Require Import Reals List ZArith Lra Lia Psatz.
From Flocq Require Import Core.
From Verif Require Import Py Spec M_Num M_KleinNishina M_Float S_Float M_Float2 M_Float5 S_Float5
  L_Float L_Float2 L_Float3 L_Float7 L_Float9 L_Float10 L_Float11 L_Float13.
Import ListNotations.
Open Scope R_scope.

Lemma abs_add a b A B : Rabs a <= A -> Rabs b <= B -> Rabs (a + b) <= A + B.
Proof. intros HA HB. eapply Rle_trans; [apply Rabs_triang|]. lra. Qed.
Lemma abs_mul a b A B : Rabs a <= A -> Rabs b <= B -> Rabs (a * b) <= A * B.
Proof. intros HA HB. rewrite Rabs_mult. apply Rmult_le_compat; auto using Rabs_pos. Qed.
Lemma u_40 : 0 < u <= / 1099511627776.
Proof. split; [apply u_pos|]. replace 1099511627776 with (2 ^ 40) by ring. unfold u. apply ipow2_le. lia. Qed.
Lemma eta_u : 0 < eta <= u * / 1024.
Proof.
  destruct eta_lt as [E0 E1]. split; [exact E0|]. eapply Rle_trans; [exact E1|]. replace 1024 with (2 ^ 10) by ring. unfold u. rewrite <- Rinv_mult, <- pow_add. apply ipow2_le. lia.
Qed.
Lemma den_alg_w v c a e : 0 < v <= / 1000000 -> Rabs a <= 1 -> Rabs (a - c) <= 2 * v -> Rabs e <= v -> Rabs ((1 - a) * (1 + e) - (1 - c)) <= 4 * v.
Proof.
  intros V A C E. replace ((1 - a) * (1 + e) - (1 - c)) with (- (a - c) + (1 - a) * e) by ring. replace (4 * v) with (2 * v + 2 * v) by ring.
  apply abs_add; [now rewrite Rabs_Ropp|]. apply abs_mul; [|exact E]. apply Rabs_le_inv in A. apply Rabs_le. lra.
Qed.
Lemma den_alg_m v x w w' e : 0 < v <= / 1000000 -> 0 < x -> 0 <= w -> Rabs (w' - w) <= 4 * v -> Rabs e <= v ->
  Rabs (x * (1 + e) * w' - x * w) <= 401 / 100 * (v * x) + v * (x * w).
Proof.
  intros V X W D E. replace (x * (1 + e) * w' - x * w) with (x * ((1 + e) * (w' - w) + e * w)) by ring.
  replace (401 / 100 * (v * x) + v * (x * w)) with (x * (401 / 100 * v + v * w)) by ring. rewrite Rabs_mult, (Rabs_pos_eq x) by lra. apply Rmult_le_compat_l; [lra|]. apply abs_add.
  - apply Rle_trans with ((1 + v) * (4 * v)); [apply abs_mul; [|exact D]|nra]. apply Rabs_le_inv in E. apply Rabs_le. lra.
  - apply abs_mul; [exact E|]. rewrite Rabs_pos_eq by lra. lra.
Qed.
Lemma den_alg_r v x y z e h : 0 < v <= / 1000000 -> 0 < x -> 0 <= y -> Rabs (z - y) <= 401 / 100 * (v * x) + v * y -> Rabs e <= v -> Rabs h <= v / 1024 ->
  Rabs (z * (1 + e) + h - y) <= 402 / 100 * (v * x) + 201 / 100 * (v * y) + v / 1024.
Proof.
  intros V X Y D E Hh. replace (z * (1 + e) + h - y) with ((z - y) * (1 + e) + e * y + h) by ring.
  apply abs_add; [|exact Hh]. assert (0 < v * x) by (apply Rmult_lt_0_compat; lra). assert (0 <= v * y) by (apply Rmult_le_pos; lra).
  apply Rle_trans with ((401 / 100 * (v * x) + v * y) * (1 + v) + v * y).
  - apply abs_add; apply abs_mul; [exact D| |exact E|].
    + apply Rabs_le_inv in E. apply Rabs_le. lra.
    + rewrite Rabs_pos_eq; lra.
  - assert (v * x * v <= v * x * / 1000000) by (apply Rmult_le_compat_l; lra). assert (v * y * v <= v * y * / 1000000) by (apply Rmult_le_compat_l; lra). lra.
Qed.
Lemma den_alg_d v x y z e : 0 < v <= / 1000000 -> 0 < x -> 0 <= y -> Rabs (z - y) <= 402 / 100 * (v * x) + 201 / 100 * (v * y) + v / 1024 -> Rabs e <= v ->
  Rabs ((1 + z) * (1 + e) - (1 + y)) <= (43 / 10 * x + 34 / 10) * v * (1 + y).
Proof.
  intros V X Y D E. replace ((1 + z) * (1 + e) - (1 + y)) with ((z - y) * (1 + e) + e * (1 + y)) by ring.
  assert (0 < v * x) by (apply Rmult_lt_0_compat; lra). assert (0 <= v * y) by (apply Rmult_le_pos; lra).
  apply Rle_trans with ((402 / 100 * (v * x) + 201 / 100 * (v * y) + v / 1024) * (1 + v) + v * (1 + y)).
  - apply abs_add; apply abs_mul; [exact D| |exact E|].
    + apply Rabs_le_inv in E. apply Rabs_le. lra.
    + rewrite Rabs_pos_eq; lra.
  - assert (0 <= v * x * y) by (apply Rmult_le_pos; lra). replace ((43 / 10 * x + 34 / 10) * v * (1 + y)) with (43 / 10 * (v * x) + 43 / 10 * (v * x * y) + 34 / 10 * v + 34 / 10 * (v * y)) by ring.
    assert (v * x * v <= v * x * / 1000000) by (apply Rmult_le_compat_l; lra). assert (v * y * v <= v * y * / 1000000) by (apply Rmult_le_compat_l; lra). assert (v * v <= v * / 1000000) by (apply Rmult_le_compat_l; lra). lra.
Qed.

Ltac cnt := repeat (rewrite plus_INR || rewrite mult_INR || rewrite S_INR); change (INR 0) with 0; lra.
Lemma goodx_rnd k n v V : INR k * u <= / 8 -> (n <= 900)%nat -> good k n v V -> good (S k) n (rnd v) V.
Proof. intros A B [N G]. split; [apply near_rndx; try assumption; eapply rng_tiny; eassumption|assumption]. Qed.
Lemma goodx_fmul k n j m v V w W : INR (k + j) * u <= / 8 -> (n + m <= 900)%nat -> good k n v V -> good j m w W -> good (S (k + j)) (n + m) (fmul v w) (V * W).
Proof. intros A B [N G] [N' G']. apply goodx_rnd; [exact A|exact B|]. split; [now apply near_mult|now apply rng_mult]. Qed.
Lemma goodx_fquo k n j m v V w W : INR (k + j) * u <= / 8 -> (n + m <= 900)%nat -> good k n v V -> good j m w W -> good (S (k + j)) (n + m) (fquo v w) (V / W).
Proof. intros A B [N G] [N' G']. apply goodx_rnd; [exact A|exact B|]. split; [now apply near_div|now apply rng_div]. Qed.
(** [INR k * u] is small for [k] up to [2 ^ 26]. *)
Lemma count_u k : INR k <= 67108864 -> INR k * u <= / 134217728.
Proof. intros H. pose proof (pos_INR k). assert (U : u <= / 2 ^ 53) by (unfold u; lra). replace (2 ^ 53) with (67108864 * 134217728) in U by ring. pose proof u_pos. nra. Qed.
Lemma count_8 k : INR k <= 67108864 -> INR k * u <= / 8.
Proof. intros H. pose proof (count_u k H). lra. Qed.
Lemma near_boundy k v V : INR k <= 67108864 -> near k v V -> Rabs (v - V) <= (INR k + 1) * u * V.
Proof. intros H. pose proof (count_u k H) as C. pose proof (pos_INR k). pose proof u_pos. apply near_boundx; [lra|]. nra. Qed.
Lemma inv_sum r : 0 < r <= 1 -> 2 <= r + 1 / r <= 1 + 1 / r.
Proof.
  intros H. assert (P : r * (1 / r) = 1) by (field; lra). assert (0 < 1 / r) by (unfold Rdiv; rewrite Rmult_1_l; apply Rinv_0_lt_compat; lra). split; [|lra].
  assert (0 <= (1 - r) * (1 - r) * (1 / r)) by (apply Rmult_le_pos; [nra|lra]). nra.
Qed.

Section KN.
Context (m : alib) (k : constants).
Hypothesis Hm : alib_ok m.
Hypothesis Hk : rng 100 (k_me k).
Let me := k_me k.
Notation den := (den m k).

(** ** Accuracy of the ratio *)
Lemma den_err E t : double t -> / 2 ^ 100 <= E / me <= 2 ^ 20 ->
  let x := E / me in let d := 1 + x * (1 - cos t) in 1 <= d <= 1 + 2 * x /\ Rabs (den E t - d) <= (43 / 10 * x + 34 / 10) * u * d.
Proof.
  intros D H x d. pose proof u_40 as U. destruct Hm as (HC & _). destruct (HC t D) as (DC & BC & EC). change unit_roundoff with u in EC.
  pose proof (COS_bound t) as CB. 
  assert (X0 : 0 < x) by (pose proof (ipow2_pos 100); unfold x; lra).
  assert (W : 0 <= 1 - cos t <= 2) by lra. assert (Y : 0 <= x * (1 - cos t) <= x * 2) by (split; [apply Rmult_le_pos|apply Rmult_le_compat_l]; lra).
  split; [unfold d; lra|].
  assert (Nx : exists e, Rabs e <= u /\ fquo E me = x * (1 + e)). { destruct (rnd_error_normal x) as (e & He & Ee); [|now exists e]. rewrite Rabs_pos_eq by lra. apply Rle_trans with (/ 2 ^ 100); [|apply H]. rewrite <- bpow_neg. apply bpow_le. lia. }
  destruct Nx as (e1 & He1 & Ex).
  destruct (fsub_error 1 (a_cos m t) double_1 DC) as (e2 & He2 & Ew).
  destruct (rnd_error (fquo E me * fsub 1 (a_cos m t))) as (e3 & h & He3 & Hh & Em). fold (fmul (fquo E me) (fsub 1 (a_cos m t))) in Em.
  destruct (fadd_error 1 (fmul (fquo E me) (fsub 1 (a_cos m t))) double_1 (rnd_double _)) as (e4 & He4 & Ed). change (den E t = (1 + fmul (fquo E me) (fsub 1 (a_cos m t))) * (1 + e4)) in Ed.
  destruct eta_u as [E0 E2]. assert (Hh' : Rabs h <= u / 1024) by (unfold Rdiv; lra). assert (U' : 0 < u <= / 1000000) by lra.
  rewrite Ed. apply den_alg_d; [exact U'|exact X0|apply Y| |exact He4].
  rewrite Em. apply den_alg_r; [exact U'|exact X0|apply Y| |exact He3|exact Hh'].
  rewrite Ex. apply den_alg_m; [exact U'|exact X0|apply W| |exact He1].
  rewrite Ew. apply den_alg_w; [exact U'|exact BC|exact EC|exact He2].
Qed.
Lemma ratio_near E t n : double t -> / 2 ^ 100 <= E / me <= 2 ^ 20 -> 5 * (E / me) + 4 <= INR n -> INR n * u <= / 8 ->
  near (S n) (fquo 1 (den E t)) (1 / (1 + E / me * (1 - cos t))).
Proof.
  intros D H Hn Hu. destruct (den_err E t D H) as [D1 D2]. cbv zeta in *. set (x := E / me) in *. set (d := 1 + x * (1 - cos t)) in *.
  assert (X0 : 0 < x) by (pose proof (ipow2_pos 100); lra).
  assert (N : near n (den E t) d). { apply (near_rel (43 / 10 * x + 34 / 10)); [apply near_many; [exact Hu|lra]|lra|exact D2]. }
  apply near_rndx; [exact Hu| |].
  - apply (rng_tiny 102); [lia|]. assert (X : x <= 2 ^ 20) by apply H. assert (K : 1 + 2 * x <= 2 ^ 102). { apply Rle_trans with (2 ^ 22); [|apply pow2_le; lia]. replace (2 ^ 22) with (4 * 2 ^ 20) by (change 22%nat with (2 + 20)%nat; rewrite pow_add; ring). assert (1 <= 2 ^ 20) by (apply pow_R1_Rle; lra). lra. }
    unfold Rdiv. rewrite Rmult_1_l. apply rng_inv. split; [|lra]. apply Rle_trans with 1; [|lra]. apply (rng_one 102).
  - replace n with (0 + n)%nat by lia. apply near_div; [apply near_exact; lra|exact N].
Qed.

(** ** Accuracy of the cross section for unpolarised photons *)
Lemma square_err x y : Rabs x <= 1 -> Rabs y <= 1 -> Rabs (x - y) <= 2 * u -> Rabs (x ^ 2 - y ^ 2) <= 4 * u.
Proof.
  intros X Y D. replace (x ^ 2 - y ^ 2) with ((x + y) * (x - y)) by ring. replace (4 * u) with (2 * (2 * u)) by ring. apply abs_mul; [|exact D]. replace 2 with (1 + 1) by ring. now apply abs_add.
Qed.
Lemma sin2_err t : double t -> Rabs (a_square m (a_sin m t) - sin t ^ 2) <= 6 * u.
Proof.
  intros D. destruct Hm as (_ & HS & HQ). destruct (HS t D) as (D1 & B1 & E1). destruct (HQ _ D1 B1) as (_ & _ & E2). change unit_roundoff with u in *.
  replace (a_square m (a_sin m t) - sin t ^ 2) with ((a_square m (a_sin m t) - a_sin m t ^ 2) + (a_sin m t ^ 2 - sin t ^ 2)) by ring. replace (6 * u) with (2 * u + 4 * u) by ring.
  apply abs_add; [exact E2|]. apply square_err; [exact B1| |exact E1]. pose proof (SIN_bound t). apply Rabs_le. lra.
Qed.
Lemma cos2_err t : double t -> Rabs (a_square m (a_cos m t) - cos t ^ 2) <= 6 * u.
Proof.
  intros D. destruct Hm as (HC & _ & HQ). destruct (HC t D) as (D1 & B1 & E1). destruct (HQ _ D1 B1) as (_ & _ & E2). change unit_roundoff with u in *.
  replace (a_square m (a_cos m t) - cos t ^ 2) with ((a_square m (a_cos m t) - a_cos m t ^ 2) + (a_cos m t ^ 2 - cos t ^ 2)) by ring. replace (6 * u) with (2 * u + 4 * u) by ring.
  apply abs_add; [exact E2|]. apply square_err; [exact B1| |exact E1]. pose proof (COS_bound t). apply Rabs_le. lra.
Qed.
Lemma ratio_good E t n : double t -> / 2 ^ 100 <= E / me <= 2 ^ 20 -> 5 * (E / me) + 4 <= INR n -> INR n <= 67108864 ->
  let r := 1 / (1 + E / me * (1 - cos t)) in 0 < r <= 1 /\ good (S n) 22 (fquo 1 (den E t)) r.
Proof.
  intros D H Hn Hu r. destruct (den_err E t D H) as [D1 _]. cbv zeta in *. set (x := E / me) in *. 
  assert (X0 : 0 < x) by (pose proof (ipow2_pos 100); lra). set (d := 1 + x * (1 - cos t)) in *.
  assert (R0 : 0 < r <= 1). { unfold r, Rdiv. rewrite Rmult_1_l. split; [apply Rinv_0_lt_compat; lra|]. rewrite <- Rinv_1. apply Rinv_le_contravar; lra. }
  split; [exact R0|]. split; [apply ratio_near; auto using count_8|]. split; [|apply Rle_trans with 1; [lra|apply pow_R1_Rle; lra]].
  unfold r, Rdiv. rewrite Rmult_1_l. apply Rinv_le_contravar; [lra|]. replace (2 ^ 22) with (4 * 2 ^ 20) by (change 22%nat with (2 + 20)%nat; rewrite pow_add; ring). assert (1 <= 2 ^ 20) by (apply pow_R1_Rle; lra). lra.
Qed.
Lemma sum_good n r' r : double r' -> INR n <= 60000000 -> 0 < r <= 1 -> good (S n) 22 r' r -> near (S (S (S n))) (fadd r' (fquo 1 r')) (r + 1 / r).
Proof.
  intros D Hn R0 G. apply near_fadd; [exact D|apply rnd_double| |].
  - apply (near_weaken (S n)); [lia|apply G].
  - destruct (goodx_fquo 0 0 (S n) 22 1 1 r' r) as [K _]; [apply count_8; cnt|lia|apply good_exact, rng_one|exact G|exact K].
Qed.
Lemma bracket_near n S' S z' z c : INR n <= 10000000 -> double S' -> double z' -> 0 <= c <= 10 -> near n S' S -> 2 <= S -> 0 <= z <= 1 -> Rabs (z' - z) <= c * u ->
  near (3 * n + 3 + 13) (fsub S' z') (S - z).
Proof.
  intros Hn DS Dz Hc N S2 Z1 EZ. destruct (fsub_error S' z' DS Dz) as (e & He & ->). replace (3 * n + 3 + 13)%nat with (Datatypes.S (3 * n + 15)) by lia. apply near_err; [exact He|].
  apply near_boundy in N; [|lra]. apply (near_rel (2 * (INR n + 1) + 10)).
  - apply near_many; [apply count_8|]; rewrite plus_INR, mult_INR; simpl; pose proof (pos_INR n); lra.
  - lra.
  - replace (S' - z' - (S - z)) with ((S' - S) + - (z' - z)) by ring. pose proof (pos_INR n). pose proof u_pos.
    apply Rle_trans with ((INR n + 1) * u * S + c * u); [apply abs_add; [exact N|now rewrite Rabs_Ropp]|].
    assert (0 <= (INR n + 1) * u) by (apply Rmult_le_pos; lra). set (a := (INR n + 1) * u) in *. replace ((2 * (INR n + 1) + 10) * u) with (2 * a + 10 * u) by (unfold a; ring).
    assert (a * S <= a * (2 * (S - z))) by (apply Rmult_le_compat_l; lra). assert (c * u <= 10 * u) by (apply Rmult_le_compat_r; lra). assert (10 * u * 1 <= 10 * u * (S - z)) by (apply Rmult_le_compat_l; lra). lra.
Qed.
Lemma unpol_good c E t n : kn_floats k c -> double t -> / 2 ^ 100 <= E / me <= 2 ^ 20 -> 5 * (E / me) + 4 <= INR n -> INR n <= 6000000 ->
  let r := 1 / (1 + E / me * (1 - cos t)) in
  exists v, fkn_cs_diff_dOmega_unpolarized m k c E t = Ok v /\ good (5 * n + 33) 170 v (PI * kn_scale_factor c * r * r * (r + 1 / r - sin t ^ 2)).
Proof.
  intros [_ HS] D H Hn Hu r. destruct (ratio_good E t n D H Hn ltac:(lra)) as [R0 GR]. fold r in R0, GR. cbv zeta in *.
  assert (X0 : 0 < E / me) by (pose proof (ipow2_pos 100); lra). pose proof (me_pos k Hk) as M0. fold me in M0.
  assert (E0 : 0 <= E). { assert (Q : E = E / me * me) by (field; lra). rewrite Q. apply Rmult_le_pos; lra. }
  unfold fkn_cs_diff_dOmega_unpolarized. rewrite (ratio_ok m k Hm Hk) by assumption. cbn [bind]. set (r' := fquo 1 (den E t)) in *.
  assert (Pr : 0 < r') by apply (near_pos _ _ _ (proj1 GR)). unfold np_fquo. destruct (Req_EM_T r' 0); [lra|]. cbn [bind]. eexists. split; [reflexivity|].
  assert (Ns : near (S (S (S n))) (fadd r' (fquo 1 r')) (r + 1 / r)) by (apply sum_good; [apply rnd_double|lra|exact R0|exact GR]).
  pose proof (inv_sum r R0) as SB. pose proof (sin2_err t D) as SE. destruct Hm as (_ & HSn & HQ). destruct (HSn t D) as (D1 & B1 & E1). destruct (HQ _ D1 B1) as (D2 & _ & _).
  assert (S1 : 0 <= sin t ^ 2 <= 1) by (pose proof (SIN_bound t); nra).
  assert (NB : near (3 * n + 25) (fsub (fadd r' (fquo 1 r')) (a_square m (a_sin m t))) (r + 1 / r - sin t ^ 2)).
  { replace (3 * n + 25)%nat with (3 * (S (S (S n))) + 3 + 13)%nat by lia. apply (bracket_near _ _ _ _ _ 6); [rewrite !S_INR; lra|apply rnd_double|exact D2|lra|exact Ns|lra|exact S1|exact SE]. }
  assert (GB : good (3 * n + 25) 23 (fsub (fadd r' (fquo 1 r')) (a_square m (a_sin m t))) (r + 1 / r - sin t ^ 2)).
  { split; [exact NB|]. split; [apply Rle_trans with 1; [apply (rng_one 23)|lra]|]. assert (1 / r <= 2 ^ 22). { unfold Rdiv; rewrite Rmult_1_l. apply (rng_inv 22). apply GR. }
    replace (2 ^ 23) with (2 ^ 22 + 2 ^ 22) by (change 23%nat with (1 + 22)%nat; rewrite pow_add; ring). assert (1 <= 2 ^ 22) by (apply pow_R1_Rle; lra). lra. }
  assert (Gs : good 0 100 (kn_scale_factor c) (kn_scale_factor c)) by (apply good_exact; exact HS).
  assert (G1 : good 2 102 (fmul np_pi (kn_scale_factor c)) (PI * kn_scale_factor c)) by (apply (good_fmul 1 2 0 100); [lia|lia|apply good_pi|exact Gs]).
  assert (G2 : good (S (2 + S n)) (102 + 22) (fmul (fmul np_pi (kn_scale_factor c)) r') (PI * kn_scale_factor c * r)) by (apply goodx_fmul; [apply count_8; cnt|lia|exact G1|exact GR]).
  assert (G3 : good (S (S (2 + S n) + S n)) (102 + 22 + 22) (fmul (fmul (fmul np_pi (kn_scale_factor c)) r') r') (PI * kn_scale_factor c * r * r)) by (apply goodx_fmul; [apply count_8; cnt|lia|exact G2|exact GR]).
  apply (good_weaken (S (S (S (2 + S n) + S n) + (3 * n + 25))) (102 + 22 + 22 + 23)); [lia|lia|]. apply goodx_fmul; [apply count_8; cnt|lia|exact G3|exact GB].
Qed.
Lemma unpol_err c E t : kn_floats k c -> double t -> / 2 ^ 100 <= E / me <= 2 ^ 20 ->
  let r := 1 / (1 + E / me * (1 - cos t)) in let V := PI * kn_scale_factor c * r * r * (r + 1 / r - sin t ^ 2) in
  exists v, fkn_cs_diff_dOmega_unpolarized m k c E t = Ok v /\ 0 < V /\ rng 170 V /\ Rabs (v - V) <= (25 * (E / me) + 60) * u * V.
Proof.
  intros F D H r V. assert (X0 : 0 < E / me) by (pose proof (ipow2_pos 100); lra). destruct (ceil_nat (5 * (E / me) + 4)) as (n & N1 & N2); [lra|].
  assert (X1 : E / me <= 1048576) by (replace 1048576 with (2 ^ 20) by ring; apply H).
  destruct (unpol_good c E t n F D H N1 ltac:(lra)) as (v & Ev & G). cbv zeta in *. fold r in G. fold V in G. exists v. split; [exact Ev|]. destruct G as [N G]. pose proof (rng_pos _ _ G) as PV. split; [exact PV|]. split; [exact G|].
  apply near_boundy in N; [|cnt]. eapply Rle_trans; [exact N|]. pose proof u_pos.
  apply Rmult_le_compat_r; [lra|]. apply Rmult_le_compat_r; [lra|]. cnt.
Qed.
End KN.
