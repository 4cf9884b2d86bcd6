(** Accuracy of the polarised cross section, of angles, and of cross sections per energy, with rounding. *)
From Coq Require Import Reals List ZArith Lra Lia Psatz.
From Flocq Require Import Core.
From Verif Require Import Py Spec M_Num M_KleinNishina M_Float S_Float M_Float2 M_Float5 S_Float5
  L_Float L_Float2 L_Float3 L_Float7 L_Float9 L_Float10 L_Float11 L_Float13 L_Float14.
Import ListNotations.
Open Scope R_scope.

(** Rounding of a product of two numbers with errors [a * A] and [b * B], relative to [A * B]. *)
Lemma prod_err A B A' B' a b e h : 0 < A -> 0 < B -> Rabs (A' - A) <= a * u * A -> forall X, Rabs X <= B -> Rabs (B' - X) <= b * u * B -> 0 <= a <= 2 ^ 26 -> 0 <= b <= 2 ^ 26 ->
  Rabs e <= u -> Rabs h <= u * / 1024 * (A * B) ->
  Rabs (A' * B' * (1 + e) + h - A * X) <= (a + b + 2) * u * (A * B).
Proof.
  intros PA PB EA X HX EX Ha Hb He Hh. pose proof u_40 as U. assert (U53 : u * 2 ^ 53 = 1) by (unfold u; apply Rinv_l; apply pow_nonzero; lra).
  replace (2 ^ 53) with 9007199254740992 in U53 by ring. assert (Ha' : a <= 67108864) by (replace 67108864 with (2 ^ 26) by ring; apply Ha). assert (Hb' : b <= 67108864) by (replace 67108864 with (2 ^ 26) by ring; apply Hb).
  replace (A' * B' * (1 + e) + h - A * X) with (((A' - A) * B' + A * (B' - X)) + A' * B' * e + h) by ring.
  set (P := A * B). assert (PP : 0 < P) by (apply Rmult_lt_0_compat; lra).
  assert (AB : Rabs B' <= (1 + b * u) * B). { replace B' with (X + (B' - X)) by ring. replace ((1 + b * u) * B) with (B + b * u * B) by ring. now apply abs_add. }
  assert (AA : Rabs A' <= (1 + a * u) * A). { replace A' with (A + (A' - A)) by ring. replace ((1 + a * u) * A) with (A + a * u * A) by ring. apply abs_add; [rewrite Rabs_pos_eq; lra|exact EA]. }
  assert (au : 0 <= a * u <= / 67108864) by nra. assert (bu : 0 <= b * u <= / 67108864) by nra.
  assert (T1 : Rabs ((A' - A) * B') <= a * u * (1 + b * u) * P). { replace (a * u * (1 + b * u) * P) with (a * u * A * ((1 + b * u) * B)) by (unfold P; ring). now apply abs_mul. }
  assert (T2 : Rabs (A * (B' - X)) <= b * u * P). { replace (b * u * P) with (A * (b * u * B)) by (unfold P; ring). apply abs_mul; [rewrite Rabs_pos_eq; lra|exact EX]. }
  assert (T3 : Rabs (A' * B' * e) <= (1 + a * u) * (1 + b * u) * P * u). { apply abs_mul; [|exact He]. replace ((1 + a * u) * (1 + b * u) * P) with ((1 + a * u) * A * ((1 + b * u) * B)) by (unfold P; ring). now apply abs_mul. }
  apply Rle_trans with (a * u * (1 + b * u) * P + b * u * P + (1 + a * u) * (1 + b * u) * P * u + u * / 1024 * P).
  { apply abs_add; [|exact Hh]. apply abs_add; [|exact T3]. now apply abs_add. }
  replace (a * u * (1 + b * u) * P + b * u * P + (1 + a * u) * (1 + b * u) * P * u + u * / 1024 * P) with ((a * u + a * u * (b * u) + b * u + (1 + a * u) * (1 + b * u) * u + u * / 1024) * P) by ring.
  apply Rmult_le_compat_r; [lra|]. 
  assert (Q : a * u * (b * u) <= / 2 * u). { assert (K1 : a * u * b <= / 2). { apply Rle_trans with (67108864 * u * 67108864); [|nra]. apply Rmult_le_compat; nra. } nra. }
  assert ((1 + a * u) * (1 + b * u) <= 1 + / 1000) by nra. nra.
Qed.
Lemma rnd_near x c : Rabs x <= c -> / 2 <= c -> Rabs (rnd x - x) <= 101 / 100 * c * u.
Proof.
  intros H C. destruct (rnd_error x) as (e & h & He & Hh & ->). destruct eta_u as [E0 E1]. pose proof u_40. replace (x * (1 + e) + h - x) with (x * e + h) by ring.
  apply Rle_trans with (c * u + u * / 1024); [apply abs_add; [now apply abs_mul|lra]|]. nra.
Qed.

Section KN.
Context (m : alib) (k : constants).
Hypothesis Hm : alib_ok m.
Hypothesis Hk : rng 100 (k_me k).
Let me := k_me k.
Notation den := (den m k).

(** ** The polarised cross section *)
Lemma pol_term t phi : double t -> double phi ->
  Rabs (fmul (fmul 2 (a_square m (a_sin m t))) (a_square m (a_cos m phi)) - 2 * sin t ^ 2 * cos phi ^ 2) <= 30 * u.
Proof.
  intros D D'. pose proof (sin2_err m Hm t D) as S2. pose proof (cos2_err m Hm phi D') as C2. destruct (square_range m Hm t D) as [S1 _]. destruct (square_range m Hm phi D') as [_ C1].
  set (a := a_square m (a_sin m t)) in *. set (b := a_square m (a_cos m phi)) in *. pose proof u_40.
  assert (F0 : 0 <= fmul 2 a <= 2) by (split; [apply rnd_nonneg; lra|apply rnd_le_d; [apply double_2|lra]]).
  assert (F1 : Rabs (fmul 2 a - 2 * sin t ^ 2) <= 15 * u).
  { replace (fmul 2 a - 2 * sin t ^ 2) with ((fmul 2 a - 2 * a) + 2 * (a - sin t ^ 2)) by ring. apply Rle_trans with (101 / 100 * 2 * u + 2 * (6 * u)); [|lra].
    apply abs_add; [apply rnd_near; [rewrite Rabs_pos_eq; lra|lra]|]. apply abs_mul; [rewrite Rabs_pos_eq; lra|exact S2]. }
  set (f := fmul 2 a) in *. assert (S3 : 0 <= sin t ^ 2 <= 1) by (pose proof (SIN_bound t); nra).
  replace (fmul f b - 2 * sin t ^ 2 * cos phi ^ 2) with ((fmul f b - f * b) + ((f - 2 * sin t ^ 2) * b + 2 * sin t ^ 2 * (b - cos phi ^ 2))) by ring.
  apply Rle_trans with (101 / 100 * 2 * u + (15 * u * 1 + 2 * (6 * u))); [|lra]. apply abs_add; [|apply abs_add].
  - apply rnd_near; [|lra]. rewrite Rabs_pos_eq; nra.
  - apply abs_mul; [exact F1|rewrite Rabs_pos_eq; lra].
  - apply abs_mul; [rewrite Rabs_pos_eq; lra|exact C2].
Qed.
Lemma pol_err c E t phi : kn_floats k c -> double t -> double phi -> / 2 ^ 100 <= E / me <= 2 ^ 20 ->
  let r := 1 / (1 + E / me * (1 - cos t)) in let V0 := 1 / 2 * kn_scale_factor c * r * r * (r + 1 / r) in
  exists v, fkn_cs_diff_dOmega m k c E t phi = Ok v /\ 0 < V0 /\
    Rabs (v - 1 / 2 * kn_scale_factor c * r * r * (r + 1 / r - 2 * sin t ^ 2 * cos phi ^ 2)) <= (15 * (E / me) + 50) * u * V0.
Proof.
  intros [_ HS] D D' H r V0. assert (X0 : 0 < E / me) by (pose proof (ipow2_pos 100); lra). destruct (ceil_nat (5 * (E / me) + 4)) as (n & Hn & N2); [lra|].
  assert (X1 : E / me <= 1048576) by (replace 1048576 with (2 ^ 20) by ring; apply H).
  destruct (ratio_good m k Hm E t n D H Hn ltac:(lra)) as [R0 GR]. fold me in R0, GR. fold r in R0, GR. cbv zeta in *.
  pose proof (me_pos k Hk) as M0. fold me in M0.
  assert (E0 : 0 <= E). { assert (Q : E = E / me * me) by (field; lra). rewrite Q. apply Rmult_le_pos; lra. }
  unfold fkn_cs_diff_dOmega. rewrite (ratio_ok m k Hm Hk) by assumption. cbn [bind]. set (r' := fquo 1 (den E t)) in *.
  assert (Pr : 0 < r') by apply (near_pos _ _ _ (proj1 GR)). unfold np_fquo. destruct (Req_EM_T r' 0); [lra|]. cbn [bind]. eexists. split; [reflexivity|].
  assert (Ns : near (S (S (S n))) (fadd r' (fquo 1 r')) (r + 1 / r)) by (apply sum_good; [apply rnd_double|lra|exact R0|exact GR]).
  pose proof (inv_sum r R0) as SB. pose proof (pol_term t phi D D') as ZE. set (z' := fmul (fmul 2 _) _) in *. set (z := 2 * sin t ^ 2 * cos phi ^ 2) in *.
  assert (Z : 0 <= z <= 2). { unfold z. assert (0 <= sin t ^ 2 <= 1) by (pose proof (SIN_bound t); nra). assert (0 <= cos phi ^ 2 <= 1) by (pose proof (COS_bound phi); nra). nra. }
  assert (Gs : good 0 100 (kn_scale_factor c) (kn_scale_factor c)) by (apply good_exact; exact HS).
  assert (Gh : good 0 1 (1 / 2) (1 / 2)) by (apply good_exact; split; simpl; lra).
  assert (G1 : good 1 101 (fmul (1 / 2) (kn_scale_factor c)) (1 / 2 * kn_scale_factor c)) by (apply (good_fmul 0 1 0 100); [lia|lia|exact Gh|exact Gs]).
  assert (G2 : good (S (1 + S n)) (101 + 22) (fmul (fmul (1 / 2) (kn_scale_factor c)) r') (1 / 2 * kn_scale_factor c * r)) by (apply goodx_fmul; [apply count_8; cnt|lia|exact G1|exact GR]).
  assert (G3 : good (S (S (1 + S n) + S n)) (101 + 22 + 22) (fmul (fmul (fmul (1 / 2) (kn_scale_factor c)) r') r') (1 / 2 * kn_scale_factor c * r * r)) by (apply goodx_fmul; [apply count_8; cnt|lia|exact G2|exact GR]).
  set (A' := fmul (fmul (fmul (1 / 2) (kn_scale_factor c)) r') r') in *. set (A := 1 / 2 * kn_scale_factor c * r * r) in *. set (B := r + 1 / r) in *.
  set (S' := fadd r' (fquo 1 r')) in *.
  assert (PA : 0 < A) by apply (rng_pos _ _ (proj2 G3)). assert (PB : 2 <= B) by apply SB.
  assert (PV : 0 < V0) by (apply Rmult_lt_0_compat; [exact PA|lra]). split; [exact PV|].
  destruct G3 as [N3 RG3]. apply near_boundy in N3; [|cnt]. apply near_boundy in Ns; [|cnt].
  destruct (rnd_error (A' * fsub S' z')) as (e & h & He & Hh & Ev). fold (fmul A' (fsub S' z')) in Ev. rewrite Ev.
  pose proof u_40 as U. destruct eta_lt as [E1 E2].
  assert (BE : Rabs (fsub S' z' - (B - z)) <= (INR n + 22) * u * B).
  { destruct (fsub_error S' z' (rnd_double _) (rnd_double _)) as (e2 & He2 & ->). 
    replace ((S' - z') * (1 + e2) - (B - z)) with (((S' - B) + - (z' - z)) * (1 + e2) + (B - z) * e2) by ring.
    assert (T1 : Rabs ((S' - B) + - (z' - z)) <= (INR n + 4) * u * B + 30 * u). { apply abs_add; [|now rewrite Rabs_Ropp]. eapply Rle_trans; [exact Ns|]. apply Rmult_le_compat_r; [lra|]. apply Rmult_le_compat_r; [lra|]. cnt. }
    assert (T2 : (INR n + 4) * u * B + 30 * u <= (INR n + 19) * u * B). { assert (30 * u <= 15 * u * B) by nra. nra. }
    assert (T3 : Rabs (((S' - B) + - (z' - z)) * (1 + e2)) <= (INR n + 19) * u * B * (1 + u)). { apply abs_mul; [lra|]. apply Rabs_le_inv in He2. apply Rabs_le. lra. }
    assert (T4 : Rabs ((B - z) * e2) <= B * u). { apply abs_mul; [|exact He2]. apply Rabs_le. lra. }
    apply Rle_trans with ((INR n + 19) * u * B * (1 + u) + B * u); [now apply abs_add|]. assert (uB : 0 < u * B) by (apply Rmult_lt_0_compat; lra).
    assert (NU : (INR n + 19) * u <= 1) by nra. replace ((INR n + 19) * u * B * (1 + u) + B * u) with ((INR n + 19 + (INR n + 19) * u + 1) * (u * B)) by ring. replace ((INR n + 22) * u * B) with ((INR n + 22) * (u * B)) by ring. apply Rmult_le_compat_r; lra. }
  eapply Rle_trans; [apply (prod_err A B A' (fsub S' z') (2 * INR n + 6) (INR n + 22)); [exact PA|lra| | |exact BE| | |exact He|]|].
  - eapply Rle_trans; [exact N3|]. apply Rmult_le_compat_r; [lra|]. apply Rmult_le_compat_r; [lra|]. cnt.
  - apply Rabs_le. lra.
  - replace (2 ^ 26) with 67108864 by ring. lra.
  - replace (2 ^ 26) with 67108864 by ring. lra.
  - apply Rle_trans with (/ 2 ^ 480); [lra|]. apply Rle_trans with (/ 2 ^ 53 * / 2 ^ 10 * (/ 2 ^ 145 * 1)).
    + rewrite Rmult_1_r, <- !Rinv_mult, <- !pow_add. apply ipow2_le. lia.
    + unfold u. replace (/ 1024) with (/ 2 ^ 10) by (f_equal; ring). apply Rmult_le_compat_l; [apply Rlt_le, Rmult_lt_0_compat; apply ipow2_pos|]. apply Rmult_le_compat; [apply Rlt_le, ipow2_pos|lra|apply RG3|lra].
  - fold V0. change (A * B) with V0. apply Rmult_le_compat_r; [lra|]. apply Rmult_le_compat_r; lra.
Qed.
Lemma dtheta_err c E t : kn_floats k c -> double t -> / 2 ^ 100 <= E / me <= 2 ^ 20 ->
  let r := 1 / (1 + E / me * (1 - cos t)) in let V := PI * kn_scale_factor c * r * r * (r + 1 / r - sin t ^ 2) in
  exists v, fkn_cs_diff_dtheta m k c E t = Ok v /\ Rabs (v - V * sin t) <= (25 * (E / me) + 70) * u * V.
Proof.
  intros F D H r V. destruct (unpol_err m k Hm Hk c E t F D H) as (v & Ev & PV & GV & EV). fold me in PV, GV, EV. fold r in PV, GV, EV. fold V in PV, GV, EV. unfold fkn_cs_diff_dtheta. rewrite Ev. cbn [bind]. eexists. split; [reflexivity|].
  destruct Hm as (_ & HSn & _). destruct (HSn t D) as (D1 & B1 & E1). change unit_roundoff with u in E1. destruct (rnd_error (v * a_sin m t)) as (e & h & He & Hh & Em). fold (fmul v (a_sin m t)) in Em. rewrite Em.
  assert (X0 : 0 < E / me) by (pose proof (ipow2_pos 100); lra). assert (X1 : E / me <= 1048576) by (replace 1048576 with (2 ^ 20) by ring; apply H). pose proof u_40 as U. destruct eta_lt as [E2 E3].
  eapply Rle_trans; [apply (prod_err V 1 v (a_sin m t) (25 * (E / me) + 60) 2); [exact PV|lra|exact EV| |lra| | |exact He|]|].
  - pose proof (SIN_bound t). apply Rabs_le. lra.
  - replace (2 ^ 26) with 67108864 by ring. lra.
  - replace (2 ^ 26) with 67108864 by ring. lra.
  - apply Rle_trans with (/ 2 ^ 480); [lra|]. rewrite Rmult_1_r. apply Rle_trans with (/ 2 ^ 53 * / 2 ^ 10 * / 2 ^ 170).
    + rewrite <- !Rinv_mult, <- !pow_add. apply ipow2_le. lia.
    + unfold u. replace (/ 1024) with (/ 2 ^ 10) by (f_equal; ring). apply Rmult_le_compat_l; [apply Rlt_le, Rmult_lt_0_compat; apply ipow2_pos|apply GV].
  - rewrite Rmult_1_r. apply Rmult_le_compat_r; [lra|]. apply Rmult_le_compat_r; lra.
Qed.
End KN.
