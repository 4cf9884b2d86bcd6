(** The Debye model with rounding. *)
From Coq Require Import Reals List ZArith Lra Lia Psatz.
From Flocq Require Import Core.
From Coquelicot Require Import Coquelicot.
From Verif Require Import Py Spec M_Num M_Thermal S_Thermal M_Float S_Float M_Float4 M_Float10 S_Float10 L_Debye L_Float L_Float2 L_Float7 L_Float9 L_Float12 L_Float36.
Import ListNotations.
Open Scope R_scope.
Open Scope py_scope.

(** ** Relative errors *)
Definition rel (a v V : R) : Prop := 0 < V /\ Rabs (v - V) <= a * V.
Lemma rel_weaken a b v V : a <= b -> rel a v V -> rel b v V.
Proof. intros H [P E]. split; auto. nra. Qed.
Lemma rel_bounds a v V : rel a v V -> V * (1 - a) <= v <= V * (1 + a).
Proof. intros [P E]. apply Rabs_le_between in E. lra. Qed.
Lemma rel_rnd a v V : bpow radix2 (-1000) <= V -> 0 <= a <= / 2 -> rel a v V -> rel (a + u * (1 + a)) (rnd v) V.
Proof.
  intros L A H. pose proof (rel_bounds _ _ _ H) as B. destruct H as [P E]. split; auto.
  assert (N : bpow radix2 (-1022) <= Rabs v).
  { rewrite Rabs_pos_eq by nra. apply Rle_trans with (bpow radix2 (-1001)); [apply bpow_le; lia|].
    change (-1000)%Z with (1 + -1001)%Z in L. rewrite bpow_plus in L. change (bpow radix2 1) with 2 in L. pose proof (bpow_gt_0 radix2 (-1001)). nra. }
  apply rnd_rel_any in N. rewrite (Rabs_pos_eq v) in N by nra. pose proof u_pos.
  replace (rnd v - V) with ((rnd v - v) + (v - V)) by ring. eapply Rle_trans; [apply Rabs_triang|]. nra.
Qed.
Lemma rel_mult a b v V w W : 0 <= a -> 0 <= b -> rel a v V -> rel b w W -> rel (a + b + a * b) (v * w) (V * W).
Proof.
  intros A B [P E] [P' E']. split; [nra|].
  replace (v * w - V * W) with ((v - V) * W + (V * (w - W) + (v - V) * (w - W))) by ring.
  eapply Rle_trans; [apply Rabs_triang|]. 
  assert (E1 : Rabs ((v - V) * W) <= a * V * W) by (apply mul_abs; auto; rewrite Rabs_pos_eq; lra).
  assert (E2 : Rabs (V * (w - W)) <= V * (b * W)) by (apply mul_abs; auto; rewrite Rabs_pos_eq; lra).
  assert (E3 : Rabs ((v - V) * (w - W)) <= a * V * (b * W)) by (apply mul_abs; auto).
  pose proof (Rabs_triang (V * (w - W)) ((v - V) * (w - W))). nra.
Qed.
Lemma near_rel_abs k v V : (k <= 100)%nat -> near k v V -> rel ((INR k + 1) * u) v V.
Proof. intros K N. split; [apply N|]. now apply near_bound. Qed.

(** ** The integrand *)
Section Integrand.
Context (l : dlib) (OK : dlib_ok l).
Definition w_ (t : R) : R := u * (1 + / t).
Lemma w_small t : / 2 ^ 40 <= t -> 0 < w_ t <= / 1024 /\ u <= w_ t.
Proof.
  intros H. unfold w_. pose proof u_pos. assert (0 < / 2 ^ 40) by (apply ipow2_pos). assert (I : 0 < / t) by (apply Rinv_0_lt_compat; lra).
  assert (J : / t <= 2 ^ 40). { rewrite <- (Rinv_inv (2 ^ 40)). apply Rinv_le_contravar; lra. }
  assert (K : u * (1 + 2 ^ 40) <= / 1024). { unfold u, unit_roundoff. simpl pow. lra. }
  split; [split|]; nra.
Qed.
Lemma w_f t : 0 < t -> w_ t * f t <= u * (2 * f t + 2 * t).
Proof.
  intros H. unfold w_. pose proof u_pos. rewrite f_g. pose proof (g_upper t H) as G.
  assert (G0 : 1 < gfun t) by (apply coth_ineq; auto).
  replace (u * (1 + / t) * (t ^ 2 * gfun t)) with (u * (t ^ 2 * gfun t + t * gfun t)) by (field; lra).
  apply Rmult_le_compat_l; [lra|]. destruct (Rle_dec t 1).
  - assert (t ^ 2 <= 1) by nra. assert (gfun t <= 2) by lra. assert (0 <= t ^ 2 * gfun t) by (apply Rmult_le_pos; [apply pow2_ge_0|lra]). assert (t * gfun t <= t * 2) by (apply Rmult_le_compat_l; lra). lra.
  - assert (t * gfun t <= t ^ 2 * gfun t) by (apply Rmult_le_compat_r; [lra|simpl; nra]). lra.
Qed.
Lemma exp_large t : 709 <= t -> / (exp t - 1) <= u.
Proof.
  intros H. assert (E : 2 ^ 709 <= exp t).
  { apply Rle_trans with (exp 709). 2:{ destruct H as [H| ->]; [left; now apply exp_increasing|right; auto]. }
    replace 709 with (INR 709 * 1) by (rewrite INR_IZR_INZ; change (Z.of_nat 709) with 709%Z; ring). rewrite <- Rpower_pow by lra. unfold Rpower.
    destruct (Req_dec (ln 2) 1) as [->|]; [right; reflexivity|]. left. apply exp_increasing. apply Rmult_lt_compat_l; [apply lt_0_INR; lia|].
    rewrite <- (ln_exp 1). apply ln_increasing; [lra|]. pose proof (exp_m1_gt 1 ltac:(lra)). lra. }
  unfold u, unit_roundoff. apply Rinv_le_contravar; [apply pow2_pos|]. apply Rle_trans with (2 ^ 709 - 1); [|lra].
  assert (2 ^ 53 * 2 <= 2 ^ 709). { change (2 ^ 53 * 2 <= 2 ^ 709) with (2 ^ 53 * 2 <= 2 ^ 709). replace (2 ^ 53 * 2) with (2 ^ 54) by (simpl; ring). apply pow2_le; lia. }
  assert (1 <= 2 ^ 53) by (simpl; lra). lra.
Qed.
Lemma reciprocal t : double t -> / 2 ^ 40 <= t -> 
  match d_exp l t with
  | Finite y => fsub y 1 <> 0 /\ Rabs (fquo 1 (fsub y 1) - / (exp t - 1)) <= 5 * w_ t * (/ (exp t - 1) + / 2)
  | p_infty => / (exp t - 1) <= u
  | m_infty => False end.
Proof.
  intros D H. pose proof (proj1 OK t D H) as E. destruct (d_exp l t) as [y| |]; auto. 2:{ now apply exp_large. }
  destruct E as [Dy E]. destruct (w_small t H) as [[W0 W] UW]. assert (t0 : 0 < t) by (pose proof (ipow2_pos 40); lra).
  pose proof (exp_m1_gt t t0) as Dt. set (DD := exp t - 1) in *. replace (exp t) with (DD + 1) in E by (unfold DD; ring). pose proof u_pos as U. pose proof u_tiny as U'. change unit_roundoff with u in E.
  destruct (fsub_error y 1 Dy double_1) as (e & He & EQ). set (d := fsub y 1) in *.
  assert (UT : u <= w_ t * DD). { unfold w_. assert (u * / t * DD >= u); [|nra]. apply Rle_ge. rewrite Rmult_assoc. replace u with (u * 1) at 1 by ring. apply Rmult_le_compat_l; [lra|]. apply Rmult_le_reg_l with t; auto. rewrite <- Rmult_assoc, Rinv_r by lra. lra. }
  assert (R1 : Rabs (d - DD) <= 34 / 10 * w_ t * DD).
  { rewrite EQ. replace ((y - 1) * (1 + e) - DD) with ((y - (DD + 1)) * (1 + e) + DD * e) by ring. eapply Rle_trans; [apply Rabs_triang|].
    assert (Rabs ((y - (DD + 1)) * (1 + e)) <= 2 * u * (DD + 1) * (1 + / 1024)). { apply mul_abs; auto. apply Rabs_le_between in He. apply Rabs_le. lra. }
    assert (Rabs (DD * e) <= DD * u). { apply mul_abs; auto. rewrite Rabs_pos_eq; lra. }
    assert (u * DD <= w_ t * DD) by nra.
    (* 2.01 u DD + 2.01 u + u DD: needs the sharper split *)
    assert (Q : u * DD + u <= w_ t * DD).
    { unfold w_. replace (u * (1 + / t) * DD) with (u * DD + u * (/ t * DD)) by ring. apply Rplus_le_compat_l. replace u with (u * 1) at 1 by ring. apply Rmult_le_compat_l; [lra|]. apply Rmult_le_reg_l with t; auto. rewrite <- Rmult_assoc, Rinv_r by lra. lra. }
    nra. }
  apply Rabs_le_between in R1. assert (dp : 996 / 1000 * DD <= d) by nra. assert (d0 : 0 < d) by lra. split; [lra|].
  unfold fquo. destruct (rnd_error (1 / d)) as (a & h & Ha & Hh & ->).
  assert (I : / d <= 1005 / 1000 * / DD). { apply Rmult_le_reg_l with (d * DD); [nra|]. replace (d * DD * / d) with DD by (field; lra). replace (d * DD * (1005 / 1000 * / DD)) with (1005 / 1000 * d) by (field; lra). lra. }
  assert (J : Rabs (/ d - / DD) <= 342 / 100 * w_ t * / DD).
  { replace (/ d - / DD) with ((DD - d) * (/ d * / DD)) by (field; lra). 
    apply Rle_trans with (34 / 10 * w_ t * DD * (1005 / 1000 * / DD * / DD)). 
    - apply mul_abs. apply Rabs_le; lra. rewrite Rabs_pos_eq. apply Rmult_le_compat_r; auto. left. apply Rinv_0_lt_compat; lra. apply Rmult_le_pos; left; apply Rinv_0_lt_compat; lra.
    - replace (34 / 10 * w_ t * DD * (1005 / 1000 * / DD * / DD)) with (34 / 10 * 1005 / 1000 * w_ t * / DD) by (field; lra). assert (0 < / DD) by (apply Rinv_0_lt_compat; lra). nra. }
  replace (1 / d * (1 + a) + h - / DD) with ((/ d - / DD) + (/ d * a + h)) by (unfold Rdiv; ring). eapply Rle_trans; [apply Rabs_triang|].
  assert (K : Rabs (/ d * a) <= 1005 / 1000 * / DD * u). { apply mul_abs; auto. rewrite Rabs_pos_eq; auto. left. now apply Rinv_0_lt_compat. }
  pose proof (Rabs_triang (/ d * a) h). pose proof eta_u. assert (0 < / DD) by (apply Rinv_0_lt_compat; lra). assert (u * / DD <= w_ t * / DD) by nra. nra.
Qed.
Lemma integrand_error t : double t -> / 2 ^ 40 <= t <= 2 ^ 40 -> exists y, fdebye_integrand l t = Ok y /\ Rabs (y - f t) <= 12 * w_ t * f t.
Proof.
  intros D [H H']. pose proof (reciprocal t D H) as RR. destruct (w_small t H) as [[W0 W] UW]. assert (t0 : 0 < t) by (pose proof (ipow2_pos 40); lra).
  pose proof (exp_m1_gt t t0) as Dt. assert (I0 : 0 < / (exp t - 1)) by (apply Rinv_0_lt_compat; lra). pose proof u_pos as U. 
  assert (CU : rel (2 * w_ t) (d_cube l t) (t ^ 3)).
  { split; [now apply pow_lt|]. destruct (proj2 OK t D) as [_ E].
    { split. eapply Rle_trans; [apply (ipow2_le 40 70); lia|auto]. eapply Rle_trans; [exact H'|apply pow2_le; lia]. }
    change unit_roundoff with u in E. eapply Rle_trans; [exact E|]. apply Rmult_le_compat_r; [left; now apply pow_lt|lra]. }
  assert (LOW : bpow radix2 (-1000) <= f t).
  { rewrite f_g. assert (1 < gfun t) by (apply coth_ineq; auto). apply Rle_trans with (t ^ 2). 2:{ assert (0 < t ^ 2) by (apply pow_lt; auto). nra. }
    apply Rle_trans with ((/ 2 ^ 40) ^ 2). 2:{ apply pow_incr. split; auto. left; apply ipow2_pos. }
    rewrite <- (bpow_neg 40). replace (bpow radix2 (- Z.of_nat 40) ^ 2) with (bpow radix2 (- Z.of_nat 40) * bpow radix2 (- Z.of_nat 40)) by ring. rewrite <- bpow_plus. apply bpow_le. lia. }
  assert (FIN : forall s, rel (65 / 10 * w_ t) s (/ (exp t - 1) + / 2) -> Rabs (fmul (d_cube l t) s - f t) <= 12 * w_ t * f t).
  { intros s S. assert (M : rel (2 * w_ t + 65 / 10 * w_ t + 2 * w_ t * (65 / 10 * w_ t)) (d_cube l t * s) (t ^ 3 * (/ (exp t - 1) + / 2))) by (apply rel_mult; auto; lra).
    replace (t ^ 3 * (/ (exp t - 1) + / 2)) with (f t) in M by (unfold f; field; lra).
    apply rel_rnd in M; auto. 2:{ split; nra. } eapply Rle_trans; [apply M|]. apply Rmult_le_compat_r; [pose proof (bpow_gt_0 radix2 (-1000)); lra|]. nra. }
  assert (Dh : double (1 / 2)). { replace (1 / 2) with (bpow radix2 (-1)) by (simpl; lra). apply double_bpow. lia. }
  unfold fdebye_integrand. destruct (d_exp l t) as [y| |]; [| |destruct RR].
  - destruct RR as [NZ RR]. destruct (Req_EM_T (fsub y 1) 0) as [|_]; [contradiction|]. eexists. split; [reflexivity|]. apply FIN.
    destruct (fadd_error (fquo 1 (fsub y 1)) (1 / 2) (rnd_double _) Dh) as (e & He & ->). split; [lra|].
    set (r := fquo 1 (fsub y 1)) in *. set (S := / (exp t - 1) + / 2) in *.
    replace ((r + 1 / 2) * (1 + e) - S) with ((r - / (exp t - 1)) * (1 + e) + S * e) by (unfold S; field; lra).
    eapply Rle_trans; [apply Rabs_triang|]. assert (Sp : 0 < S) by (unfold S; lra). pose proof u_tiny.
    assert (Rabs ((r - / (exp t - 1)) * (1 + e)) <= 5 * w_ t * S * (1 + / 1024)). { apply mul_abs; auto. apply Rabs_le_between in He. apply Rabs_le. lra. }
    assert (Rabs (S * e) <= S * u). { apply mul_abs; auto. rewrite Rabs_pos_eq; lra. } assert (S * u <= S * w_ t) by nra. nra.
  - eexists. split; [reflexivity|]. apply FIN. rewrite fadd_0_l by auto. split; [lra|]. replace (1 / 2 - (/ (exp t - 1) + / 2)) with (- / (exp t - 1)) by lra. rewrite Rabs_Ropp, Rabs_pos_eq by lra. nra.
Qed.
Lemma integrand_error' t : double t -> / 2 ^ 40 <= t <= 2 ^ 40 -> exists y, fdebye_integrand l t = Ok y /\ Rabs (y - f t) <= u * (24 * f t + 24 * t).
Proof.
  intros D H. destruct (integrand_error t D H) as (y & E & B). exists y. split; auto. pose proof (w_f t). pose proof (ipow2_pos 40). specialize (H0 ltac:(lra)). lra.
Qed.
End Integrand.

(** ** The integral *)
Lemma rule_close ns (a b c : R -> R) : List.Forall (fun n => 0 <= snd n /\ Rabs (a (fst n) - b (fst n)) <= c (fst n)) ns -> Rabs (rule_value ns a - rule_value ns b) <= rule_value ns c.
Proof.
  unfold rule_value. induction 1 as [|n ns [W H] F IH]; cbn [map]; [cbn; rewrite Rminus_0_r, Rabs_R0; lra|]. rewrite !Rsum_cons'.
  match goal with |- Rabs (?a1 + ?b1 - (?c1 + ?d1)) <= _ => replace (a1 + b1 - (c1 + d1)) with ((a1 - c1) + (b1 - d1)) by ring end.
  eapply Rle_trans; [apply Rabs_triang|]. apply Rplus_le_compat; auto. rewrite <- Rmult_minus_distr_l, Rabs_mult, Rabs_pos_eq by auto. now apply Rmult_le_compat_l.
Qed.
Lemma rule_le ns (a b : R -> R) : List.Forall (fun n => 0 <= snd n /\ a (fst n) <= b (fst n)) ns -> rule_value ns a <= rule_value ns b.
Proof.
  unfold rule_value. induction 1 as [|n ns [W H] F IH]; cbn [map]; [lra|]. rewrite !Rsum_cons'. apply Rplus_le_compat; auto. now apply Rmult_le_compat_l.
Qed.
Lemma rule_lin ns (a b : R -> R) p r : rule_value ns (fun t => p * a t + r * b t) = p * rule_value ns a + r * rule_value ns b.
Proof. unfold rule_value. induction ns as [|n ns IH]; cbn [map]; [cbn; ring|]. rewrite !Rsum_cons', IH. ring. Qed.
Lemma f_pos t : 0 < t -> 0 < f t.
Proof. intros H. rewrite f_g. assert (1 < gfun t) by (apply coth_ineq; auto). apply Rmult_lt_0_compat; [now apply pow_lt|lra]. Qed.
Section Quad.
Context (l : dlib) (OK : dlib_ok l).
Lemma quad_error eps kappa quad x : 0 <= eps <= / 4 -> 0 <= kappa <= / 2 ^ 20 -> / 2 ^ 31 <= x <= 2 ^ 31 -> quadrature eps kappa quad (fdebye_integrand l) f x ->
  exists r, quad (fdebye_integrand l) 0 x = Ok r /\ rel (eps + 13 / 10 * kappa + (31 + 73 / x) * u) r (RInt f 0 x).
Proof.
  intros He Hk [X1 X2] (ns & F & RE & ID & Q). assert (x0 : 0 < x) by (pose proof (ipow2_pos 31); lra). destruct (I_bounds x x0) as (IB & _).
  set (g := fun t => match fdebye_integrand l t with Ok y => y | _ => 0 end).
  assert (N : List.Forall (fun n => 0 <= snd n /\ 0 < fst n /\ fdebye_integrand l (fst n) = Ok (g (fst n)) /\ Rabs (g (fst n) - f (fst n)) <= u * (24 * f (fst n) + 24 * fst n)) ns).
  { apply Forall_forall. intros n Hn. rewrite Forall_forall in F. destruct (F n Hn) as (D & B & W).
    destruct (integrand_error' l OK (fst n) D) as (y & E & Y). { split; [tauto|]. apply Rle_trans with x; [tauto|]. eapply Rle_trans; [exact X2|apply pow2_le; lia]. }
    unfold g. rewrite E. pose proof (ipow2_pos 40). repeat split; auto. lra. }
  destruct (Q g) as (r & Er & Br). { intros n Hn. rewrite Forall_forall in N. now apply N. }
  exists r. split; auto. set (I := RInt f 0 x) in *. set (FF := rule_value ns f) in *. set (X := rule_value ns (fun t => t)) in *.
  assert (C1 : Rabs (rule_value ns g - FF) <= u * 24 * FF + u * 24 * X).
  { unfold FF, X. rewrite <- rule_lin. apply rule_close. eapply Forall_impl; [|exact N]. cbv beta. intros n (A & B & C & D). split; auto. lra. }
  assert (C2 : rule_value ns (fun t => Rabs (g t)) <= (1 + u * 24) * FF + u * 24 * X).
  { unfold FF, X. rewrite <- rule_lin. apply rule_le. eapply Forall_impl; [|exact N]. cbv beta. intros n (A & B & C & D). split; auto.
    pose proof (f_pos _ B). pose proof (Rabs_triang (g (fst n) - f (fst n)) (f (fst n))) as T. replace (g (fst n) - f (fst n) + f (fst n)) with (g (fst n)) in T by ring. rewrite (Rabs_pos_eq (f (fst n))) in T by lra. lra. }
  assert (Ip : 0 < I). { assert (0 < x ^ 3) by now apply pow_lt. lra. } split; auto.
  assert (FB : FF <= 5 / 4 * I). { apply Rabs_le_between in RE. nra. }
  assert (XB : X <= 3 / x * I). { apply Rle_trans with (x ^ 2); auto. replace (x ^ 2) with (3 / x * (x ^ 3 / 3)) by (field; lra). apply Rmult_le_compat_l; [|lra]. apply Rmult_le_pos; [lra|]. left; now apply Rinv_0_lt_compat. }
  set (e := u * 24 * FF + u * 24 * X) in *. pose proof u_pos as U.
  assert (E1 : e <= (30 + 72 / x) * u * I). { unfold e. apply Rle_trans with (u * 24 * (5 / 4 * I) + u * 24 * (3 / x * I)); [|right; field; lra]. apply Rplus_le_compat; apply Rmult_le_compat_l; lra. }
  assert (V : / x <= 2 ^ 31). { rewrite <- (Rinv_inv (2 ^ 31)). apply Rinv_le_contravar; [apply ipow2_pos|auto]. } assert (V0 : 0 < / x) by now apply Rinv_0_lt_compat.
  assert (E2 : (30 + 72 / x) * u <= / 100). { apply Rle_trans with ((30 + 72 * 2 ^ 31) * u). apply Rmult_le_compat_r; [lra|]. unfold Rdiv. lra. unfold u. simpl pow. lra. }
  assert (E3 : rule_value ns (fun t => Rabs (g t)) <= 127 / 100 * I). { replace ((1 + u * 24) * FF + u * 24 * X) with (FF + e) in C2 by (unfold e; ring). assert ((30 + 72 / x) * u * I <= / 100 * I) by (apply Rmult_le_compat_r; lra). lra. }
  replace (r - I) with ((r - rule_value ns g) + ((rule_value ns g - FF) + (FF - I))) by ring. eapply Rle_trans; [apply Rabs_triang|].
  pose proof (Rabs_triang (rule_value ns g - FF) (FF - I)). assert (kappa * rule_value ns (fun t => Rabs (g t)) <= kappa * (127 / 100 * I)) by (apply Rmult_le_compat_l; lra).
  assert (kappa * I >= 0) by nra. assert (E4 : (30 + 72 / x) * u * I <= (31 + 73 / x) * u * I). { apply Rmult_le_compat_r; [lra|]. apply Rmult_le_compat_r; [lra|]. unfold Rdiv. lra. }
  replace ((eps + 13 / 10 * kappa + (31 + 73 / x) * u) * I) with (eps * I + 13 / 10 * (kappa * I) + (31 + 73 / x) * u * I) by ring. lra.
Qed.
End Quad.
(** ** The upper limit *)
Lemma lamb_1 x : 0 < x -> RInt f 0 x = / 3 * (x * x * x) * lamb_temperature 1 x.
Proof. intros H. unfold lamb_temperature. change (fun t => t ^ 3 * (1 / (exp t - 1) + 1 / 2)) with f. replace (x / 1) with x by field. assert (G : forall I : R, I = / 3 * (x * x * x) * (3 * 1 * (1 / x) ^ 3 * I)) by (intros; field; lra). apply G. Qed.
Lemma lamb_ratio x y : 0 < x <= y -> lamb_temperature 1 x <= lamb_temperature 1 y <= y / x * lamb_temperature 1 x.
Proof.
  intros [P [H| <-]]. 2:{ unfold Rdiv. rewrite Rinv_r by lra. lra. }
  split; [left; apply lamb_mono_TD; lra|].
  pose proof (lamb_mono_T 1 (y / x) y) as M.
  rewrite <- lamb_homogeneous; try lra. 2:{ apply Rdiv_lt_0_compat; lra. } rewrite Rmult_1_r. replace (y / x * x) with y by (field; lra). left. apply M; [|lra].
  split; [lra|]. apply Rmult_lt_reg_r with x; auto. unfold Rdiv. rewrite Rmult_assoc, Rinv_l by lra. lra.
Qed.
Lemma lamb_near k x y : 0 < x -> near k y x -> near k (lamb_temperature 1 y) (lamb_temperature 1 x).
Proof.
  intros P N. pose proof (near_pos _ _ _ N) as Py. destruct (lamb_bounds 1 x ltac:(lra) P) as (Lx & _). destruct (lamb_bounds 1 y ltac:(lra) Py) as (Ly & _).
  destruct N as (_ & N1 & N2). destruct (qk_pos k) as [Q0 Q1]. split; [lra|]. destruct (Rle_dec x y) as [C|C].
  - destruct (lamb_ratio x y) as [A B]; [lra|]. split; [nra|]. assert (y / x * q ^ k <= 1). { apply Rmult_le_reg_r with x; auto. replace (y / x * q ^ k * x) with (y * q ^ k) by (field; lra). lra. }
    apply Rle_trans with (y / x * lamb_temperature 1 x * q ^ k); [apply Rmult_le_compat_r; lra|]. nra.
  - destruct (lamb_ratio y x) as [A B]; [lra|]. split; [|nra]. assert (x / y * q ^ k <= 1). { apply Rmult_le_reg_r with y; auto. replace (x / y * q ^ k * y) with (x * q ^ k) by (field; lra). lra. }
    apply Rle_trans with (x / y * lamb_temperature 1 y * q ^ k); [apply Rmult_le_compat_r; lra|]. nra.
Qed.
Lemma I_near k x y : 0 < x -> near k y x -> near (k + k + k + k) (RInt f 0 y) (RInt f 0 x).
Proof.
  intros P N. pose proof (near_pos _ _ _ N) as Py. rewrite !lamb_1 by auto. replace (k + k + k + k)%nat with (0 + (k + k + k) + k)%nat by lia. 
  repeat apply near_mult; auto. apply near_exact; lra. now apply lamb_near.
Qed.
