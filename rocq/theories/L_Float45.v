(** Voigt profiles with rounding. *)
From Coq Require Import Reals List ZArith Lra Lia Psatz.
From Flocq Require Import Core.
From Verif Require Import Py Spec M_Num M_Grid M_Constituents M_Thermal M_Dist M_CrossSection M_Resonance M_PseudoVoigt M_Float S_Float M_Float4 S_Float4 M_Float8 S_Float8 M_Float11 S_Float11
  S_Resonance S_PseudoVoigt L_Debye L_PseudoVoigt L_Voigt2 L_Float L_Float3 L_Float7 L_Float9 L_Float10 L_Float11 L_Float12 L_Float20 L_Float22 L_Float27 L_Float28 L_Float29 L_Float30 L_Float31 L_Float32 L_Float36 L_Float42 L_Float44.
Import ListNotations.
Open Scope R_scope.
Open Scope py_scope.

(** ** Perturbed arguments *)
Lemma voigt_abs x s g : 0 <= s -> 0 < g -> voigt_profile x s g = voigt_profile (Rabs x) s g.
Proof.
  intros Hs Hg. destruct (profile_facts s g Hs ltac:(lra) ltac:(lra)) as (F & _ & E & _). unfold Rabs. destruct (Rcase_abs x); now rewrite ?E.
Qed.
Lemma voigt_decr x y s g : 0 <= s -> 0 < g -> 0 <= x <= y -> voigt_profile y s g <= voigt_profile x s g.
Proof.
  intros Hs Hg [H [H'| <-]]; [|lra]. destruct (profile_facts s g Hs ltac:(lra) ltac:(lra)) as (F & _ & _ & D). left. now apply D.
Qed.
(** The size of the perturbation in the two limits. *)
Lemma shift_lorentz x y s g : 0 <= s -> 0 < g -> 0 <= x <= 2 ^ 40 * g -> 0 <= y -> Rabs (y - x) <= 9 * u * x ->
  Rabs (voigt_profile y s g - voigt_profile x s g) <= 91 / 10 * (x / g) * u * voigt_profile x s g.
Proof.
  intros Hs Hg [X0 X1] Y0 H. pose proof u_pos as U. set (z := 9 * u * (x / g)). assert (R : 0 <= x / g). { apply Rmult_le_pos; auto. left; now apply Rinv_0_lt_compat. }
  assert (RB : x / g <= 2 ^ 40). { apply Rmult_le_reg_r with g; auto. unfold Rdiv. rewrite Rmult_assoc, Rinv_l by lra. lra. }
  assert (Z0 : 0 <= z) by (unfold z; nra). assert (Z1 : z <= / 100). { unfold z. apply Rle_trans with (9 * u * 2 ^ 40); [apply Rmult_le_compat_l; lra|]. unfold u. simpl pow. lra. }
  pose proof (voigt_shift z x (y - x) s g Hs Hg Z0) as S. replace (x + (y - x)) with y in S by ring.
  eapply Rle_trans; [apply S|]. { unfold z. replace (9 * u * (x / g) * g) with (9 * u * x) by (field; lra). exact H. }
  apply Rmult_le_compat_r; [left; now apply voigt_pos|]. replace (91 / 10 * (x / g) * u) with (91 / 90 * z) by (unfold z; field; lra). nra.
Qed.
Lemma shift_gauss x y s g : 0 < s -> 0 < g -> 0 <= x <= 2 ^ 20 * s -> 0 <= y -> Rabs (y - x) <= 9 * u * x ->
  Rabs (voigt_profile y s g - voigt_profile x s g) <= 91 / 10 * (x / s) ^ 2 * u * voigt_profile x s g.
Proof.
  intros Hs Hg [X0 X1] Y0 H. pose proof u_pos as U. pose proof u_tiny as U'. apply Rabs_le_inv in H. set (m := (x / s) ^ 2).
  assert (R : 0 <= x / s). { apply Rmult_le_pos; auto. left; now apply Rinv_0_lt_compat. }
  assert (RB : x / s <= 2 ^ 20). { apply Rmult_le_reg_r with s; auto. unfold Rdiv. rewrite Rmult_assoc, Rinv_l by lra. lra. }
  assert (M0 : 0 <= m) by apply pow2_ge_0. assert (M1 : m <= 2 ^ 40). { unfold m. change 40%nat with (20 * 2)%nat. rewrite pow_mult. apply pow_incr. lra. }
  assert (MU : m * u <= / 8192). { apply Rle_trans with (2 ^ 40 * u); [apply Rmult_le_compat_r; lra|]. unfold u. simpl pow. lra. }
  pose proof (voigt_pos x s g ltac:(lra) Hg) as P. pose proof (voigt_pos y s g ltac:(lra) Hg) as P'. set (a := voigt_profile x s g) in *. set (b := voigt_profile y s g) in *.
  assert (SQ : 0 < / s ^ 2) by (apply Rinv_0_lt_compat; now apply pow_lt).
  assert (MX : m = x ^ 2 * / s ^ 2) by (unfold m; field; lra).
  destruct (Rle_dec x y) as [C|C].
  - pose proof (voigt_gauss_shift x (y - x) s g Hs Hg X0 ltac:(lra)) as S. replace (x + (y - x)) with y in S by ring. fold a b in S. pose proof (voigt_decr x y s g ltac:(lra) Hg ltac:(lra)) as D. fold a b in D.
    assert (E : (x * (y - x) + (y - x) ^ 2 / 2) / s ^ 2 <= 91 / 10 * m * u).
    { unfold Rdiv at 1. rewrite MX. replace (91 / 10 * (x ^ 2 * / s ^ 2) * u) with (91 / 10 * u * x ^ 2 * / s ^ 2) by ring. apply Rmult_le_compat_r; [lra|].
      assert (H0 : 0 <= y - x) by lra. destruct H as [_ H]. set (h := y - x) in *. assert (x * h <= 9 * u * x ^ 2) by (replace (9 * u * x ^ 2) with (x * (9 * u * x)) by ring; apply Rmult_le_compat_l; lra).
      assert (Q : h * h <= 9 * u * x * (9 * u * x)) by (apply Rmult_le_compat; lra). replace (9 * u * x * (9 * u * x)) with (81 * (u * (u * x ^ 2))) in Q by ring.
      assert (UU : u <= / 10000) by (unfold u; simpl pow; lra). assert (u * (u * x ^ 2) <= / 10000 * (u * x ^ 2)) by (apply Rmult_le_compat_r; [|lra]; apply Rmult_le_pos; [lra|apply pow2_ge_0]). assert (0 <= u * x ^ 2) by (apply Rmult_le_pos; [lra|apply pow2_ge_0]).
      replace (h ^ 2) with (h * h) by ring. lra. }
    rewrite Rabs_left1 by lra. set (d := (x * (y - x) + (y - x) ^ 2 / 2) / s ^ 2) in *. nra.
  - pose proof (voigt_gauss_shift y (x - y) s g Hs Hg Y0 ltac:(lra)) as S. replace (y + (x - y)) with x in S by ring. fold a b in S. pose proof (voigt_decr y x s g ltac:(lra) Hg ltac:(lra)) as D. fold a b in D.
    assert (E : (y * (x - y) + (x - y) ^ 2 / 2) / s ^ 2 <= 9 * m * u).
    { unfold Rdiv at 1. rewrite MX. replace (9 * (x ^ 2 * / s ^ 2) * u) with (9 * u * x ^ 2 * / s ^ 2) by ring. apply Rmult_le_compat_r; [lra|].
      set (h := x - y) in *. replace (y * h + h ^ 2 / 2) with (h * (x - h / 2)) by (unfold h; field). assert (h * (x - h / 2) <= 9 * u * x * x) by (apply Rmult_le_compat; unfold h in *; lra). simpl pow. lra. }
    rewrite Rabs_pos_eq by lra. set (d := (y * (x - y) + (x - y) ^ 2 / 2) / s ^ 2) in *.
    (* b (1 - d) <= a *)
    assert (b * (1 - 9 * m * u) <= a) by nra. assert (b <= a * (1 + 91 / 9000)) by nra. nra.
Qed.
Lemma voigt_perturbed x e s s' g g' M : 0 < g -> good0 7 61 s' s -> near 1 g' g -> Rabs e <= u -> 0 <= M -> M * u <= / 100 ->
  (forall y, 0 <= y -> Rabs (y - Rabs x) <= 9 * u * Rabs x -> Rabs (voigt_profile y s g - voigt_profile (Rabs x) s g) <= M * u * voigt_profile (Rabs x) s g) ->
  rel ((17 + 102 / 100 * M) * u) (voigt_profile (x * (1 + e)) s' g') (voigt_profile x s g).
Proof.
  intros Hg GS NG He HM HM' H. pose proof u_pos as U. pose proof u_tiny as U'. pose proof (near_pos _ _ _ NG) as Pg'.
  assert (K : exists c, near 7 c 1 /\ s' = c * s /\ 0 <= s).
  { destruct GS as [[N R]|[-> ->]].
    - exists (s' / s). pose proof (near_pos _ _ _ N). destruct N as (P & A & B). split; [|split; [field; lra|lra]]. split; [lra|]. split.
      + apply Rmult_le_reg_r with s; auto. replace (s' / s * s) with s' by (field; lra). lra.
      + apply Rmult_le_reg_r with s; auto. replace (s' / s * q ^ 7 * s) with (s' * q ^ 7) by (field; lra). lra.
    - exists 1. split; [|split; lra]. apply (near_weaken 0); [lia|]. apply near_exact. lra. }
  destruct K as (c & NC & -> & Hs). pose proof (near_pos _ _ _ NC) as Pc. set (x' := x * (1 + e)).
  assert (E1 : voigt_profile x' (c * s) g' = / c * voigt_profile (x' / c) s (g' / c)).
  { rewrite <- voigt_scale; auto. 2:{ apply Rdiv_lt_0_compat; auto. } f_equal; field; lra. }
  assert (N8 : near 8 (g' / c) g). { replace g with (g / 1) by field. apply (near_div 1 7); auto. }
  assert (NI : near 7 (/ c) 1). { rewrite <- Rinv_1. now apply near_inv. }
  pose proof (voigt_gamma 8 (x' / c) s g _ Hs N8) as NV.
  assert (N15 : near 15 (voigt_profile x' (c * s) g') (voigt_profile (x' / c) s g)).
  { rewrite E1. rewrite <- (Rmult_1_l (voigt_profile (x' / c) s g)). change 15%nat with (7 + 8)%nat. now apply near_mult. }
  apply near_rel_abs in N15; [|lia]. replace (INR 15 + 1) with 16 in N15 by (simpl; ring).
  (* the shift *)
  assert (ND : Rabs (Rabs (x' / c) - Rabs x) <= 9 * u * Rabs x).
  { assert (NE : near 1 (1 + e) 1). { pose proof (near_err e 1 1 0 He) as X. rewrite Rmult_1_l in X. apply X. apply near_exact; lra. }
    assert (N : near 8 ((1 + e) / c) 1). { replace 1 with (1 / 1) at 2 by field. apply (near_div 1 7); auto. }
    pose proof (near_pos _ _ _ N) as Pn. apply near_bound in N; [|lia]. replace (INR 8 + 1) with 9 in N by (simpl; ring). rewrite Rmult_1_r in N.
    replace (x' / c) with (x * ((1 + e) / c)) by (unfold x'; field; lra). rewrite Rabs_mult, (Rabs_pos_eq ((1 + e) / c)) by lra.
    replace (Rabs x * ((1 + e) / c) - Rabs x) with (Rabs x * ((1 + e) / c - 1)) by ring. rewrite Rabs_mult, Rabs_Rabsolu, Rmult_comm. apply Rmult_le_compat_r; [apply Rabs_pos|exact N]. }
  pose proof (H _ (Rabs_pos _) ND) as S. rewrite <- !voigt_abs in S by auto.
  pose proof (voigt_pos x s g Hs Hg) as P. split; auto. destruct N15 as [P15 E15].
  set (a := voigt_profile x s g) in *. set (b := voigt_profile (x' / c) s g) in *. set (v := voigt_profile x' (c * s) g') in *.
  assert (MZ : 0 <= M * u) by nra. apply Rabs_le_inv in S. apply Rabs_le_inv in E15.
  assert (UU : u <= / 10000) by (unfold u; simpl pow; lra).
  assert (BB : u * b <= u * (a * (1 + M * u))) by (apply Rmult_le_compat_l; lra).
  assert (C1 : u * (a * (M * u)) <= / 10000 * (a * (M * u))) by (apply Rmult_le_compat_r; [apply Rmult_le_pos; lra|lra]).
  apply Rabs_le. replace ((17 + 102 / 100 * M) * u * a) with (17 * (u * a) + 102 / 100 * (M * u * a)) by ring. assert (0 < u * a) by nra. assert (0 <= M * u * a) by (apply Rmult_le_pos; lra). lra.
Qed.
