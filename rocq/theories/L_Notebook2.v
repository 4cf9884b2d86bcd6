(** The layered target. *)
From Coq Require Import Reals List ZArith Lra Lia Psatz.
From Coquelicot Require Import Coquelicot.
From Verif Require Import Py Spec M_Num M_Grid M_Constituents M_Thermal M_Dist M_Resonance M_PseudoVoigt M_Notebook S_Resonance S_PseudoVoigt S_Notebook
  L_Resonance L_PseudoVoigt L_PseudoVoigt6 L_Voigt2 L_Notebook.
Import ListNotations.
Open Scope R_scope.
Open Scope py_scope.

Lemma exp_quadratic u : 0 <= u -> u - u ^ 2 / 2 <= 1 - exp (- u) <= u.
Proof.
  intros Hu. split; [|pose proof (exp_ineq1_le (- u)); lra].
  destruct (MVT_gen (fun u => 1 - exp (- u) - u + u ^ 2 / 2) 0 u (fun u => exp (- u) - 1 + u)) as (c & Hc & E).
  - intros x _. auto_derive; [trivial|]. field.
  - intros x _. apply derivable_continuous_pt. apply ex_derive_Reals_0. auto_derive. trivial.
  - rewrite Rmin_left, Rmax_right in Hc by lra. pose proof (exp_ineq1_le (- c)). rewrite Ropp_0, exp_0 in E.
    assert (0 <= (exp (- c) - 1 + c) * (u - 0)) by (apply Rmult_le_pos; lra). nra.
Qed.
Lemma exp_le_1 u : 0 <= u -> 0 < exp (- u) <= 1.
Proof. intros H. split; [apply exp_pos|]. rewrite <- exp_0. destruct (Req_dec u 0) as [->|N]; [rewrite Ropp_0; lra|]. left. apply exp_increasing. lra. Qed.

(** *** Stacks *)
Lemma transmission_app ls l E : transmission (ls ++ [l]) E = transmission ls E * exp (- (sl_total l E * sl_depth l)).
Proof. induction ls as [|m ls IH]; cbn [app transmission]; [ring|]. rewrite IH. ring. Qed.
Lemma transmission_pos ls E : 0 < transmission ls E.
Proof. induction ls as [|l ls IH]; cbn; [lra|]. apply Rmult_lt_0_compat; [apply exp_pos|exact IH]. Qed.
Fixpoint all_reacted (before ls : list slab) (E : R) : R :=
  match ls with [] => 0 | l :: ls => reacted before l E + all_reacted (before ++ [l]) ls E end.
Lemma reacted_bounds before l E : 0 <= sl_depth l -> 0 <= sl_part l E <= sl_total l E -> 0 < sl_total l E ->
  0 <= reacted before l E <= transmission before E - transmission (before ++ [l]) E.
Proof.
  intros D P T. unfold reacted. rewrite transmission_app. pose proof (transmission_pos before E) as B.
  pose proof (exp_le_1 (sl_total l E * sl_depth l) ltac:(apply Rmult_le_pos; lra)) as X.
  assert (Q : 0 <= sl_part l E / sl_total l E <= 1).
  { split; [apply Rmult_le_pos; [lra|left; now apply Rinv_0_lt_compat]|]. apply Rmult_le_reg_r with (sl_total l E); [exact T|]. unfold Rdiv. rewrite Rmult_assoc, Rinv_l by lra. lra. }
  set (q := sl_part l E / sl_total l E) in *. set (e := exp _) in *. set (t := transmission before E) in *.
  assert (0 <= t * (1 - e)) by (apply Rmult_le_pos; lra). split.
  - rewrite (Rmult_comm t q), Rmult_assoc. apply Rmult_le_pos; lra.
  - rewrite (Rmult_comm t q), Rmult_assoc. nra.
Qed.
Lemma reacted_all before l E : sl_part l E = sl_total l E -> 0 < sl_total l E -> reacted before l E = transmission before E - transmission (before ++ [l]) E.
Proof. intros P T. unfold reacted. rewrite transmission_app, P. field. lra. Qed.

(** *** Values of the functions *)
Lemma Phi_value E rho nr sr x n r : nr E = Ok n -> sr E = Ok r -> Phi E rho nr sr x = Ok (exp (- ((n + x * r) * rho))).
Proof. intros H K. unfold Phi. rewrite H, K. cbn [bind]. do 2 f_equal. ring. Qed.
Lemma alpha_value E rho nr sr x n r : nr E = Ok n -> sr E = Ok r -> alpha E rho nr sr x = Ok (x * r * exp (- ((n + x * r) * rho))).
Proof. intros H K. unfold alpha. rewrite K. cbn [bind]. now rewrite (Phi_value E rho nr sr x n r H K). Qed.

Lemma flux E nr sr x n r : nr E = Ok n -> sr E = Ok r -> 0 <= n -> 0 <= r -> 0 <= x -> exists phi : R -> R,
  (forall rho, Phi E rho nr sr x = Ok (phi rho)) /\ (forall rho, alpha E rho nr sr x = Ok (x * r * phi rho)) /\
  phi 0 = 1 /\ (forall rho, is_derive phi rho (- (n + x * r) * phi rho)) /\ (forall rho, 0 <= rho -> 0 < phi rho <= 1) /\
  (forall u v, phi (u + v) = phi u * phi v) /\ (forall u v, u <= v -> phi v <= phi u).
Proof.
  intros Hn Hr Pn Pr Px. exists (fun rho => exp (- ((n + x * r) * rho))). assert (0 <= n + x * r) by nra.
  split; [intros; now apply Phi_value|]. split; [intros; now apply alpha_value|]. split; [now rewrite Rmult_0_r, Ropp_0, exp_0|].
  split; [intros rho; auto_derive; [trivial|ring]|]. split; [intros rho Hrho; apply exp_le_1; now apply Rmult_le_pos|].
  split; [intros u v; rewrite <- exp_plus; f_equal; ring|]. intros u v Huv.
  replace (exp (- ((n + x * r) * v))) with (exp (- ((n + x * r) * u)) * exp (- ((n + x * r) * (v - u)))) by (rewrite <- exp_plus; f_equal; ring).
  pose proof (exp_le_1 ((n + x * r) * (v - u)) ltac:(apply Rmult_le_pos; lra)). pose proof (exp_pos (- ((n + x * r) * u))). nra.
Qed.
Lemma flux_unique (psi : R -> R) s : psi 0 = 1 -> (forall rho, is_derive psi rho (- s * psi rho)) -> forall rho, psi rho = exp (- (s * rho)).
Proof.
  intros P0 D rho.
  assert (C : forall x, is_derive (fun x => psi x * exp (s * x)) x 0).
  { intros x. evar_last; [apply (is_derive_mult psi (fun x => exp (s * x))); [apply D|auto_derive; [trivial|reflexivity]|intros; apply Rmult_comm]|].
    unfold plus, mult. cbn. ring. }
  assert (K : psi rho * exp (s * rho) = psi 0 * exp (s * 0)).
  { destruct (MVT_gen (fun x => psi x * exp (s * x)) 0 rho (fun _ => 0)) as (c & _ & E).
    - intros x _. apply C.
    - intros x _. apply derivable_continuous_pt. apply ex_derive_Reals_0. eexists. apply C.
    - lra. }
  rewrite P0, Rmult_0_r, exp_0 in K. rewrite exp_Ropp. pose proof (exp_pos (s * rho)). apply Rmult_eq_reg_r with (exp (s * rho)); [|lra]. rewrite K. field. lra.
Qed.

Lemma absorbed before (l : slab) E c d : 0 < sl_total l E -> sl_depth l = d ->
  is_RInt (fun rho => rate before l (rho - c) E) c (c + d) (reacted before l E).
Proof.
  intros T <-. pose proof (depth_integral (sl_total l E) 0 (sl_depth l) (Rgt_not_eq _ _ T)) as J. set (d := sl_depth l) in *. set (s := sl_total l E) in *.
  replace 0 with (1 * c + - c) in J at 1 by ring. replace d with (1 * (c + d) + - c) in J at 1 by ring. apply (is_RInt_comp_lin (V := R_NormedModule)) in J.
  apply (is_RInt_scal _ _ _ (transmission before E * sl_part l E)) in J.
  evar_last; [eapply is_RInt_ext; [|exact J]|].
  - intros y _. unfold rate. fold s. change (transmission before E * sl_part l E * (1 * exp (- s * (1 * y + - c))) = transmission before E * sl_part l E * exp (- (s * (y - c)))).
    rewrite Rmult_1_l. do 2 f_equal. ring.
  - change (transmission before E * sl_part l E * (/ s * (exp (- s * 0) - exp (- s * d))) = reacted before l E). unfold reacted. fold s d.
    rewrite Rmult_0_r, exp_0. replace (- s * d) with (- (s * d)) by ring. field. lra.
Qed.

Section Target.
  Variables (t : target) (n p q : R -> R).
  Notation sI := (slab_of (t_I t) n (t_enrichment_116 t) p).
  Notation sII := (slab_of (t_II t) n (t_enrichment_112 t) q).
  Notation sIII := (slab_of (t_III t) n (t_enrichment_116 t) p).
  Notation sIV := (slab_of (t_IV t) n (t_enrichment_112 t) q).
  Section Values.
    Variable E : R.
    Hypothesis Hn : t_nr t E = Ok (n E).
    Hypothesis Hp : res_call (t_116 t) E true = Ok (p E).
    Hypothesis Hq : res_call (t_112 t) E true = Ok (q E).
    Lemma value_I rho : dN_dE_drho_I t E rho = Ok (rate [] sI (rho - rho_0) E).
    Proof. unfold dN_dE_drho_I. rewrite (alpha_value E _ _ _ _ (n E) (p E)) by assumption. unfold rate. cbn. do 2 f_equal. ring. Qed.
    Lemma value_II rho : dN_dE_drho_II t E rho = Ok (rate [sI] sII (rho - rho_I t) E).
    Proof.
      unfold dN_dE_drho_II. rewrite (Phi_value E _ _ _ _ (n E) (p E)) by assumption. rewrite (alpha_value E _ _ _ _ (n E) (q E)) by assumption. cbn [bind]. f_equal.
      unfold rate, transmission, slab_of. cbn [sl_depth sl_part sl_total]. unfold rho_I. replace (rho_0 + t_I t - rho_0) with (t_I t) by ring. ring.
    Qed.
    Lemma value_III rho : dN_dE_drho_III t E rho = Ok (rate [sI; sII] sIII (rho - rho_II t) E).
    Proof.
      unfold dN_dE_drho_III. rewrite !(Phi_value E _ _ (sigma_116 t) _ (n E) (p E)) by assumption. rewrite !(Phi_value E _ _ (sigma_112 t) _ (n E) (q E)) by assumption.
      rewrite (alpha_value E _ _ _ _ (n E) (p E)) by assumption. cbn [bind]. f_equal.
      unfold rate, transmission, slab_of. cbn [sl_depth sl_part sl_total]. replace (rho_I t - rho_0) with (t_I t) by (unfold rho_I; ring). replace (rho_II t - rho_I t) with (t_II t) by (unfold rho_II; ring). ring.
    Qed.
    Lemma value_IV rho : dN_dE_drho_IV t E rho = Ok (rate [sI; sII; sIII] sIV (rho - rho_III t) E).
    Proof.
      unfold dN_dE_drho_IV. rewrite !(Phi_value E _ _ (sigma_116 t) _ (n E) (p E)) by assumption. rewrite !(Phi_value E _ _ (sigma_112 t) _ (n E) (q E)) by assumption.
      rewrite (alpha_value E _ _ _ _ (n E) (q E)) by assumption. cbn [bind]. f_equal.
      unfold rate, transmission, slab_of. cbn [sl_depth sl_part sl_total]. replace (rho_I t - rho_0) with (t_I t) by (unfold rho_I; ring). replace (rho_II t - rho_I t) with (t_II t) by (unfold rho_II; ring).
      replace (rho_III t - rho_II t) with (t_III t) by (unfold rho_III; ring). ring.
    Qed.
  End Values.
End Target.
