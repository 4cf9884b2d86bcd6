(** Attenuation in layers. *)
From Coq Require Import Reals List Lra Psatz.
From Coquelicot Require Import Coquelicot.
From Verif Require Import Py Spec S_Notebook.
Import ListNotations.
Open Scope R_scope.

Lemma ideal_nquad_accurate eps : 0 <= eps -> nquad_accurate eps ideal_nquad.
Proof.
  intros He f g a b c d I Hab Hcd F [X J]. exists I. split.
  - unfold ideal_nquad. cbn [fst snd]. f_equal. rewrite <- (is_RInt_unique _ _ _ _ J). apply RInt_ext. intros y. rewrite Rmin_left, Rmax_right by lra. intros Hy.
    apply RInt_ext. intros x. rewrite Rmin_left, Rmax_right by lra. intros Hx. now rewrite F by lra.
  - unfold Rminus. rewrite Rplus_opp_r, Rabs_R0. exact He.
Qed.
Lemma ideal_quad_exact : quad_exact ideal_quad.
Proof.
  intros f g a b I Hab F J. unfold ideal_quad. f_equal. rewrite <- (is_RInt_unique _ _ _ _ J). apply RInt_ext. intros x. rewrite Rmin_left, Rmax_right by lra. intros Hx. now rewrite F by lra.
Qed.

(** *** The integral over the depth *)
Lemma depth_integral (s c d : R) : s <> 0 -> is_RInt (fun y => exp (- s * y)) c d (/ s * (exp (- s * c) - exp (- s * d))).
Proof.
  intros Hs. replace (/ s * (exp (- s * c) - exp (- s * d))) with (minus (- / s * exp (- s * d)) (- / s * exp (- s * c))) by (unfold minus, plus, opp; cbn; ring).
  apply (is_RInt_derive (fun y => - / s * exp (- s * y))).
  - intros x _. auto_derive; [trivial|]. field. exact Hs.
  - intros x _. apply (ex_derive_continuous (V := R_NormedModule)). auto_derive. trivial.
Qed.

Section Layer.
  Variables (g s : R -> R) (a b : R).
  Hypothesis Hab : a <= b.
  Hypothesis Cg : forall E, a <= E <= b -> continuity_pt g E.
  Hypothesis Cs : forall E, a <= E <= b -> continuity_pt s E.
  Hypothesis Ps : forall E, a <= E <= b -> 0 < s E.
  Let box E := Rmin a b <= E <= Rmax a b.
  Lemma boxed E : box E -> a <= E <= b. Proof. unfold box. now rewrite Rmin_left, Rmax_right by lra. Qed.

  Lemma continuous_int f : (forall E, a <= E <= b -> continuity_pt f E) -> ex_RInt f a b.
  Proof. intros H. apply (ex_RInt_continuous (V := R_CompleteNormedModule)). intros z Hz. apply continuity_pt_filterlim, H, boxed. exact Hz. Qed.
  Lemma fading_continuous c E : a <= E <= b -> continuity_pt (fun E => exp (- s E * c)) E.
  Proof.
    intros H. apply (continuity_pt_comp (fun E => - s E * c) exp); [|apply derivable_continuous_pt, derivable_pt_exp].
    apply continuity_pt_mult; [apply continuity_pt_opp; auto|apply continuity_pt_const; now intros x y].
  Qed.
  Lemma layer_ex c : ex_RInt (fun E => g E * exp (- s E * c)) a b.
  Proof. apply continuous_int. intros E H. apply continuity_pt_mult; [auto|now apply fading_continuous]. Qed.
  Lemma cumulated_ex c : ex_RInt (fun E => g E / s E * (1 - exp (- s E * c))) a b.
  Proof.
    apply continuous_int. intros E H. apply continuity_pt_mult; [apply continuity_pt_div; auto; pose proof (Ps E H); lra|].
    apply continuity_pt_minus; [apply continuity_pt_const; now intros x y|now apply fading_continuous].
  Qed.
  Lemma second_arg f y x : continuity_pt f x -> continuity_2d_pt (fun u v => f v) y x.
  Proof. intros H eps. pose proof (proj1 (continuity_pt_locally f x) H eps) as [d Hd]. exists d. intros u v _ Hv. apply Hd. exact Hv. Qed.
  Lemma fading_2d y E : a <= E <= b -> continuity_2d_pt (fun u v => exp (- s v * u)) y E.
  Proof.
    intros H. apply (continuity_1d_2d_pt_comp exp (fun u v => - s v * u)); [apply derivable_continuous_pt, derivable_pt_exp|].
    apply (continuity_2d_pt_mult (fun u v => - s v) (fun u v => u)); [|apply continuity_2d_pt_id1].
    apply (continuity_2d_pt_opp (fun u v => s v)). apply (second_arg s). auto.
  Qed.

  (** Absorption up to the depth [y], and its derivative. *)
  Lemma cumulated_derive y : is_derive (fun y => RInt (fun E => g E / s E * (1 - exp (- s E * y))) a b) y (RInt (fun E => g E * exp (- s E * y)) a b).
  Proof.
    assert (D : forall E u, box E -> is_derive (fun z => g E / s E * (1 - exp (- s E * z))) u (g E * exp (- s E * u))).
    { intros E u HE. pose proof (Ps E (boxed E HE)). auto_derive; [trivial|]. field. lra. }
    replace (RInt (fun E => g E * exp (- s E * y)) a b) with (RInt (fun E => Derive (fun z => g E / s E * (1 - exp (- s E * z))) y) a b).
    2: { apply RInt_ext. intros E HE. apply is_derive_unique, D. unfold box. lra. }
    apply (is_derive_RInt_param (fun y E => g E / s E * (1 - exp (- s E * y)))).
    - exists (mkposreal 1 Rlt_0_1). intros u _ E HE. eexists. now apply D.
    - intros E HE. apply (continuity_2d_pt_ext_loc (fun u v => g v * exp (- s v * u))).
      + assert (E' := boxed E HE). pose proof (Ps E E') as P.
        pose proof (proj1 (continuity_pt_locally s E) (Cs E E') (mkposreal _ P)) as [d Hd]. exists d. intros u v _ Hv. specialize (Hd v Hv). cbn in Hd.
        symmetry. apply is_derive_unique. assert (0 < s v) by (apply Rabs_def2 in Hd; lra). auto_derive; [trivial|]. field. lra.
      + apply (continuity_2d_pt_mult (fun u v => g v) (fun u v => exp (- s v * u))); [apply (second_arg g), Cg|apply fading_2d]; now apply boxed.
    - exists (mkposreal 1 Rlt_0_1). intros u _. apply cumulated_ex.
  Qed.
  Lemma rate_continuous y : continuous (fun y => RInt (fun E => g E * exp (- s E * y)) a b) y.
  Proof.
    apply (ex_derive_continuous (V := R_NormedModule)). eexists.
    apply (is_derive_RInt_param (fun y E => g E * exp (- s E * y))).
    - exists (mkposreal 1 Rlt_0_1). intros u _ E HE. auto_derive. trivial.
    - intros E HE. apply (continuity_2d_pt_ext (fun u v => - g v * s v * exp (- s v * u))).
      + intros u v. symmetry. apply is_derive_unique. auto_derive; [trivial|]. ring.
      + apply (continuity_2d_pt_mult (fun u v => - g v * s v) (fun u v => exp (- s v * u))); [|apply fading_2d; now apply boxed].
        apply (second_arg (fun v => - g v * s v)). apply continuity_pt_mult; [apply continuity_pt_opp, Cg|apply Cs]; now apply boxed.
    - exists (mkposreal 1 Rlt_0_1). intros u _. apply layer_ex.
  Qed.
  (** The order of the integrations. *)
  Lemma layer_integral d : is_RInt (fun y => RInt (fun E => g E * exp (- s E * y)) a b) 0 d (RInt (fun E => g E / s E * (1 - exp (- s E * d))) a b).
  Proof.
    replace (RInt (fun E => g E / s E * (1 - exp (- s E * d))) a b) with
      (minus (RInt (fun E => g E / s E * (1 - exp (- s E * d))) a b) (RInt (fun E => g E / s E * (1 - exp (- s E * 0))) a b)).
    2: { assert (Z : RInt (fun E => g E / s E * (1 - exp (- s E * 0))) a b = 0).
         { rewrite (RInt_ext _ (fun _ => 0)); [rewrite RInt_const; apply Rmult_0_r|]. intros E _. rewrite Rmult_0_r, exp_0. rewrite Rminus_diag_eq by reflexivity. apply Rmult_0_r. }
         rewrite Z. unfold minus, plus, opp. cbn. ring. }
    apply (is_RInt_derive (fun y => RInt (fun E => g E / s E * (1 - exp (- s E * y))) a b)).
    - intros y _. apply cumulated_derive.
    - intros y _. apply rate_continuous.
  Qed.
  Lemma layer_integral_from c d : is_RInt (fun y => RInt (fun E => g E * exp (- s E * (y - c))) a b) c (c + d) (RInt (fun E => g E / s E * (1 - exp (- s E * d))) a b).
  Proof.
    pose proof (layer_integral d) as J. replace 0 with (1 * c + - c) in J at 1 by ring. replace d with (1 * (c + d) + - c) in J at 1 by ring.
    apply (is_RInt_comp_lin (V := R_NormedModule)) in J. eapply is_RInt_ext; [|exact J]. intros y _. change (1 * RInt (fun E => g E * exp (- s E * (1 * y + - c))) a b = RInt (fun E => g E * exp (- s E * (y - c))) a b). rewrite Rmult_1_l. apply RInt_ext.
    intros E _. do 3 f_equal. ring.
  Qed.
End Layer.

