(** Darboux integrals of Voigt profiles with binary64 numbers. *)
From Coq Require Import Reals List ZArith Bool Lra Lia Psatz Sorted Permutation.
From Coquelicot Require Import Coquelicot.
From Flocq Require Import Core BinarySingleNaN.
From Verif Require Import Py Spec M_Num M_Grid M_Dist M_Constituents M_Thermal M_CrossSection S_CrossSection M_Resonance M_PseudoVoigt S_Resonance S_PseudoVoigt M_Float S_Float M_Float4 S_Float4 M_Float8 S_Float8 M_Float11 S_Float11 S_Float12 S_Float14 M_Ieee M_Ieee2 S_Ieee M_Ieee7 S_Ieee7 M_Ieee8 S_Ieee8
  L_Float L_Ieee6 L_PseudoVoigt4 L_Float10 L_Float9 L_Float49 L_Float32 L_Float46 L_Float48 L_Float54 L_Ieee L_Ieee2 L_Ieee3 L_Ieee5 L_Ieee6 L_Ieee7 L_Ieee8 L_Ieee9 L_Ieee34 L_Ieee30.
Import ListNotations.
Open Scope R_scope.

Section Call.
  Variables (L : blib) (V : pvlib) (B : bconstants) (k : constants) (bi : bstate) (i : state) (bm : bstate) (m : state)
    (bfin : option bstate) (fin : option state) (bamu : b64) (amu : R) (bT : b64) (T : R) (w : R).
  Hypotheses (KV : pvlib_ok V) (SV : same_pvlib L V) (Sc : same_constants B k) (Fl : floats k i m fin)
    (Ew : width m = Ok w) (Pp : pv_params k (fsub (st_excitation_energy m) (st_excitation_energy i)) w amu T) (Pf : pv_floats k (fsub (st_excitation_energy m) (st_excitation_energy i)) w amu T)
    (Ra : rep bamu amu) (Rt : rep bT T) (Si : same_state bi i) (Sm : same_state bm m) (Sf : same_final bfin fin).
  Variables (vp : R -> R -> R -> R) (bvp : b64 -> b64 -> b64 -> b64) (eps : R).
  Hypotheses (KP : profile_ok eps vp) (He : 0 <= eps <= / 4) (SP : same_profile bvp vp).

  Lemma bvoigt_values bxs : List.Forall finite bxs -> (forall x, In x (map B2R bxs) -> Rabs x <= 2 ^ 60) ->
    forall vs, Forall2 (fun x v => fVoigt_call V vp k i m amu T fin x true = Ok v) (map B2R bxs) vs ->
    exists bvs, Forall2 (fun x v => bVoigt_call L bvp B bi bm bamu bT bfin x true = Ok v) bxs bvs /\ List.Forall (at_most 503) bvs /\ map B2R bvs = vs.
  Proof using All.
    intros F. induction F as [|b bxs Fb F IH]; intros Hx vs H; cbn [map] in *; inversion H as [|? v ? vs' Hv H']; subst.
    - exists []. repeat split; constructor.
    - destruct (IH (fun x Ix => Hx x (or_intror Ix)) vs' H') as (bvs & A1 & A2 & A3).
      destruct (voigt_bounded L V B k bi i bm m bfin fin bamu amu bT T w KV SV Sc Fl Ew Pp Pf Ra Rt Si Sm Sf vp bvp eps b (B2R b) true KP He SP (conj Fb eq_refl) (Hx _ (or_introl eq_refl))) as (bv & v' & E1 & E2 & [[R1 R2] R3]).
      assert (v' = v) by (rewrite Hv in E2; now injection E2). subst v'. exists (bv :: bvs). repeat split.
      + now constructor.
      + constructor; [|assumption]. split; [exact R1|exact R3].
      + cbn [map]. congruence.
  Qed.
  Lemma bvoigt_integral modern : let E_r := fsub (st_excitation_energy m) (st_excitation_energy i) in
    exists p r f, PseudoVoigtDistribution k E_r w amu T = Ok p /\ Voigt modern k i (with_energy m (st_excitation_energy i + E_r)) amu T fin = Ok r /\
      0 < r_integrated r /\ cross_section_is r f /\
    forall bxs delta kk y, List.Forall finite bxs -> let xs := map B2R bxs in ascending xs -> delta <= 1 -> (forall x, In x xs -> Rabs x <= 2 ^ 60 /\ voigt_error p eps E_r delta x) -> In y xs -> 0 <= kk -> near_centre p E_r kk y ->
      exists vs J, Forall2 (fun x v => bVoigt_call L bvp B bi bm bamu bT bfin x true = Ok v) bxs vs /\ is_RInt f (first xs) (final xs) J /\
      forall t S D, order_of (List.length xs - 1) t -> (depth_of t <= 400)%nat -> bdarboux t vs bxs = (S, D) ->
        finite S /\ finite D /\ encloses (depth_of t) (List.length xs - 1) delta kk J (B2R S) (B2R D).
  Proof using All.
    intros E_r. destruct (voigt_integral V KV eps vp KP He modern k i m fin amu T w Fl Ew Pp Pf) as (p & r & f & P1 & P2 & P3 & P4 & H).
    exists p, r, f. repeat (split; [assumption|]). intros bxs delta kk y Fx xs Asc Hd Hx Iy Hk HC.
    assert (G : grid xs). { split; [exact Asc|]. apply List.Forall_forall. intros x Ix. apply in_map_iff in Ix. destruct Ix as (b & <- & Ib). apply rep_double with b. split; [|reflexivity]. now apply (proj1 (List.Forall_forall _ _) Fx). }
    destruct (H xs delta kk y G Hd Hx Iy Hk HC) as (vs & J & H1 & H2 & H3).
    destruct (bvoigt_values bxs Fx (fun x Ix => proj1 (Hx x Ix)) vs H1) as (bvs & A1 & A2 & A3). exists bvs, J. split; [exact A1|]. split; [exact H2|].
    intros t S D Ot Dt E.
    assert (At : List.Forall (at_most 60) bxs). { apply List.Forall_forall. intros b Ib. split; [now apply (proj1 (List.Forall_forall _ _) Fx)|]. change 60%Z with (Z.of_nat 60). rewrite bpow_pow. apply Hx. now apply in_map. }
    destruct (darboux_moderate t bvs bxs 503 60 ltac:(lia) ltac:(lia) ltac:(lia) A2 At) as [F1 F2]. rewrite E in F1, F2. cbn [fst snd] in F1, F2.
    assert (Lx : List.length xs = List.length bxs) by apply map_length.
    assert (Lv : List.length bvs = List.length bxs) by (clear - A1; induction A1; cbn; congruence).
    destruct (darboux_finite t bvs bxs Lv ltac:(rewrite <- Lx; exact Ot) ltac:(rewrite E; exact F2)) as ([_ R1] & [_ R2] & _). rewrite E, A3 in R1, R2. cbn [fst snd] in R1, R2. fold xs in R1, R2.
    split; [exact F1|]. split; [exact F2|]. apply H3; [exact Ot|]. rewrite R1, R2. apply surjective_pairing.
  Qed.
End Call.

(** ** The hypotheses can be met *)
Lemma integral_example : let E_r := fsub (st_excitation_energy wide_m) (st_excitation_energy lost_i) in
  same_resonance correct_library correct_pvlib (of_constants ieee_k) ieee_k (of_state lost_i) lost_i (of_state wide_m) wide_m None None (of_Z 1000) 1000 (of_Z 0) 0 (/ 2 ^ 10) /\
  exists p, PseudoVoigtDistribution ieee_k E_r (/ 2 ^ 10) 1000 0 = Ok p /\
  let bxs := [of_Z 0; of_Z 1; of_Z 3] in let xs := map B2R bxs in List.Forall finite bxs /\ ascending xs /\ (forall x, In x xs -> Rabs x <= 2 ^ 60 /\ voigt_error p unit_roundoff E_r (/ 2 ^ 30) x) /\
    In 1 xs /\ near_centre p E_r 0 1 /\ order_of (List.length xs - 1) (Some (Plus (Index 0) (Index 1))) /\ (depth_of (Some (Plus (Index 0) (Index 1))) <= 400)%nat.
Proof.
  intros E_r. destruct resonance_example as (S & p & P & _). split; [exact S|]. exists p. split; [exact P|].
  assert (D1 : double 1) by (apply double_IZR; simpl; lia). assert (E1 : E_r = 1) by (unfold E_r; cbn [wide_m lost_i st_excitation_energy]; unfold fsub; rewrite Rminus_0_r; now apply rnd_id).
  destruct S as (_ & _ & _ & _ & _ & PP & _). fold E_r in PP, P. destruct (cold _ _ _ _ _ PP P) as (_ & _ & _ & _ & HG & _).
  pose proof (Z_rep 0 ltac:(lia)) as [F0 R0]. pose proof (Z_rep 1 ltac:(lia)) as [F1 R1]. pose proof (Z_rep 3 ltac:(lia)) as [F3 R3].
  cbv zeta. cbn [map]. rewrite R0, R1, R3, E1.
  split; [repeat constructor; assumption|]. split; [unfold ascending; repeat constructor; lra|].
  assert (U : unit_roundoff = / 2 ^ 53) by reflexivity.
  assert (W : forall x, Rabs x <= 3 -> Rabs (x - 1) <= 4 -> Rabs x <= 2 ^ 60 /\ voigt_error p unit_roundoff 1 (/ 2 ^ 30) x).
  { intros x H1 H2. split; [eapply Rle_trans; [exact H1|simpl; lra]|]. left. rewrite HG, U. pose proof (Rabs_pos (x - 1)). set (a := Rabs (x - 1)) in *. clearbody a. split; [simpl; lra|].
    replace (a / (/ 2 ^ 10 / 2)) with (a * 2 ^ 11) by (simpl; field). simpl. lra. }
  split. { intros x [<-|[<-|[<-|[]]]]; apply W; apply Rabs_le; lra. }
  split; [right; now left|]. split. { left. exists 0. rewrite HG. replace (1 - 1) with 0 by ring. rewrite Rabs_R0. simpl. lra. }
  split; [apply Permutation_refl|]. cbn. lia.
Qed.
