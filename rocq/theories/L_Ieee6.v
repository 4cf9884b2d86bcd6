(** Resonances with binary64 numbers. *)
From Coq Require Import Reals List ZArith Lia Lra Bool String.
From Flocq Require Import Core BinarySingleNaN.
From Verif Require Import Py M_Num M_Constituents M_Thermal M_Float S_Float M_Float2 M_Float4 S_Float4 M_Ieee M_Ieee2 S_Ieee L_Ieee L_Ieee2 L_Ieee4 L_Ieee5.
Import ListNotations.
Open Scope R_scope.

Lemma bpow_pow n : bpow radix2 (Z.of_nat n) = 2 ^ n.
Proof. rewrite <- IZR_Zpower by lia. change (Z.pow radix2) with (Z.pow 2). now rewrite <- pow_IZR. Qed.
Lemma bpow_inv n : bpow radix2 (- Z.of_nat n) = / 2 ^ n.
Proof. now rewrite bpow_opp, bpow_pow. Qed.
Lemma window x n : / 2 ^ n <= x <= 2 ^ n -> bpow radix2 (- Z.of_nat n) <= x <= bpow radix2 (Z.of_nat n).
Proof. now rewrite bpow_inv, bpow_pow. Qed.
Lemma plausible_win b x : rep b x -> plausible x -> win b x (-60) 60.
Proof. intros H P. split; auto. apply (window x 60), P. Qed.

Lemma dget_same d d' key g : same_widths d d' -> dgetE d' key = Ok g -> exists b, dgetE d key = Ok b /\ rep b g.
Proof.
  unfold dgetE. intros H. induction H as [|[s b] [s' x] d d' [E R] H IH]; cbn [dget fst snd] in *; [discriminate|]. subst s'.
  destruct (String.eqb key s); [|exact IH]. intros E. injection E as ->. exists b. auto.
Qed.

Lemma square_win L c b x l h : same_clib L c -> clib_ok c -> win b x l h -> (-70 <= l)%Z -> (h <= 70)%Z ->
  win (b_square L b) (c_square c x) (l + l - 1) (h + h + 1).
Proof.
  intros (S1 & _ & _) [K _] W Hl Hh. pose proof (win_pos _ _ _ _ W) as Px. destruct W as [R [H1 H2]].
  assert (B : / 2 ^ 70 <= x <= 2 ^ 70).
  { rewrite <- bpow_inv, <- bpow_pow. split.
    - eapply Rle_trans; [|exact H1]. apply bpow_le. lia.
    - eapply Rle_trans; [exact H2|]. apply bpow_le. lia. }
  destruct (K x (rep_double _ _ R) B) as [_ K2].
  assert (U : 0 <= unit_roundoff <= / 8) by (unfold unit_roundoff; lra).
  assert (X2 : bpow radix2 (l + l) <= x ^ 2 <= bpow radix2 (h + h)).
  { pose proof (bpow_gt_0 radix2 l). rewrite !bpow_plus. replace (x ^ 2) with (x * x) by ring. split; apply Rmult_le_compat; lra. }
  assert (D : Rabs (c_square c x - x ^ 2) <= / 4 * x ^ 2).
  { eapply Rle_trans; [exact K2|]. apply Rmult_le_compat_r; [apply pow2_ge_0|lra]. }
  apply Rabs_le_inv in D. pose proof (bpow_gt_0 radix2 (l + l)).
  assert (B2 : bpow radix2 (l + l - 1) <= c_square c x <= bpow radix2 (h + h + 1)).
  { unfold Z.sub. rewrite (bpow_plus _ (l + l)), (bpow_plus _ (h + h)). change (bpow radix2 (- (1))) with (/ 2). change (bpow radix2 1) with 2. lra. }
  split; auto. apply S1; auto. rewrite Rabs_pos_eq by (pose proof (bpow_gt_0 radix2 (l + l - 1)); lra).
  eapply Rle_trans; [apply B2|]. rewrite <- bpow_pow. apply bpow_le. lia.
Qed.

Ltac zl := lia.

Lemma stat_agree bi bm i m : same_state bi i -> same_state bm m -> (0 <= st_two_J i < 2 ^ 10)%Z -> (0 <= st_two_J m < 2 ^ 10)%Z ->
  exists b x, bget_statistical_factor bi bm = Ok b /\ fget_statistical_factor i m = Ok x /\ win b x (-11) 11.
Proof.
  intros (_ & Ji & _) (_ & Jm & _) Hi Hm. unfold bget_statistical_factor, fget_statistical_factor. rewrite Ji, Jm.
  assert (W : forall z, (0 <= z < 2 ^ 10)%Z -> win (badd (of_Z z) (of_Z 1)) (fadd (IZR z) 1) 0 11).
  { intros z Hz. assert (R : rep (of_Z z) (IZR z)) by (apply Z_rep; lia).
    pose proof (Z_rep 1 ltac:(lia)) as R1.
    assert (B : bpow radix2 0 <= fadd (IZR z) 1 <= bpow radix2 11).
    { apply rnd_win; try lia. change (bpow radix2 0) with 1. change (bpow radix2 11) with 2048.
      assert (0 <= IZR z <= 1024) by (split; apply IZR_le; lia). lra. }
    split; auto. apply add_rep; auto. eapply win_big; [|exact B]. lia. }
  pose proof (W _ Hi) as Wi. pose proof (W _ Hm) as Wm.
  rewrite (win_not_zero _ _ _ _ Wi). pose proof (win_pos _ _ _ _ Wi).
  destruct (Req_EM_T (fadd (IZR (st_two_J i)) 1) 0); [lra|].
  eexists. eexists. split; [reflexivity|]. split; [reflexivity|].
  apply (win_quo _ _ _ _ _ _ _ _ Wm Wi); zl.
Qed.

Lemma branching_agree k bm m bi i bfin fin : same_state bm m -> same_state bi i -> same_final bfin fin -> floats k i m fin ->
  exists b x, bget_final_state_branching_ratio bm bfin = Ok b /\ fget_final_state_branching_ratio m fin = Ok x /\ win b x (-120) 120.
Proof.
  intros (_ & _ & _ & Sd) _ Sf (_ & _ & _ & _ & _ & _ & d & w & Ed & Pw & Hg). rewrite Ed in Sd.
  destruct (b_decays bm) as [[bd bw]|] eqn:Ebd; [|contradiction]. destruct Sd as [Sd Rw].
  unfold bget_final_state_branching_ratio, fget_final_state_branching_ratio.
  destruct bfin as [bf|], fin as [f|]; cbn [same_final] in Sf; try contradiction.
  - destruct (Hg f (or_intror eq_refl)) as (g & Eg & Pg). destruct (dget_same _ _ _ _ Sd Eg) as (bg & Ebg & Rg).
    unfold bpartial_widths, partial_widths, bwidth, width. rewrite Ebd, Ed. cbn [bind].
    destruct Sf as (Jf & _). rewrite Jf, Ebg, Eg. cbn [bind].
    pose proof (plausible_win _ _ Rw Pw) as Ww. pose proof (plausible_win _ _ Rg Pg) as Wg.
    rewrite (win_not_zero _ _ _ _ Ww). pose proof (win_pos _ _ _ _ Ww). destruct (Req_EM_T w 0); [lra|].
    eexists. eexists. split; [reflexivity|]. split; [reflexivity|]. apply (win_quo _ _ _ _ _ _ _ _ Wg Ww); zl.
  - eexists. eexists. split; [reflexivity|]. split; [reflexivity|].
    eapply win_weaken; [apply (win_Z 1); lia|cbn; lia|cbn; lia].
Qed.

Lemma fsub_win a b x y l h : rep a x -> rep b y -> (-1074 <= l)%Z -> (-1074 <= h < 1024)%Z -> bpow radix2 l <= x - y <= bpow radix2 h -> win (bsub a b) (fsub x y) l h.
Proof.
  intros Ra Rb Hl Hh B. assert (B2 : bpow radix2 l <= fsub x y <= bpow radix2 h) by (apply rnd_win; auto; lia).
  split; auto. apply sub_rep; auto. eapply win_big; [|exact B2]. lia.
Qed.

Lemma resonance_agree L c B k bi i bm m bfin fin : same_clib L c -> clib_ok c -> same_constants B k -> floats k i m fin ->
  same_state bi i -> same_state bm m -> same_final bfin fin ->
  exists E_r Ir e r, bResonance L B bi bm bfin = Ok (E_r, Ir) /\ fResonance c k i m fin NoRecoil = Ok (e, r) /\
    win E_r e (-60) 60 /\ win Ir r (-440) 440 /\ e = fsub (st_excitation_energy m) (st_excitation_energy i).
Proof.
  intros SL KL (Rh & Ru & RkB) Fl Si Sm Sf. pose proof Fl as (Ph & Ji & Jm & Di & Dm & PD & d & w & Ed & Pw & Hg).
  destruct (stat_agree bi bm i m Si Sm Ji Jm) as (bg & g & Ebg & Eg & Wg).
  destruct (branching_agree k bm m bi i bfin fin Sm Si Sf Fl) as (bbr & br & Ebbr & Ebr & Wbr).
  assert (WE : win (bsub (b_excitation_energy bm) (b_excitation_energy bi)) (fsub (st_excitation_energy m) (st_excitation_energy i)) (-60) 60).
  { apply fsub_win; try lia; [apply Sm|apply Si|]. apply (window _ 60), PD. }
  assert (Wc : win (bmul bpi (b_hbarc B)) (fmul np_pi (k_hbarc k)) (1 + -60) (2 + 60)).
  { apply win_mul; [exact win_pi|apply plausible_win; assumption|zl|zl]. }
  pose proof (square_win _ _ _ _ _ _ SL KL WE ltac:(lia) ltac:(lia)) as W2.
  pose proof (square_win _ _ _ _ _ _ SL KL Wc ltac:(lia) ltac:(lia)) as Wk.
  destruct (Hg i (or_introl eq_refl)) as (gi & Egi & Pgi).
  destruct Sm as (JJ & _ & _ & Sd). rewrite Ed in Sd. destruct (b_decays bm) as [[bd bw]|] eqn:Ebd; [|contradiction]. destruct Sd as [Sd Rw].
  destruct (dget_same _ _ _ _ Sd Egi) as (bgi & Ebgi & Rgi). pose proof (plausible_win _ _ Rgi Pgi) as Wgi.
  unfold bResonance, fResonance, NoRecoil. cbn [bind]. rewrite Ebg, Eg. cbn [bind]. rewrite Ebbr, Ebr. cbn [bind].
  unfold bget_energy_integrated_cross_section, fget_energy_integrated_cross_section, bpartial_widths, partial_widths.
  rewrite (win_not_zero _ _ _ _ W2), Ebd, Ed. pose proof (win_pos _ _ _ _ W2).
  destruct (Req_EM_T (c_square c (fsub (st_excitation_energy m) (st_excitation_energy i))) 0); [lra|]. cbn [bind].
  destruct Si as (Jpi & _). rewrite Jpi, Ebgi, Egi. cbn [bind].
  do 4 eexists. split; [reflexivity|]. split; [reflexivity|]. split; [exact WE|]. split; [|reflexivity].
  pose proof (win_quo _ _ _ _ _ _ _ _ Wk W2 ltac:(zl) ltac:(zl)) as W3.
  pose proof (win_mul _ _ _ _ _ _ _ _ W3 Wg ltac:(zl) ltac:(zl)) as W4.
  pose proof (win_mul _ _ _ _ _ _ _ _ W4 Wgi ltac:(zl) ltac:(zl)) as W5.
  pose proof (win_mul _ _ _ _ _ _ _ _ W5 Wbr ltac:(zl) ltac:(zl)) as W6.
  eapply win_weaken; [exact W6|zl|zl].
Qed.

(** Profiles. *)
Lemma lt_zero b x l h : win b x l h -> Bltb (of_Z 0) b = true.
Proof.
  intros W. rewrite (rep_lt _ _ 0 x); [|apply (Z_rep 0); lia|apply W]. apply Rlt_bool_true. exact (win_pos _ _ _ _ W).
Qed.
Lemma square_nonneg x : 0 <= fmul x x.
Proof. unfold fmul, rnd. apply round_ge_generic; try typeclasses eauto; [apply generic_format_0|]. apply Rle_0_sqr. Qed.

Lemma cauchy_agree E_r e s t E x hx ls hs : bnd E_r e hx -> win s t ls hs -> bnd E x hx ->
  (0 <= hx)%Z -> (-100 <= ls)%Z -> (ls <= 100)%Z -> (hx <= 405)%Z ->
  exists p, fcauchy_pdf e t x = Ok p /\ bnd (bcauchy_pdf E_r s E) p (0 - ls) /\ 0 <= p.
Proof.
  intros WE Ws Bx H0 H1 H2 H3. unfold fcauchy_pdf, bcauchy_pdf. rewrite (lt_zero _ _ _ _ Ws). pose proof (win_pos _ _ _ _ Ws) as Pt.
  destruct (Rlt_dec 0 t); [|lra]. eexists. split; [reflexivity|].
  pose proof (bnd_sub _ _ _ _ _ _ Bx WE ltac:(lia)) as B1. rewrite Z.max_id in B1.
  pose proof (bnd_quo _ _ _ _ _ _ _ B1 Ws ltac:(lia)) as B2.
  pose proof (bnd_mul _ _ _ _ _ _ B2 B2 ltac:(lia)) as B3.
  pose proof (win_Z 1 ltac:(lia)) as W1. cbn [Z.log2 Z.add] in W1.
  pose proof (win_add_nonneg _ _ _ _ _ _ _ W1 B3 (square_nonneg _) ltac:(lia) ltac:(lia)) as W4.
  pose proof (win_quo _ _ _ _ _ _ _ _ W1 win_pi ltac:(zl) ltac:(zl)) as W5.
  pose proof (bnd_quo _ _ _ _ _ _ _ (win_bnd _ _ _ _ W5) W4 ltac:(zl)) as B6.
  pose proof (bnd_quo _ _ _ _ _ _ _ B6 Ws ltac:(lia)) as B7.
  split; [eapply bnd_weaken; [exact B7|]; lia|].
  apply round_ge_generic; try typeclasses eauto; [apply generic_format_0|]. apply Rmult_le_pos; [|apply Rlt_le, Rinv_0_lt_compat, Pt].
  apply round_ge_generic; try typeclasses eauto; [apply generic_format_0|]. apply Rmult_le_pos; [|apply Rlt_le, Rinv_0_lt_compat, (win_pos _ _ _ _ W4)].
  apply Rlt_le, (win_pos _ _ _ _ W5).
Qed.

Lemma half_win w x l h : win w x l h -> (-1000 <= l)%Z -> (h < 1000)%Z -> win (bmul (literal 1 2) w) (fmul (1 / 2) x) (l - 1) (h - 1).
Proof.
  intros W Hl Hh. assert (R : rep (literal 1 2) (1 / 2)).
  { destruct (win_literal 1 2 ltac:(lia) ltac:(lia)) as [R _].
    assert (E : rnd (1 / 2) = 1 / 2).
    { apply round_generic; try typeclasses eauto. replace (1 / 2) with (bpow radix2 (-1)) by (cbn; lra). apply bpow_double. lia. }
    rewrite E in R. exact R. }
  assert (W2 : win (literal 1 2) (1 / 2) (-1) (-1)).
  { split; auto. replace (1 / 2) with (bpow radix2 (-1)) by (cbn; lra). lra. }
  replace (l - 1)%Z with (-1 + l)%Z by lia. replace (h - 1)%Z with (-1 + h)%Z by lia. apply win_mul; auto; lia.
Qed.

Lemma breit_wigner_agree L c B k bi i bm m bfin fin E x absolute : same_clib L c -> clib_ok c -> same_constants B k -> floats k i m fin ->
  same_state bi i -> same_state bm m -> same_final bfin fin -> bnd E x 400 ->
  reads_number (bBreitWigner_call L B bi bm bfin E absolute) (fBreitWigner_call c k i m fin x absolute).
Proof.
  intros SL KL Sc Fl Si Sm Sf Bx.
  destruct (resonance_agree _ _ _ _ _ _ _ _ _ _ SL KL Sc Fl Si Sm Sf) as (E_r & Ir & e & r & Eb & Ef & WE & WI & _).
  unfold bBreitWigner_call, fBreitWigner_call. rewrite Eb, Ef. cbn [bind fst snd].
  pose proof Fl as (_ & _ & _ & _ & _ & _ & d & w & Ed & Pw & _).
  destruct Sm as (_ & _ & _ & Sd). rewrite Ed in Sd. unfold bwidth, width. rewrite Ed.
  destruct (b_decays bm) as [[bd bw]|] eqn:Ebd; [|contradiction]. destruct Sd as [_ Rw]. cbn [bind].
  pose proof (half_win _ _ _ _ (plausible_win _ _ Rw Pw) ltac:(lia) ltac:(lia)) as Ws.
  pose proof (bnd_weaken _ _ _ 405 (win_bnd _ _ _ _ WE) ltac:(lia)) as BE.
  unfold bres_call, fres_call.
  assert (Bx' : bnd (if absolute then E else badd E E_r) (if absolute then x else fadd x e) 405).
  { destruct absolute; [eapply bnd_weaken; [exact Bx|lia]|].
    pose proof (bnd_add _ _ _ _ _ _ Bx (win_bnd _ _ _ _ WE) ltac:(zl)) as B1. eapply bnd_weaken; [exact B1|zl]. }
  destruct (cauchy_agree _ _ _ _ _ _ _ _ _ BE Ws Bx' ltac:(lia) ltac:(lia) ltac:(lia) ltac:(lia)) as (p & Ep & Bp & _).
  rewrite Ep. cbn [bind]. pose proof (bnd_mul _ _ _ _ _ _ (win_bnd _ _ _ _ WI) Bp ltac:(lia)) as Bv.
  do 2 eexists. split; [reflexivity|]. split; [reflexivity|]. apply Bv.
Qed.
