(** Quantiles of the pseudo-Voigt distribution with binary64 numbers: from rounded arithmetic to binary64 numbers. *)
From Coq Require Import Reals List ZArith Bool Lra Lia Psatz.
From Coquelicot Require Import Coquelicot.
From Flocq Require Import Core BinarySingleNaN.
From Verif Require Import Py Spec M_Num M_Grid M_Dist M_Resonance M_Thermal M_Constituents M_PseudoVoigt S_Resonance S_PseudoVoigt M_Float S_Float M_Float2 M_Float3 S_Float3 M_Float4 S_Float4 M_Float6 S_Float6 M_Float8 S_Float8 M_Float12 S_Float13 M_Ieee M_Ieee2 M_Ieee5 S_Ieee S_Ieee5 M_Ieee7 S_Ieee7
  L_RInt L_Dist L_PseudoVoigt L_PseudoVoigt4 L_Float L_FNewton L_FNewton2 L_FNewton3 L_FNewton5 L_FNewton6 L_Float7 L_Float9 L_Float22 L_Float27 L_Float28 L_Float30 L_Float31 L_Float32 L_Float50 L_Float51
  L_Ieee L_Ieee2 L_Ieee3 L_Ieee4 L_Ieee5 L_Ieee6 L_Ieee7 L_Ieee8 L_Ieee9 L_Ieee13 L_Ieee20 L_Ieee24 L_Ieee25 L_Ieee26 L_Ieee27 L_Ieee28.
Import ListNotations.
Open Scope R_scope.

Section Generic.
  Variables (bc bp : b64 -> b64) (c p : R -> R) (St : nat -> R -> R -> Prop).
  Hypothesis nonzero : forall k q x, St k q x -> p x <> 0.
  Hypothesis next : forall k q x, St (S k) q x -> St k q (fsub x (fquo (fsub (c x) q) (p x))).
  Hypothesis moderate : forall k q x b bq, St k q x -> rep b x -> rep bq q -> same_step bc bp c p b x bq q.
  Lemma ppf_forward k m x bfb fb bqs qs xs : rep m x -> Forall2 rep bqs qs -> Forall2 (St k) qs (map (fun _ => x) qs) ->
    fppf_array (S k) c p x fb qs = ([], Ok (Some (map Finite xs))) -> exists g, bppf_array (S k) bc bp m bfb bqs = ([], Ok (Some g)) /\ Forall2 rep g xs.
  Proof.
    intros Rm Rq S0 H. unfold fppf_array in H. pose proof (same_starts m x _ _ Rm Rq) as R0.
    assert (T : map (fun _ : b64 => true) (map (fun _ : b64 => m) bqs) = map (fun _ : R => true) (map (fun _ : R => x) qs)) by (rewrite !map_map; apply trues; clear - Rq; induction Rq; cbn; congruence).
    destruct (forward bc bp c p St nonzero next moderate k _ _ bqs qs (map (fun _ : R => true) (map (fun _ : R => x) qs)) (map (fun _ : R => true) (map (fun _ : R => x) qs)) R0 Rq S0) as (g & ys & fl & nz & R & E & F).
    rewrite <- T in E. destruct (newton_same (S k) _ _ _ _ _ _ _ _ fl nz T E F) as [(conv & E1 & E2)|[_ E2]]; rewrite E2 in H; [|discriminate].
    destruct (forallb _ conv) eqn:FC; [|discriminate]. injection H as H. exists g. split; [unfold bppf_array; now rewrite E1, FC|].
    assert (ys = xs). { clear - H. revert xs H. induction ys as [|a ys IH]; intros [|b xs] H; try discriminate; [reflexivity|]. cbn in H. injection H as -> H. f_equal. now apply IH. } now subst.
  Qed.
End Generic.

Section Central.
  Variables (p : pv) (cdf pdf : R -> R) (eps kappa s : R).
  Hypothesis V : pv_valid p.
  Let G := pv_Gamma p.
  Let lo := 16 / 7 * s ^ 2 / G.
  Let X := pv_energy p + G / (2 * s ^ 2).
  Let rho := deviation kappa eps lo X.
  Hypothesis Hcdf : forall x, double x -> double (cdf x) /\ Rabs (cdf x - pvF p x) <= eps.
  Hypothesis Hpdf : forall x, double x -> lo <= pvf p x -> Rabs (pdf x - pvf p x) <= kappa * pvf p x.
  Hypothesis Hkappa : / 2 ^ 46 <= kappa <= / 2 ^ 30.
  Hypothesis Heps : 0 <= eps.
  Hypothesis DE : double (pv_energy p).
  Hypothesis PE : 0 <= pv_energy p.
  Hypothesis Hs : / 10 ^ 4 <= s <= 1 / 4.
  Hypothesis HG : pv_Gamma p <= 10 ^ 5 * s ^ 6.
  Hypothesis rho_4 : rho <= 79 / 10 ^ 10 * s ^ 4.
  Hypothesis rho_2 : rho <= / 28 * (s ^ 2 * G).
  Let St (k : nat) (q p0 : R) : Prop := double q /\ 2 * s <= q <= 1 - 2 * s /\
    exists xq, pvF p xq = q /\ state (pvf p) (pvF p) (pv_energy p) kappa eps lo X q xq k p0.
  (** See [L_Float51.where_array]. *)
  Lemma states : exists St : nat -> R -> R -> Prop,
    (forall k q x, St k q x -> pdf x <> 0) /\ (forall k q x, St (S k) q x -> St k q (fsub x (fquo (fsub (cdf x) q) (pdf x)))) /\
    (forall k q x, St k q x -> double x /\ lo <= pvf p x /\ Rabs x <= X /\ 0 <= q <= 1) /\
    forall qs, List.Forall double qs -> List.Forall (fun q => 2 * s <= q <= 1 - 2 * s) qs -> Forall2 (St 49%nat) qs (map (fun _ => pv_energy p) qs).
  Proof.
    pose proof (pv_density p V) as D. pose proof (pv_unimodal p V) as U. pose proof (pv_median p) as M.
    assert (LP := fun a b => pvf_lip p a b V). fold G in LP. pose proof (HLo p s V Hs) as H0. fold G lo in H0.
    pose proof (sides p eps kappa s V Hkappa Heps PE Hs HG rho_4 rho_2) as SD. fold G lo X rho in SD.
    exists St. repeat split.
    - intros k q x (Dq & Hq & xq & Hxq & S0). destruct (SD q xq Hq Hxq) as (A1 & A2 & A3 & A4 & A5 & A6).
      refine (state_pdf (pvf p) (pvF p) (pv_energy p) D U pdf kappa eps lo X q xq Hkappa Heps H0 Hxq A1 A2 A3 Hpdf k x S0).
    - exact (proj1 H).
    - destruct H as (_ & Hq & _). lra.
    - destruct H as (_ & Hq & _). lra.
    - destruct H as (Dq & Hq & xq & Hxq & S0). destruct (SD q xq Hq Hxq) as (A1 & A2 & A3 & A4 & A5 & A6). exists xq. split; [exact Hxq|].
      refine (sweep (pvf p) (pvF p) (pv_energy p) D U cdf pdf kappa eps lo X (16 / 3 / G ^ 2) q xq Hkappa Dq Heps H0 Hxq A1 A2 A3 LP A4 Hcdf Hpdf A5 k x S0).
    - destruct H as (Dq & Hq & xq & Hxq & S0). exact (proj1 S0).
    - destruct H as (Dq & Hq & xq & Hxq & S0). destruct (SD q xq Hq Hxq) as (A1 & A2 & A3 & A4 & A5 & A6).
      exact (proj1 (state_lo (pvf p) (pvF p) (pv_energy p) D U kappa eps lo X q xq Hkappa Heps H0 Hxq A1 A2 A3 k x S0)).
    - destruct H as (Dq & Hq & xq & Hxq & S0). destruct (SD q xq Hq Hxq) as (A1 & A2 & A3 & A4 & A5 & A6).
      exact (proj2 (state_lo (pvf p) (pvF p) (pv_energy p) D U kappa eps lo X q xq Hkappa Heps H0 Hxq A1 A2 A3 k x S0)).
    - destruct H as (_ & Hq & _). lra.
    - destruct H as (_ & Hq & _). lra.
    - intros qs HD HQ. induction qs as [|q qs IH]; cbn [map]; constructor; inversion HD as [|? ? Dq HD']; inversion HQ as [|? ? Hq HQ']; subst.
      + destruct (dens_onto _ _ D q ltac:(lra)) as [xq Hxq]. destruct (SD q xq Hq Hxq) as (A1 & A2 & A3 & A4 & A5 & A6).
        split; [assumption|]. split; [assumption|]. exists xq. split; [exact Hxq|].
        refine (state_start (pvf p) (pvF p) (pv_energy p) D U M kappa eps lo X q xq Hkappa DE Heps H0 Hxq A1 A3 A5 A6).
      + apply IH; assumption.
  Qed.
End Central.

Section Line.
  Variables (L : bpvlib) (V : pvlib) (b : bpv) (k : constants) (E w amu T : R) (p p' : pv).
  Hypotheses (KV : pvlib_ok V) (SV : same_library L V) (A : pv_agree b p').
  Hypothesis HP : pv_params k E w amu T.
  Hypothesis HF : pv_floats k E w amu T.
  Hypothesis EP : PseudoVoigtDistribution k E w amu T = Ok p.
  Hypothesis EP' : fPseudoVoigtDistribution V k E w amu T = Ok p'.
  Let C : close p' p := proj1 (both V k E w amu T p p' KV HP HF EP EP').
  Notation cdf' := (fun x => number (fpv_cdf V p' x)).
  Notation pdf' := (fun x => number (fpv_pdf V p' x)).
  Lemma step_same s q x bx bq : easy_line p E s -> double x -> 16 / 7 * s ^ 2 / pv_Gamma p <= pvf p x -> Rabs x <= pv_energy p + pv_Gamma p / (2 * s ^ 2) -> 0 <= q <= 1 ->
    rep bx x -> rep bq q -> same_step (bpv_cdf L b) (bpv_pdf (bv_b L) b) cdf' pdf' bx x bq q.
  Proof using All.
    intros (Hs & HG & HE & HEG) Dx Lx Bx Hq Rx Rq. pose proof (proj2 (proj2 (both V k E w amu T p p' KV HP HF EP EP'))) as EE. pose proof (cl_valid _ _ C) as Va. pose proof Va as (PG & _).
    set (G := pv_Gamma p) in *. assert (S2 : 0 < s ^ 2 <= / 16) by (split; [apply pow_lt; lra|simpl pow; nra]). assert (S4 : 0 < s ^ 4 <= / 256) by (replace (s ^ 4) with (s ^ 2 * s ^ 2) by ring; split; nra).
    assert (S6 : s ^ 6 = s ^ 4 * s ^ 2) by ring.
    assert (XB : Rabs x <= bpow radix2 20). { eapply Rle_trans; [exact Bx|]. rewrite EE. assert (G / (2 * s ^ 2) <= 14). { apply (Rmult_le_reg_r (2 * s ^ 2)); [lra|]. unfold Rdiv. rewrite Rmult_assoc, Rinv_l, Rmult_1_r by lra. rewrite S6 in HG. nra. } change (bpow radix2 20) with 1048576. lra. }
    assert (LB : / 16 <= 16 / 7 * s ^ 2 / G). { apply (Rmult_le_reg_r G); [exact PG|]. replace (16 / 7 * s ^ 2 / G * G) with (16 / 7 * s ^ 2) by (field; lra). rewrite S6 in HG. nra. }
    assert (W : within b bx). { apply (moderate_within b p' A); [apply Rx|]. destruct Rx as [_ ->]. eapply Rle_trans; [exact XB|]. rewrite pow_bp. apply bpow_le. cbn; lia. }
    destruct (weak L V b p' p KV SV C A bx x bq q W Rx Rq ltac:(apply Rabs_le; lra)) as [RV RS].
    pose proof (ev_cdf V p' p KV C x Dx) as [_ Hc]. cbv beta in Hc. pose proof (dens_range _ _ (pv_density p Va) x) as RF.
    pose proof (upper_pdf V p' p KV C s x ltac:(lra) HG Dx Lx) as Hp. cbv beta in Hp.
    split; [exact Rx|]. split; [exact RV|]. split; [exact RS|]. intros _.
    set (cv := number (fpv_cdf V p' x)) in *. set (dv := number (fpv_pdf V p' x)) in *. cbv beta in RV, RS. fold cv in RV. fold dv in RS.
    assert (BV : bnd (bsub (bpv_cdf L b bx) bq) (fsub cv q) 2). { split; [exact RV|]. apply rnd_bpow; [lia|]. change (bpow radix2 2) with 4. assert (/ 2 ^ 44 <= 1) by (simpl pow; lra). apply Rabs_le_inv in Hc. apply Rabs_le. lra. }
    assert (WS : win (bpv_pdf (bv_b L) b bx) dv (-5) 1024). { split; [exact RS|]. pose proof (rep_big _ _ RS) as B. split; [|apply Rabs_lt_inv in B; apply Rlt_le, B]. change (bpow radix2 (-5)) with (/ 32). assert (/ 2 ^ 42 <= / 4) by (simpl pow; lra). apply Rabs_le_inv in Hp. set (f := pvf p x) in *. assert (0 < f) by lra. nra. }
    pose proof (bnd_quo _ _ _ _ _ _ _ BV WS ltac:(lia)) as BQ. split; [exact (bnd_rep _ _ _ BQ)|]. assert (BX : bnd bx x 20) by (split; [exact Rx|exact XB]). exact (bnd_rep _ _ _ (bnd_sub _ _ _ _ _ _ BX BQ ltac:(lia))).
  Qed.
  Lemma array_forward s bqs qs : Forall2 rep bqs qs -> List.Forall (fun q => 2 * s <= q <= 1 - 2 * s) qs -> easy_line p E s ->
    exists g xs, bpv_ppf_array L b bqs = ([], Ok (Some g)) /\ fpv_ppf_array V p' qs = ([], Ok (Some (map Finite xs))) /\ Forall2 rep g xs /\ length xs = length qs.
  Proof using All.
    intros Rq Hq EL. pose proof EL as (Hs & HG & HE & HEG). assert (Dq : List.Forall double qs) by (clear - Rq; induction Rq; constructor; [eapply rep_double; eassumption|assumption]).
    destruct (both_found_array V k E w amu T p p' KV HP HF EP EP' s qs Dq Hs Hq HG HE HEG) as (xs & Lx & EF). pose proof EF as EF'. rewrite ppf_array_eq in EF'.
    pose proof (proj2 (proj2 (both V k E w amu T p p' KV HP HF EP EP'))) as EE. pose proof (cl_valid _ _ C) as Va. assert (Hs' : / 10 ^ 4 <= s <= 1 / 4) by lra.
    assert (S4 : (/ 300) ^ 4 <= s ^ 4) by (apply pow_incr; lra). pose proof (G_low p' p C) as GL. pose proof (E_pos p' p C) as EPos. assert (S6 : 0 < s ^ 6) by (apply pow_lt; lra). rewrite <- EE in HE, HEG.
    destruct (states p cdf' pdf' (/ 2 ^ 44) (/ 2 ^ 42) s Va) as (St & Nz & Nx & Bd & Start); try assumption; try lra.
    - exact (ev_cdf V p' p KV C).
    - intros y Dy Ly. apply (upper_pdf V p' p KV C s); try assumption; lra.
    - exact (cl_double _ _ C).
    - apply (rho_4 p (/ 2 ^ 44) (/ 2 ^ 42) s (45 / 10 ^ 14) Va EPos Hs' ltac:(lra) ltac:(lra) (7 * 10 ^ 3)); lra.
    - apply (rho_s2G p (/ 2 ^ 44) (/ 2 ^ 42) s (45 / 10 ^ 14) Va EPos Hs' ltac:(lra)); lra.
    - assert (Md : forall k q x bx bq, St k q x -> rep bx x -> rep bq q -> same_step (bpv_cdf L b) (bpv_pdf (bv_b L) b) cdf' pdf' bx x bq q).
      { intros k0 q x bx bq HS Rx Rbq. destruct (Bd k0 q x HS) as (Dx & Lx' & Bx & Hq'). exact (step_same s q x bx bq EL Dx Lx' Bx Hq' Rx Rbq). }
      assert (Re : rep (bp_energy b) (pv_energy p')) by exact (energy_rep b p' A). specialize (Start qs Dq Hq). rewrite <- (cl_energy _ _ C) in Start.
      destruct (ppf_forward _ _ _ _ St Nz Nx Md 49 _ _ (bpv_fallback L b) _ bqs qs xs Re Rq Start EF') as (g & EB & R). exists g, xs. split; [rewrite bpv_ppf_array_eq; exact EB|]. auto.
  Qed.
  Lemma grid_forward modern bc c n s : rep bc c -> 0 <= c <= 1 -> (2 <= n <= 2 ^ 50)%Z -> easy_line p E s -> 4 * s + / 2 ^ 40 <= 1 - c ->
    exists g xs, bpv_probability_grid modern L b (BCoverage bc) n = ([], Ok (Some g)) /\ fpv_probability_grid modern V p' (Coverage c) n = ([], Ok (Some (map Finite xs))) /\ Forall2 rep g xs.
  Proof using All.
    intros Rc Hc Hn EL Hcs. destruct (quantiles_same bc c n Rc Hc Hn) as (bqs & qs & Eb & Ef & F & B & L1 & L2). pose proof (rep_double _ _ Rc) as Dc.
    destruct (quantiles01 c Dc Hc) as (D1 & D2 & R1 & R2 & E1 & E2). pose proof u_pos. assert (U : 6 * u <= / 2 ^ 40) by (unfold u; simpl pow; lra). pose proof E1 as E1'. pose proof E2 as E2'. apply Rabs_le_inv in E1', E2'.
    assert (Hq : List.Forall (fun q => 2 * s <= q <= 1 - 2 * s) qs).
    { destruct (lin_error (q_lo c) (q_hi c) ((1 - c) / 2) ((1 + c) / 2) n (3 * u) D1 D2 ltac:(lra) Hn ltac:(apply nu_gap; [exact Hn|]; apply half_gap; auto; lra) ltac:(apply Rabs_le; lra) ltac:(apply Rabs_le; lra) E1 E2) as (qs' & Eq & _ & _ & Rq & _). unfold q_lo, q_hi in Eq. rewrite Ef in Eq. injection Eq as <-.
      eapply List.Forall_impl; [|exact Rq]. cbv beta. intros z Hz. lra. }
    destruct (array_forward s bqs qs F Hq EL) as (g & xs & EB & EF & R & _). exists g, xs. split; [unfold bpv_probability_grid; rewrite Eb, bpv_ppf_two, EB by lia; reflexivity|]. split; [|exact R]. unfold fpv_probability_grid. cbn [bind]. rewrite Ef, ppf_two, EF by lia. reflexivity.
  Qed.
  Lemma interval_forward modern bc c s : rep bc c -> 0 <= c <= 1 -> easy_line p E s -> 4 * s + / 2 ^ 40 <= 1 - c ->
    exists ws lo hi wsf x y, bpv_coverage_interval modern L b bc = (ws, Ok (lo, hi)) /\ fpv_coverage_interval modern V p' c = (wsf, Ok (Finite x, Finite y)) /\ rep lo x /\ rep hi y /\ Forall2 same_warning ws wsf /\ ~ In BInversionFailed ws.
  Proof using All.
    intros Rc Hc EL Hcs. pose proof (rep_double _ _ Rc) as Dc. destruct (quantiles01 c Dc Hc) as (D1 & D2 & R1 & R2 & E1 & E2). pose proof u_pos. assert (U : 6 * u <= / 2 ^ 40) by (unfold u; simpl pow; lra). apply Rabs_le_inv in E1, E2. unfold q_lo, q_hi in *.
    assert (Bc : Rabs c <= 2) by (apply Rabs_le; lra). destruct (coverage_rep bc c Rc) as (Q1 & Q2 & _ & _). { assert (2 ^ 1 <= 2 ^ 900) by (apply Rle_pow; [lra|lia]). lra. }
    destruct (array_forward s [fst (bcoverage_limits bc); snd (bcoverage_limits bc)] [fmul (1 / 2) (fsub 1 c); fmul (1 / 2) (fadd 1 c)]) as (g & xs & EB & EF & R & Lx); [constructor; [exact Q1|constructor; [exact Q2|constructor]]|constructor; [lra|constructor; [lra|constructor]]|exact EL|].
    destruct xs as [|x [|y [|z r]]]; try discriminate Lx. inversion R as [|lo ? g1 ? Rlo R' ]; subst. inversion R' as [|hi ? g2 ? Rhi R'']; subst. inversion R''; subst. cbn [map] in EF.
    destruct (interval_same L V b p' p KV SV C A modern bc c lo hi x y _ Rc Bc EB EF Rlo Rhi eq_refl) as (ws & wsf & Q & F & W). exists ws, lo, hi, wsf, x, y. split; [exact Q|]. split; [exact F|]. split; [exact Rlo|]. split; [exact Rhi|]. split; [exact W|].
    rewrite interval_eq, EB in Q. unfold frame in Q. rewrite (rep_not_inf _ _ Rhi) in Q. destruct (Bltb lo (of_Z 0)); injection Q as <-; [intros [I|[]]; discriminate I|intros []].
  Qed.
End Line.
