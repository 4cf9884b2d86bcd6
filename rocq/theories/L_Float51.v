(** Where the root finder ends for the pseudo-Voigt distribution. *)
From Coq Require Import Reals List ZArith Lra Lia Psatz.
From Flocq Require Import Core.
From Coquelicot Require Import Coquelicot.
From Verif Require Import Py Spec M_Num M_Dist M_Resonance M_PseudoVoigt S_Resonance S_PseudoVoigt M_Float S_Float M_Float2 M_Float3 S_Float3 M_Float4 S_Float4 M_Float6 S_Float6 M_Float8 S_Float8 M_Float12 S_Float13
  L_RInt L_Dist L_PseudoVoigt L_PseudoVoigt4 L_Float L_FNewton L_FNewton2 L_FNewton3 L_FNewton5 L_FNewton6 L_Float7 L_Float9 L_Float22 L_Float27 L_Float28 L_Float30 L_Float31 L_Float32 L_Float50.
Import ListNotations.
Open Scope R_scope.

Section Loop.
  Variables (cdf pdf : R -> R) (St : nat -> R -> R -> Prop).
  Hypothesis nonzero : forall k q p, St k q p -> pdf p <> 0.
  Hypothesis next : forall k q p, St (S k) q p -> St k q (fsub p (fquo (fsub (cdf p) q) (pdf p))).
  Definition reach (q x : R) : Prop := (exists k, St k q x) \/ exists p, St 0 q p /\ x = fsub p (fquo (fsub (cdf p) q) (pdf p)).
  Lemma reach_of k qs ps : Forall2 (St k) qs ps -> Forall2 reach qs ps.
  Proof. induction 1; constructor; auto. left. now exists k. Qed.
  Lemma reach_last qs ps : Forall2 (St 0) qs ps -> Forall2 reach qs (map4 fnewton_step (map (fun _ => true) ps) ps (map2 fsub (map cdf ps) qs) (map pdf ps)).
  Proof. induction 1 as [|q p qs ps H _ IH]; cbn; constructor; auto. right. exists p. now split. Qed.
  Lemma loop_where k : forall qs ps fl nz0 xs fl' nz', Forall2 (St k) qs ps ->
    farray_newton (S k) (fun E => map2 fsub (map cdf E) qs) (map pdf) ps fl nz0 = (xs, fl', nz') -> Forall2 reach qs xs.
  Proof.
    induction k as [|k IH]; intros qs ps fl nz0 xs fl' nz' H; remember (fun E => map2 fsub (map cdf E) qs) as g eqn:Eg; rewrite (array_step _ g).
    all: destruct (forallb is_zero (g ps)); [intros X; injection X as <- _ _; eapply reach_of; exact H|].
    all: rewrite (nz_true pdf St nonzero ps qs _ H).
    all: destruct (negb (existsb (fun b => b) (map (fun _ => true) ps))); [intros X; injection X as <- _ _; eapply reach_of; exact H|].
    - destruct (negb _); [|cbn [farray_newton]]; intros X; injection X as <- _ _; subst g; now apply reach_last.
    - pose proof (sweep_states cdf pdf St next ps qs k H) as H2. destruct (negb _).
      + intros X. injection X as <- _ _. subst g. eapply reach_of. exact H2.
      + subst g. apply IH. exact H2.
  Qed.
  Lemma array_where k qs m xs conv : Forall2 (St k) qs (map (fun _ => m) qs) ->
    fnewton_array (S k) (fun E => map2 fsub (map cdf E) qs) (map pdf) (map (fun _ => m) qs) = Ok (xs, conv) -> Forall2 reach qs xs.
  Proof.
    intros H E. unfold fnewton_array in E. destruct (farray_newton _ _ _ _ _ _) as [[x' fl] nz] eqn:EN. apply (loop_where k qs _ _ _ x' fl nz H) in EN.
    destruct (existsb _ _); [injection E as <- _; exact EN|]. destruct (existsb _ fl); [destruct (forallb _ fl); [discriminate|]|]; injection E as <- _; exact EN.
  Qed.
End Loop.

Section Central.
  Variables (p : pv) (cdf pdf : R -> R) (eps kappa s : R).
  Hypothesis V : pv_valid p.
  Let G := pv_Gamma p.
  Let lo := 16 / 7 * s ^ 2 / G.
  Let X := pv_energy p + G / (2 * s ^ 2).
  Let rho := deviation kappa eps lo X.
  Hypothesis Hcdf : forall x, double x -> double (cdf x) /\ Rabs (cdf x - pvF p x) <= eps.
  Hypothesis Hpdf : forall x, double x -> lo <= pvf p x -> Rabs (pdf x - pvf p x) <= kappa * pvf p x.
  Hypothesis Hkappa : / 2 ^ 46 <= kappa <= / 2 ^ 30.
  Hypothesis Heps : 0 <= eps.
  Hypothesis DE : double (pv_energy p).
  Hypothesis PE : 0 <= pv_energy p.
  Hypothesis Hs : / 10 ^ 4 <= s <= 1 / 4.
  Hypothesis HG : pv_Gamma p <= 10 ^ 5 * s ^ 6.
  Hypothesis rho_4 : rho <= 79 / 10 ^ 10 * s ^ 4.
  Hypothesis rho_2 : rho <= / 28 * (s ^ 2 * G).
  Let St (k : nat) (q p0 : R) : Prop := double q /\ 2 * s <= q <= 1 - 2 * s /\
    exists xq, pvF p xq = q /\ state (pvf p) (pvF p) (pv_energy p) kappa eps lo X q xq k p0.
  Lemma where_array qs xs conv : List.Forall double qs -> List.Forall (fun q => 2 * s <= q <= 1 - 2 * s) qs ->
    fnewton_array maxiter (fun E => map2 fsub (map cdf E) qs) (map pdf) (map (fun _ => pv_energy p) qs) = Ok (xs, conv) ->
    List.Forall (fun x => Rabs x <= (X + 2 / 10 ^ 8) * (1 + u)) xs.
  Proof.
    intros HD HQ EN. pose proof (pv_density p V) as D. pose proof (pv_unimodal p V) as U. pose proof (pv_median p) as M.
    assert (LP := fun a b => pvf_lip p a b V). fold G in LP. pose proof (HLo p s V Hs) as H0. fold G lo in H0.
    pose proof (sides p eps kappa s V Hkappa Heps PE Hs HG rho_4 rho_2) as SD. fold G lo X rho in SD.
    assert (Nz : forall k q x, St k q x -> pdf x <> 0).
    { intros k q x (Dq & Hq & xq & Hxq & S0). destruct (SD q xq Hq Hxq) as (A1 & A2 & A3 & A4 & A5 & A6).
      refine (state_pdf (pvf p) (pvF p) (pv_energy p) D U pdf kappa eps lo X q xq Hkappa Heps H0 Hxq A1 A2 A3 Hpdf k x S0). }
    assert (Nx : forall k q x, St (S k) q x -> St k q (fsub x (fquo (fsub (cdf x) q) (pdf x)))).
    { intros k q x (Dq & Hq & xq & Hxq & S0). destruct (SD q xq Hq Hxq) as (A1 & A2 & A3 & A4 & A5 & A6). split; [exact Dq|]. split; [exact Hq|]. exists xq. split; [exact Hxq|].
      refine (sweep (pvf p) (pvF p) (pv_energy p) D U cdf pdf kappa eps lo X (16 / 3 / G ^ 2) q xq Hkappa Dq Heps H0 Hxq A1 A2 A3 LP A4 Hcdf Hpdf A5 k x S0). }
    assert (Sx : forall k q x, St k q x -> double x /\ Rabs x <= X).
    { intros k q x (Dq & Hq & xq & Hxq & S0). destruct (SD q xq Hq Hxq) as (A1 & A2 & A3 & A4 & A5 & A6). split; [exact (proj1 S0)|].
      exact (proj2 (state_lo (pvf p) (pvF p) (pv_energy p) D U kappa eps lo X q xq Hkappa Heps H0 Hxq A1 A2 A3 k x S0)). }
    assert (Sp : forall q x, St 0%nat q x -> Rabs (fquo (fsub (cdf x) q) (pdf x)) < ftol).
    { intros q x (Dq & Hq & xq & Hxq & S0). destruct (SD q xq Hq Hxq) as (A1 & A2 & A3 & A4 & A5 & A6).
      refine (state_stops (pvf p) (pvF p) (pv_energy p) D U cdf pdf kappa eps lo X q xq Hkappa Dq Heps H0 Hxq A1 A2 A3 Hcdf Hpdf A5 x S0). }
    assert (Start : Forall2 (St 49) qs (map (fun _ => pv_energy p) qs)).
    { clear EN. induction qs as [|q qs IH]; cbn [map]; constructor; inversion HD as [|? ? Dq HD']; inversion HQ as [|? ? Hq HQ']; subst.
      + destruct (dens_onto _ _ D q ltac:(lra)) as [xq Hxq]. destruct (SD q xq Hq Hxq) as (A1 & A2 & A3 & A4 & A5 & A6).
        split; [assumption|]. split; [assumption|]. exists xq. split; [exact Hxq|].
        refine (state_start (pvf p) (pvF p) (pv_energy p) D U M kappa eps lo X q xq Hkappa DE Heps H0 Hxq A1 A3 A5 A6).
      + apply IH; assumption. }
    pose proof (array_where cdf pdf St Nz Nx 49 qs (pv_energy p) xs conv Start EN) as RS. clear EN Start. pose proof ftol_bounds as [_ FT]. pose proof u_pos as Pu.
    assert (X0 : 0 <= X). { unfold X. pose proof V as (GP & _). fold G in GP. assert (0 < s ^ 2) by (apply pow_lt; lra). assert (0 <= G / (2 * s ^ 2)) by (apply Rlt_le, Rdiv_lt_0_compat; lra). lra. }
    assert (T8 : 0 < 2 / 10 ^ 8) by lra.
    induction RS as [|q x qs' xs' H RS IH]; constructor; [|apply IH; [inversion HD|inversion HQ]; assumption].
    destruct H as [(k & H)|(y & H & ->)].
    - destruct (Sx k q x H) as [_ B]. nra.
    - destruct (Sx 0%nat q y H) as [Dy B]. pose proof (Sp q y H) as St0. destruct (fsub_error y _ Dy (rnd_double (fsub (cdf y) q / pdf y))) as (e & He & Ee). fold (fquo (fsub (cdf y) q) (pdf y)) in Ee. rewrite Ee, Rabs_mult.
      apply Rmult_le_compat; [apply Rabs_pos|apply Rabs_pos| |].
      + eapply Rle_trans; [apply Rabs_triang|]. rewrite Rabs_Ropp. lra.
      + eapply Rle_trans; [apply Rabs_triang|]. rewrite Rabs_R1. lra.
  Qed.
End Central.

Section Both.
  Variables (modern : bool) (L : pvlib) (k : constants) (E w amu T : R) (p p' : pv).
  Hypothesis HL : pvlib_ok L.
  Hypothesis HP : pv_params k E w amu T.
  Hypothesis HF : pv_floats k E w amu T.
  Hypothesis EP : PseudoVoigtDistribution k E w amu T = Ok p.
  Hypothesis EP' : fPseudoVoigtDistribution L k E w amu T = Ok p'.
  Let C : close p' p := proj1 (both L k E w amu T p p' HL HP HF EP EP').
  Lemma newton_of n cdf pdf m fb qs es : fppf_array n cdf pdf m fb qs = ([], Ok (Some (map Finite es))) ->
    exists conv, fnewton_array n (fun E => map2 fsub (map cdf E) qs) (map pdf) (map (fun _ => m) qs) = Ok (es, conv).
  Proof.
    unfold fppf_array. destruct (fnewton_array _ _ _ _) as [[y conv]| |e]; [|discriminate|destruct e; discriminate]. destruct (forallb _ conv); [|discriminate]. intros H. injection H as H. exists conv. do 2 f_equal.
    revert es H. induction y as [|a y IH]; intros [|b es] H; try discriminate; [reflexivity|]. cbn in H. injection H as -> H. f_equal. now apply IH.
  Qed.
  Lemma where_found s qs es : List.Forall double qs -> List.Forall (fun q => 2 * s <= q <= 1 - 2 * s) qs -> easy_line p E s ->
    fpv_ppf_array L p' qs = ([], Ok (Some (map Finite es))) -> List.Forall (fun x => Rabs x <= (E + pv_Gamma p / (2 * s ^ 2) + 2 / 10 ^ 8) * (1 + u)) es.
  Proof.
    intros Dq Hq (Hs & HG & HE & HEG) H. pose proof (proj2 (proj2 (both L k E w amu T p p' HL HP HF EP EP'))) as EE. rewrite <- EE in *.
    pose proof (cl_valid _ _ C) as V. assert (Hs' : / 10 ^ 4 <= s <= 1 / 4) by lra.
    assert (S4 : (/ 300) ^ 4 <= s ^ 4) by (apply pow_incr; lra). pose proof (G_low p' p C) as GL. pose proof (E_pos p' p C) as EPos. assert (S6 : 0 < s ^ 6) by (apply pow_lt; lra).
    rewrite ppf_array_eq, (cl_energy _ _ C) in H. apply newton_of in H. destruct H as (conv & H).
    apply (where_array p _ _ (/ 2 ^ 44) (/ 2 ^ 42) s V) with (qs := qs) (conv := conv) in H; try assumption; try lra.
    - exact (ev_cdf L p' p HL C).
    - intros y Dy Ly. apply (upper_pdf L p' p HL C s); try assumption; lra.
    - exact (cl_double _ _ C).
    - apply (rho_4 p (/ 2 ^ 44) (/ 2 ^ 42) s (45 / 10 ^ 14) V EPos Hs' ltac:(lra) ltac:(lra) (7 * 10 ^ 3)); lra.
    - apply (rho_s2G p (/ 2 ^ 44) (/ 2 ^ 42) s (45 / 10 ^ 14) V EPos Hs' ltac:(lra)); lra.
  Qed.
End Both.
