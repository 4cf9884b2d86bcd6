(** Convergence of Newton's method in floating-point arithmetic. *)
From Coq Require Import Reals List ZArith Lra Lia Psatz.
From Flocq Require Import Core.
From Coquelicot Require Import Coquelicot.
From Verif Require Import Py M_Num M_Grid M_Dist M_Resonance M_PseudoVoigt M_Float M_Float3 S_Resonance S_Float L_RInt L_Dist L_Newton L_Newton2 L_Newton3
  L_Float L_Float3 L_FNewton.
Import ListNotations.
Open Scope R_scope.

(** [kappa] is the relative error of the PDF, [eps] the error of the CDF. *)
Definition deviation (kappa eps lo X : R) : R := (4 * kappa + 2 * eps) / lo + X / 2 ^ 52 + 2 * eta.

Section Found.
  Variables (f F : R -> R) (m : R).
  Hypothesis D : density_of f F.
  Hypothesis U : unimodal m f.
  Hypothesis M : F m = 1 / 2.
  Let fpos : forall x, 0 < f x := dens_pos f F D.
  Variables (cdf pdf : R -> R) (kappa eps lo X q xq : R).
  Let rho := deviation kappa eps lo X.
  Hypothesis Hkappa : / 2 ^ 46 <= kappa <= / 2 ^ 30.
  Hypothesis Dm : double m.
  Hypothesis Dq : double q.
  Hypothesis Heps : 0 <= eps.
  Hypothesis Hlo : 0 < lo.
  Hypothesis Hxq : F xq = q.
  Hypothesis Xm : Rabs m + rho <= X.
  Hypothesis Xq : Rabs xq + rho <= X.
  Hypothesis margin : forall y, Rabs (y - xq) <= rho -> lo <= f y.
  Hypothesis Hcdf : forall x, double x -> double (cdf x) /\ Rabs (cdf x - F x) <= eps.
  Hypothesis Hpdf : forall x, double x -> lo <= f x -> Rabs (pdf x - f x) <= kappa * f x.
  Hypothesis H1 : 4 * (rho * f m ^ 2) <= lo ^ 2 * (tol - rho).

  Let next (p : R) : R := fsub p (fquo (fsub (cdf p) q) (pdf p)).

  Lemma rho_pos : 0 < rho.
  Proof.
    unfold rho, deviation. pose proof eta_pos. assert (0 <= X).
    { pose proof (Rabs_pos m). unfold rho, deviation in Xm. assert (0 <= (4 * kappa + 2 * eps) / lo) by (apply Rmult_le_pos; [lra|left; now apply Rinv_0_lt_compat]). lra. }
    assert (0 <= (4 * kappa + 2 * eps) / lo) by (apply Rmult_le_pos; [lra|left; now apply Rinv_0_lt_compat]).
    assert (0 <= X / 2 ^ 52) by (apply Rmult_le_pos; [assumption|lra]). lra.
  Qed.
  Lemma lo_peak : lo <= f m.
  Proof. eapply Rle_trans; [apply (margin xq)|apply (peak f m U)]. pose proof rho_pos. rewrite Rminus_eq_0, Rabs_R0. lra. Qed.
  Lemma rho_tol : 5 * rho <= tol.
  Proof.
    pose proof rho_pos. pose proof lo_peak. assert (lo ^ 2 <= f m ^ 2) by (apply pow_incr; lra). assert (0 < lo ^ 2) by (apply pow_lt; lra).
    assert (4 * (rho * lo ^ 2) <= lo ^ 2 * (tol - rho)); [|nra]. eapply Rle_trans; [|exact H1]. nra.
  Qed.
  Lemma factor e1 e2 k : Rabs e1 <= u -> Rabs e2 <= u -> Rabs k <= kappa -> Rabs ((1 + e1) * (1 + e2) / (1 + k) - 1) <= 2 * kappa.
  Proof.
    intros A B C. apply Rabs_le_inv in A, B, C. assert (U1 : u <= / 2 ^ 50) by (rewrite u_val; apply Rinv_le_contravar; lra). pose proof u_pos.
    replace ((1 + e1) * (1 + e2) / (1 + k) - 1) with ((e1 + e2 + e1 * e2 - k) / (1 + k)) by (field; lra).
    unfold Rdiv. rewrite Rabs_mult, (Rabs_pos_eq (/ (1 + k))) by (left; apply Rinv_0_lt_compat; lra).
    apply (Rmult_le_reg_r (1 + k)); [lra|]. rewrite Rmult_assoc, Rinv_l, Rmult_1_r by lra.
    apply Rabs_le. nra.
  Qed.
  Lemma pdf_nz p : double p -> lo <= f p -> pdf p <> 0.
  Proof.
    intros Dp Hl Z. pose proof (Hpdf p Dp Hl) as K. rewrite Z in K. rewrite Rminus_0_l, Rabs_Ropp, Rabs_pos_eq in K by lra.
    assert (kappa * f p <= / 2 ^ 30 * f p) by (apply Rmult_le_compat_r; lra). lra.
  Qed.
  Lemma size_close p : double p -> lo <= f p -> Rabs (F p - q) <= 1 ->
    Rabs (fquo (fsub (cdf p) q) (pdf p) - (F p - q) / f p) <= (2 * kappa + (1 + 2 * kappa) * eps) * / lo + eta.
  Proof.
    intros Dp Hl Hr. destruct (Hcdf p Dp) as [Dc Ec]. pose proof (Hpdf p Dp Hl) as Ep. pose proof (fpos p) as P.
    set (r := F p - q) in *. set (k := (pdf p - f p) / f p).
    assert (Hk : Rabs k <= kappa).
    { unfold k, Rdiv. rewrite Rabs_mult, (Rabs_pos_eq (/ f p)) by (left; now apply Rinv_0_lt_compat).
      apply (Rmult_le_reg_r (f p)); [exact P|]. rewrite Rmult_assoc, Rinv_l by lra. lra. }
    assert (Ek : pdf p = f p * (1 + k)) by (unfold k; field; lra).
    set (e0 := cdf p - F p) in *.
    destruct (fsub_error (cdf p) q Dc Dq) as (e1 & He1 & E1). replace (cdf p - q) with (r + e0) in E1 by (unfold r, e0; ring).
    destruct (rnd_error (fsub (cdf p) q / pdf p)) as (e2 & h & He2 & Hh & E2). fold (fquo (fsub (cdf p) q) (pdf p)) in E2.
    set (s := fquo (fsub (cdf p) q) (pdf p)) in *.
    pose proof (factor e1 e2 k He1 He2 Hk) as Ha. set (a := (1 + e1) * (1 + e2) / (1 + k) - 1) in *.
    assert (K1 : 1 + k <> 0) by (apply Rabs_le_inv in Hk; lra).
    assert (Es : s - r / f p = (r * a + e0 * (1 + a)) / f p + h).
    { rewrite E2, E1, Ek. unfold a. field. split; [exact K1|lra]. }
    assert (IL : / f p <= / lo) by now apply Rinv_le_contravar. assert (IL0 : 0 < / f p) by now apply Rinv_0_lt_compat.
    rewrite Es. eapply Rle_trans; [apply Rabs_triang|]. apply Rplus_le_compat; [|exact Hh].
    unfold Rdiv. rewrite Rabs_mult, (Rabs_pos_eq (/ f p)) by lra. apply Rmult_le_compat; [apply Rabs_pos|lra| |exact IL].
    eapply Rle_trans; [apply Rabs_triang|]. rewrite !Rabs_mult.
    assert (Rabs (1 + a) <= 1 + 2 * kappa) by (eapply Rle_trans; [apply Rabs_triang|]; rewrite Rabs_R1; lra).
    assert (Rabs r * Rabs a <= 1 * (2 * kappa)) by (apply Rmult_le_compat; try apply Rabs_pos; assumption).
    assert (Rabs e0 * Rabs (1 + a) <= eps * (1 + 2 * kappa)) by (apply Rmult_le_compat; try apply Rabs_pos; assumption). lra.
  Qed.
  Lemma next_close p : double p -> lo <= f p -> Rabs p <= X -> Rabs (F p - q) <= 1 -> Rabs (next p - step f F q p) <= rho.
  Proof.
    intros Dp Hl Hp Hr. pose proof (size_close p Dp Hl Hr) as S1. unfold next, step.
    set (r := F p - q) in *. set (s := fquo (fsub (cdf p) q) (pdf p)) in *. pose proof (fpos p) as P.
    assert (IL : / f p <= / lo) by now apply Rinv_le_contravar. assert (IL0 : 0 < / f p) by now apply Rinv_0_lt_compat.
    pose proof eta_pos as EP. pose proof eta_tiny as ET.
    assert (S2 : Rabs s <= (1 + 2 * kappa + (1 + 2 * kappa) * eps) * / lo + eta).
    { replace s with (r / f p + (s - r / f p)) by ring. eapply Rle_trans; [apply Rabs_triang|].
      assert (Rabs (r / f p) <= 1 * / lo). { unfold Rdiv. rewrite Rabs_mult, (Rabs_pos_eq (/ f p)) by lra. apply Rmult_le_compat; [apply Rabs_pos|lra|exact Hr|exact IL]. }
      lra. }
    assert (Ds : double s) by apply rnd_double.
    destruct (fsub_error p s Dp Ds) as (e3 & He3 & E3). rewrite E3.
    replace ((p - s) * (1 + e3) - (p - r / f p)) with ((p - s) * e3 - (s - r / f p)) by ring.
    unfold Rminus at 1. eapply Rle_trans; [apply Rabs_triang|]. rewrite Rabs_Ropp, Rabs_mult.
    assert (Rabs (p - s) <= X + Rabs s). { unfold Rminus. eapply Rle_trans; [apply Rabs_triang|]. rewrite Rabs_Ropp. lra. }
    assert (Rabs (p - s) * Rabs e3 <= (X + Rabs s) * u) by (apply Rmult_le_compat; try apply Rabs_pos; assumption).
    unfold rho, deviation. unfold Rdiv. rewrite u_val in *. set (il := / lo) in *.
    assert (0 < il) by (apply Rinv_0_lt_compat; lra). assert (0 <= eps * il) by (apply Rmult_le_pos; lra).
    assert (0 <= X) by (pose proof (Rabs_pos p); lra).
    assert (A1 : 0 <= kappa * il) by (apply Rmult_le_pos; lra).
    assert (A2 : kappa * (eps * il) <= / 2 ^ 30 * (eps * il)) by (apply Rmult_le_compat_r; lra).
    assert (A3 : / 2 ^ 46 * il <= kappa * il) by (apply Rmult_le_compat_r; lra).
    assert (A4 : kappa * il <= / 2 ^ 30 * il) by (apply Rmult_le_compat_r; lra).
    replace ((2 * kappa + (1 + 2 * kappa) * eps) * il) with (2 * (kappa * il) + eps * il + 2 * (kappa * (eps * il))) in S1 by ring.
    replace ((1 + 2 * kappa + (1 + 2 * kappa) * eps) * il) with (il + 2 * (kappa * il) + eps * il + 2 * (kappa * (eps * il))) in S2 by ring.
    replace ((4 * kappa + 2 * eps) * il) with (4 * (kappa * il) + 2 * (eps * il)) by ring.
    assert (A5 : 0 <= eps * il * kappa) by (apply Rmult_le_pos; lra).
    lra.
  Qed.
  Lemma stop n p : double p -> lo <= f p -> Rabs p <= X -> Rabs (F p - q) <= 1 -> Rabs (F p - q) / f p + rho <= tol ->
    exists x, fnewton_scalar (S n) (fun E => fsub (cdf E) q) pdf p = Ok x.
  Proof.
    intros Dp Hl Hp Hr T. cbn [fnewton_scalar]. destruct (Req_EM_T _ 0); [eauto|]. pose proof (fpos p) as P.
    destruct (Req_EM_T (pdf p) 0) as [Z|_].
    { exfalso. exact (pdf_nz p Dp Hl Z). }
    destruct (Rle_dec _ ftol) as [_|N]; [eauto|]. exfalso. apply N. pose proof (next_close p Dp Hl Hp Hr) as C. fold (next p).
    assert (L : Rabs (next p - p) <= tol).
    { replace (next p - p) with ((next p - step f F q p) + (step f F q p - p)) by ring. eapply Rle_trans; [apply Rabs_triang|].
      assert (Rabs (step f F q p - p) = Rabs (F p - q) / f p); [|lra].
      unfold step. replace (p - (F p - q) / f p - p) with (- ((F p - q) / f p)) by ring. rewrite Rabs_Ropp. unfold Rdiv. rewrite Rabs_mult.
      rewrite (Rabs_pos_eq (/ f p)) by (left; now apply Rinv_0_lt_compat). reflexivity. }
    unfold fsub, ftol. apply Rabs_le_inv in L. apply Rabs_le. split; [rewrite <- rnd_opp|]; apply rnd_le; lra.
  Qed.
  Lemma dense_q : dense f F lo q.
  Proof. exists xq. split; [exact Hxq|]. apply margin. pose proof rho_pos. rewrite Rminus_eq_0, Rabs_R0. lra. Qed.
  Lemma res_1 p : Rabs (F p - q) <= 1.
  Proof. pose proof (dens_range f F D p). pose proof (dens_range f F D xq). rewrite <- Hxq. apply Rabs_le. lra. Qed.
  Lemma inside_X p : inside F m q p -> Rabs p <= X.
  Proof.
    intros [A B]. pose proof rho_pos. pose proof (Rle_abs m). pose proof (Rle_abs xq). pose proof (Rle_abs (- m)). pose proof (Rle_abs (- xq)). rewrite Rabs_Ropp in *.
    destruct (Rle_dec (1 / 2) q) as [Hq|Hq].
    - destruct (A Hq) as [P1 P2]. assert (p <= xq) by (apply (dens_le_inv f F D); lra). apply Rabs_le. lra.
    - destruct (B ltac:(lra)) as [P1 P2]. assert (xq <= p) by (apply (dens_le_inv f F D); lra). apply Rabs_le. lra.
  Qed.
  Lemma beyond n p : double p -> Rabs (p - xq) <= rho -> exists x, fnewton_scalar (S n) (fun E => fsub (cdf E) q) pdf p = Ok x.
  Proof.
    intros Dp H. pose proof rho_pos as RP. pose proof (margin p H) as L. pose proof lo_peak as LP. apply stop; auto using res_1.
    - replace p with (xq + (p - xq)) by ring. eapply Rle_trans; [apply Rabs_triang|]. lra.
    - assert (B : Rabs (F p - q) <= f m * rho).
      { rewrite <- Hxq. apply Rle_trans with (f m * Rabs (p - xq)); [|apply Rmult_le_compat_l; [pose proof (fpos m); lra|exact H]].
        assert (G : forall a b, a <= b -> 0 <= F b - F a <= f m * (b - a)).
        { intros a b Hab. pose proof (dens_le f F D a b Hab). split; [lra|].
          pose proof (is_RInt_unique (V := R_CompleteNormedModule) _ _ _ _ (dens_is_RInt f F D a b)) as E.
          rewrite <- E, <- RInt_const_R. apply RInt_le; [assumption|eexists; apply (dens_is_RInt f F D)|apply ex_RInt_const|].
          intros x _. apply (peak f m U). }
        destruct (Rle_dec xq p) as [C|C].
        - pose proof (G xq p C). rewrite !Rabs_pos_eq by lra. lra.
        - pose proof (G p xq ltac:(lra)). rewrite !Rabs_left1 by lra. lra. }
      assert (K : Rabs (F p - q) / f p <= f m * rho / lo).
      { pose proof (Rabs_pos (F p - q)). apply Rmult_le_compat; [lra|left; apply Rinv_0_lt_compat, fpos|exact B|now apply Rinv_le_contravar]. }
      assert (f m * rho / lo <= (tol - rho) / 4); [|pose proof rho_tol; lra].
      apply (Rmult_le_reg_r (lo ^ 2)); [apply pow_lt; lra|]. replace (f m * rho / lo * lo ^ 2) with (f m * rho * lo) by (field; lra).
      apply Rle_trans with (rho * f m ^ 2); [|lra]. pose proof (fpos m). replace (rho * f m ^ 2) with (f m * rho * f m) by ring. apply Rmult_le_compat_l; [apply Rmult_le_pos; lra|exact LP].
  Qed.
  Let w0 := lo ^ 2 * (tol - rho).
  Lemma w0_pos : 0 < w0.
  Proof. unfold w0. apply Rmult_lt_0_compat; [apply pow_lt; lra|]. pose proof rho_tol. pose proof rho_pos. lra. Qed.
  Lemma converge k p w : double p -> inside F m q p -> Rabs (F p - q) * f p <= w -> w <= 4 ^ k * w0 / 2 + w0 / 2 ->
    exists x, fnewton_scalar (S (S k)) (fun E => fsub (cdf E) q) pdf p = Ok x.
  Proof.
    revert p w. induction k as [|k IH]; intros p w Dp Ip B W.
    all: pose proof (dense_inside f F m D U lo q p dense_q Ip) as Hl; pose proof (inside_X p Ip) as HX; pose proof (fpos p) as P.
    all: pose proof w0_pos as W0; pose proof rho_pos as RP; pose proof rho_tol as RT; pose proof lo_peak as LP.
    - apply stop; auto using res_1. pose proof (dense_step f F m D U lo q p w Hlo dense_q Ip B) as S.
      replace (Rabs ((F p - q) / f p)) with (Rabs (F p - q) / f p) in S
        by (unfold Rdiv; rewrite Rabs_mult, (Rabs_pos_eq (/ f p)) by (left; now apply Rinv_0_lt_compat); reflexivity).
      assert (w / lo ^ 2 <= tol - rho); [|lra]. apply (Rmult_le_reg_r (lo ^ 2)); [apply pow_lt; lra|].
      replace (w / lo ^ 2 * lo ^ 2) with w by (field; lra). rewrite pow_O in W. unfold w0 in W. lra.
    - destruct (Rle_dec (Rabs (F p - q) / f p + rho) tol) as [T|T]; [apply stop; auto using res_1|]. apply Rnot_le_lt in T.
      cbn [fnewton_scalar]. destruct (Req_EM_T _ 0); [eauto|].
      destruct (Req_EM_T (pdf p) 0) as [Z|_].
      { exfalso. exact (pdf_nz p Dp Hl Z). }
      destruct (Rle_dec _ ftol) as [_|N]; [eauto|]. fold (next p). pose proof (next_close p Dp Hl HX (res_1 p)) as C. clear N.
      assert (Dn : double (next p)) by apply rnd_double. set (p' := next p) in *. pose proof (fpos p') as P'. pose proof (peak f m U p') as PK.
      change (exists x, fnewton_scalar (S (S k)) (fun E => fsub (cdf E) q) pdf p' = Ok x).
      assert (G2 : rho * f p' ^ 2 <= w0 / 4).
      { apply Rle_trans with (rho * f m ^ 2); [|unfold w0; lra]. apply Rmult_le_compat_l; [lra|]. apply pow_incr; lra. }
      assert (W' : w / 4 + w0 / 4 <= 4 ^ k * w0 / 2 + w0 / 2) by (cbn [pow] in W; lra).
      set (st := step f F q p) in *. apply Rabs_le_inv in C.
      destruct (Rle_dec (1 / 2) q) as [Hq|Hq].
      + pose proof (step_right f F m D U q p Ip Hq) as (S1 & S2 & S3). fold st in S1, S2, S3. pose proof Ip as [A _]. destruct (A Hq) as [A1 A2].
        rewrite (Rabs_left1 (F p - q)) in T, B by lra.
        assert (Est : st - p = - (F p - q) / f p) by (unfold st, step; field; lra).
        destruct (Rle_dec (F p') q) as [Q|Q].
        * apply (IH p' (w / 4 + w0 / 4)); [exact Dn|split; [intros; split; lra|intros Hq2; exfalso]| |exact W'].
          { destruct Ip as [_ A']. specialize (A' Hq2). replace (F p - q) with 0 in T by lra. unfold Rdiv in T. rewrite Ropp_0, Rmult_0_l in T. lra. }
          pose proof (convex_right f F m D U p p' A1 ltac:(lra)) as CR. rewrite Rabs_left1 by lra.
          pose proof (amgm (- (F p - q)) (f p) (- (F p - q) - - (F p - q) / f p * f p') (f p') P P' ltac:(lra) ltac:(lra)) as AM.
          assert (K : - (F p' - q) <= (- (F p - q) - - (F p - q) / f p * f p') + rho * f p').
          { rewrite <- Est. assert ((st - p - rho) * f p' <= (p' - p) * f p') by (apply Rmult_le_compat_r; lra). lra. }
          assert (- (F p' - q) * f p' <= ((- (F p - q) - - (F p - q) / f p * f p') + rho * f p') * f p') by (apply Rmult_le_compat_r; lra). lra.
        * apply beyond; [exact Dn|]. assert (xq <= p') by (apply (dens_le_inv f F D); lra). assert (st <= xq) by (apply (dens_le_inv f F D); lra).
          apply Rabs_le. lra.
      + pose proof (step_left f F m D U q p Ip ltac:(lra)) as (S1 & S2 & S3). fold st in S1, S2, S3. pose proof Ip as [_ A]. destruct (A ltac:(lra)) as [A1 A2].
        rewrite (Rabs_pos_eq (F p - q)) in T, B by lra.
        assert (Est : p - st = (F p - q) / f p) by (unfold st, step; field; lra).
        destruct (Rle_dec q (F p')) as [Q|Q].
        * apply (IH p' (w / 4 + w0 / 4)); [exact Dn|split; intros; split; lra| |exact W'].
          pose proof (convex_left f F m D U p' p ltac:(lra) A1) as CR. rewrite Rabs_pos_eq by lra.
          pose proof (amgm (F p - q) (f p) ((F p - q) - (F p - q) / f p * f p') (f p') P P' ltac:(lra) ltac:(lra)) as AM.
          assert (K : F p' - q <= ((F p - q) - (F p - q) / f p * f p') + rho * f p').
          { rewrite <- Est. assert ((p - st - rho) * f p' <= (p - p') * f p') by (apply Rmult_le_compat_r; lra). lra. }
          assert ((F p' - q) * f p' <= (((F p - q) - (F p - q) / f p * f p') + rho * f p') * f p') by (apply Rmult_le_compat_r; lra). lra.
        * apply beyond; [exact Dn|]. assert (p' <= xq) by (apply (dens_le_inv f F D); lra). assert (xq <= st) by (apply (dens_le_inv f F D); lra).
          apply Rabs_le. lra.
  Qed.
  Lemma found : f m <= 4 ^ 48 * w0 -> exists x, fnewton_scalar maxiter (fun E => fsub (cdf E) q) pdf m = Ok x.
  Proof.
    intros H. apply (converge 48 m (f m / 2)); [exact Dm|apply inside_start; exact M| |pose proof w0_pos; lra].
    apply (start_bound f F m D M). now exists xq.
  Qed.
End Found.
