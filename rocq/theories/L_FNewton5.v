(** Convergence of Newton's method for arrays in floating-point arithmetic. *)
From Coq Require Import Reals List ZArith Bool Lra Lia Psatz.
From Flocq Require Import Core.
From Coquelicot Require Import Coquelicot.
From Verif Require Import Py Spec M_Num M_Grid M_Dist M_Resonance M_PseudoVoigt M_Float M_Float3 S_Resonance S_PseudoVoigt S_Float S_Float3
  L_RInt L_Dist L_Newton L_Newton2 L_Newton3 L_PseudoVoigt L_PseudoVoigt2 L_PseudoVoigt4 L_PseudoVoigt5 L_PseudoVoigt6 L_PseudoVoigt8 L_Float L_Float3
  L_CrossSection L_FNewton L_FNewton2 L_FNewton3.
Import ListNotations.
Open Scope R_scope.

(** One element. *)
Section Sweep.
  Variables (f F : R -> R) (m : R).
  Hypothesis D : density_of f F.
  Hypothesis U : unimodal m f.
  Hypothesis M : F m = 1 / 2.
  Let fpos : forall x, 0 < f x := dens_pos f F D.
  Variables (cdf pdf : R -> R) (kappa eps lo X L q xq : R).
  Let rho := deviation kappa eps lo X.
  Hypothesis Hkappa : / 2 ^ 46 <= kappa <= / 2 ^ 30.
  Hypothesis Dm : double m.
  Hypothesis Dq : double q.
  Hypothesis Heps : 0 <= eps.
  Hypothesis Hlo : 0 < lo.
  Hypothesis Hxq : F xq = q.
  Hypothesis Xm : Rabs m + rho <= X.
  Hypothesis Xq : Rabs xq + 3 * rho <= X.
  Hypothesis margin3 : forall y, Rabs (y - xq) <= 3 * rho -> lo <= f y.
  Hypothesis lip : forall a b, Rabs (f a - f b) <= L * Rabs (a - b).
  Hypothesis HL : 8 * (L * rho) <= lo.
  Hypothesis Hcdf : forall x, double x -> double (cdf x) /\ Rabs (cdf x - F x) <= eps.
  Hypothesis Hpdf : forall x, double x -> lo <= f x -> Rabs (pdf x - f x) <= kappa * f x.
  Hypothesis H1 : 4 * (rho * f m ^ 2) <= lo ^ 2 * (tol - rho).
  Let next (p : R) : R := fsub p (fquo (fsub (cdf p) q) (pdf p)).
  Let w0 := lo ^ 2 * (tol - rho).

  Lemma RP : 0 < rho.
  Proof. exact (rho_pos m kappa eps lo X Hkappa Heps Hlo Xm). Qed.
  Let margin : forall y, Rabs (y - xq) <= rho -> lo <= f y.
  Proof. intros y Hy. apply margin3. pose proof RP. lra. Qed.
  Lemma RT : 5 * rho <= tol.
  Proof. exact (rho_tol f m U kappa eps lo X xq Hkappa Heps Hlo Xm margin H1). Qed.
  Lemma LPk : lo <= f m.
  Proof. exact (lo_peak f m U kappa eps lo X xq Hkappa Heps Hlo Xm margin). Qed.
  Lemma W0 : 0 < w0.
  Proof. exact (w0_pos f m U kappa eps lo X xq Hkappa Heps Hlo Xm margin H1). Qed.

  Definition bound (k : nat) : R := match k with O => w0 / 2 | S k => 4 ^ k * w0 / 2 + w0 / 2 end.
  Lemma bound_next k : bound (S k) / 4 + w0 / 4 <= bound k.
  Proof.
    pose proof W0. unfold bound. destruct k as [|k]; cbn [pow]; [lra|].
    assert (0 < 4 ^ k) by (apply pow_lt; lra). assert (0 < 4 ^ k * w0) by (apply Rmult_lt_0_compat; assumption). lra.
  Qed.
  (** Either on the way to the quantile or next to it. *)
  Definition state (k : nat) (p : R) : Prop :=
    double p /\ ((inside F m q p /\ Rabs (F p - q) * f p <= bound k) \/ Rabs (p - xq) <= 3 * rho).

  Lemma state_lo k p : state k p -> lo <= f p /\ Rabs p <= X.
  Proof.
    intros [_ [[I _]|B]].
    - split; [exact (dense_inside f F m D U lo q p (dense_q f F m kappa eps lo X q xq Hkappa Heps Hlo Hxq Xm margin) I)|].
      refine (inside_X f F m D kappa eps lo X q xq Hkappa Heps Hlo Hxq Xm _ p I). fold rho. pose proof RP. lra.
    - split; [now apply margin3|]. replace p with (xq + (p - xq)) by ring. eapply Rle_trans; [apply Rabs_triang|]. lra.
  Qed.
  Lemma integral_ge a b c : a <= b -> (forall x, a < x < b -> c <= f x) -> c * (b - a) <= F b - F a.
  Proof.
    intros H B. pose proof (is_RInt_unique (V := R_CompleteNormedModule) _ _ _ _ (dens_is_RInt f F D a b)) as E.
    rewrite <- E. rewrite <- (RInt_const_R c a b). apply RInt_le; [assumption|apply ex_RInt_const|eexists; apply (dens_is_RInt f F D)|exact B].
  Qed.
  Lemma integral_le a b c : a <= b -> (forall x, a < x < b -> f x <= c) -> F b - F a <= c * (b - a).
  Proof.
    intros H B. pose proof (is_RInt_unique (V := R_CompleteNormedModule) _ _ _ _ (dens_is_RInt f F D a b)) as E.
    rewrite <- E. rewrite <- (RInt_const_R c a b). apply RInt_le; [assumption|eexists; apply (dens_is_RInt f F D)|apply ex_RInt_const|exact B].
  Qed.
  Lemma L_pos : 0 <= L.
  Proof. pose proof (lip 1 0) as H. rewrite Rminus_0_r, Rabs_R1 in H. pose proof (Rabs_pos (f 1 - f 0)). lra. Qed.
  (** The error of one exact step is quadratic. *)
  Lemma step_quadratic p : lo <= f p -> Rabs (step f F q p - xq) <= L * (p - xq) ^ 2 / lo.
  Proof.
    intros Hl. pose proof (fpos p) as P. pose proof L_pos as LP. set (d := Rabs (p - xq)).
    assert (K : Rabs ((p - xq) * f p - (F p - F xq)) <= L * (p - xq) ^ 2).
    { destruct (Rle_dec xq p) as [C|C].
      - assert (B : forall x, xq < x < p -> f p - L * (p - xq) <= f x <= f p + L * (p - xq)).
        { intros x Hx. pose proof (lip x p) as Hf. apply Rabs_le_inv in Hf. rewrite (Rabs_left1 (x - p)) in Hf by lra.
          assert (L * - (x - p) <= L * (p - xq)) by (apply Rmult_le_compat_l; lra). lra. }
        pose proof (integral_ge xq p _ C (fun x Hx => proj1 (B x Hx))). pose proof (integral_le xq p _ C (fun x Hx => proj2 (B x Hx))).
        apply Rabs_le. lra.
      - assert (B : forall x, p < x < xq -> f p - L * (xq - p) <= f x <= f p + L * (xq - p)).
        { intros x Hx. pose proof (lip x p) as Hf. apply Rabs_le_inv in Hf. rewrite (Rabs_pos_eq (x - p)) in Hf by lra.
          assert (L * (x - p) <= L * (xq - p)) by (apply Rmult_le_compat_l; lra). lra. }
        pose proof (integral_ge p xq _ ltac:(lra) (fun x Hx => proj1 (B x Hx))). pose proof (integral_le p xq _ ltac:(lra) (fun x Hx => proj2 (B x Hx))).
        apply Rabs_le. lra. }
    replace (step f F q p - xq) with (((p - xq) * f p - (F p - F xq)) / f p) by (unfold step; rewrite <- Hxq; field; lra).
    unfold Rdiv. rewrite Rabs_mult, (Rabs_pos_eq (/ f p)) by (left; now apply Rinv_0_lt_compat).
    apply Rmult_le_compat; [apply Rabs_pos|left; now apply Rinv_0_lt_compat|exact K|now apply Rinv_le_contravar].
  Qed.
  Lemma ball_next p : double p -> Rabs (p - xq) <= 3 * rho -> Rabs (next p - xq) <= 3 * rho.
  Proof.
    intros Dp B. pose proof (margin3 p B) as Hl. pose proof RP as R0.
    assert (HX : Rabs p <= X). { replace p with (xq + (p - xq)) by ring. eapply Rle_trans; [apply Rabs_triang|]. lra. }
    pose proof (next_close f F D cdf pdf kappa eps lo X q Hkappa Dq Heps Hlo Hcdf Hpdf p Dp Hl HX (res_1 f F D q xq Hxq p)) as C.
    fold rho in C. cbv beta in C. fold (next p) in C. pose proof (step_quadratic p Hl) as Q.
    assert (Q2 : L * (p - xq) ^ 2 / lo <= 2 * rho).
    { apply (Rmult_le_reg_r lo); [exact Hlo|]. replace (L * (p - xq) ^ 2 / lo * lo) with (L * (p - xq) ^ 2) by (field; lra).
      assert ((p - xq) ^ 2 <= 9 * (rho * rho)).
      { replace ((p - xq) ^ 2) with (Rabs (p - xq) * Rabs (p - xq)) by (rewrite <- Rabs_mult, Rabs_pos_eq by (apply Rle_0_sqr); ring).
        pose proof (Rabs_pos (p - xq)). nra. }
      pose proof L_pos as LP. assert (L * (p - xq) ^ 2 <= L * (9 * (rho * rho))) by (apply Rmult_le_compat_l; assumption).
      assert (8 * (L * rho) * rho <= lo * rho) by (apply Rmult_le_compat_r; lra). nra. }
    replace (next p - xq) with ((next p - step f F q p) + (step f F q p - xq)) by ring. eapply Rle_trans; [apply Rabs_triang|]. lra.
  Qed.
  (** A small residual means that the quantile is near. *)
  Lemma residual_near p : lo <= f p -> Rabs (F p - q) <= rho * f p -> Rabs (p - xq) <= 3 * rho.
  Proof.
    intros Hl H. pose proof RP as R0. pose proof L_pos as LP. pose proof (fpos p) as P. rewrite <- Hxq in H. apply Rabs_le_inv in H.
    assert (E1 : L * (2 * rho) <= f p / 4) by lra.
    apply Rabs_le. split.
    - destruct (Rle_dec xq (p + 2 * rho)) as [|N]; [lra|exfalso].
      assert (B : forall x, p < x < p + 2 * rho -> 3 / 4 * f p <= f x).
      { intros x Hx. pose proof (lip x p) as Hf. apply Rabs_le_inv in Hf. rewrite (Rabs_pos_eq (x - p)) in Hf by lra.
        assert (L * (x - p) <= L * (2 * rho)) by (apply Rmult_le_compat_l; lra). lra. }
      pose proof (integral_ge p (p + 2 * rho) _ ltac:(lra) B) as I. pose proof (dens_le f F D (p + 2 * rho) xq ltac:(lra)).
      assert (0 < rho * f p) by (apply Rmult_lt_0_compat; assumption). lra.
    - destruct (Rle_dec (p - 2 * rho) xq) as [|N]; [lra|exfalso].
      assert (B : forall x, p - 2 * rho < x < p -> 3 / 4 * f p <= f x).
      { intros x Hx. pose proof (lip x p) as Hf. apply Rabs_le_inv in Hf. rewrite (Rabs_left1 (x - p)) in Hf by lra.
        assert (L * - (x - p) <= L * (2 * rho)) by (apply Rmult_le_compat_l; lra). lra. }
      pose proof (integral_ge (p - 2 * rho) p _ ltac:(lra) B) as I. pose proof (dens_le f F D xq (p - 2 * rho) ltac:(lra)).
      assert (0 < rho * f p) by (apply Rmult_lt_0_compat; assumption). lra.
  Qed.
  Lemma sweep k p : state (S k) p -> state k (next p).
  Proof.
    intros S0. pose proof (state_lo _ _ S0) as [Hl HX]. destruct S0 as [Dp S0]. assert (Dn : double (next p)) by apply rnd_double.
    split; [exact Dn|]. destruct S0 as [[Ip B]|Bl]; [|right; now apply ball_next].
    destruct (Rle_dec (Rabs (F p - q)) (rho * f p)) as [Sm|T].
    { right. apply ball_next; [exact Dp|]. now apply residual_near. }
    apply Rnot_le_lt in T. pose proof (fpos p) as P. pose proof RP as R0.
    pose proof (next_close f F D cdf pdf kappa eps lo X q Hkappa Dq Heps Hlo Hcdf Hpdf p Dp Hl HX (res_1 f F D q xq Hxq p)) as C.
    fold rho in C. cbv beta in C. fold (next p) in C. set (p' := next p) in *. pose proof (fpos p') as P'. pose proof (peak f m U p') as PK.
    pose proof (bound_next k) as BN. pose proof W0 as WP.
    assert (G2 : rho * f p' ^ 2 <= w0 / 4).
    { apply Rle_trans with (rho * f m ^ 2); [|unfold w0; lra]. apply Rmult_le_compat_l; [lra|]. apply pow_incr; lra. }
    assert (T' : rho < Rabs (F p - q) / f p).
    { apply (Rmult_lt_reg_r (f p)); [exact P|]. replace (Rabs (F p - q) / f p * f p) with (Rabs (F p - q)) by (field; lra). exact T. }
    set (st := step f F q p) in *. apply Rabs_le_inv in C. set (w := bound (S k)) in *.
    destruct (Rle_dec (1 / 2) q) as [Hq|Hq].
    - pose proof (step_right f F m D U q p Ip Hq) as (S1 & S2 & S3). fold st in S1, S2, S3. pose proof Ip as [A _]. destruct (A Hq) as [A1 A2].
      rewrite (Rabs_left1 (F p - q)) in T', B by lra.
      assert (Est : st - p = - (F p - q) / f p) by (unfold st, step; field; lra).
      destruct (Rle_dec (F p') q) as [Q|Q].
      + left. split; [split; [intros; split; lra|intros Hq2; exfalso]|].
        { destruct Ip as [_ A']. specialize (A' Hq2). replace (F p - q) with 0 in T' by lra. unfold Rdiv in T'. rewrite Ropp_0, Rmult_0_l in T'. lra. }
        pose proof (convex_right f F m D U p p' A1 ltac:(lra)) as CR. rewrite Rabs_left1 by lra.
        pose proof (amgm (- (F p - q)) (f p) (- (F p - q) - - (F p - q) / f p * f p') (f p') P P' ltac:(lra) ltac:(lra)) as AM.
        assert (K : - (F p' - q) <= (- (F p - q) - - (F p - q) / f p * f p') + rho * f p').
        { rewrite <- Est. assert ((st - p - rho) * f p' <= (p' - p) * f p') by (apply Rmult_le_compat_r; lra). lra. }
        assert (- (F p' - q) * f p' <= ((- (F p - q) - - (F p - q) / f p * f p') + rho * f p') * f p') by (apply Rmult_le_compat_r; lra). lra.
      + right. assert (xq <= p') by (apply (dens_le_inv f F D); lra). assert (st <= xq) by (apply (dens_le_inv f F D); lra).
        apply Rabs_le. lra.
    - pose proof (step_left f F m D U q p Ip ltac:(lra)) as (S1 & S2 & S3). fold st in S1, S2, S3. pose proof Ip as [_ A]. destruct (A ltac:(lra)) as [A1 A2].
      rewrite (Rabs_pos_eq (F p - q)) in T', B by lra.
      assert (Est : p - st = (F p - q) / f p) by (unfold st, step; field; lra).
      destruct (Rle_dec q (F p')) as [Q|Q].
      + left. split; [split; intros; split; lra|].
        pose proof (convex_left f F m D U p' p ltac:(lra) A1) as CR. rewrite Rabs_pos_eq by lra.
        pose proof (amgm (F p - q) (f p) ((F p - q) - (F p - q) / f p * f p') (f p') P P' ltac:(lra) ltac:(lra)) as AM.
        assert (K : F p' - q <= ((F p - q) - (F p - q) / f p * f p') + rho * f p').
        { rewrite <- Est. assert ((p - st - rho) * f p' <= (p - p') * f p') by (apply Rmult_le_compat_r; lra). lra. }
        assert ((F p' - q) * f p' <= (((F p - q) - (F p - q) / f p * f p') + rho * f p') * f p') by (apply Rmult_le_compat_r; lra). lra.
      + right. assert (p' <= xq) by (apply (dens_le_inv f F D); lra). assert (xq <= st) by (apply (dens_le_inv f F D); lra).
        apply Rabs_le. lra.
  Qed.
  Lemma state_pdf k p : state k p -> pdf p <> 0.
  Proof. intros S0. destruct (state_lo _ _ S0) as [Hl _]. exact (pdf_nz f pdf kappa lo Hkappa Hlo Hpdf p (proj1 S0) Hl). Qed.
  Lemma ftol_near : 9 / 10 * tol <= ftol.
  Proof.
    unfold ftol. destruct (rnd_error tol) as (e & h & He & Hh & E). rewrite E. apply Rabs_le_inv in He, Hh. pose proof eta_tiny as [_ ET].
    assert (u <= / 2 ^ 50) by (rewrite u_val; apply Rinv_le_contravar; lra). unfold tol in *. nra.
  Qed.
  Lemma state_stops p : state 0 p -> Rabs (fquo (fsub (cdf p) q) (pdf p)) < ftol.
  Proof.
    intros S0. pose proof (state_lo _ _ S0) as [Hl HX]. destruct S0 as [Dp S0]. pose proof (fpos p) as P. pose proof RP as R0. pose proof RT as R5. pose proof LPk as LP.
    pose proof (size_close f F D cdf pdf kappa eps lo q Hkappa Dq Hlo Hcdf Hpdf p Dp Hl (res_1 f F D q xq Hxq p)) as SC.
    assert (SC' : Rabs (fquo (fsub (cdf p) q) (pdf p) - (F p - q) / f p) <= rho).
    { eapply Rle_trans; [exact SC|]. unfold rho, deviation, Rdiv. set (il := / lo). assert (0 < il) by (apply Rinv_0_lt_compat; lra). pose proof eta_pos.
      assert (0 <= X) by (pose proof (Rabs_pos p); lra). assert (0 <= X * / 2 ^ 52) by (apply Rmult_le_pos; lra).
      assert ((2 * kappa + (1 + 2 * kappa) * eps) * il <= (4 * kappa + 2 * eps) * il); [|lra]. apply Rmult_le_compat_r; [lra|]. nra. }
    assert (K : Rabs ((F p - q) / f p) <= 3 / 4 * (tol - rho)).
    { destruct S0 as [[Ip B]|Bl].
      - pose proof (dense_step f F m D U lo q p (w0 / 2) Hlo (dense_q f F m kappa eps lo X q xq Hkappa Heps Hlo Hxq Xm margin) Ip B) as S.
        replace (w0 / 2 / lo ^ 2) with ((tol - rho) / 2) in S by (unfold w0; field; lra). lra.
      - unfold Rdiv. rewrite Rabs_mult, (Rabs_pos_eq (/ f p)) by (left; now apply Rinv_0_lt_compat).
        assert (B : Rabs (F p - q) <= f m * (3 * rho)).
        { rewrite <- Hxq. apply Rle_trans with (f m * Rabs (p - xq)); [|apply Rmult_le_compat_l; [pose proof (fpos m); lra|exact Bl]].
          destruct (Rle_dec xq p) as [C|C].
          - pose proof (dens_le f F D xq p C). rewrite !Rabs_pos_eq by lra. apply integral_le; [exact C|intros; apply (peak f m U)].
          - pose proof (dens_le f F D p xq ltac:(lra)). rewrite !Rabs_left1 by lra. pose proof (integral_le p xq (f m) ltac:(lra) (fun x _ => peak f m U x)). lra. }
        apply Rle_trans with (f m * (3 * rho) * / lo).
        { apply Rmult_le_compat; [apply Rabs_pos|left; now apply Rinv_0_lt_compat|exact B|now apply Rinv_le_contravar]. }
        apply (Rmult_le_reg_r (lo ^ 2)); [apply pow_lt; lra|]. replace (f m * (3 * rho) * / lo * lo ^ 2) with (3 * (f m * rho * lo)) by (field; lra).
        assert (f m * rho * lo <= rho * f m ^ 2); [|lra]. pose proof (fpos m). replace (rho * f m ^ 2) with (f m * rho * f m) by ring.
        apply Rmult_le_compat_l; [apply Rmult_le_pos; lra|exact LP]. }
    pose proof ftol_near as FT.
    apply Rle_lt_trans with (rho + 3 / 4 * (tol - rho)); [|assert (0 < tol) by (unfold tol; lra); lra].
    replace (fquo (fsub (cdf p) q) (pdf p)) with ((fquo (fsub (cdf p) q) (pdf p) - (F p - q) / f p) + (F p - q) / f p) by ring.
    eapply Rle_trans; [apply Rabs_triang|]. lra.
  Qed.
  Lemma state_start : f m <= 4 ^ 48 * w0 -> state 49 m.
  Proof.
    intros H. split; [exact Dm|]. left. split; [apply inside_start; exact M|]. pose proof W0. unfold bound.
    apply Rle_trans with (f m / 2); [apply (start_bound f F m D M); now exists xq|lra].
  Qed.
End Sweep.

(** All elements: the iteration ends without failures as soon as every step is small. *)
Section Loop.
  Variables (cdf pdf : R -> R) (St : nat -> R -> R -> Prop).
  Hypothesis nonzero : forall k q p, St k q p -> pdf p <> 0.
  Hypothesis next : forall k q p, St (S k) q p -> St k q (fsub p (fquo (fsub (cdf p) q) (pdf p))).
  Hypothesis stops : forall q p, St 0 q p -> Rabs (fquo (fsub (cdf p) q) (pdf p)) < ftol.

  Lemma F2_length {A B : Type} (P : A -> B -> Prop) l l' : Forall2 P l l' -> List.length l = List.length l'.
  Proof. induction 1; cbn; congruence. Qed.
  Lemma nz_true ps : forall qs k, Forall2 (St k) qs ps -> map (fun x => negb (is_zero x)) (map pdf ps) = map (fun _ => true) ps.
  Proof.
    induction ps as [|p ps IH]; intros qs k H; [reflexivity|]. inversion H as [|q ? qs' ? Hq Hr]; subst. cbn [map]. f_equal; [|exact (IH _ _ Hr)].
    unfold is_zero. destruct (Req_EM_T (pdf p) 0) as [Z|_]; [|reflexivity]. now apply nonzero in Hq.
  Qed.
  Lemma sweep_states ps : forall qs k, Forall2 (St (S k)) qs ps ->
    Forall2 (St k) qs (map4 fnewton_step (map (fun _ => true) ps) ps (map2 fsub (map cdf ps) qs) (map pdf ps)).
  Proof.
    induction ps as [|p ps IH]; intros qs k H; inversion H as [|q ? qs' ? Hq Hr]; subst; cbn; constructor; [now apply next|now apply IH].
  Qed.
  Lemma no_failures ps : forall qs fl, Forall2 (St 0) qs ps -> List.length fl = List.length ps ->
    map4 fstep_fails (map (fun _ => true) ps) fl (map2 fsub (map cdf ps) qs) (map pdf ps) = map (fun _ => false) ps.
  Proof.
    induction ps as [|p ps IH]; intros qs fl H E; destruct fl as [|b fl]; try discriminate; inversion H as [|q ? qs' ? Hq Hr]; subst; [reflexivity|].
    cbn [map map2 map4 fstep_fails]. cbn in E. injection E as E. f_equal; [|exact (IH _ _ Hr E)].
    destruct (Rle_dec ftol _) as [N|_]; [|reflexivity]. apply stops in Hq. lra.
  Qed.
  Lemma fails_length ps : forall qs fl, List.length qs = List.length ps -> List.length fl = List.length ps ->
    List.length (map4 fstep_fails (map (fun _ => true) ps) fl (map2 fsub (map cdf ps) qs) (map pdf ps)) = List.length ps.
  Proof. induction ps as [|p ps IH]; intros [|q qs] [|b fl] E1 E2; try discriminate; cbn; [reflexivity|]. cbn in *. f_equal. apply IH; congruence. Qed.
  Lemma and_true (fl : list bool) (ps : list R) : List.length fl = List.length ps -> map2 andb (map (fun _ => true) ps) fl = fl.
  Proof. revert fl. induction ps as [|p ps IH]; intros [|b fl] E; try discriminate; cbn; [reflexivity|]. f_equal. apply IH. cbn in E. congruence. Qed.
  Lemma exists_false (ps : list R) : existsb (fun b => b) (map (fun _ : R => false) ps) = false.
  Proof. induction ps as [|p ps IH]; cbn; auto. Qed.
  Lemma exists_none (fl : list bool) : existsb (fun b => b) fl = false -> fl = map (fun _ => false) fl.
  Proof. induction fl as [|b fl IH]; cbn; intros H; [reflexivity|]. apply orb_false_elim in H. destruct H as [-> H]. f_equal. auto. Qed.
  Lemma const_map {A B C : Type} (c : C) (l : list A) : forall l' : list B, List.length l = List.length l' -> map (fun _ => c) l = map (fun _ => c) l'.
  Proof. induction l as [|a l IH]; intros [|b l'] E; try discriminate; cbn; [reflexivity|]. f_equal. apply IH. cbn in E. congruence. Qed.

  Lemma array_step n g g' p fl nz0 : farray_newton (S n) g g' p fl nz0 =
    if forallb is_zero (g p) then (p, map (fun _ => false) (g p), nz0)
    else if negb (existsb (fun b => b) (map (fun x => negb (is_zero x)) (g' p))) then (p, fl, map (fun x => negb (is_zero x)) (g' p))
    else if negb (existsb (fun b => b) (map2 andb (map (fun x => negb (is_zero x)) (g' p)) (map4 fstep_fails (map (fun x => negb (is_zero x)) (g' p)) fl (g p) (g' p))))
         then (map4 fnewton_step (map (fun x => negb (is_zero x)) (g' p)) p (g p) (g' p), map4 fstep_fails (map (fun x => negb (is_zero x)) (g' p)) fl (g p) (g' p), map (fun x => negb (is_zero x)) (g' p))
         else farray_newton n g g' (map4 fnewton_step (map (fun x => negb (is_zero x)) (g' p)) p (g p) (g' p))
                (map4 fstep_fails (map (fun x => negb (is_zero x)) (g' p)) fl (g p) (g' p)) (map (fun x => negb (is_zero x)) (g' p)).
  Proof. reflexivity. Qed.
  Lemma loop_ends k : forall qs ps fl, Forall2 (St k) qs ps -> List.length fl = List.length ps ->
    exists xs, List.length xs = List.length qs /\
    farray_newton (S k) (fun E => map2 fsub (map cdf E) qs) (map pdf) ps fl (map (fun _ => true) ps) = (xs, map (fun _ => false) ps, map (fun _ => true) ps).
  Proof.
    induction k as [|k IH]; intros qs ps fl H E; pose proof (F2_length _ _ _ H) as EL;
      remember (fun E => map2 fsub (map cdf E) qs) as g eqn:Eg; rewrite array_step;
      destruct (forallb is_zero (g ps)) eqn:Z.
    all: try (exists ps; split; [congruence|]; f_equal; f_equal; apply const_map; subst g; rewrite ?map2_length, ?map_length; lia).
    all: rewrite (nz_true ps qs _ H).
    all: destruct (negb (existsb (fun b => b) (map (fun _ => true) ps))) eqn:NZ.
    all: try (exfalso; destruct ps as [|p ps]; [inversion H; subst; cbn in Z; discriminate|cbn in NZ; discriminate]).
    - subst g. rewrite (no_failures ps qs fl H E), and_true, exists_false by (now rewrite map_length). cbn [negb].
      eexists. split; [|reflexivity]. clear - EL. revert qs EL. induction ps as [|p ps IH]; intros [|q qs] EL; try discriminate; cbn; [reflexivity|]. cbn in EL. f_equal. apply IH. congruence.
    - pose proof (fails_length ps qs fl EL E) as E2. subst g. cbv beta. set (fl' := map4 fstep_fails _ _ _ _) in *. rewrite and_true by exact E2.
      pose proof (sweep_states ps qs k H) as H2. set (ps' := map4 fnewton_step _ _ _ _) in *. pose proof (F2_length _ _ _ H2) as EL2.
      destruct (existsb (fun b => b) fl') eqn:Ex; cbn [negb].
      + destruct (IH qs ps' fl' H2 ltac:(congruence)) as (xs & Lx & E3). exists xs. split; [exact Lx|].
        rewrite (const_map true ps ps') by congruence. rewrite E3. f_equal. f_equal. apply const_map. congruence.
      + exists ps'. split; [congruence|]. rewrite (exists_none fl' Ex) at 1. rewrite (const_map false fl' ps) by exact E2. reflexivity.
  Qed.
  Lemma array_ends k qs m : Forall2 (St k) qs (map (fun _ => m) qs) ->
    exists xs, List.length xs = List.length qs /\
      fnewton_array (S k) (fun E => map2 fsub (map cdf E) qs) (map pdf) (map (fun _ => m) qs) = Ok (xs, map (fun _ => true) qs).
  Proof.
    intros H. destruct (loop_ends k qs (map (fun _ => m) qs) (map (fun _ => true) (map (fun _ => m) qs)) H ltac:(now rewrite !map_length)) as (xs & Lx & E).
    exists xs. split; [exact Lx|]. unfold fnewton_array. rewrite E. rewrite !map_map.
    replace (map2 (fun a b => andb (negb a) b) (map (fun _ : R => true) qs) (map (fun _ : R => false) qs)) with (map (fun _ : R => false) qs)
      by (clear; induction qs as [|q qs IH]; cbn; [reflexivity|f_equal; exact IH]).
    rewrite exists_false. cbn [negb]. reflexivity.
  Qed.
End Loop.
