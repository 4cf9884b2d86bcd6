(** Accuracy of Newton's method in floating-point arithmetic. *)
From Coq Require Import Reals List ZArith Lra Lia Psatz.
From Flocq Require Import Core.
From Coquelicot Require Import Coquelicot.
From Verif Require Import Py M_Num M_Grid M_Dist M_Resonance M_PseudoVoigt M_Float M_Float3 S_Float L_Float L_Float3.
Import ListNotations.
Open Scope R_scope.

Lemma u_val : u = / 2 ^ 53.
Proof. reflexivity. Qed.
Lemma eta_le : eta <= / 2 ^ 1000.
Proof. rewrite eta_half. unfold half_smallest. apply Rinv_le_contravar; [apply pow_lt; lra|]. apply Rle_pow; [lra|lia]. Qed.
Lemma tiny_1000 : / 2 ^ 1000 <= / 2 ^ 100.
Proof. apply Rinv_le_contravar; [apply pow_lt; lra|]. apply Rle_pow; [lra|lia]. Qed.
Lemma eta_tiny : 0 < eta <= / 2 ^ 100.
Proof. split; [apply eta_pos|]. eapply Rle_trans; [apply eta_le|apply tiny_1000]. Qed.
Lemma ftol_bounds : 1479999 / 10 ^ 14 <= ftol <= 1480001 / 10 ^ 14.
Proof.
  destruct (rnd_error tol) as (e & h & He & Hh & E). unfold ftol. rewrite E. pose proof eta_tiny as T.
  apply Rabs_le_inv in He. apply Rabs_le_inv in Hh. rewrite u_val in He. unfold tol.
  assert (K : / 2 ^ 53 <= / 10 ^ 15) by (apply Rinv_le_contravar; lra).
  assert (K2 : / 2 ^ 100 <= / 10 ^ 25) by (apply Rinv_le_contravar; lra). nra.
Qed.

Section Accuracy.
  Variables (F cdf pdf : R -> R) (B eps q : R).
  Hypothesis HB : 0 < B.
  Hypothesis Lip : forall a b, Rabs (F a - F b) <= B * Rabs (a - b).
  Hypothesis Hq : double q.
  Hypothesis Hcdf : forall x, double x -> double (cdf x) /\ Rabs (cdf x - F x) <= eps.
  Hypothesis Hpdf : forall x, double x -> Rabs (pdf x) <= B.

  Definition good (x : R) : Prop := Rabs (F x - q) <= eps + B * (3 / 10 ^ 8 + Rabs x / 2 ^ 51 * (1 + / 2 ^ 10)).

  Lemma good_zero x : double x -> fsub (cdf x) q = 0 -> good x.
  Proof.
    intros Dx Z. destruct (Hcdf x Dx) as [Dc Ec]. destruct (fsub_error (cdf x) q Dc Hq) as (e & He & E). rewrite Z in E.
    apply Rabs_le_inv in He. pose proof u_small as US. pose proof u_pos.
    assert (cdf x - q = 0) by (symmetry in E; apply Rmult_integral in E; destruct E; [assumption|lra]).
    unfold good. replace (F x - q) with (- (cdf x - F x)) by lra. rewrite Rabs_Ropp.
    assert (0 <= Rabs x / 2 ^ 51 * (1 + / 2 ^ 10)) by (apply Rmult_le_pos; [apply Rmult_le_pos; [apply Rabs_pos|left; apply Rinv_0_lt_compat; lra]|lra]).
    assert (0 <= B * (3 / 10 ^ 8 + Rabs x / 2 ^ 51 * (1 + / 2 ^ 10))) by (apply Rmult_le_pos; lra). lra.
  Qed.
  (** One step from [x]. *)
  Lemma good_step x s : double x -> s = fquo (fsub (cdf x) q) (pdf x) -> pdf x <> 0 ->
    Rabs s <= ftol \/ Rabs (fsub (fsub x s) x) <= ftol -> good (fsub x s).
  Proof.
    intros Dx Es Np H. destruct (Hcdf x Dx) as [Dc Ec]. pose proof (Hpdf x Dx) as Hp.
    assert (Ds : double s) by (rewrite Es; apply rnd_double). set (x' := fsub x s) in *. assert (Dx' : double x') by apply rnd_double.
    pose proof u_val as UV. assert (U1 : u <= / 10 ^ 15) by (rewrite UV; apply Rinv_le_contravar; lra). pose proof u_pos as U0.
    pose proof ftol_bounds as [_ FT]. pose proof eta_tiny as [E0 E1]. assert (E2 : / 2 ^ 100 <= / 10 ^ 25) by (apply Rinv_le_contravar; lra).
    (* x' = (x - s)(1 + e) *)
    assert (A1 : Rabs (x - s - x') <= 1001 / 1000 * u * Rabs x').
    { destruct (fsub_error x s Dx Ds) as (e & He & E). fold x' in E.
      assert (L : Rabs (x - s) * (1 - u) <= Rabs x').
      { rewrite E, Rabs_mult. apply Rmult_le_compat_l; [apply Rabs_pos|]. apply Rabs_le_inv in He. rewrite Rabs_pos_eq; lra. }
      replace (x - s - x') with (- ((x - s) * e)) by (rewrite E; ring). rewrite Rabs_Ropp, Rabs_mult.
      apply Rle_trans with (Rabs (x - s) * u); [apply Rmult_le_compat_l; [apply Rabs_pos|exact He]|].
      assert (K : Rabs (x - s) <= 1001 / 1000 * Rabs x').
      { pose proof (Rabs_pos (x - s)). nra. }
      nra. }
    set (X := Rabs x') in *. assert (PX : 0 <= X) by apply Rabs_pos.
    assert (A2 : Rabs s <= 14801 / 10 ^ 12 + 1001 / 1000 * u * X /\ Rabs (x' - x) <= 14801 / 10 ^ 12 + 1001 / 1000 * u * X).
    { destruct H as [H|H].
      - split; [nra|]. replace (x' - x) with (- (x - s - x') - s) by ring. unfold Rminus at 1. eapply Rle_trans; [apply Rabs_triang|]. rewrite !Rabs_Ropp. lra.
      - destruct (fsub_error x' x Dx' Dx) as (e & He & E). rewrite E, Rabs_mult in H. apply Rabs_le_inv in He. rewrite (Rabs_pos_eq (1 + e)) in H by lra.
        pose proof (Rabs_pos (x' - x)). assert (L : Rabs (x' - x) <= 14801 / 10 ^ 12) by nra.
        split; [|nra]. replace s with (- (x' - x) - (x - s - x')) by ring. unfold Rminus at 1. eapply Rle_trans; [apply Rabs_triang|]. rewrite !Rabs_Ropp. lra. }
    destruct A2 as [A2 A3]. set (t := 14801 / 10 ^ 12 + 1001 / 1000 * u * X) in *.
    assert (Pt : 14801 / 10 ^ 12 <= t) by (unfold t; assert (0 <= u * X) by (apply Rmult_le_pos; lra); lra).
    (* fval = s fder *)
    set (v := fsub (cdf x) q) in *.
    assert (A4 : Rabs v <= B * (10001 / 10000 * t)).
    { destruct (rnd_error (v / pdf x)) as (e & h & He & Hh & E). unfold fquo in Es. rewrite <- Es in E.
      assert (L : Rabs (v / pdf x) <= 10001 / 10000 * t).
      { assert (Rabs (v / pdf x * (1 + e)) <= t + eta).
        { replace (v / pdf x * (1 + e)) with (s - h) by lra. unfold Rminus. eapply Rle_trans; [apply Rabs_triang|]. rewrite Rabs_Ropp. lra. }
        rewrite Rabs_mult in H0. apply Rabs_le_inv in He. rewrite (Rabs_pos_eq (1 + e)) in H0 by lra. pose proof (Rabs_pos (v / pdf x)). nra. }
      replace v with (pdf x * (v / pdf x)) by (field; assumption). rewrite Rabs_mult. apply Rmult_le_compat; try apply Rabs_pos; assumption. }
    assert (A5 : Rabs (cdf x - q) <= B * (10002 / 10000 * t)).
    { destruct (fsub_error (cdf x) q Dc Hq) as (e & He & E). fold v in E. rewrite E, Rabs_mult in A4. apply Rabs_le_inv in He.
      rewrite (Rabs_pos_eq (1 + e)) in A4 by lra. pose proof (Rabs_pos (cdf x - q)) as P0.
      assert (0 < B * t) by (apply Rmult_lt_0_compat; lra). nra. }
    unfold good. replace (F x' - q) with ((F x' - F x) + ((F x - cdf x) + (cdf x - q))) by ring.
    eapply Rle_trans; [apply Rabs_triang|]. eapply Rle_trans; [apply Rplus_le_compat_l, Rabs_triang|].
    rewrite (Rabs_minus_sym (F x)). pose proof (Lip x' x) as L.
    assert (B * Rabs (x' - x) <= B * t) by (apply Rmult_le_compat_l; lra).
    fold X. assert (B * (20002 / 10000 * t) <= B * (3 / 10 ^ 8 + X / 2 ^ 51 * (1 + / 2 ^ 10))).
    { apply Rmult_le_compat_l; [lra|]. unfold t. rewrite UV. unfold Rdiv at 5. 
      assert (X * / 2 ^ 51 = 4 * (/ 2 ^ 53 * X)) as -> by (field). set (y := / 2 ^ 53 * X). assert (0 <= y) by (apply Rmult_le_pos; [left; apply Rinv_0_lt_compat; lra|exact PX]).
      replace (1001 / 1000 * / 2 ^ 53 * X) with (1001 / 1000 * y) by (unfold y; ring). lra. }
    lra.
  Qed.

  Lemma scalar_good n p x : double p -> fnewton_scalar n (fun E => fsub (cdf E) q) pdf p = Ok x -> good x.
  Proof.
    revert p. induction n as [|n IH]; intros p Dp E; [discriminate|]. cbn [fnewton_scalar] in E.
    destruct (Req_EM_T (fsub (cdf p) q) 0) as [Z|Z]; [injection E as <-; now apply good_zero|].
    destruct (Req_EM_T (pdf p) 0) as [Z'|Z']; [discriminate|].
    destruct (Rle_dec _ ftol) as [L|L].
    - injection E as <-. apply good_step; auto.
    - apply (IH _ (rnd_double _) E).
  Qed.
End Accuracy.

Section Arrays.
  Variables (F cdf pdf : R -> R) (B eps : R).
  Hypothesis HB : 0 < B.
  Hypothesis Lip : forall a b, Rabs (F a - F b) <= B * Rabs (a - b).
  Hypothesis Hcdf : forall x, double x -> double (cdf x) /\ Rabs (cdf x - F x) <= eps.
  Hypothesis Hpdf : forall x, double x -> Rabs (pdf x) <= B.

  (** The elements where the iteration has not failed are good. *)
  Inductive state : list R -> list R -> list bool -> Prop :=
  | state_nil : state [] [] []
  | state_cons q qs p ps b bs : double q -> double p -> (b = false -> good F B eps q p) -> state qs ps bs -> state (q :: qs) (p :: ps) (b :: bs).
  Lemma state_start qs m : List.Forall double qs -> double m -> state qs (map (fun _ => m) qs) (map (fun _ => true) (map (fun _ => m) qs)).
  Proof. intros H Dm. induction H; cbn; constructor; auto. discriminate. Qed.
  Lemma state_zero qs ps bs : state qs ps bs -> forallb is_zero (map2 fsub (map cdf ps) qs) = true ->
    state qs ps (map (fun _ => false) (map2 fsub (map cdf ps) qs)).
  Proof.
    induction 1 as [|q qs p ps b bs Dq Dp _ _ IH]; cbn; [constructor|]. intros E. apply andb_prop in E. destruct E as [E1 E2].
    constructor; auto. intros _. apply (good_zero F cdf B eps q HB Dq Hcdf p Dp). unfold is_zero in E1. destruct (Req_EM_T _ 0); [assumption|discriminate].
  Qed.
  Lemma state_step qs ps bs : state qs ps bs ->
    let fval := map2 fsub (map cdf ps) qs in let fder := map pdf ps in let nz := map (fun x => negb (is_zero x)) fder in
    state qs (map4 fnewton_step nz ps fval fder) (map4 fstep_fails nz bs fval fder).
  Proof.
    induction 1 as [|q qs p ps b bs Dq Dp G _ IH]; cbn in *; constructor; auto.
    - unfold fnewton_step. destruct (negb _); [apply rnd_double|exact Dp].
    - unfold fnewton_step, fstep_fails. destruct (is_zero (pdf p)) eqn:Z; cbn [negb]; [exact G|].
      destruct (Rle_dec ftol _) as [|L]; [discriminate|]. intros _.
      apply (good_step F cdf pdf B eps q HB Lip Dq Hcdf Hpdf p _ Dp eq_refl); [|left; lra].
      unfold is_zero in Z. destruct (Req_EM_T (pdf p) 0); [discriminate|assumption].
  Qed.
  Lemma state_newton n qs ps bs nz x fl nz' : state qs ps bs ->
    farray_newton n (fun E => map2 fsub (map cdf E) qs) (map pdf) ps bs nz = (x, fl, nz') -> state qs x fl.
  Proof.
    revert ps bs nz. induction n as [|n IH]; intros ps bs nz S E; cbn [farray_newton] in E; [injection E as <- <- _; exact S|].
    destruct (forallb is_zero _) eqn:Z; [injection E as <- <- _; eapply state_zero; eassumption|].
    destruct (negb (existsb _ (map _ (map pdf ps)))) eqn:Y; [injection E as <- <- _; exact S|].
    destruct (negb (existsb _ (map2 andb _ _))); [injection E as <- <- _; now apply state_step|].
    eapply IH; [|exact E]. now apply state_step.
  Qed.
  Lemma state_all qs xs fl : state qs xs fl -> forallb (fun b => b) (map negb fl) = true -> Forall2 (fun q x => good F B eps q x) qs xs.
  Proof. induction 1 as [|q qs p ps b bs Dq Dp G _ IH]; cbn; intros E; constructor; apply andb_prop in E; destruct E as [E1 E2]; auto. apply G. now destruct b. Qed.
  Lemma array_good n qs m x conv : List.Forall double qs -> double m ->
    fnewton_array n (fun E => map2 fsub (map cdf E) qs) (map pdf) (map (fun _ => m) qs) = Ok (x, conv) ->
    forallb (fun b => b) conv = true -> Forall2 (fun q x => good F B eps q x) qs x.
  Proof.
    intros Hq Dm E C. unfold fnewton_array in E.
    destruct (farray_newton n _ _ _ _ _) as [[x' fl] nz] eqn:EN.
    pose proof (state_newton _ _ _ _ _ _ _ _ (state_start qs m Hq Dm) EN) as S.
    destruct (existsb _ _); [injection E as <- <-; eapply state_all; eassumption|].
    destruct (existsb _ fl); [destruct (forallb _ fl); [discriminate|]|]; injection E as <- <-; eapply state_all; eassumption.
  Qed.
End Arrays.
