(** Numerical inversion of the pseudo-Voigt CDF. *)
From Coq Require Import Reals List ZArith Lra Lia Sorted.
From Coquelicot Require Import Coquelicot.
From Verif Require Import Py Spec M_Num M_Grid M_Constituents M_Thermal M_Dist M_Resonance M_PseudoVoigt
  S_Resonance S_PseudoVoigt L_RInt L_Dist L_Resonance L_Resonance2 L_Resonance3 L_Resonance4 L_Resonance5 L_Newton L_PseudoVoigt.
Import ListNotations.
Open Scope R_scope.

(** ** Peak *)
Lemma PI_upper : PI < 3.5.
Proof. pose proof (PI_ineq 1) as [_ K]. unfold tg_alt, PI_tg in K. cbn in K. lra. Qed.
Lemma PI_lower : 3 < PI.
Proof. pose proof PI2_3_2. lra. Qed.

Lemma norm_peak l s : norm_pdf l s l = / (s * sqrt (2 * PI)).
Proof.
  unfold norm_pdf. replace ((l - l) / s) with 0 by (unfold Rdiv; ring). rewrite gauss0_0.
  unfold Rdiv. rewrite Rinv_mult. ring.
Qed.
Lemma cauchy_peak l s : cauchy_pdf l s l = / (PI * s).
Proof. unfold cauchy_pdf. replace ((l - l) / s) with 0 by (unfold Rdiv; ring). f_equal. ring. Qed.
Lemma pv_peak p : pv_valid p -> pvf p (pv_energy p) <= 4 / (PI * pv_Gamma p).
Proof.
  intros (HG & He & EG & EL). unfold pvf. rewrite norm_peak, cauchy_peak, EG, EL.
  pose proof sqrt_ln2_pos as HS. pose proof PI_lower as HP. pose proof PI_upper as HP'.
  assert (E : pv_Gamma p / (2 * sqrt (ln 2)) / sqrt 2 * sqrt (2 * PI) = pv_Gamma p * sqrt PI / (2 * sqrt (ln 2))).
  { rewrite sqrt_mult by lra. pose proof sqrt2_pos. field. lra. }
  rewrite E. clear E.
  assert (H1 : / (pv_Gamma p * sqrt PI / (2 * sqrt (ln 2))) <= 4 / (PI * pv_Gamma p)).
  { assert (0 < sqrt PI) by (apply sqrt_lt_R0; lra).
    assert (K : sqrt (ln 2) * sqrt PI <= 2).
    { rewrite <- sqrt_mult by (pose proof ln2_pos; lra). apply Rle_trans with (sqrt (Rsqr 2)).
      - apply sqrt_le_1_alt. unfold Rsqr. pose proof ln2_pos. pose proof ln2_lt.
        apply Rle_trans with (7 / 10 * 3.5); [apply Rmult_le_compat; lra|lra].
      - rewrite sqrt_Rsqr; lra. }
    apply (Rmult_le_reg_r (PI * pv_Gamma p)); [nra|].
    replace (4 / (PI * pv_Gamma p) * (PI * pv_Gamma p)) with 4 by (field; lra).
    replace (/ (pv_Gamma p * sqrt PI / (2 * sqrt (ln 2))) * (PI * pv_Gamma p)) with (2 * (sqrt (ln 2) * (PI / sqrt PI))) by (field; lra).
    replace (PI / sqrt PI) with (sqrt PI); [lra|]. rewrite <- (sqrt_sqrt PI) at 2 by lra. field. lra. }
  assert (H2 : / (PI * (1 / 2 * (pv_Gamma p / 2))) = 4 / (PI * pv_Gamma p)) by (field; lra).
  rewrite H2. set (c := 4 / (PI * pv_Gamma p)) in *. nra.
Qed.
Lemma pv_accuracy p : pv_valid p -> tol * pvf p (pv_energy p) <= accuracy p.
Proof.
  intros V. pose proof (pv_peak p V) as H. destruct V as (HG & _). pose proof PI_lower.
  apply Rle_trans with (tol * (4 / (PI * pv_Gamma p))); [apply Rmult_le_compat_l; [unfold tol; lra|assumption]|].
  unfold tol, accuracy. apply (Rmult_le_reg_r (PI * pv_Gamma p * 10 ^ 10)); [apply Rmult_lt_0_compat; [nra|lra]|].
  replace (148 / 10 ^ 10 * (4 / (PI * pv_Gamma p)) * (PI * pv_Gamma p * 10 ^ 10)) with (148 * 4) by (field; lra).
  replace (2 / 10 ^ 8 / pv_Gamma p * (PI * pv_Gamma p * 10 ^ 10)) with (200 * PI) by (field; lra). lra.
Qed.

(** ** The inversion *)
Lemma traverse_ok {A B} (f : A -> out B) (g : A -> B) l : (forall x, f x = Ok (g x)) -> traverse f l = Ok (map g l).
Proof. intros H. induction l as [|a l IH]; [reflexivity|]. unfold traverse in *. cbn. rewrite H. cbn. rewrite IH. reflexivity. Qed.

Section PV.
  Variable p : pv.
  Hypothesis V : pv_valid p.
  Let f := pvf p.
  Let F := pvF p.
  Let m := pv_energy p.
  Let D : density_of f F := pv_density p V.
  Let U : unimodal m f := pv_unimodal p V.
  Let M : F m = 1 / 2 := pv_median p.

  Lemma scalar_ext (g g' h h' : R -> out R) n x : (forall x, g x = g' x) -> (forall x, h x = h' x) ->
    newton_scalar n g h x = newton_scalar n g' h' x.
  Proof.
    intros E1 E2. revert x; induction n as [|n IH]; intros x; [reflexivity|]. cbn. rewrite E1. destruct (g' x); cbn; try reflexivity.
    destruct (Req_EM_T a 0); [reflexivity|]. rewrite E2. destruct (h' x); cbn; try reflexivity.
    destruct (Req_EM_T a0 0); [reflexivity|]. destruct (Rle_dec _ _); [reflexivity|]. apply IH.
  Qed.
  Lemma array_ext (g g' h h' : list R -> out (list R)) n x fl nz : (forall x, g x = g' x) -> (forall x, h x = h' x) ->
    array_newton n g h x fl nz = array_newton n g' h' x fl nz.
  Proof.
    intros E1 E2. revert x fl nz; induction n as [|n IH]; intros x fl nz; [reflexivity|]. cbn. rewrite E1. destruct (g' x); cbn; try reflexivity.
    destruct (forallb is_zero a); [reflexivity|]. rewrite E2. destruct (h' x); cbn; try reflexivity.
    destruct (existsb _ _); cbn; [|reflexivity]. destruct (existsb _ _); cbn; [|reflexivity]. apply IH.
  Qed.

  Lemma scalar_newton q n x : newton_scalar n (fun E => bind (pv_cdf p E) (fun F => Ok (F - q))) (pv_pdf p) x =
    newton_scalar n (fun E => Ok (F E - q)) (fun E => Ok (f E)) x.
  Proof.
    apply scalar_ext; intros y; [rewrite pv_cdf_ok by assumption; reflexivity|now apply pv_pdf_ok].
  Qed.
  Lemma array_newton_pv qs x :
    newton_array (fun E => bind (traverse (pv_cdf p) E) (fun F => Ok (map2 Rminus F qs))) (traverse (pv_pdf p)) x =
    newton_array (residual F qs) (slope f) x.
  Proof.
    unfold newton_array. rewrite (array_ext _ (residual F qs) _ (slope f)); [reflexivity| |].
    - intros y. rewrite (traverse_ok _ F) by (intros; now apply pv_cdf_ok). reflexivity.
    - intros y. apply traverse_ok. intros; now apply pv_pdf_ok.
  Qed.

  (** Where the results lie. *)
  Definition near (q x : R) : Prop :=
    (1 / 2 <= q -> m <= x /\ q - accuracy p <= F x <= q) /\ (q <= 1 / 2 -> x <= m /\ q <= F x <= q + accuracy p).
  Lemma near_of q x : inside F m q x -> Rabs (F x - q) <= tol * f m -> near q x.
  Proof.
    intros [I1 I2] B. pose proof (pv_accuracy p V). fold f in H. fold m in H. split; intros Hq.
    - destruct (I1 Hq). rewrite Rabs_left1 in B by lra. repeat split; lra.
    - destruct (I2 Hq). rewrite Rabs_pos_eq in B by lra. repeat split; lra.
  Qed.
  Lemma near_abs q x : near q x -> Rabs (F x - q) <= accuracy p.
  Proof.
    intros [A B]. assert (0 < accuracy p) by (unfold accuracy; apply Rdiv_lt_0_compat; [lra|apply V]).
    destruct (Rle_dec (1 / 2) q); [destruct A|destruct B]; try lra; apply Rabs_le; lra.
  Qed.

  Lemma all3_Forall2 qs x conv : all3 (fun q x c => inside F m q x /\ (c = true -> Rabs (F x - q) <= tol * f m)) qs x conv ->
    forallb (fun b => b) conv = true -> Forall2 near qs x.
  Proof.
    induction 1 as [|q y c qs x conv [I B] _ IH]; intros H; [constructor|]. cbn in H. apply andb_prop in H.
    constructor; [|now apply IH]. apply near_of; [assumption|]. apply B, H.
  Qed.
  Lemma all3_inside qs x conv : all3 (fun q x c => inside F m q x /\ (c = true -> Rabs (F x - q) <= tol * f m)) qs x conv ->
    Forall2 (inside F m) qs x.
  Proof. induction 1 as [|q y c qs x conv [I B] _ IH]; constructor; assumption. Qed.

  Lemma fallback_nil : pseudo_voigt_ppf_expression p [] = Ok (Some []).
  Proof.
    unfold pseudo_voigt_ppf_expression. reflexivity.
  Qed.

  Lemma ppf_cases modern qs :
    (exists rs, pv_ppf modern p qs = ([], Ok (Some (map Finite rs))) /\ Forall2 near qs rs /\
       (strictly_ascending qs -> strictly_ascending rs)) \/
    (pv_ppf modern p qs = ([], Ok None) /\ (2 <= List.length qs)%nat) \/
    (pv_ppf modern p qs = ([], Raise TypeError) /\ modern = false /\ List.length qs = 1%nat) \/
    pv_ppf modern p qs = ([InversionFailed], pseudo_voigt_ppf_expression p qs).
  Proof.
    destruct qs as [|q [|q' qs]].
    - right; right; right. cbn [pv_ppf]. now rewrite fallback_nil.
    - cbn [pv_ppf]. unfold pv_ppf_scalar. rewrite scalar_newton.
      pose proof (newton_scalar_spec f F m D U q maxiter m (inside_start F m M q)) as S. fold m.
      destruct (newton_scalar _ _ _ _) as [x| |e]; [|contradiction|].
      + destruct modern; [left|right; right; left; auto]. exists [x]. split; [reflexivity|]. destruct S as [I B].
        split; [constructor; [now apply near_of|constructor]|]. intros _. constructor; constructor.
      + subst e. right; right; right. destruct (pseudo_voigt_ppf_expression p [q]) as [[l|]| |]; reflexivity.
    - set (qs2 := q :: q' :: qs).
      pose proof (newton_array_spec f F m D U M qs2 ltac:(discriminate)) as S.
      assert (E : pv_ppf modern p qs2 = match newton_array (residual F qs2) (slope f) (map (fun _ => m) qs2) with
        | Ok (x, converged) => ([], Ok (if forallb (fun b => b) converged then Some (map Finite x) else None))
        | Raise RuntimeError => ([InversionFailed], pseudo_voigt_ppf_expression p qs2)
        | NaN => ([], NaN)
        | Raise e => ([], Raise e)
        end).
      { rewrite <- array_newton_pv. reflexivity. }
      rewrite E. destruct (newton_array _ _ _) as [[x conv]| |e]; [|contradiction|].
      + destruct S as [A S]. destruct (forallb _ conv) eqn:C; [left|right; left; split; [reflexivity|cbn; lia]].
        exists x. split; [reflexivity|]. split; [eapply all3_Forall2; eassumption|exact S].
      + subst e. right; right; right. reflexivity.
  Qed.

  (** Numbers, without the warning. *)
  Lemma ppf_inverted modern qs ws xs : pv_ppf modern p qs = (ws, Ok (Some xs)) -> inverted ws ->
    exists rs, xs = map Finite rs /\ ws = [] /\ Forall2 near qs rs /\ (strictly_ascending qs -> strictly_ascending rs).
  Proof.
    intros E I. destruct (ppf_cases modern qs) as [(rs & E' & H)|[[E' _]|[(E' & _)|E']]]; rewrite E' in E.
    - injection E as <- <-. exists rs. auto.
    - discriminate.
    - discriminate.
    - injection E as <- _. exfalso. apply I. now left.
  Qed.
End PV.
