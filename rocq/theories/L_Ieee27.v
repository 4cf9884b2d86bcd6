(** Quantiles of the pseudo-Voigt distribution with binary64 numbers: from results back to rounded arithmetic, nan. *)
From Coq Require Import Reals List ZArith Bool Lra Lia Psatz.
From Coquelicot Require Import Rbar.
From Flocq Require Import Core BinarySingleNaN.
From Verif Require Import Py M_Num M_Grid M_Dist M_Resonance M_Thermal M_Constituents M_PseudoVoigt M_Float S_Float M_Float2 M_Float3 M_Float4 S_Float4 M_Float6 S_Float6 M_Float8 S_Float8 M_Float12 M_Ieee M_Ieee2 M_Ieee5 S_Ieee S_Ieee5 M_Ieee7 S_Ieee7
  L_PseudoVoigt L_Float L_Float22 L_Float28 L_Float30 L_Float31 L_Float50 L_Ieee L_Ieee2 L_Ieee3 L_Ieee4 L_Ieee5 L_Ieee6 L_Ieee7 L_Ieee8 L_Ieee9 L_Ieee13 L_Ieee20 L_Ieee24 L_Ieee25 L_Ieee26.
Import ListNotations.
Open Scope R_scope.

Lemma bppf_of n bc bp m fb bqs g : bppf_array n bc bp m fb bqs = ([], Ok (Some g)) ->
  exists conv, forallb (fun b => b) conv = true /\ bnewton_array n (fun E => map2 bsub (map bc E) bqs) (map bp) (map (fun _ => m) bqs) = Ok (g, conv).
Proof.
  unfold bppf_array. destruct (bnewton_array _ _ _ _) as [[y conv]| |e]; [|discriminate|destruct e; discriminate]. destruct (forallb _ conv) eqn:F; [|discriminate]. intros H. injection H as <-. exists conv. now split.
Qed.
Lemma newton_inner n bf bf' bs g conv : bnewton_array n bf bf' bs = Ok (g, conv) -> exists fl nz, barray_newton n bf bf' bs (map (fun _ => true) bs) (map (fun _ => true) bs) = (g, fl, nz).
Proof.
  unfold bnewton_array. destruct (barray_newton _ _ _ _ _ _) as [[y fl] nz]. destruct (existsb _ (map2 _ _ _)); [intros H; inversion H; eauto|]. destruct (existsb _ fl); [destruct (forallb _ fl); [discriminate|]|]; intros H; inversion H; eauto.
Qed.
Lemma same_starts m x bqs qs : rep m x -> Forall2 rep bqs qs -> Forall2 rep (map (fun _ : b64 => m) bqs) (map (fun _ : R => x) qs).
Proof. intros R. induction 1; cbn; constructor; auto. Qed.
Lemma trues {X Y} (l : list X) : forall (m : list Y), length l = length m -> map (fun _ => true) l = map (fun _ => true) m.
Proof. induction l as [|a l IH]; intros [|b m] E; try discriminate; cbn; [reflexivity|]. f_equal. apply IH. now injection E. Qed.

Section Generic.
  Variables (bc bp : b64 -> b64) (c p : R -> R) (within : b64 -> Prop).
  Hypothesis stays : forall b bq, within (bnext bc bp b bq) -> within b.
  Hypothesis weak : forall b x bq q, within b -> rep b x -> rep bq q -> Rabs q <= 2 -> rep (bsub (bc b) bq) (fsub (c x) q) /\ rep (bp b) (p x).
  Hypothesis fin : forall b, within b -> is_finite b = true.
  Lemma ppf_back n m x bfb fb bqs qs g : rep m x -> Forall2 rep bqs qs -> List.Forall (fun q => Rabs q <= 2) qs ->
    bppf_array n bc bp m bfb bqs = ([], Ok (Some g)) -> List.Forall within g ->
    exists xs, fppf_array n c p x fb qs = ([], Ok (Some (map Finite xs))) /\ Forall2 rep g xs.
  Proof.
    intros Rm Rq Bq H W. apply bppf_of in H. destruct H as (conv & FC & H). destruct (newton_inner _ _ _ _ _ _ H) as (fl & nz & E). pose proof (same_starts m x _ _ Rm Rq) as R0.
    assert (T : map (fun _ : b64 => true) (map (fun _ : b64 => m) bqs) = map (fun _ : R => true) (map (fun _ : R => x) qs)) by (rewrite !map_map; apply trues; clear - Rq; induction Rq; cbn; congruence).
    pose proof E as E'. rewrite T in E'.
    destruct (backward bc bp c p within stays weak fin n _ _ bqs qs _ _ _ _ _ R0 Rq Bq ltac:(apply map_length) E' W) as (xs & F & R).
    destruct (newton_same n _ _ _ _ _ _ _ _ fl nz T E F) as [(conv' & E1 & E2)|[E1 _]]; [|rewrite E1 in H; discriminate].
    rewrite E1 in H. injection H as ->. exists xs. split; [|exact R]. unfold fppf_array. rewrite E2, FC. reflexivity.
  Qed.
End Generic.

Lemma bpv_ppf_array_eq L b qs : bpv_ppf_array L b qs = bppf_array maxiter (bpv_cdf L b) (bpv_pdf (bv_b L) b) (bp_energy b) (bpv_fallback L b) qs.
Proof. unfold bpv_ppf_array. reflexivity. Qed.
Lemma bpv_ppf_two modern L b qs : (2 <= List.length qs)%nat -> bpv_ppf modern L b qs = bpv_ppf_array L b qs.
Proof. destruct qs as [|a [|c r]]; cbn [List.length]; try lia. reflexivity. Qed.

Section Line.
  Variables (L : bpvlib) (V : pvlib) (b : bpv) (p' p : pv).
  Hypotheses (KV : pvlib_ok V) (SV : same_library L V) (C : close p' p) (A : pv_agree b p').
  Notation bcdf' := (bpv_cdf L b).
  Notation bpdf' := (bpv_pdf (bv_b L) b).
  Notation cdf' := (fun x => number (fpv_cdf V p' x)).
  Notation pdf' := (fun x => number (fpv_pdf V p' x)).
  Notation within := (within b).

  Lemma energy_rep : rep (bp_energy b) (pv_energy p'). Proof using A. exact (win_rep _ _ _ _ (pa_energy _ _ A)). Qed.
  Lemma within_dec x : {within x} + {~ within x}. Proof using. unfold L_Ieee26.within. apply bool_dec. Qed.
  Lemma within_nan : ~ within B754_nan.
  Proof using A. intros W. apply (within_finite b p' A) in W. discriminate. Qed.
  Lemma stays x q : within (bnext bcdf' bpdf' x q) -> within x.
  Proof using All.
    intros W. destruct (within_dec x) as [H|H]; [exact H|exfalso]. unfold bnext, bnewton_step in W. destruct (bnanb x) eqn:N.
    - destruct x; try discriminate. rewrite (pdf_nan L b) in W. cbn [bzero negb] in W. rewrite nan_sub in W. now apply within_nan.
    - rewrite (pdf_far L V b p' p KV SV C A x N H) in W. cbn [negb] in W. contradiction.
  Qed.
  Lemma weak x X bq q : within x -> rep x X -> rep bq q -> Rabs q <= 2 -> rep (bsub (bcdf' x) bq) (fsub (cdf' X) q) /\ rep (bpdf' x) (pdf' X).
  Proof using All.
    intros W R Rq Bq. split; [|exact (pdf_in L V b p' p KV SV C A x X R W)]. pose proof (cdf_in L V b p' p KV SV C A x X R W) as Bv.
    assert (Bq' : bnd bq q 1) by (split; [exact Rq|exact Bq]). exact (bnd_rep _ _ _ (bnd_sub _ _ _ _ _ _ Bv Bq' ltac:(lia))).
  Qed.
  Lemma moderate_within x : is_finite x = true -> Rabs (B2R x) <= 2 ^ 400 -> within x.
  Proof using A.
    intros F B. pose proof (rep_refl _ F) as R. rewrite pow_bp in B. change (Z.of_nat 400) with 400%Z in B. assert (Bx : bnd x (B2R x) 400) by now split.
    pose proof (bnd_sub _ _ _ _ _ _ Bx (win_bnd _ _ _ _ (pa_energy _ _ A)) ltac:(lia)) as Bd. pose proof (bnd_quo _ _ _ _ _ _ _ Bd (pa_gamma_L _ _ A) ltac:(lia)) as By.
    pose proof (win_Z 1 ltac:(lia)) as W1. cbn [Z.log2 Z.add] in W1. apply (bnd_rep _ _ _ (bnd_add _ _ _ _ _ _ (win_bnd _ _ _ _ W1) (bnd_mul _ _ _ _ _ _ By By ltac:(lia)) ltac:(lia))).
  Qed.
  Lemma moderate_all g : List.Forall moderate g -> List.Forall within g.
  Proof using A. intros H. eapply List.Forall_impl; [|exact H]. intros x [F B]. now apply moderate_within. Qed.
  Lemma array_back bqs qs g : Forall2 rep bqs qs -> List.Forall (fun q => Rabs q <= 2) qs ->
    bpv_ppf_array L b bqs = ([], Ok (Some g)) -> List.Forall moderate g ->
    exists xs, fpv_ppf_array V p' qs = ([], Ok (Some (map Finite xs))) /\ Forall2 rep g xs.
  Proof using All.
    intros Rq Bq H M. rewrite bpv_ppf_array_eq in H. rewrite ppf_array_eq. exact (ppf_back _ _ _ _ _ stays weak (within_finite b p' A) _ _ _ _ _ _ _ _ energy_rep Rq Bq H (moderate_all _ M)).
  Qed.
End Line.
