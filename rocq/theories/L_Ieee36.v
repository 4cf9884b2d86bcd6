(** Attenuation with infinities and nan. *)
From Coq Require Import Reals List ZArith Bool Lra Lia Psatz.
From Flocq Require Import Core BinarySingleNaN.
From Verif Require Import Py M_Num M_Notebook M_Float S_Float M_Float13 M_Ieee S_Ieee S_Ieee6 M_Ieee9 S_Ieee9 L_Float L_Ieee L_Ieee2 L_Ieee5 L_Ieee6 L_Ieee9 L_Ieee13 L_Ieee20 L_Ieee22 L_Float22 L_Float43.
Open Scope R_scope.

Definition not_positive (b : b64) : Prop := b = B754_infinity true \/ finite b /\ B2R b <= 0.
Lemma finite_mul a b : finite a -> finite b -> 0 <= B2R a -> 0 <= B2R b -> not_negative (bmul a b).
Proof.
  intros Fa Fb Ha Hb. assert (H0 : 0 <= fmul (B2R a) (B2R b)) by (apply rnd_nonneg; now apply Rmult_le_pos).
  destruct (Rlt_dec (Rabs (fmul (B2R a) (B2R b))) big) as [H|H].
  - right. destruct (mul_rep a b _ _ (rep_refl a Fa) (rep_refl b Fb) H) as [F E]. split; [exact F|]. now rewrite E.
  - left. apply (over_pos _ (fmul (B2R a) (B2R b))); [exact H0|]. apply mul_over; try apply rep_refl; auto. lra.
Qed.
Lemma opp_finite s : finite s -> finite (bopp s) /\ B2R (bopp s) = - B2R s.
Proof. intros F. unfold finite, bopp. rewrite is_finite_Bopp, B2R_Bopp. auto. Qed.
Lemma finite_mul_opp a b : finite a -> finite b -> 0 <= B2R a -> 0 <= B2R b -> not_positive (bmul (bopp a) b).
Proof.
  intros Fa Fb Ha Hb. destruct (opp_finite a Fa) as [Fo Eo]. assert (H0 : fmul (B2R (bopp a)) (B2R b) <= 0). { rewrite Eo. unfold fmul. replace (- B2R a * B2R b) with (- (B2R a * B2R b)) by ring. rewrite rnd_opp. pose proof (rnd_nonneg (B2R a * B2R b) (Rmult_le_pos _ _ Ha Hb)). lra. }
  destruct (Rlt_dec (Rabs (fmul (B2R (bopp a)) (B2R b))) big) as [H|H].
  - right. destruct (mul_rep (bopp a) b _ _ (rep_refl _ Fo) (rep_refl b Fb) H) as [F E]. split; [exact F|]. now rewrite E.
  - left. destruct (mul_over (bopp a) b _ _ (rep_refl _ Fo) (rep_refl b Fb) ltac:(lra)) as (s & -> & B). destruct s; [reflexivity|]. assert (0 < big) by apply bpow_gt_0. lra.
Qed.
Lemma sign_pos (b : b64) : finite b -> 0 < B2R b -> exists m e W, b = B754_finite false m e W.
Proof.
  destruct b as [z|z| |z m e W]; try discriminate; intros _ H; [cbn in H; lra|]. destruct z; [|eauto]. assert (B2R (B754_finite true m e W : b64) < 0) by (apply F2R_lt_0; reflexivity). lra.
Qed.
Lemma sign_zero (b : b64) : finite b -> B2R b = 0 -> exists z, b = B754_zero z.
Proof.
  destruct b as [z|z| |z m e W]; try discriminate; intros _ H; [eauto|]. destruct z; [assert (B2R (B754_finite true m e W : b64) < 0) by (apply F2R_lt_0; reflexivity)|assert (0 < B2R (B754_finite false m e W : b64)) by (apply F2R_gt_0; reflexivity)]; lra.
Qed.
(** The exponent. *)
Lemma exponent_cases s rho : not_negative s -> not_negative rho -> bmul (bopp s) rho = B754_nan \/ not_positive (bmul (bopp s) rho).
Proof.
  intros [->|[Fs Hs]] [->|[Fr Hr]].
  - right. now left.
  - destruct Hr as [Hr|Hr]; [destruct (sign_pos rho Fr Hr) as (m & e & W & ->); right; now left|]. destruct (sign_zero rho Fr (eq_sym Hr)) as (z & ->). now left.
  - destruct Hs as [Hs|Hs]; [destruct (sign_pos s Fs Hs) as (m & e & W & ->); right; now left|]. destruct (sign_zero s Fs (eq_sym Hs)) as (z & ->). now left.
  - right. now apply finite_mul_opp.
Qed.
Lemma exponent_inf s rho : not_negative s -> positive rho -> s = B754_infinity false \/ rho = B754_infinity false /\ positive s -> bmul (bopp s) rho = B754_infinity true.
Proof.
  intros Hs Hr [->|[-> P]].
  - destruct Hr as [->|[Fr Pr]]; [reflexivity|]. destruct (sign_pos rho Fr Pr) as (m & e & W & ->). reflexivity.
  - destruct P as [->|[Fs Ps]]; [reflexivity|]. destruct (sign_pos s Fs Ps) as (m & e & W & ->). reflexivity.
Qed.
Lemma exponent_number s rho : not_negative s -> finite rho -> 0 < B2R rho -> not_positive (bmul (bopp s) rho).
Proof.
  intros [->|[Fs Hs]] Fr Hr; [|apply finite_mul_opp; auto; lra]. left. apply exponent_inf; [now left|right; auto|now left].
Qed.
Lemma product_cases c b : not_negative c -> not_negative b -> bmul c b = B754_nan \/ not_negative (bmul c b).
Proof.
  intros [->|[Fs Hs]] [->|[Fr Hr]].
  - right. now left.
  - destruct Hr as [Hr|Hr]; [destruct (sign_pos b Fr Hr) as (m & e & W & ->); right; now left|]. destruct (sign_zero b Fr (eq_sym Hr)) as (z & ->). now left.
  - destruct Hs as [Hs|Hs]; [destruct (sign_pos c Fs Hs) as (m & e & W & ->); right; now left|]. destruct (sign_zero c Fs (eq_sym Hs)) as (z & ->). now left.
  - right. now apply finite_mul.
Qed.
Lemma product_inf c : positive c -> bmul c (B754_infinity false) = B754_infinity false.
Proof. intros [->|[F P]]; [reflexivity|]. destruct (sign_pos c F P) as (m & e & W & ->). reflexivity. Qed.
Lemma exp_fraction ex y : exp_special ex -> not_positive y -> fraction (ex y).
Proof. intros (_ & [F0 E0] & K) [->|[F H]]; [split; [exact F0|rewrite E0; lra]|]. now apply K. Qed.

Section Layer.
  Variables (ex : b64 -> b64) (nr sr : b64 -> out b64) (E rho c a b : b64).
  Hypotheses (EX : exp_special ex) (Hn : nr E = Ok a) (Hr : sr E = Ok b).
  Lemma phi_eq : bPhi ex E rho nr sr c = Ok (ex (bmul (bopp (badd a (bmul c b))) rho)).
  Proof using Hn Hr. unfold bPhi. now rewrite Hn, Hr. Qed.
  Lemma phi_range : not_negative a -> not_negative b -> not_negative c -> not_negative rho -> exists p, bPhi ex E rho nr sr c = Ok p /\ (p = B754_nan \/ fraction p).
  Proof using All.
    intros Ha Hb Hc H. rewrite phi_eq. eexists. split; [reflexivity|]. pose proof EX as (N & _).
    destruct (product_cases c b Hc Hb) as [M|M]; [left; rewrite M; replace (badd a B754_nan) with (B754_nan : b64) by (now destruct a); change (bopp B754_nan) with (B754_nan : b64); now replace (bmul B754_nan rho) with (B754_nan : b64) by (now destruct rho)|].
    destruct (exponent_cases (badd a (bmul c b)) rho (add_not_negative _ _ Ha M) H) as [Z|Z]; [left; now rewrite Z|right; now apply exp_fraction].
  Qed.
  Lemma phi_number : not_negative a -> finite b -> 0 <= B2R b -> finite c -> 0 <= B2R c -> finite rho -> 0 < B2R rho -> exists p, bPhi ex E rho nr sr c = Ok p /\ fraction p.
  Proof using All.
    intros Ha Fb Hb Fc Hc Fr H. rewrite phi_eq. eexists. split; [reflexivity|]. apply exp_fraction; [exact EX|]. apply exponent_number; auto. apply add_not_negative; auto. now apply finite_mul.
  Qed.
  Lemma phi_opaque : positive rho -> not_negative a -> not_negative b -> not_negative c ->
    (a = B754_infinity false /\ finite b /\ finite c) \/ (b = B754_infinity false /\ positive c) \/ (rho = B754_infinity false /\ positive a /\ finite b /\ finite c) ->
    exists p, bPhi ex E rho nr sr c = Ok p /\ rep p 0.
  Proof using All.
    intros Hrho Ha Hb Hc H. rewrite phi_eq. eexists. split; [reflexivity|]. destruct EX as (_ & R0 & _). rewrite exponent_inf; [exact R0| |exact Hrho|].
    - apply add_not_negative; [exact Ha|]. destruct H as [(_ & Fb & Fc)|[(-> & Pc)|(_ & _ & Fb & Fc)]]; [|rewrite product_inf by exact Pc; now left|].
      + destruct Hb as [->|[_ Hb]]; [discriminate Fb|]. destruct Hc as [->|[_ Hc]]; [discriminate Fc|]. now apply finite_mul.
      + destruct Hb as [->|[_ Hb]]; [discriminate Fb|]. destruct Hc as [->|[_ Hc]]; [discriminate Fc|]. now apply finite_mul.
    - destruct H as [(-> & Fb & Fc)|[(-> & Pc)|(-> & Pa & Fb & Fc)]].
      + left. apply add_inf_not_negative. destruct Hb as [->|[_ Hb]]; [discriminate Fb|]. destruct Hc as [->|[_ Hc]]; [discriminate Fc|]. now apply finite_mul.
      + left. rewrite product_inf by exact Pc. now apply add_inf_not_negative.
      + right. split; [reflexivity|]. destruct Hb as [->|[_ Hb]]; [discriminate Fb|]. destruct Hc as [->|[_ Hc]]; [discriminate Fc|]. pose proof (finite_mul c b Fc Fb Hc Hb) as M.
        destruct Pa as [->|[Fa Pa]]; [left; now apply add_inf_not_negative|]. destruct M as [->|[Fm Hm]]; [left; now apply add_inf_not_negative|].
        destruct (Rlt_dec (Rabs (fadd (B2R a) (B2R (bmul c b)))) big) as [L|L].
        * right. destruct (add_rep a (bmul c b) _ _ (rep_refl a Fa) (rep_refl _ Fm) L) as [F Eq]. split; [exact F|]. rewrite Eq. eapply Rlt_le_trans; [exact Pa|]. apply rnd_ge; [|lra]. apply rep_double with a. now apply rep_refl.
        * left. apply (over_pos _ (fadd (B2R a) (B2R (bmul c b)))); [apply rnd_nonneg; lra|]. apply add_over; try apply rep_refl; auto. lra.
  Qed.
  Lemma phi_nan : a = B754_nan \/ b = B754_nan \/ c = B754_nan \/ rho = B754_nan -> bPhi ex E rho nr sr c = Ok B754_nan /\ balpha ex E rho nr sr c = Ok B754_nan.
  Proof using All.
    intros H. unfold balpha. rewrite phi_eq, Hr. cbn [bind]. destruct EX as (N & _). assert (Z : ex (bmul (bopp (badd a (bmul c b))) rho) = B754_nan).
    { assert (Y : bmul (bopp (badd a (bmul c b))) rho = B754_nan).
      { destruct H as [->|[->|[->| ->]]]; [replace (badd B754_nan (bmul c b)) with (B754_nan : b64) by (now destruct (bmul c b))|replace (bmul c B754_nan) with (B754_nan : b64) by (now destruct c)|replace (bmul B754_nan b) with (B754_nan : b64) by (now destruct b)|apply mul_nan].
        - now destruct rho.
        - replace (badd a B754_nan) with (B754_nan : b64) by (now destruct a). now destruct rho.
        - replace (badd a B754_nan) with (B754_nan : b64) by (now destruct a). now destruct rho. }
      now rewrite Y. }
    rewrite Z. split; [reflexivity|]. f_equal. apply mul_nan.
  Qed.
  Lemma alpha_number : not_negative a -> finite b -> 0 <= B2R b -> finite c -> 0 <= B2R c <= 1 -> finite rho -> 0 < B2R rho ->
    exists q, balpha ex E rho nr sr c = Ok q /\ finite q /\ 0 <= B2R q <= B2R b.
  Proof using All.
    intros Ha Fb Hb Fc Hc Fr H. destruct (phi_number Ha Fb Hb Fc (proj1 Hc) Fr H) as (p & P & Fp & Hp). unfold balpha. rewrite P, Hr. cbn [bind]. eexists. split; [reflexivity|].
    assert (Db : double (B2R b)) by (apply rep_double with b; now apply rep_refl). pose proof (rep_big b _ (rep_refl b Fb)) as Bb. rewrite Rabs_pos_eq in Bb by exact Hb.
    assert (M1 : 0 <= fmul (B2R c) (B2R b) <= B2R b). { split; [apply rnd_nonneg, Rmult_le_pos; lra|]. apply rnd_le_d; [exact Db|]. nra. }
    destruct (mul_rep c b _ _ (rep_refl c Fc) (rep_refl b Fb) ltac:(rewrite Rabs_pos_eq; lra)) as [Fm Em].
    assert (M2 : 0 <= fmul (B2R (bmul c b)) (B2R p) <= B2R b). { rewrite Em. split; [apply rnd_nonneg, Rmult_le_pos; lra|]. apply rnd_le_d; [exact Db|]. nra. }
    destruct (mul_rep (bmul c b) p _ _ (rep_refl _ Fm) (rep_refl p Fp) ltac:(rewrite Rabs_pos_eq; lra)) as [Fq Eq]. split; [exact Fq|]. now rewrite Eq.
  Qed.
End Layer.

(** An infinite resonance absorbs nan: its transmission is zero. *)
Lemma inf_zero p : rep p 0 -> bmul (B754_infinity false) p = B754_nan.
Proof. intros [F Z]. destruct (sign_zero p F Z) as (z & ->). reflexivity. Qed.
Lemma alpha_infinite ex nr sr E rho c a : exp_special ex -> nr E = Ok a -> sr E = Ok (B754_infinity false) -> not_negative a -> positive c -> positive rho -> balpha ex E rho nr sr c = Ok B754_nan.
Proof.
  intros EX Hn Hr Ha Hc Hrho. assert (Nc : not_negative c) by (destruct Hc as [->|[F P]]; [now left|right; split; [exact F|lra]]).
  destruct (phi_opaque ex nr sr E rho c a _ EX Hn Hr Hrho Ha (or_introl eq_refl) Nc (or_intror (or_introl (conj eq_refl Hc)))) as (p & P & Z).
  unfold balpha. rewrite P, Hr. cbn [bind]. rewrite (product_inf c Hc), (inf_zero p Z). reflexivity.
Qed.

(** The functions of 6Li.ipynb. *)
Lemma flux_number ex sigma E rho s : exp_special ex -> sigma E = Ok s -> finite s -> 0 <= B2R s -> finite rho -> 0 <= B2R rho ->
  exists p q, bphoton_flux_density ex sigma E rho = Ok p /\ bresonance_absorption_density ex sigma E rho = Ok q /\ fraction p /\ finite q /\ 0 <= B2R q <= B2R s.
Proof.
  intros EX Hs Fs Ps Fr Pr. unfold bresonance_absorption_density, bphoton_flux_density. rewrite Hs. cbn [bind]. do 2 eexists. split; [reflexivity|]. split; [reflexivity|].
  assert (P : fraction (ex (bmul (bopp s) rho))) by (apply exp_fraction; [exact EX|now apply finite_mul_opp]). split; [exact P|]. destruct P as [Fp Hp].
  assert (Db : double (B2R s)) by (apply rep_double with s; now apply rep_refl). pose proof (rep_big s _ (rep_refl s Fs)) as Bb. rewrite Rabs_pos_eq in Bb by exact Ps.
  assert (M : 0 <= fmul (B2R s) (B2R (ex (bmul (bopp s) rho))) <= B2R s). { split; [apply rnd_nonneg, Rmult_le_pos; lra|]. apply rnd_le_d; [exact Db|]. nra. }
  destruct (mul_rep s _ _ _ (rep_refl s Fs) (rep_refl _ Fp) ltac:(rewrite Rabs_pos_eq; lra)) as [Fq Eq]. split; [exact Fq|]. now rewrite Eq.
Qed.
Lemma flux_special ex sigma E rho s : exp_special ex -> sigma E = Ok s ->
  (s = B754_infinity false -> positive rho -> exists p, bphoton_flux_density ex sigma E rho = Ok p /\ rep p 0 /\ bresonance_absorption_density ex sigma E rho = Ok B754_nan) /\
  (s = B754_nan \/ rho = B754_nan -> bphoton_flux_density ex sigma E rho = Ok B754_nan /\ bresonance_absorption_density ex sigma E rho = Ok B754_nan).
Proof.
  intros (N & Z & _) Hs. unfold bresonance_absorption_density, bphoton_flux_density. rewrite Hs. cbn [bind]. split.
  - intros -> P. rewrite exponent_inf; [|now left|exact P|now left]. eexists. split; [reflexivity|]. split; [exact Z|]. now rewrite inf_zero.
  - intros H. assert (Y : bmul (bopp s) rho = B754_nan) by (destruct H as [->| ->]; [now destruct rho|apply mul_nan]). rewrite Y, N. split; [reflexivity|]. f_equal. apply mul_nan.
Qed.

(** Agreement with arithmetic without any limit of numbers. *)
Lemma flux_agree be ex nr sr fnr fsr E e a b a' b' c c' rho rho' : exp_special be -> same_exp be ex -> nr E = Ok a -> sr E = Ok b -> fnr e = Ok a' -> fsr e = Ok b' ->
  rep a a' -> rep b b' -> rep c c' -> rep rho rho' -> 0 <= a' <= 2 ^ 300 -> 0 <= b' <= 2 ^ 300 -> 0 <= c' <= 2 ^ 300 -> 0 <= rho' <= 2 ^ 300 ->
  (exists p p', bPhi be E rho nr sr c = Ok p /\ fPhi ex e rho' fnr fsr c' = Ok p' /\ rep p p') /\
  (exists q q', balpha be E rho nr sr c = Ok q /\ falpha ex e rho' fnr fsr c' = Ok q' /\ rep q q') /\
  (exists p p', bphoton_flux_density be sr E rho = Ok p /\ fphoton_flux_density ex fsr e rho' = Ok p' /\ rep p p') /\
  (exists q q', bresonance_absorption_density be sr E rho = Ok q /\ fresonance_absorption_density ex fsr e rho' = Ok q' /\ rep q q').
Proof.
  intros (_ & _ & K) SE Hn Hr Hn' Hr' Ra Rb Rc Rr Ba Bb Bc Br. change 300%nat with (Z.to_nat 300) in Ba, Bb, Bc, Br.
  assert (P2 : 2 ^ Z.to_nat 300 = bpow radix2 300) by (rewrite <- (IZR_Zpower radix2 300) by lia; rewrite pow_IZR; f_equal). rewrite P2 in Ba, Bb, Bc, Br.
  assert (Wa : bnd a a' 300) by (split; [exact Ra|rewrite Rabs_pos_eq; lra]). assert (Wb : bnd b b' 300) by (split; [exact Rb|rewrite Rabs_pos_eq; lra]).
  assert (Wc : bnd c c' 300) by (split; [exact Rc|rewrite Rabs_pos_eq; lra]). assert (Wr : bnd rho rho' 300) by (split; [exact Rr|rewrite Rabs_pos_eq; lra]).
  pose proof (bnd_mul _ _ _ _ _ _ Wc Wb ltac:(lia)) as W1. pose proof (bnd_add _ _ _ _ _ _ Wa W1 ltac:(lia)) as W2.
  pose proof (bnd_mul _ _ _ _ _ _ (bnd_opp _ _ _ W2) Wr ltac:(lia)) as W3. pose proof (bnd_mul _ _ _ _ _ _ (bnd_opp _ _ _ Wb) Wr ltac:(lia)) as W4.
  assert (N : forall y z, 0 <= y -> 0 <= z -> fmul (- y) z <= 0). { intros y z Hy Hz. unfold fmul. replace (- y * z) with (- (y * z)) by ring. rewrite rnd_opp. pose proof (rnd_nonneg (y * z) (Rmult_le_pos _ _ Hy Hz)). lra. }
  assert (M1 : 0 <= fmul c' b') by (apply rnd_nonneg, Rmult_le_pos; lra). assert (M2 : 0 <= fadd a' (fmul c' b')) by (apply rnd_nonneg; lra).
  assert (X : forall Y y, rep Y y -> y <= 0 -> bnd (be Y) (ex y) 0). { intros Y y RY Hy. pose proof (SE Y y RY Hy) as R. split; [exact R|]. destruct RY as [FY EY]. destruct (K Y FY ltac:(lra)) as [_ I]. destruct R as [_ <-]. rewrite Rabs_pos_eq by lra. simpl. lra. }
  pose proof (X _ _ (bnd_rep _ _ _ W3) (N _ _ M2 (proj1 Br))) as W5. pose proof (X _ _ (bnd_rep _ _ _ W4) (N _ _ (proj1 Bb) (proj1 Br))) as W6.
  unfold balpha, falpha, bresonance_absorption_density, fresonance_absorption_density, bPhi, fPhi, bphoton_flux_density, fphoton_flux_density. rewrite Hn, Hr, Hn', Hr'. cbn [bind].
  split; [|split; [|split]]; do 2 eexists; (split; [reflexivity|split; [reflexivity|]]).
  - exact (bnd_rep _ _ _ W5).
  - exact (bnd_rep _ _ _ (bnd_mul _ _ _ _ _ _ W1 W5 ltac:(lia))).
  - exact (bnd_rep _ _ _ W6).
  - exact (bnd_rep _ _ _ (bnd_mul _ _ _ _ _ _ Wb W6 ltac:(lia))).
Qed.

(** A library. *)
Lemma correct_bexp_ok : exp_special correct_bexp /\ same_exp correct_bexp (fun x => rnd (exp x)).
Proof.
  assert (B : forall x, x <= 0 -> 0 <= rnd (exp x) <= 1). { intros x H. pose proof (exp_pos x). split; [apply rnd_nonneg; lra|]. apply rnd_le_d; [apply (double_Z 1); lia|]. rewrite <- exp_0. destruct H as [H| ->]; [left; now apply Rpower.exp_increasing|right; reflexivity]. }
  assert (F : forall X, finite X -> B2R X <= 0 -> rep (correct_bexp X) (rnd (exp (B2R X)))).
  { intros X FX H. assert (E : correct_bexp X = of_R (exp (B2R X))). { destruct X; try discriminate; unfold correct_bexp; destruct (Rle_dec _ 0) as [_|C]; [reflexivity|contradiction|reflexivity|contradiction]. }
    rewrite E. apply of_R_rep. rewrite Rabs_pos_eq by (apply B; exact H). apply Rle_lt_trans with 1; [apply B; exact H|]. apply (bpow_lt radix2 0 1024). lia. }
  split; [|intros X x [FX <-] H; now apply F]. split; [reflexivity|]. split; [split; reflexivity|]. intros x Fx H. destruct (F x Fx H) as [F1 E1]. split; [exact F1|]. rewrite E1. now apply B.
Qed.
(** Numbers. *)
Lemma plain_case : finite (of_Z 3) /\ B2R (of_Z 3) = 3 /\ finite (of_Z 1) /\ B2R (of_Z 1) = 1 /\ finite (of_Z 0) /\ B2R (of_Z 0) = 0.
Proof. pose proof (Z_rep 3 ltac:(lia)) as [A B]. pose proof (Z_rep 1 ltac:(lia)) as [C D]. pose proof (Z_rep 0 ltac:(lia)) as [G I]. repeat split; auto. Qed.
(** Nothing is known for infinitely thin layers of infinite cross sections: nan. *)
Lemma thin_case : bPhi correct_bexp (of_Z 1) (of_Z 0) (fun _ => Ok (B754_infinity false)) (fun _ => Ok (of_Z 1)) (of_Z 1) = Ok B754_nan.
Proof. unfold bPhi. cbn [bind]. reflexivity. Qed.
