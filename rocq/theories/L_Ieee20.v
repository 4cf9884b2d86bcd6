(** Coverage intervals and grids: numbers. *)
From Coq Require Import Reals List ZArith Bool Lra Lia.
From Coquelicot Require Import Rbar.
From Flocq Require Import Core BinarySingleNaN.
From Verif Require Import Py M_Num M_Dist M_Grid M_Float S_Float M_Float6 S_Float6 M_Ieee M_Ieee5 S_Ieee S_Ieee5 L_Float L_Ieee L_Ieee2 L_Ieee3 L_CrossSection2 L_Float20 L_Float21 L_Float22 L_Ieee9 L_Ieee13.
Import ListNotations.
Open Scope R_scope.
Notation minf := (B754_infinity true : b64).
Notation pinf := (B754_infinity false : b64).

(** ** Overflow gives an infinity *)
Lemma overflow_inf (b : b64) s : B2SF b = binary_overflow 53 1024 mode_NE s -> b = B754_infinity s.
Proof. intros H. apply B2SF_inj. rewrite H. reflexivity. Qed.
Lemma pow_bp n : 2 ^ n = bpow radix2 (Z.of_nat n).
Proof. rewrite bpow_powerRZ. now rewrite <- pow_powerRZ. Qed.
Lemma fmt_bp e : (-1074 <= e)%Z -> generic_format radix2 fexp64 (bpow radix2 e).
Proof. intros H. apply generic_format_bpow. unfold fexp64, FLT_exp. lia. Qed.
Lemma sign_val (b : b64) : is_finite b = true -> if Bsign b then B2R b <= 0 else 0 <= B2R b.
Proof.
  destruct b as [z|z| |z m e W]; try discriminate; intros _; [destruct z; cbn; lra|]. destruct z; cbn [Bsign].
  - apply F2R_le_0. discriminate.
  - apply F2R_ge_0. discriminate.
Qed.
Lemma signed z x : big <= Rabs x -> (if z : bool then x <= 0 else 0 <= x) -> big <= (if z then - x else x).
Proof. intros H S. destruct z; [rewrite Rabs_left1 in H by exact S|rewrite Rabs_pos_eq in H by exact S]; exact H. Qed.
Lemma rnd_sign z x : (if z : bool then x <= 0 else 0 <= x) -> if z then rnd x <= 0 else 0 <= rnd x.
Proof. destruct z; intros H; [rewrite <- (round_0 radix2 fexp64 ZnearestE); apply round_le; try typeclasses eauto; exact H|now apply rnd_nonneg]. Qed.
Definition over (b : b64) (x : R) : Prop := exists s, b = B754_infinity s /\ big <= (if s then - x else x).
Lemma add_over a b x y : rep a x -> rep b y -> big <= Rabs (fadd x y) -> over (badd a b) (fadd x y).
Proof.
  intros [Fa Ea] [Fb Eb] H. pose proof (Bplus_correct 53 1024 prec_53 emax_1024 mode_NE a b Fa Fb) as C. pose proof (sign_val a Fa) as Sa. pose proof (sign_val b Fb) as Sb.
  rewrite rnd_eq, Ea, Eb in C. fold (fadd x y) in C. rewrite Rlt_bool_false in C by exact H. destruct C as [C S]. exists (Bsign a). split; [now apply overflow_inf|]. apply signed; [exact H|]. apply rnd_sign. rewrite <- S, Eb in Sb. rewrite Ea in Sa. destruct (Bsign a); lra.
Qed.
Lemma mul_over a b x y : rep a x -> rep b y -> big <= Rabs (fmul x y) -> over (bmul a b) (fmul x y).
Proof.
  intros [Fa Ea] [Fb Eb] H. pose proof (Bmult_correct 53 1024 prec_53 emax_1024 mode_NE a b) as C. pose proof (sign_val a Fa) as Sa. pose proof (sign_val b Fb) as Sb.
  rewrite rnd_eq, Ea, Eb in C. fold (fmul x y) in C. rewrite Rlt_bool_false in C by exact H. eexists. split; [apply overflow_inf; exact C|]. apply signed; [exact H|]. apply rnd_sign. rewrite Ea in Sa. rewrite Eb in Sb. destruct (Bsign a), (Bsign b); cbn [xorb]; nra.
Qed.
Lemma over_beyond b x n : (n <= 1024)%nat -> over b x -> beyond n b x.
Proof. intros Hn (s & E & H). exists s. split; [exact E|]. eapply Rle_trans; [|exact H]. rewrite pow_bp. apply bpow_le. lia. Qed.
(** Adding a moderate number to a large one, multiplying a large one with a scale. *)
Lemma add_large z x y : bpow radix2 920 <= (if z : bool then - x else x) -> Rabs y <= 2 ^ 900 -> 2 ^ 900 <= (if z then - fadd x y else fadd x y).
Proof.
  intros X Y. rewrite pow_bp in *. change (Z.of_nat 900) with 900%Z in *. assert (B : bpow radix2 920 = 1048576 * bpow radix2 900) by (change 920%Z with (20 + 900)%Z; rewrite bpow_plus; reflexivity). pose proof (bpow_gt_0 radix2 900). apply Rabs_le_inv in Y. unfold fadd. destruct z.
  - apply Ropp_le_cancel. rewrite Ropp_involutive. apply round_le_generic; try typeclasses eauto; [apply generic_format_opp, fmt_bp; lia|lra].
  - apply round_ge_generic; try typeclasses eauto; [apply fmt_bp; lia|lra].
Qed.
Lemma mul_large z x y : 2 ^ 1023 <= (if z : bool then - x else x) -> / 2 ^ 100 <= y -> bpow radix2 920 <= (if z then - fmul x y else fmul x y).
Proof.
  intros X Y. rewrite pow_bp in *. change (Z.of_nat 1023) with 1023%Z in *. change (Z.of_nat 100) with 100%Z in *.
  assert (P : bpow radix2 920 <= (if z then - x else x) * y). { apply Rle_trans with (bpow radix2 1023 * / bpow radix2 100); [rewrite <- bpow_opp, <- bpow_plus; apply bpow_le; lia|]. apply Rmult_le_compat; [apply bpow_ge_0|left; apply Rinv_0_lt_compat, bpow_gt_0|exact X|exact Y]. }
  unfold fmul. destruct z.
  - apply Ropp_le_cancel. rewrite Ropp_involutive. apply round_le_generic; try typeclasses eauto; [apply generic_format_opp, fmt_bp; lia|lra].
  - apply round_ge_generic; try typeclasses eauto; [apply fmt_bp; lia|lra].
Qed.

(** ** Points *)
Lemma line_scale bl bs l s : same_line bl bs l s -> 0 < s.
Proof. intros (_ & _ & _ & H). assert (0 < / 2 ^ 100) by (apply Rinv_0_lt_compat, pow_lt; lra). lra. Qed.
Lemma zero_rep : rep (of_Z 0) 0. Proof. now apply (Z_rep 0). Qed.
Lemma one_rep : rep (of_Z 1) 1. Proof. now apply (Z_rep 1). Qed.
Lemma eq_rep a b x y : rep a x -> rep b y -> Beqb a b = Req_bool x y.
Proof. intros [Fa Ea] [Fb Eb]. unfold Beqb. rewrite <- Ea, <- Eb. exact (Beqb_correct 53 1024 a b Fa Fb). Qed.
Lemma inf_scaled si bl bs l s : same_line bl bs l s -> badd (bmul (B754_infinity si) bs) bl = B754_infinity si.
Proof.
  intros H. pose proof (line_scale _ _ _ _ H) as P. destruct H as ([Fl _] & [Fs Es] & _). assert (M : bmul (B754_infinity si) bs = B754_infinity si).
  { destruct bs as [z|z| |z m e W]; try discriminate; [cbn in Es; lra|]. destruct z; [|now destruct si]. exfalso. assert (B2R (B754_finite true m e W) < 0) by (apply F2R_lt_0; reflexivity). rewrite Es in *. lra. }
  rewrite M. destruct bl; try discriminate; reflexivity.
Qed.
Lemma ppf_same B d bl bs l s bq q x : same_dist B d -> same_line bl bs l s -> rep bq q -> fppf d l s q = Ok x -> same_point (bppf B bl bs bq) x.
Proof.
  intros SD SL Rq. pose proof (line_scale _ _ _ _ SL) as P. pose proof SL as (Rl & Rs & Bl & _). unfold fppf, bppf. rewrite (rep_lt _ _ _ _ zero_rep Rs), Rlt_bool_true by exact P. rewrite (rep_nan _ _ Rl).
  destruct (Rlt_dec 0 s) as [_|N]; [|contradiction]. destruct (Rlt_dec q 0) as [|Q0]; [discriminate|]. destruct (Rlt_dec 1 q) as [|Q1]; [discriminate|].
  rewrite (eq_rep _ _ _ _ Rq zero_rep), (eq_rep _ _ _ _ Rq one_rep), (rep_lt _ _ _ _ zero_rep Rq), (rep_lt _ _ _ _ Rq one_rep).
  destruct (Req_EM_T q 0) as [E0|E0]; [intros H; injection H as <-; rewrite Req_bool_true by exact E0; exact (inf_scaled true _ _ _ _ SL)|]. rewrite Req_bool_false by exact E0.
  destruct (Req_EM_T q 1) as [E1|E1]; [intros H; injection H as <-; rewrite Req_bool_true by exact E1; exact (inf_scaled false _ _ _ _ SL)|]. rewrite Req_bool_false by exact E1.
  intros H. injection H as <-. rewrite !Rlt_bool_true by lra. cbn [same_point]. assert (Fl : is_finite bl = true) by apply Rl.
  assert (IA : forall si, badd (B754_infinity si) bl = B754_infinity si) by (intros si; destruct bl; try discriminate; reflexivity).
  destruct (proj2 SD bq q Rq) as [Rp|(z & E & X)]; [lra| |].
  - destruct (Rlt_dec (Rabs (fmul (f_ppf0 d q) s)) big) as [M|M].
    + pose proof (mul_rep _ _ _ _ Rp Rs M) as Rm. destruct (Rlt_dec (Rabs (fadd (fmul (f_ppf0 d q) s) l)) big) as [A|A].
      * left. exact (add_rep _ _ _ _ Rm Rl A).
      * apply Rnot_lt_le in A. right. apply over_beyond; [lia|]. exact (add_over _ _ _ _ Rm Rl A).
    + apply Rnot_lt_le in M. destruct (mul_over _ _ _ _ Rp Rs M) as (si & -> & O). right. exists si. split; [apply IA|]. apply add_large; [|exact Bl]. eapply Rle_trans; [|exact O]. apply bpow_le. lia.
  - right. exists z. split; [rewrite E; exact (inf_scaled z _ _ _ _ SL)|]. apply add_large; [|exact Bl]. apply mul_large; [exact X|apply SL].
Qed.
Lemma quo_large x y : Rabs x <= bpow radix2 901 -> / 2 ^ 100 <= y -> Rabs (fquo x y) < big.
Proof.
  intros X Y. assert (PY : 0 < / 2 ^ 100) by (apply Rinv_0_lt_compat, pow_lt; lra). apply Rle_lt_trans with (bpow radix2 1001); [|apply bpow_big; lia]. unfold fquo. apply rnd_bpow; [lia|]. unfold Rdiv. rewrite Rabs_mult, Rabs_inv, (Rabs_pos_eq y) by lra.
  change 1001%Z with (901 + 100)%Z. rewrite bpow_plus. apply Rmult_le_compat; [apply Rabs_pos|left; apply Rinv_0_lt_compat; lra|exact X|]. rewrite <- (Rinv_inv (bpow radix2 100)). apply Rinv_le; [apply Rinv_0_lt_compat, bpow_gt_0|]. rewrite pow_bp in Y. exact Y.
Qed.
Lemma cdf_same B d bl bs l s bx x p : same_dist B d -> same_line bl bs l s -> same_energy bx x -> fcdf d l s x = Ok p -> rep (bcdf B bl bs bx) p.
Proof.
  intros SD SL [Rx Bx]. pose proof (line_scale _ _ _ _ SL) as P. pose proof SL as (Rl & Rs & Bl & Bs). unfold fcdf, bcdf. rewrite (rep_lt _ _ _ _ zero_rep Rs), Rlt_bool_true by exact P. destruct (Rlt_dec 0 s) as [_|N]; [|contradiction]. intros H. injection H as <-.
  rewrite pow_bp in Bx, Bl. assert (S : Rabs (x - l) <= bpow radix2 901). { change 901%Z with (1 + 900)%Z. rewrite bpow_plus. change (bpow radix2 1) with 2. change (Z.of_nat 900) with 900%Z in *. pose proof (Rabs_triang x (- l)) as T. rewrite Rabs_Ropp in T. unfold Rminus. lra. }
  assert (S' : Rabs (fsub x l) <= bpow radix2 901) by (apply rnd_bpow; [lia|exact S]). assert (Rd : rep (bsub bx bl) (fsub x l)) by (apply sub_rep; auto; eapply Rle_lt_trans; [exact S'|apply bpow_big; lia]).
  assert (Rq : rep (bquo (bsub bx bl) bs) (fquo (fsub x l) s)) by (apply quo_rep; auto; [lra|now apply quo_large]). pose proof (proj1 SD _ _ Rq) as RC. destruct Rq as [F _]. destruct (bquo _ _); try discriminate; exact RC.
Qed.

(** ** Grids *)
Lemma half_rep : rep (literal 1 2) (1 / 2).
Proof.
  assert (H : fquo 1 2 = 1 / 2). { unfold fquo. apply round_generic; try typeclasses eauto. replace (1 / 2) with (bpow radix2 (-1)) by (cbn; lra). apply generic_format_bpow. unfold fexp64, FLT_exp. lia. }
  rewrite <- H. apply quo_rep; [exact one_rep|now apply (Z_rep 2)|lra|]. rewrite H. eapply Rle_lt_trans; [|apply (bpow_big 1); lia]. change (bpow radix2 1) with 2. rewrite Rabs_pos_eq; lra.
Qed.
Lemma coverage_rep bc c : rep bc c -> Rabs c <= 2 ^ 900 ->
  rep (fst (bcoverage_limits bc)) (fmul (1 / 2) (fsub 1 c)) /\ rep (snd (bcoverage_limits bc)) (fmul (1 / 2) (fadd 1 c)) /\
  Rabs (fmul (1 / 2) (fsub 1 c)) <= bpow radix2 902 /\ Rabs (fmul (1 / 2) (fadd 1 c)) <= bpow radix2 902.
Proof.
  intros Rc Bc. rewrite pow_bp in Bc. change (Z.of_nat 900) with 900%Z in Bc. assert (P1 : 1 <= bpow radix2 900) by (change 1 with (bpow radix2 0); apply bpow_le; lia). assert (P2 : bpow radix2 902 = 4 * bpow radix2 900) by (change 902%Z with (2 + 900)%Z; rewrite bpow_plus; reflexivity).
  assert (G : forall z, Rabs z <= bpow radix2 902 -> Rabs (rnd z) <= bpow radix2 902) by (intros z; apply rnd_bpow; lia). assert (BB : bpow radix2 902 < big) by (apply bpow_big; lia). apply Rabs_le_inv in Bc.
  assert (A1 : Rabs (fsub 1 c) <= bpow radix2 902) by (apply G, Rabs_le; lra). assert (A2 : Rabs (fadd 1 c) <= bpow radix2 902) by (apply G, Rabs_le; lra).
  assert (M : forall z, Rabs z <= bpow radix2 902 -> Rabs (fmul (1 / 2) z) <= bpow radix2 902) by (intros z Hz; apply G; rewrite Rabs_mult, (Rabs_pos_eq (1 / 2)) by lra; pose proof (Rabs_pos z); lra).
  assert (R1 : rep (bsub (of_Z 1) bc) (fsub 1 c)) by (apply sub_rep; [exact one_rep|exact Rc|lra]). assert (R2 : rep (badd (of_Z 1) bc) (fadd 1 c)) by (apply add_rep; [exact one_rep|exact Rc|lra]).
  split; [apply mul_rep; [exact half_rep|exact R1|]|split; [apply mul_rep; [exact half_rep|exact R2|]|split; now apply M]]; (eapply Rle_lt_trans; [now apply M|exact BB]).
Qed.
Lemma Forall2_removelast {A B} (P : A -> B -> Prop) l m : Forall2 P l m -> Forall2 P (removelast l) (removelast m).
Proof. induction 1 as [|a b l m H F IH]; [constructor|]. destruct F as [|a' b' l m H' F]; [constructor|]. constructor; assumption. Qed.
Lemma set_same {A B} (P : A -> B -> Prop) g g' a a' b b' r : Forall2 P g g' -> P a a' -> P b b' -> (let! h := set_first g' a' in set_last h b') = Ok r -> exists h, (let! h := set_first g a in set_last h b) = Ok h /\ Forall2 P h r.
Proof.
  intros F Pa Pb. destruct F as [|x y l m H F]; [discriminate|]. cbn [set_first bind set_last]. intros E. injection E as <-. eexists. split; [reflexivity|]. apply Forall2_app; [|constructor; [exact Pb|constructor]].
  change (x :: l) with (x :: l). apply (Forall2_removelast P (a :: l) (a' :: m)). now constructor.
Qed.
Lemma grid_same B d bl bs l s bar ar n g : same_dist B d -> (forall t, double t -> Rabs (f_cdf0 d t) <= 1) -> same_line bl bs l s -> same_arg bar ar -> (0 <= n <= 2 ^ 53)%Z ->
  fprobability_grid d l s ar n = Ok g -> exists bg, bprobability_grid B bl bs bar n = Ok bg /\ Forall2 same_point bg g.
Proof.
  intros SD U SL SA Hn. unfold fprobability_grid, bprobability_grid.
  assert (Main : forall bp bq p q qs, rep bp p -> rep bq q -> Rabs p <= bpow radix2 1020 -> Rabs q <= bpow radix2 1020 -> flinspace p q n = Ok qs -> exists bqs, blinspace bp bq n = Ok bqs /\ forall g, traverse (fppf d l s) qs = Ok g -> Forall2 same_point (map (bppf B bl bs) bqs) g).
  { intros bp bq p q qs Rp Rq Bp Bq E. destruct (linspace_moderate bp bq n Hn) as (h & h' & E1 & E2 & F); [split; [apply Rp|destruct Rp as [_ ->]; exact Bp]|split; [apply Rq|destruct Rq as [_ ->]; exact Bq]|].
    destruct Rp as [_ Ep]. destruct Rq as [_ Eq]. rewrite Ep, Eq, E in E2. injection E2 as <-. exists h. split; [exact E1|]. intros g' T. apply traverse_spec in T. clear E E1. revert g' T. induction F as [|b x h qs Hb F IH]; intros g' T; inversion T as [|? y ? m Hy T']; subst; [constructor|].
    cbn [map]. constructor; [exact (ppf_same _ _ _ _ _ _ _ _ _ SD SL Hb Hy)|now apply IH]. }
  destruct bar as [bc|ba bb], ar as [c|a b]; try contradiction.
  - destruct SA as [Rc Bc]. destruct (coverage_rep _ _ Rc Bc) as (R1 & R2 & B1 & B2). cbn [bind]. destruct (flinspace _ _ n) as [qs| |] eqn:E; try discriminate. cbn [bind].
    assert (L : bpow radix2 902 <= bpow radix2 1020) by (apply bpow_le; lia). destruct (Main _ _ _ _ qs R1 R2 ltac:(lra) ltac:(lra) E) as (bqs & E' & T). rewrite E'. cbn [bind]. destruct (traverse _ qs) as [g'| |]; try discriminate. cbn [bind]. intros H. injection H as <-. eexists. split; [reflexivity|]. now apply T.
  - destruct SA as [Sa Sb]. destruct (fcdf d l s a) as [p| |] eqn:E1; try discriminate. cbn [bind]. destruct (fcdf d l s b) as [q| |] eqn:E2; try discriminate. cbn [bind fst snd].
    pose proof (cdf_same _ _ _ _ _ _ _ _ _ SD SL Sa E1) as R1. pose proof (cdf_same _ _ _ _ _ _ _ _ _ SD SL Sb E2) as R2. assert (One : 1 <= bpow radix2 1020) by (change 1 with (bpow radix2 0); apply bpow_le; lia).
    assert (B1 : Rabs p <= 1) by (unfold fcdf in E1; destruct (Rlt_dec 0 s); [|discriminate]; injection E1 as <-; apply U; apply generic_format_round; typeclasses eauto). assert (B2 : Rabs q <= 1) by (unfold fcdf in E2; destruct (Rlt_dec 0 s); [|discriminate]; injection E2 as <-; apply U; apply generic_format_round; typeclasses eauto).
    destruct (flinspace p q n) as [qs| |] eqn:E; try discriminate. cbn [bind]. destruct (Main _ _ _ _ qs R1 R2 ltac:(lra) ltac:(lra) E) as (bqs & E' & T). rewrite E'. cbn [bind]. destruct (traverse _ qs) as [g'| |]; try discriminate. cbn [bind].
    apply (set_same same_point); [now apply T| |].
    + left. apply Sa.
    + left. apply Sb.
Qed.

(** ** Coverage intervals *)
Lemma interval_same B d bl bs l s bc c r : same_dist B d -> same_line bl bs l s -> rep bc c -> Rabs c <= 2 ^ 900 -> fcoverage_interval d l s c = Ok r ->
  same_pair (fst (bcoverage_interval B bl bs bc)) r.
Proof.
  intros SD SL Rc Bc. unfold fcoverage_interval, bcoverage_interval. destruct (coverage_rep _ _ Rc Bc) as (R1 & R2 & _). destruct (fppf d l s _) as [lo| |] eqn:E1; try discriminate. cbn [bind]. destruct (fppf d l s (fmul _ (fadd _ _))) as [hi| |] eqn:E2; try discriminate. cbn [bind]. intros H. injection H as <-.
  split; cbn [fst snd]; [exact (ppf_same _ _ _ _ _ _ _ _ _ SD SL R1 E1)|exact (ppf_same _ _ _ _ _ _ _ _ _ SD SL R2 E2)].
Qed.

(** ** Correctly rounded functions *)
Lemma of_R_over x : big <= Rabs (rnd x) -> over (of_R x) (rnd x).
Proof.
  intros H. assert (D : double (rnd x)) by (apply generic_format_round; typeclasses eauto). pose proof (D : generic_format _ _ _) as G. unfold generic_format in G. unfold of_R.
  set (m := Ztrunc (scaled_mantissa radix2 fexp64 (rnd x))) in *. set (e := cexp radix2 fexp64 (rnd x)) in *.
  pose proof (binary_normalize_correct 53 1024 prec_53 emax_1024 mode_NE m e false) as C. cbv zeta in C. rewrite <- G in C. rewrite (round_generic radix2 _ _ (rnd x)) in C by exact D. rewrite Rlt_bool_false in C by exact H.
  eexists. split; [apply overflow_inf; exact C|]. apply signed; [exact H|]. destruct (Rlt_bool_spec (rnd x) 0); lra.
Qed.
Lemma correct_same_dist f : same_dist (correct_bdist f) (correct_fdist f).
Proof.
  split; cbn [correct_bdist correct_fdist b_cdf0 b_ppf0 f_cdf0 f_ppf0].
  - intros b x [_ ->]. apply (bounded_rep _ 0); [lia|]. change (bpow radix2 0) with 1. pose proof (F0_range f x) as H. change (line_cdf f 0 1 x) with (F0 f x). rewrite Rabs_pos_eq; lra.
  - intros b x [_ ->] _. set (y := real _). destruct (Rlt_dec (Rabs (rnd y)) big) as [H|H]; [left; now apply of_R_rep|right]. apply over_beyond; [lia|]. apply of_R_over. lra.
Qed.
Lemma unit_cdf f d : fdist_ok f d -> forall t, double t -> Rabs (f_cdf0 d t) <= 1.
Proof. intros [H _] t D. destruct (H t D) as (_ & B & _). rewrite Rabs_pos_eq; lra. Qed.
