(** Coverage intervals and grids: infinities and nan. *)
From Coq Require Import Reals List ZArith Bool Lra Lia.
From Coquelicot Require Import Rbar.
From Flocq Require Import Core BinarySingleNaN.
From Verif Require Import Py M_Num M_Dist M_Grid M_Float S_Float M_Float6 S_Float6 M_Ieee M_Ieee5 S_Ieee S_Ieee5 L_Float L_Ieee L_Ieee2 L_Ieee3 L_Ieee13 L_Ieee14 L_Ieee20.
Import ListNotations.
Open Scope R_scope.

(** ** nan *)
Lemma add_nan_l x : badd B754_nan x = B754_nan. Proof. reflexivity. Qed.
Lemma add_nan_r x : badd x B754_nan = B754_nan. Proof. now destruct x. Qed.
Lemma sub_nan_l x : bsub B754_nan x = B754_nan. Proof. reflexivity. Qed.
Lemma sub_nan_r x : bsub x B754_nan = B754_nan. Proof. now destruct x. Qed.
Lemma mul_nan_r x : bmul x B754_nan = B754_nan. Proof. now destruct x. Qed.
Lemma quo_nan_l x : bquo B754_nan x = B754_nan. Proof. reflexivity. Qed.
Lemma quo_nan_r x : bquo x B754_nan = B754_nan. Proof. now destruct x. Qed.
Lemma lt_nan_r x : Bltb x (B754_nan : b64) = false. Proof. now destruct x. Qed.
Lemma eq_nan_r x : Beqb x (B754_nan : b64) = false. Proof. now destruct x. Qed.
Lemma ppf_nan B l s : bppf B l s B754_nan = B754_nan.
Proof. unfold bppf. destruct (Bltb _ s); [|reflexivity]. destruct (bnanb l); reflexivity. Qed.
Lemma ppf_broken B l s q : broken l s -> bppf B l s q = B754_nan.
Proof. unfold bppf. intros [->| ->]; [reflexivity|]. now destruct (Bltb _ s). Qed.
Lemma cdf_broken B l s x : broken l s -> bcdf B l s x = B754_nan.
Proof. unfold bcdf. intros [->| ->]; [reflexivity|]. destruct (Bltb _ s); [|reflexivity]. now rewrite sub_nan_r. Qed.
Lemma cdf_nan B l s : bcdf B l s B754_nan = B754_nan.
Proof. unfold bcdf. now destruct (Bltb _ s). Qed.

(** ** Points of [linspace] *)
Lemma point_nan_l b n i : blinspace_point B754_nan b n i = B754_nan.
Proof. apply add_nan_r. Qed.
Lemma point_nan_r a n i : blinspace_point a B754_nan n i = B754_nan.
Proof. unfold blinspace_point. rewrite sub_nan_l, quo_nan_l. cbn [bzero]. now rewrite mul_nan_r. Qed.
Lemma set_ends {A} (f : nat -> A) m a b : (let! h := set_first (map f (seq 0 (S (S m)))) a in set_last h b) = Ok (a :: map f (seq 1 m) ++ [b]).
Proof.
  cbn [seq map set_first bind set_last]. do 2 f_equal. change (removelast (a :: f 1%nat :: map f (seq 2 m))) with (a :: removelast (f 1%nat :: map f (seq 2 m))). cbn [app]. f_equal. f_equal.
  change (f 1%nat :: map f (seq 2 m)) with (map f (seq 1 (S m))). rewrite seq_S, map_app. cbn [map]. now rewrite removelast_last.
Qed.
Lemma linspace_eq a b m : blinspace a b (Z.of_nat (S (S m))) = Ok (map (blinspace_point a b (Z.of_nat (S (S m)))) (seq 0 (S m)) ++ [b]).
Proof.
  unfold blinspace. destruct (Z.ltb_spec (Z.of_nat (S (S m))) 0); [lia|]. destruct (Z.eqb_spec (Z.of_nat (S (S m))) 0); [lia|]. destruct (Z.eqb_spec (Z.of_nat (S (S m))) 1); [lia|]. rewrite Nat2Z.id. rewrite seq_S, map_app. cbn [map]. cbn [seq map app set_last]. do 2 f_equal.
  change (?x :: ?l ++ [?y]) with ((x :: l) ++ [y]). now rewrite removelast_last.
Qed.
Lemma map_const {A C} (f : A -> C) c l : (forall x, In x l -> f x = c) -> map f l = repeat c (length l).
Proof. induction l as [|x l IH]; intros H; [reflexivity|]. cbn [map length repeat]. rewrite H by now left. rewrite IH; [reflexivity|]. intros y Hy. apply H. now right. Qed.
Lemma nat_of n : (2 <= n)%Z -> exists m, n = Z.of_nat (S (S m)).
Proof. intros H. exists (Z.to_nat (n - 2)). lia. Qed.
(** Grids between two energies: the limits, and quantiles between them. *)
Lemma limits_eq B l s a b m : bprobability_grid B l s (BLimits a b) (Z.of_nat (S (S m))) =
  Ok (a :: map (fun i => bppf B l s (blinspace_point (bcdf B l s a) (bcdf B l s b) (Z.of_nat (S (S m))) i)) (seq 1 m) ++ [b]).
Proof.
  unfold bprobability_grid. cbn [fst snd]. rewrite linspace_eq. cbn [bind]. rewrite map_app, map_map. cbn [map]. set (f := fun i => bppf B l s _). set (y := bppf B l s _).
  cbn [seq map app set_first bind set_last]. do 2 f_equal. change (a :: map f (seq 1 m) ++ [y]) with ((a :: map f (seq 1 m)) ++ [y]). now rewrite removelast_last.
Qed.
Lemma coverage_eq B l s c m : bprobability_grid B l s (BCoverage c) (Z.of_nat (S (S m))) =
  Ok (map (fun i => bppf B l s (blinspace_point (fst (bcoverage_limits c)) (snd (bcoverage_limits c)) (Z.of_nat (S (S m))) i)) (seq 0 (S m)) ++ [bppf B l s (snd (bcoverage_limits c))]).
Proof. unfold bprobability_grid. rewrite linspace_eq. cbn [bind]. now rewrite map_app, map_map. Qed.

Lemma nan_limits B l s a b n : (2 <= n)%Z -> broken l s \/ a = B754_nan \/ b = B754_nan ->
  bprobability_grid B l s (BLimits a b) n = Ok (a :: repeat B754_nan (Z.to_nat (n - 2)) ++ [b]).
Proof.
  intros Hn H. destruct (nat_of n Hn) as [m ->]. rewrite limits_eq. do 3 f_equal. replace (Z.to_nat (Z.of_nat (S (S m)) - 2)) with (length (seq 1 m)) by (rewrite seq_length; lia). apply map_const. intros i _.
  destruct H as [H|[H|H]]; [now apply ppf_broken| |]; rewrite H, cdf_nan, ?point_nan_l, ?point_nan_r; apply ppf_nan.
Qed.
Lemma nan_limits_of_nan : bcoverage_limits B754_nan = (B754_nan, B754_nan).
Proof. reflexivity. Qed.
Lemma nan_coverage B l s c n : (2 <= n)%Z -> broken l s \/ c = B754_nan ->
  bprobability_grid B l s (BCoverage c) n = Ok (repeat B754_nan (Z.to_nat n)).
Proof.
  intros Hn H. destruct (nat_of n Hn) as [m ->]. rewrite coverage_eq. f_equal. replace (Z.to_nat (Z.of_nat (S (S m)))) with (S m + 1)%nat by lia. rewrite repeat_app. f_equal; [|cbn [repeat]; f_equal; destruct H as [H| ->]; [now apply ppf_broken|rewrite nan_limits_of_nan; apply ppf_nan]].
  transitivity (repeat (B754_nan : b64) (length (seq 0 (S m)))); [|now rewrite seq_length]. apply map_const. intros i _. destruct H as [H| ->]; [now apply ppf_broken|]. rewrite nan_limits_of_nan. cbn [fst snd]. rewrite point_nan_l. apply ppf_nan.
Qed.

(** ** The whole line *)
Lemma limits_1 : bcoverage_limits (of_Z 1) = (of_Z 0, of_Z 1).
Proof. unfold bcoverage_limits. f_equal; apply B2SF_inj; vm_compute; reflexivity. Qed.
Lemma proper bl bs : is_finite bl = true -> is_finite bs = true -> Bltb (of_Z 0) bs = true -> (forall si, badd (bmul (B754_infinity si) bs) bl = B754_infinity si) /\ (forall si, bquo (bsub (B754_infinity si) bl) bs = B754_infinity si).
Proof.
  intros Fl Fs P. destruct bs as [z|z| |z m e W]; try discriminate. destruct z; [discriminate|]. destruct bl as [z|z| |z m' e' W']; try discriminate; split; intros [|]; reflexivity.
Qed.
Lemma ppf_0 B l s : is_finite l = true -> is_finite s = true -> Bltb (of_Z 0) s = true -> bppf B l s (of_Z 0) = B754_infinity true.
Proof. intros Fl Fs P. destruct (proper l s Fl Fs P) as [H _]. unfold bppf. rewrite P. destruct l; try discriminate; exact (H true). Qed.
Lemma ppf_1 B l s : is_finite l = true -> is_finite s = true -> Bltb (of_Z 0) s = true -> bppf B l s (of_Z 1) = B754_infinity false.
Proof. intros Fl Fs P. destruct (proper l s Fl Fs P) as [H _]. unfold bppf. rewrite P. destruct l; try discriminate; exact (H false). Qed.
Lemma first_point n : (2 <= n <= 2 ^ 53)%Z -> blinspace_point (of_Z 0) (of_Z 1) n 0 = of_Z 0.
Proof.
  intros Hn. unfold blinspace_point. assert (E : bsub (of_Z 1) (of_Z 0) = of_Z 1) by (apply B2SF_inj; vm_compute; reflexivity). rewrite E. change (Z.of_nat 0) with 0%Z.
  assert (Rn : rep (of_Z (n - 1)) (IZR (n - 1))) by (apply Z_rep; lia). assert (Pn : 1 <= IZR (n - 1)) by (apply IZR_le; lia).
  assert (Q : forall x, is_finite x = true -> exists z, bmul (of_Z 0) x = B754_zero z) by (intros [z|z| |z m e W] F; try discriminate; eexists; reflexivity).
  assert (Fq : is_finite (bquo (of_Z 1) (of_Z (n - 1))) = true). { apply (quo_rep _ _ 1 (IZR (n - 1)) one_rep Rn); [lra|]. eapply Rle_lt_trans; [|apply (bpow_big 0); lia]. apply rnd_bpow; [lia|]. change (bpow radix2 0) with 1. unfold Rdiv. rewrite Rmult_1_l, Rabs_inv, Rabs_pos_eq by lra. rewrite <- Rinv_1. apply Rinv_le; lra. }
  assert (Z0 : forall z, badd (B754_zero z) (of_Z 0) = of_Z 0) by (intros [|]; reflexivity).
  destruct (bzero (bquo (of_Z 1) (of_Z (n - 1)))).
  - assert (Fz : exists z, bquo (of_Z 0) (of_Z (n - 1)) = B754_zero z). { destruct (finite_pos (of_Z (n - 1))) as (m & e & W & ->); [apply Rn|destruct Rn as [_ ->]; lra|eexists; reflexivity]. }
    destruct Fz as [z ->]. assert (M : exists z', bmul (B754_zero z) (of_Z 1) = B754_zero z') by (eexists; reflexivity). destruct M as [z' ->]. apply Z0.
  - destruct (Q _ Fq) as [z ->]. apply Z0.
Qed.

Definition inner (B : bdist) (l s : b64) (n : Z) (i : nat) : b64 := bppf B l s (blinspace_point (of_Z 0) (of_Z 1) n i).
Lemma cdf_inf B l s si : whole l s -> bcdf B l s (B754_infinity si) = if si then of_Z 0 else of_Z 1.
Proof. intros ((Fl & Fs) & P). destruct (proper l s Fl Fs P) as [_ H]. unfold bcdf. rewrite P, H. now destruct si. Qed.
Lemma whole_limits B l s n : whole l s -> (2 <= n)%Z -> bprobability_grid B l s (BLimits minf pinf) n = Ok (minf :: map (inner B l s n) (seq 1 (Z.to_nat (n - 2))) ++ [pinf]).
Proof. intros W Hn. destruct (nat_of n Hn) as [m ->]. rewrite limits_eq, (cdf_inf B l s true W), (cdf_inf B l s false W). replace (Z.to_nat (Z.of_nat (S (S m)) - 2)) with m by lia. reflexivity. Qed.
Lemma whole_coverage B l s n : whole l s -> (2 <= n <= 2 ^ 53)%Z -> bprobability_grid B l s (BCoverage (of_Z 1)) n = Ok (minf :: map (inner B l s n) (seq 1 (Z.to_nat (n - 2))) ++ [pinf]).
Proof.
  intros ((Fl & Fs) & P) Hn. destruct (nat_of n (proj1 Hn)) as [m ->]. rewrite coverage_eq, limits_1. cbn [fst snd]. rewrite ppf_1 by assumption. cbn [seq map app]. rewrite first_point, ppf_0 by assumption. replace (Z.to_nat (Z.of_nat (S (S m)) - 2)) with m by lia. reflexivity.
Qed.
Lemma whole_interval B l s : whole l s -> bcoverage_interval B l s (of_Z 1) = ((minf, pinf), (true, true)).
Proof. intros ((Fl & Fs) & P). unfold bcoverage_interval. rewrite limits_1. cbn [fst snd]. rewrite ppf_0, ppf_1 by assumption. reflexivity. Qed.
Lemma nan_interval B l s c : broken l s \/ c = B754_nan -> bcoverage_interval B l s c = ((B754_nan, B754_nan), (false, false)).
Proof. intros [H| ->]; unfold bcoverage_interval; [rewrite !ppf_broken by exact H|rewrite nan_limits_of_nan; cbn [fst snd]; rewrite !ppf_nan]; reflexivity. Qed.

(** Equidistant energies between infinities. *)
Lemma of_Z_pos z : (1 <= z <= 2 ^ 53)%Z -> exists m e W, of_Z z = B754_finite false m e W.
Proof. intros H. destruct (Z_rep z) as [F V]; [lia|]. apply finite_pos; [exact F|]. rewrite V. apply IZR_lt. lia. Qed.
Lemma whole_point n i : (2 <= n <= 2 ^ 53)%Z -> (Z.of_nat i < n)%Z -> blinspace_point minf pinf n i = B754_nan.
Proof.
  intros Hn Hi. unfold blinspace_point. change (bsub pinf minf) with pinf. destruct (of_Z_pos (n - 1)) as (m & e & W & ->); [lia|]. change (bquo pinf (B754_finite false m e W)) with pinf. cbn [bzero].
  destruct i as [|i]; [reflexivity|]. destruct (of_Z_pos (Z.of_nat (S i))) as (m' & e' & W' & ->); [lia|]. reflexivity.
Qed.
Lemma whole_energies n : (2 <= n <= 2 ^ 53)%Z -> blinspace minf pinf n = Ok (repeat B754_nan (Z.to_nat (n - 1)) ++ [pinf]).
Proof.
  intros Hn. destruct (nat_of n (proj1 Hn)) as [m ->]. rewrite linspace_eq. do 2 f_equal. transitivity (repeat (B754_nan : b64) (length (seq 0 (S m)))); [|f_equal; rewrite seq_length; lia]. apply map_const. intros i Hi. apply in_seq in Hi. apply whole_point; [exact Hn|lia].
Qed.
Lemma whole_energy_grid B l s n : whole l s -> (2 <= n <= 2 ^ 53)%Z -> benergy_grid B l s (BCoverage (of_Z 1)) n = Ok (repeat B754_nan (Z.to_nat (n - 1)) ++ [pinf]).
Proof. intros W Hn. unfold benergy_grid. rewrite whole_interval by exact W. cbn [fst snd]. now apply whole_energies. Qed.

(** Integrals over the whole line. *)
Lemma no_integral B l s n g t fx : whole l s -> (2 <= n <= 2 ^ 53)%Z ->
  bprobability_grid B l s (BCoverage (of_Z 1)) n = Ok g \/ bprobability_grid B l s (BLimits minf pinf) n = Ok g \/ benergy_grid B l s (BCoverage (of_Z 1)) n = Ok g \/ benergy_grid B l s (BLimits minf pinf) n = Ok g ->
  length fx = length g -> order_of (length g - 1) t -> ~ finite (fst (bdarboux t fx g)).
Proof.
  intros W Hn H L O F. assert (X : (2 <= length g)%nat /\ In pinf g).
  { rewrite whole_coverage in H by assumption. rewrite whole_limits in H by (try lia; assumption). rewrite whole_energy_grid in H by assumption. change (benergy_grid B l s (BLimits minf pinf) n) with (blinspace minf pinf n) in H. rewrite whole_energies in H by assumption.
    destruct H as [H|[H|[H|H]]]; injection H as <-; (split; [cbn [length]; rewrite ?app_length, ?map_length, ?repeat_length, ?seq_length; cbn [length]; lia|]); try (right; apply in_or_app; right; now left); apply in_or_app; right; now left. }
  destruct X as [L2 I]. destruct (lower_number t fx g L O L2 F) as [_ A]. rewrite Forall_forall in A. specialize (A _ I). discriminate A.
Qed.

(** Coverages above 1. *)
Lemma above_1 B l s c : finite c -> 1 < B2R c <= 2 ^ 900 -> fst (fst (bcoverage_interval B l s c)) = B754_nan /\ fst (snd (bcoverage_interval B l s c)) = false.
Proof.
  intros F [H1 H2]. destruct (coverage_rep c (B2R c)) as (R1 & _); [now apply rep_refl|rewrite Rabs_pos_eq; lra|]. assert (N : fmul (1 / 2) (fsub 1 (B2R c)) < 0).
  { assert (D : double (B2R c)) by (apply generic_format_B2R). assert (G : fsub 1 (B2R c) <= - bpow radix2 (-53)).
    { assert (S : 1 + bpow radix2 (-52) <= B2R c). { assert (S := succ_le_lt radix2 fexp64 1 (B2R c)). assert (U : succ radix2 fexp64 1 = 1 + bpow radix2 (-52)). { rewrite succ_eq_pos by lra. f_equal. change 1 with (bpow radix2 0). rewrite ulp_bpow. reflexivity. }
        rewrite <- U. apply S; [change 1 with (bpow radix2 0); apply fmt_bp; lia|exact D|exact H1]. }
      assert (T : bpow radix2 (-53) <= bpow radix2 (-52)) by (apply bpow_le; lia). unfold fsub. apply round_le_generic; try typeclasses eauto; [apply generic_format_opp, fmt_bp; lia|lra]. }
    pose proof (bpow_gt_0 radix2 (-54)). apply Rle_lt_trans with (- bpow radix2 (-54)); [|lra]. unfold fmul. apply round_le_generic; try typeclasses eauto; [apply generic_format_opp, fmt_bp; lia|]. assert (T : bpow radix2 (-53) = 2 * bpow radix2 (-54)) by (change (-53)%Z with (1 + -54)%Z; rewrite bpow_plus; reflexivity). lra. }
  assert (E : bppf B l s (fst (bcoverage_limits c)) = B754_nan).
  { unfold bppf. destruct (Bltb _ s); [|reflexivity]. destruct (bnanb l); [reflexivity|]. rewrite (eq_rep _ _ _ _ R1 zero_rep), (eq_rep _ _ _ _ R1 one_rep), (rep_lt _ _ _ _ zero_rep R1). rewrite !Req_bool_false, Rlt_bool_false by lra. reflexivity. }
  unfold bcoverage_interval. rewrite E. split; reflexivity.
Qed.

(** Warnings. *)
Lemma lt_zero b x : same_point b x -> (Bltb b (of_Z 0) = true <-> Rbar_lt x (Finite 0)).
Proof.
  destruct x as [r| |]; cbn [same_point Rbar_lt]; [|intros ->; split; [discriminate|contradiction]|intros ->; split; reflexivity].
  intros [H|(s & -> & H)].
  - rewrite (rep_lt _ _ _ _ H zero_rep). destruct (Rlt_bool_spec r 0); split; intros; try lra; try discriminate; reflexivity.
  - assert (0 < 2 ^ 900) by (apply pow_lt; lra). destruct s; split; intros; try lra; try reflexivity; discriminate.
Qed.
Lemma inf_point b x : same_point b x -> (x = p_infty \/ x = m_infty -> bis_inf b = true) /\ (bis_inf b = true -> x = p_infty \/ x = m_infty \/ exists r, x = Finite r /\ 2 ^ 900 <= Rabs r).
Proof.
  destruct x as [r| |]; cbn [same_point]; [|intros ->; auto|intros ->; auto].
  intros [[F E]|(s & -> & H)].
  - split; [intros [X|X]; discriminate|]. destruct b; discriminate.
  - split; [reflexivity|]. intros _. right. right. exists r. split; [reflexivity|]. assert (0 < 2 ^ 900) by (apply pow_lt; lra). destruct s; [rewrite Rabs_left; lra|rewrite Rabs_pos_eq; lra].
Qed.
Lemma warnings_same B d bl bs l s bc c lo hi : same_dist B d -> same_line bl bs l s -> rep bc c -> Rabs c <= 2 ^ 900 -> fcoverage_interval d l s c = Ok (lo, hi) ->
  (fst (snd (bcoverage_interval B bl bs bc)) = true <-> Rbar_lt lo (Finite 0)) /\
  (hi = p_infty \/ hi = m_infty -> snd (snd (bcoverage_interval B bl bs bc)) = true) /\
  (snd (snd (bcoverage_interval B bl bs bc)) = true -> hi = p_infty \/ hi = m_infty \/ exists r, hi = Finite r /\ 2 ^ 900 <= Rabs r).
Proof.
  intros SD SL Rc Bc H. pose proof (interval_same _ _ _ _ _ _ _ _ _ SD SL Rc Bc H) as [P1 P2]. split; [exact (lt_zero _ _ P1)|exact (inf_point _ _ P2)].
Qed.
Lemma line_whole bl bs l s : same_line bl bs l s -> whole bl bs.
Proof. intros H. pose proof (line_scale _ _ _ _ H) as P. destruct H as (Rl & Rs & _). split; [split; [apply Rl|apply Rs]|]. rewrite (rep_lt _ _ _ _ zero_rep Rs). now apply Rlt_bool_true. Qed.

Lemma counts B l s a b c : (forall n, (n < 0)%Z -> bprobability_grid B l s (BLimits a b) n = Raise ValueError /\ bprobability_grid B l s (BCoverage c) n = Raise ValueError) /\
  bprobability_grid B l s (BLimits a b) 0 = Raise IndexError /\ bprobability_grid B l s (BCoverage c) 0 = Ok [] /\ bprobability_grid B l s (BLimits a b) 1 = Ok [b].
Proof.
  repeat split; unfold bprobability_grid, blinspace; destruct (Z.ltb_spec n 0); try lia; reflexivity.
Qed.
(** ** A case *)
Definition e_line : b64 * b64 := (of_Z 2, of_Z 3).
Lemma line_example : same_line (of_Z 2) (of_Z 3) 2 3.
Proof.
  split; [now apply (Z_rep 2)|]. split; [now apply (Z_rep 3)|]. split.
  - rewrite Rabs_pos_eq by lra. apply Rle_trans with (2 ^ 1); [lra|]. apply Rle_pow; [lra|lia].
  - apply Rle_trans with 1; [|lra]. rewrite <- Rinv_1. apply Rinv_le; [lra|]. apply pow_R1_Rle. lra.
Qed.
Lemma energy_example z : (Z.abs z <= 2 ^ 53)%Z -> same_energy (of_Z z) (IZR z).
Proof.
  intros H. split; [now apply Z_rep|]. rewrite <- abs_IZR. apply Rle_trans with (IZR (2 ^ 53)); [now apply IZR_le|]. change (IZR (2 ^ 53)) with (bpow radix2 53). rewrite pow_bp. apply bpow_le. lia.
Qed.
Lemma coverage_example : same_arg (BCoverage (literal 1 2)) (Coverage (1 / 2)).
Proof. split; [exact half_rep|]. rewrite Rabs_pos_eq by lra. apply Rle_trans with (2 ^ 0); [cbn; lra|]. apply Rle_pow; [lra|lia]. Qed.
(** The lower limit of a coverage just above 1 is nan, the upper one infinite. *)
Lemma just_above B : exists c, finite c /\ 1 < B2R c /\ forall l s, whole l s -> bcoverage_interval B l s c = ((B754_nan, pinf), (false, true)).
Proof.
  set (c := badd (of_Z 1) (bquo (of_Z 1) (of_Z (2 ^ 52)))). exists c. assert (V : B2R c = 1 + / 4503599627370496).
  { assert (E : B2SF c = SpecFloat.S754_finite false 4503599627370497 (-52)) by (vm_compute; reflexivity). rewrite <- SF2R_B2SF, E. unfold SF2R, F2R. cbn [Fnum Fexp cond_Zopp]. change (bpow radix2 (-52)) with (/ 4503599627370496). lra. }
  assert (H : 1 < B2R c) by lra. split; [vm_compute; reflexivity|]. split; [exact H|]. intros l s W. destruct (above_1 B l s c) as [E1 E2]; [vm_compute; reflexivity|split; [exact H|]; rewrite V; apply Rle_trans with (2 ^ 1); [lra|]; apply Rle_pow; [lra|lia]|].
  assert (Q : snd (bcoverage_limits c) = of_Z 1) by (apply B2SF_inj; vm_compute; reflexivity). unfold bcoverage_interval in *. cbn [fst snd] in *. rewrite E1, Q. destruct W as ((Fl & Fs) & P). rewrite ppf_1 by assumption. reflexivity.
Qed.
Lemma whole_line B l s n : whole l s -> (2 <= n <= 2 ^ 53)%Z -> exists xs, length xs = Z.to_nat (n - 2) /\
  bprobability_grid B l s (BLimits minf pinf) n = Ok (minf :: xs ++ [pinf]) /\ bprobability_grid B l s (BCoverage (of_Z 1)) n = Ok (minf :: xs ++ [pinf]).
Proof. intros W Hn. exists (map (inner B l s n) (seq 1 (Z.to_nat (n - 2)))). split; [now rewrite map_length, seq_length|]. split; [apply whole_limits; [exact W|lia]|now apply whole_coverage]. Qed.
(** Coverages far enough from the unit interval. *)
Lemma ppf_out B l s bq q : rep bq q -> q < 0 \/ 1 < q -> bppf B l s bq = B754_nan.
Proof.
  intros R1 H. unfold bppf. destruct (Bltb _ s); [|reflexivity]. destruct (bnanb l); [reflexivity|]. rewrite (eq_rep _ _ _ _ R1 zero_rep), (eq_rep _ _ _ _ R1 one_rep), (rep_lt _ _ _ _ zero_rep R1), (rep_lt _ _ _ _ R1 one_rep).
  rewrite !Req_bool_false by lra. destruct H; [rewrite Rlt_bool_false by lra; reflexivity|]. rewrite (Rlt_bool_false q 1) by lra. now destruct (Rlt_bool 0 q).
Qed.
Lemma half_above x : 2 + / 2 ^ 51 <= x -> 1 < fmul (1 / 2) (rnd x).
Proof.
  intros H. assert (D2 : generic_format radix2 fexp64 (2 + bpow radix2 (-51))).
  { replace (2 + bpow radix2 (-51)) with (succ radix2 fexp64 (bpow radix2 1)); [apply generic_format_succ; try typeclasses eauto; apply fmt_bp; lia|]. rewrite succ_eq_pos by apply bpow_ge_0. rewrite ulp_bpow. reflexivity. }
  assert (E : / 2 ^ 51 = bpow radix2 (-51)) by (change (bpow radix2 (-51)) with (/ IZR (2 ^ 51)); f_equal; rewrite pow_bp; reflexivity). rewrite E in H.
  assert (G : 2 + bpow radix2 (-51) <= rnd x) by (apply round_ge_generic; try typeclasses eauto; assumption).
  assert (D1 : generic_format radix2 fexp64 (1 + bpow radix2 (-52))). { replace (1 + bpow radix2 (-52)) with (succ radix2 fexp64 (bpow radix2 0)); [apply generic_format_succ; try typeclasses eauto; apply fmt_bp; lia|]. rewrite succ_eq_pos by apply bpow_ge_0. rewrite ulp_bpow. reflexivity. }
  pose proof (bpow_gt_0 radix2 (-52)). apply Rlt_le_trans with (1 + bpow radix2 (-52)); [lra|]. assert (T : bpow radix2 (-51) = 2 * bpow radix2 (-52)) by (change (-51)%Z with (1 + -52)%Z; rewrite bpow_plus; reflexivity).
  unfold fmul. apply round_ge_generic; try typeclasses eauto; [exact D1|]. lra.
Qed.
Lemma half_below x : x <= - / 2 ^ 51 -> fmul (1 / 2) (rnd x) < 0.
Proof.
  intros H. assert (E : / 2 ^ 51 = bpow radix2 (-51)) by (change (bpow radix2 (-51)) with (/ IZR (2 ^ 51)); f_equal; rewrite pow_bp; reflexivity). rewrite E in H.
  assert (G : rnd x <= - bpow radix2 (-51)) by (apply round_le_generic; try typeclasses eauto; [apply generic_format_opp, fmt_bp; lia|exact H]). assert (T : bpow radix2 (-51) = 2 * bpow radix2 (-52)) by (change (-51)%Z with (1 + -52)%Z; rewrite bpow_plus; reflexivity). pose proof (bpow_gt_0 radix2 (-52)).
  apply Rle_lt_trans with (- bpow radix2 (-52)); [|lra]. unfold fmul. apply round_le_generic; try typeclasses eauto; [apply generic_format_opp, fmt_bp; lia|lra].
Qed.
Lemma far_coverage B l s c : finite c -> 1 + / 2 ^ 51 <= Rabs (B2R c) <= 2 ^ 900 -> bcoverage_interval B l s c = ((B754_nan, B754_nan), (false, false)).
Proof.
  intros F [H1 H2]. destruct (coverage_rep c (B2R c)) as (R1 & R2 & _); [now apply rep_refl|exact H2|]. assert (P : 0 < / 2 ^ 51) by (apply Rinv_0_lt_compat, pow_lt; lra).
  assert (X : (fmul (1 / 2) (fsub 1 (B2R c)) < 0 /\ 1 < fmul (1 / 2) (fadd 1 (B2R c))) \/ (1 < fmul (1 / 2) (fsub 1 (B2R c)) /\ fmul (1 / 2) (fadd 1 (B2R c)) < 0)).
  { unfold fsub, fadd. destruct (Rle_dec 0 (B2R c)); [left; rewrite Rabs_pos_eq in H1 by lra|right; rewrite Rabs_left in H1 by lra]; split; first [apply half_below; lra|apply half_above; lra]. }
  unfold bcoverage_interval. rewrite (ppf_out B l s _ _ R1), (ppf_out B l s _ _ R2) by (destruct X; tauto). reflexivity.
Qed.
