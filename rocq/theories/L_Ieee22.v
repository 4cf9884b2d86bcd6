(** [quad_partition] with infinities and nan. *)
From Coq Require Import Reals List ZArith Bool Lra Lia.
From Coquelicot Require Import Rbar.
From Flocq Require Import Core BinarySingleNaN.
From Verif Require Import Py Spec M_Num M_Quad M_Float M_Float4 M_Float10 S_Float M_Ieee M_Ieee2 M_Ieee3 M_Ieee6 S_Ieee S_Ieee5 S_Ieee6 L_Float L_CrossSection2 L_Darboux L_XrmacReader L_Ieee L_Ieee2 L_Ieee5 L_Ieee9 L_Ieee13 L_Ieee20.
Import ListNotations.
Open Scope R_scope.

Lemma over_pos b x : 0 <= x -> over b x -> b = B754_infinity false.
Proof. intros H (s & -> & B). destruct s; [|reflexivity]. assert (0 < big) by apply bpow_gt_0. lra. Qed.
Lemma add_not_negative a b : not_negative a -> not_negative b -> not_negative (badd a b).
Proof.
  intros [->|[Fa Ha]] [->|[Fb Hb]].
  - now left.
  - left. now destruct b.
  - left. now destruct a.
  - destruct (Rlt_dec (Rabs (fadd (B2R a) (B2R b))) big) as [H|H].
    + right. destruct (add_rep a b _ _ (rep_refl a Fa) (rep_refl b Fb) H) as [F E]. split; [exact F|]. rewrite E. apply rnd_nonneg. lra.
    + left. apply (over_pos _ (fadd (B2R a) (B2R b))); [apply rnd_nonneg; lra|]. apply add_over; try apply rep_refl; auto. lra.
Qed.
Lemma square_not_negative a : bnanb a = false -> not_negative (bmul a a).
Proof.
  intros N. destruct (is_finite a) eqn:Fa.
  - assert (0 <= B2R a * B2R a) by nra. destruct (Rlt_dec (Rabs (fmul (B2R a) (B2R a))) big) as [H'|H'].
    + right. destruct (mul_rep a a _ _ (rep_refl a Fa) (rep_refl a Fa) H') as [F E]. split; [exact F|]. rewrite E. now apply rnd_nonneg.
    + left. apply (over_pos _ (fmul (B2R a) (B2R a))); [now apply rnd_nonneg|]. apply mul_over; try apply rep_refl; auto. lra.
  - left. destruct a as [|[]| |]; try discriminate; reflexivity.
Qed.
Lemma add_inf_not_negative a : not_negative a -> badd (B754_infinity false) a = B754_infinity false /\ badd a (B754_infinity false) = B754_infinity false.
Proof. intros [->|[F _]]; [split; reflexivity|]. destruct a; try discriminate; split; reflexivity. Qed.
Lemma square_inf a : bnanb a = false -> ~ finite a \/ 2 ^ 512 <= Rabs (B2R a) -> bmul a a = B754_infinity false.
Proof.
  intros N [F|H].
  - unfold finite in F. destruct a as [|[]| |]; try discriminate; try reflexivity; now elim F.
  - assert (Fa : is_finite a = true). { destruct a; try reflexivity; cbn in H; rewrite Rabs_R0 in H; pose proof (pow_lt 2 512); lra. }
    assert (Q : bpow radix2 1024 <= B2R a * B2R a). { replace (B2R a * B2R a) with (Rabs (B2R a) * Rabs (B2R a)) by (rewrite <- Rabs_mult; apply Rabs_pos_eq; nra). replace (bpow radix2 1024) with (2 ^ 512 * 2 ^ 512) by (rewrite !pow_bp, <- bpow_plus; reflexivity). apply Rmult_le_compat; try exact H; apply pow_le; lra. }
    assert (big <= fmul (B2R a) (B2R a)). { unfold fmul. eapply Rle_trans; [|apply (round_le radix2 fexp64 ZnearestE _ _ Q)]. rewrite round_generic; try typeclasses eauto; [apply Rle_refl|apply fmt_bp; lia]. }
    assert (0 < big) by apply bpow_gt_0. apply (over_pos _ (fmul (B2R a) (B2R a))); [lra|]. apply mul_over; try (apply rep_refl; exact Fa). rewrite Rabs_pos_eq; lra.
Qed.

(** ** The two loops *)
Definition sums (parts : list (b64 * b64)) acc := fold_left (fun acc (p : b64 * b64) => badd acc (fst p)) parts acc.
Definition squares (parts : list (b64 * b64)) acc := fold_left (fun acc (p : b64 * b64) => badd acc (bmul (snd p) (snd p))) parts acc.
Lemma sums_cons p parts acc : sums (p :: parts) acc = sums parts (badd acc (fst p)). Proof. reflexivity. Qed.
Lemma squares_cons p parts acc : squares (p :: parts) acc = squares parts (badd acc (bmul (snd p) (snd p))). Proof. reflexivity. Qed.
Lemma sums_nan parts : sums parts B754_nan = B754_nan. Proof. induction parts; [reflexivity|exact IHparts]. Qed.
Lemma squares_nan parts : squares parts B754_nan = B754_nan. Proof. induction parts; [reflexivity|exact IHparts]. Qed.
Lemma sums_has_nan (p : b64 * b64) parts : In p parts -> fst p = B754_nan -> forall acc, sums parts acc = B754_nan.
Proof. induction parts as [|q parts IH]; intros I E acc; [destruct I|]. rewrite sums_cons; destruct I as [->|I]; [rewrite E, add_nan; apply sums_nan|now apply IH]. Qed.
Lemma squares_has_nan (p : b64 * b64) parts : In p parts -> snd p = B754_nan -> forall acc, squares parts acc = B754_nan.
Proof. induction parts as [|q parts IH]; intros I E acc; [destruct I|]. rewrite squares_cons; destruct I as [->|I]; [rewrite E, mul_nan, add_nan; apply squares_nan|now apply IH]. Qed.
(** An infinity stays or turns into nan. *)
Lemma inf_add s a : badd (B754_infinity s) a = B754_infinity s \/ badd (B754_infinity s) a = B754_nan.
Proof. destruct a as [|[]| |]; destruct s; cbn; auto. Qed.
Lemma sums_from_inf s parts : sums parts (B754_infinity s) = B754_infinity s \/ sums parts (B754_infinity s) = B754_nan.
Proof. induction parts as [|p parts IH]; [now left|]. rewrite sums_cons. destruct (inf_add s (fst p)) as [-> | ->]; [exact IH|right; apply sums_nan]. Qed.
Lemma sums_inf_opposite s (p : b64 * b64) parts : In p parts -> fst p = B754_infinity (negb s) -> sums parts (B754_infinity s) = B754_nan.
Proof.
  induction parts as [|q parts IH]; intros I E; [destruct I|]. rewrite sums_cons. destruct I as [->|I].
  - rewrite E. replace (badd (B754_infinity s) (B754_infinity (negb s))) with (B754_nan : b64) by (now destruct s). apply sums_nan.
  - destruct (inf_add s (fst q)) as [-> | ->]; [now apply IH|apply sums_nan].
Qed.
Lemma add_inf s a : badd a (B754_infinity s) = B754_infinity s \/ badd a (B754_infinity s) = B754_nan.
Proof. destruct a as [|[]| |]; destruct s; cbn; auto. Qed.
Lemma sums_has_inf s (p : b64 * b64) parts : In p parts -> fst p = B754_infinity s -> forall acc, sums parts acc = B754_infinity s \/ sums parts acc = B754_nan.
Proof. induction parts as [|q parts IH]; intros I E acc; [destruct I|]. rewrite sums_cons; destruct I as [->|I]; [rewrite E; destruct (add_inf s acc) as [-> | ->]; [apply sums_from_inf|right; apply sums_nan]|now apply IH]. Qed.
Lemma sums_both (p q : b64 * b64) parts : In p parts -> In q parts -> fst p = B754_infinity false -> fst q = B754_infinity true -> forall acc, sums parts acc = B754_nan.
Proof. intros I J E F acc. destruct (sums_has_inf false p parts I E acc) as [A|A]; [|exact A]. destruct (sums_has_inf true q parts J F acc) as [B|B]; congruence. Qed.
Lemma sums_finite parts : forall acc, finite (sums parts acc) -> finite acc /\ Forall (fun p => finite (fst p)) parts /\
  B2R (sums parts acc) = fold_left (fun a (p : R * R) => fadd a (fst p)) (map (fun p => (B2R (fst p), B2R (snd p))) parts) (B2R acc).
Proof.
  induction parts as [|p parts IH]; intros acc F; [repeat split; [exact F|constructor]|]. rewrite sums_cons in F. destruct (IH _ F) as (A & B & C). apply add_finite in A as (A1 & A2 & A3). repeat split; [exact A1|now constructor|]. rewrite sums_cons. cbn [map fold_left fst snd]. refine (eq_trans C _). f_equal. exact A3.
Qed.
Lemma squares_finite parts : forall acc, finite (squares parts acc) -> finite acc /\ Forall (fun p => finite (snd p)) parts /\
  B2R (squares parts acc) = fold_left (fun a (p : R * R) => fadd a (fmul (snd p) (snd p))) (map (fun p => (B2R (fst p), B2R (snd p))) parts) (B2R acc).
Proof.
  induction parts as [|p parts IH]; intros acc F; [repeat split; [exact F|constructor]|]. rewrite squares_cons in F. destruct (IH _ F) as (A & B & C). apply add_finite in A as (A1 & A2 & A3). apply mul_finite in A2 as (A4 & _ & A5). repeat split; [exact A1|now constructor|]. rewrite squares_cons. cbn [map fold_left fst snd]. refine (eq_trans C _). f_equal. exact (eq_trans A3 (f_equal (fadd (B2R acc)) A5)).
Qed.
Lemma squares_not_negative parts : Forall (fun p => bnanb (snd p) = false) parts -> forall acc, not_negative acc -> not_negative (squares parts acc).
Proof. induction 1 as [|p parts N F IH]; intros acc A; [exact A|]. rewrite squares_cons. apply IH. apply add_not_negative; [exact A|now apply square_not_negative]. Qed.
Lemma squares_from_inf parts : Forall (fun p => bnanb (snd p) = false) parts -> squares parts (B754_infinity false) = B754_infinity false.
Proof. induction 1 as [|p parts N F IH]; [reflexivity|]. rewrite squares_cons. destruct (add_inf_not_negative _ (square_not_negative _ N)) as [-> _]. exact IH. Qed.
Lemma squares_inf (p : b64 * b64) parts : Forall (fun p => bnanb (snd p) = false) parts -> In p parts -> ~ finite (snd p) \/ 2 ^ 512 <= Rabs (B2R (snd p)) ->
  forall acc, not_negative acc -> squares parts acc = B754_infinity false.
Proof.
  induction 1 as [|q parts N F IH]; intros I H acc A; [destruct I|]. rewrite squares_cons. destruct I as [->|I].
  - rewrite (square_inf _ N H). destruct (add_inf_not_negative _ A) as [_ ->]. now apply squares_from_inf.
  - apply (IH I H). apply add_not_negative; [exact A|now apply square_not_negative].
Qed.
Lemma sqrt_not_negative a : not_negative a -> not_negative (bsqrt a).
Proof. intros [->|[F H]]; [now left|]. right. destruct (sqrt_rep a _ (rep_refl a F) H) as [G E]. split; [exact G|]. rewrite E. apply rnd_nonneg, sqrt_pos. Qed.
Lemma sqrt_nan_iff a : not_negative a -> bnanb (bsqrt a) = false.
Proof. intros H. apply sqrt_not_negative in H as [-> |[F _]]; [reflexivity|]. now destruct (bsqrt a). Qed.

(** Parts of moderate size. *)
Lemma sum_bound e n x y : (0 <= e <= 900)%Z -> (0 <= n)%Z -> (n + 1 <= 2 ^ 53)%Z -> Rabs x <= IZR n * bpow radix2 e -> Rabs y <= bpow radix2 e -> Rabs (fadd x y) <= IZR (n + 1) * bpow radix2 e.
Proof.
  intros He Hn Hm Hx Hy. unfold fadd. assert (D : double (IZR (n + 1) * bpow radix2 e)).
  { assert (G : generic_format radix2 (FLT_exp (-1074) 53) (F2R (Float radix2 (n + 1) e))).
    { destruct (Z.eq_dec (n + 1) (2 ^ 53)) as [->|N].
      - replace (F2R (Float radix2 (2 ^ 53) e)) with (bpow radix2 (53 + e)). apply generic_format_bpow; unfold FLT_exp; lia. unfold F2R. cbn [Fnum Fexp]. rewrite bpow_plus. reflexivity.
      - apply generic_format_FLT. exists (Float radix2 (n + 1) e); [reflexivity| |cbn; lia]. cbn. lia. }
    exact G. }
  rewrite <- (round_generic radix2 fexp64 ZnearestE (IZR (n + 1) * bpow radix2 e)) by exact D. apply abs_round_le_generic; try typeclasses eauto; [rewrite (round_generic radix2 fexp64 ZnearestE) by exact D; exact D|]. rewrite (round_generic radix2 fexp64 ZnearestE) by exact D.
  rewrite plus_IZR. eapply Rle_trans; [apply Rabs_triang|]. lra.
Qed.
Lemma sums_range parts : forall acc n, (0 <= n)%Z -> (n + Z.of_nat (length parts) <= 2 ^ 53)%Z -> finite acc -> Rabs (B2R acc) <= IZR n * bpow radix2 900 ->
  Forall (fun p => finite (fst p) /\ Rabs (B2R (fst p)) <= 2 ^ 900) parts -> finite (sums parts acc).
Proof.
  induction parts as [|p parts IH]; intros acc n Hn Hl Fa Ha H; [exact Fa|]. inversion_clear H as [|? ? [Fp Hp] Hr]. cbn [length] in Hl. rewrite sums_cons.
  rewrite pow_bp in Hp. change (Z.of_nat 900) with 900%Z in Hp. pose proof (sum_bound 900 n (B2R acc) (B2R (fst p)) ltac:(lia) Hn ltac:(lia) Ha Hp) as B.
  assert (R1 : rep (badd acc (fst p)) (fadd (B2R acc) (B2R (fst p)))).
  { apply add_rep; try (apply rep_refl; assumption). eapply Rle_lt_trans; [exact B|]. eapply Rle_lt_trans; [apply Rmult_le_compat_r; [apply bpow_ge_0|apply (IZR_le (n + 1) (2 ^ 53)); lia]|]. change (IZR (2 ^ 53)) with (bpow radix2 53). rewrite <- bpow_plus. apply pow_big. lia. }
  destruct R1 as [R1 R2]. apply (IH _ (n + 1)%Z); [lia|lia|exact R1|now rewrite R2|exact Hr].
Qed.
Lemma squares_range parts : forall acc n, (0 <= n)%Z -> (n + Z.of_nat (length parts) <= 2 ^ 53)%Z -> finite acc -> Rabs (B2R acc) <= IZR n * bpow radix2 900 ->
  Forall (fun p => finite (snd p) /\ Rabs (B2R (snd p)) <= 2 ^ 450) parts -> finite (squares parts acc).
Proof.
  induction parts as [|p parts IH]; intros acc n Hn Hl Fa Ha H; [exact Fa|]. inversion_clear H as [|? ? [Fp Hp] Hr]. cbn [length] in Hl. rewrite squares_cons.
  rewrite pow_bp in Hp. change (Z.of_nat 450) with 450%Z in Hp.
  destruct (bnd_mul (snd p) (snd p) _ _ 450 450 (conj (rep_refl _ Fp) Hp) (conj (rep_refl _ Fp) Hp) ltac:(lia)) as [[M1 M2] M3]. change (450 + 450)%Z with 900%Z in M3.
  pose proof (sum_bound 900 n (B2R acc) _ ltac:(lia) Hn ltac:(lia) Ha M3) as B.
  assert (R1 : rep (badd acc (bmul (snd p) (snd p))) (fadd (B2R acc) (fmul (B2R (snd p)) (B2R (snd p))))).
  { apply add_rep; try (apply rep_refl; assumption); try (split; assumption). eapply Rle_lt_trans; [exact B|]. eapply Rle_lt_trans; [apply Rmult_le_compat_r; [apply bpow_ge_0|apply (IZR_le (n + 1) (2 ^ 53)); lia]|]. change (IZR (2 ^ 53)) with (bpow radix2 53). rewrite <- bpow_plus. apply pow_big. lia. }
  destruct R1 as [R1 R2]. apply (IH _ (n + 1)%Z); [lia|lia|exact R1|now rewrite R2|exact Hr].
Qed.

(** ** The function *)
Lemma seq_cells {A B} (P : A * A -> B -> Prop) d x : forall parts,
  Forall2 P (cells x) parts <-> Forall2 (fun i p => P (nth i x d, nth (S i) x d) p) (seq 0 (length x - 1)) parts.
Proof.
  assert (E : cells x = map (fun i => (nth i x d, nth (S i) x d)) (seq 0 (length x - 1))).
  { destruct x as [|a r]; [reflexivity|]. unfold cells. cbn [tl length]. replace (S (length r) - 1)%nat with (length r) by lia. revert a. induction r as [|b r IH]; intros a; [reflexivity|]. change (combine (a :: b :: r) (b :: r)) with ((a, b) :: combine (b :: r) r). cbn [length seq map]. f_equal. rewrite (IH b), <- seq_shift, map_map. apply map_ext. intros i. reflexivity. }
  intros parts. rewrite E. generalize (seq 0 (length x - 1)) as l. revert parts. clear. intros parts l. revert parts. induction l as [|i l IH]; intros parts; cbn; split; intros H; inversion H; subst; constructor; auto; now apply IH.
Qed.
Lemma bpartition_value nquad f x0 rest ranges parts : bor_empty rest = Ok ranges -> Forall2 (fun c p => nquad f (c :: ranges) = Ok p) (cells x0) parts ->
  bquad_partition nquad f x0 rest = Ok (sums parts (of_Z 0), bsqrt (squares parts (of_Z 0))).
Proof.
  intros R F. unfold bquad_partition. rewrite R. cbn [bind]. rewrite (seq_cells _ (of_Z 0)) in F. apply (proj2 (traverse_spec (fun i => nquad f ((nth i x0 (of_Z 0), nth (S i) x0 (of_Z 0)) :: ranges)) _ _)) in F. rewrite F. reflexivity.
Qed.
Lemma fpartition_value nquad f x0 rest ranges parts : or_empty rest = Ok ranges -> Forall2 (fun c p => nquad f (c :: ranges) = Ok p) (cells x0) parts ->
  fquad_partition nquad f x0 rest = Ok (fold_left (fun a (p : R * R) => fadd a (fst p)) parts 0, fsqrt (fold_left (fun a (p : R * R) => fadd a (fmul (snd p) (snd p))) parts 0)).
Proof.
  intros R F. unfold fquad_partition. rewrite R. cbn [bind]. rewrite (seq_cells _ 0) in F. apply (proj2 (traverse_spec (fun i => nquad f ((nth i x0 0, nth (S i) x0 0) :: ranges)) _ _)) in F. rewrite F. reflexivity.
Qed.
Lemma zero_not_negative : not_negative (of_Z 0). Proof. right. destruct zero_rep as [A B]. split; [exact A|rewrite B; lra]. Qed.
Lemma partition_integral nquad f x0 rest ranges (parts : list (b64 * b64)) : bor_empty rest = Ok ranges -> Forall2 (fun c p => nquad f (c :: ranges) = Ok p) (cells x0) parts ->
  exists v err, bquad_partition nquad f x0 rest = Ok (v, err) /\
    ((exists p, In p parts /\ fst p = B754_nan) -> v = B754_nan) /\
    (forall s p, In p parts -> fst p = B754_infinity s -> v = B754_infinity s \/ v = B754_nan) /\
    (forall p q, In p parts -> In q parts -> fst p = B754_infinity false -> fst q = B754_infinity true -> v = B754_nan) /\
    ((Z.of_nat (length parts) <= 2 ^ 53)%Z -> Forall (fun p => finite (fst p) /\ Rabs (B2R (fst p)) <= 2 ^ 900) parts -> finite v).
Proof.
  intros R F. eexists _, _. split; [exact (bpartition_value _ _ _ _ _ _ R F)|]. repeat split.
  - intros (p & I & E). exact (sums_has_nan p parts I E _).
  - intros s p I E. exact (sums_has_inf s p parts I E _).
  - intros p q I J E E'. exact (sums_both p q parts I J E E' _).
  - intros L H. destruct zero_rep as [A B]. refine (sums_range parts (of_Z 0) 0 ltac:(lia) _ A _ H); [lia|]. rewrite B, Rabs_R0. lra.
Qed.
Lemma partition_uncertainty nquad f x0 rest ranges (parts : list (b64 * b64)) : bor_empty rest = Ok ranges -> Forall2 (fun c p => nquad f (c :: ranges) = Ok p) (cells x0) parts ->
  exists v err, bquad_partition nquad f x0 rest = Ok (v, err) /\
    (err = B754_nan <-> exists p, In p parts /\ snd p = B754_nan) /\
    (err <> B754_nan -> not_negative err) /\
    (err <> B754_nan -> forall p, In p parts -> ~ finite (snd p) \/ 2 ^ 512 <= Rabs (B2R (snd p)) -> err = B754_infinity false) /\
    ((Z.of_nat (length parts) <= 2 ^ 53)%Z -> Forall (fun p => finite (snd p) /\ Rabs (B2R (snd p)) <= 2 ^ 450) parts -> finite err).
Proof.
  intros R F. eexists _, _. split; [exact (bpartition_value _ _ _ _ _ _ R F)|].
  assert (D : (exists p, In p parts /\ snd p = B754_nan) \/ Forall (fun p => bnanb (snd p) = false) parts).
  { clear. induction parts as [|p parts [(q & I & E)|H]]; [right; constructor|left; exists q; split; [now right|exact E]|]. destruct (bnanb (snd p)) eqn:N; [left; exists p; split; [now left|]; now destruct (snd p)|right; now constructor]. }
  assert (Z : forall p, In p parts -> snd p = B754_nan -> bsqrt (squares parts (of_Z 0)) = B754_nan) by (intros p I E; rewrite (squares_has_nan p parts I E); reflexivity).
  assert (Q : Forall (fun p => bnanb (snd p) = false) parts -> not_negative (bsqrt (squares parts (of_Z 0)))) by (intros H; apply sqrt_not_negative, squares_not_negative; [exact H|apply zero_not_negative]).
  repeat split.
  - intros E. destruct D as [D|D]; [exact D|]. destruct (Q D) as [H|[H _]]; rewrite E in H; [discriminate|discriminate].
  - intros (p & I & E). exact (Z p I E).
  - intros N. destruct D as [(p & I & E)|D]; [elim N; exact (Z p I E)|exact (Q D)].
  - intros N p I H. destruct D as [(q & J & E)|D]; [elim N; exact (Z q J E)|]. rewrite (squares_inf p parts D I H _ zero_not_negative). reflexivity.
  - intros L H. destruct zero_rep as [A B]. assert (G : finite (squares parts (of_Z 0))). { refine (squares_range parts (of_Z 0) 0 ltac:(lia) _ A _ H); [lia|]. rewrite B, Rabs_R0. lra. }
    assert (P : not_negative (squares parts (of_Z 0))). { apply squares_not_negative; [|apply zero_not_negative]. apply Forall_forall. intros p I. pose proof (proj1 (Forall_forall _ _) H p I) as [Fp _]. unfold finite in Fp. now destruct (snd p). }
    destruct P as [P|[_ P]]; [rewrite P in G; discriminate|]. exact (proj1 (sqrt_rep _ _ (rep_refl _ G) P)).
Qed.
(** Finite results are those without a limit of numbers. *)
Lemma partition_finite nquad f x0 rest ranges (parts : list (b64 * b64)) nquad' f' x0' rest' ranges' :
  bor_empty rest = Ok ranges -> Forall2 (fun c p => nquad f (c :: ranges) = Ok p) (cells x0) parts ->
  or_empty rest' = Ok ranges' -> Forall2 (fun c p => nquad' f' (c :: ranges') = Ok (B2R (fst p), B2R (snd p))) (cells x0') parts ->
  exists v err v' err', bquad_partition nquad f x0 rest = Ok (v, err) /\ fquad_partition nquad' f' x0' rest' = Ok (v', err') /\
    (finite v -> Forall (fun p => finite (fst p)) parts /\ B2R v = v') /\ (finite err -> Forall (fun p => finite (snd p)) parts /\ B2R err = err').
Proof.
  intros R F R' F'. assert (G : Forall2 (fun c p => nquad' f' (c :: ranges') = Ok p) (cells x0') (map (fun p => (B2R (fst p), B2R (snd p))) parts)).
  { clear - F'. induction F'; constructor; auto. }
  eexists _, _, _, _. split; [exact (bpartition_value _ _ _ _ _ _ R F)|]. split; [exact (fpartition_value _ _ _ _ _ _ R' G)|]. split.
  - intros H. destruct (sums_finite parts _ H) as (_ & A & B). split; [exact A|]. rewrite B. now rewrite (proj2 zero_rep).
  - intros H. unfold finite in H. pose proof (Bsqrt_correct 53 1024 prec_53 emax_1024 mode_NE (squares parts (of_Z 0))) as (C1 & C2 & _). unfold bsqrt in *. rewrite C2 in H.
    assert (Fs : finite (squares parts (of_Z 0))) by (unfold finite; destruct (squares parts (of_Z 0)) as [|[]| |[]]; try discriminate; reflexivity).
    destruct (squares_finite parts _ Fs) as (_ & A & B). split; [exact A|]. rewrite C1, rnd_eq, B, (proj2 zero_rep). reflexivity.
Qed.
Lemma partition_short nquad f x0 rest ranges : bor_empty rest = Ok ranges -> (length x0 <= 1)%nat -> exists err, bquad_partition nquad f x0 rest = Ok (of_Z 0, err) /\ rep err 0.
Proof.
  intros R L. exists (bsqrt (of_Z 0)). split; [|split; reflexivity]. unfold bquad_partition. rewrite R. replace (length x0 - 1)%nat with 0%nat by lia. reflexivity.
Qed.
Lemma traverse_first {A B} (g : A -> out B) e : forall l1 a l2, Forall (fun i => exists b, g i = Ok b) l1 -> g a = Raise e -> traverse g (l1 ++ a :: l2) = Raise e.
Proof. induction l1 as [|i l1 IH]; intros a l2 F H; cbn [app]; rewrite traverse_cons; [now rewrite H|]. destruct (Forall_inv F) as [b E]. pose proof (Forall_inv_tail F) as F'. rewrite E. cbn [bind]. now rewrite (IH a l2 F' H). Qed.
Lemma cells_seq {A} (d : A) x : cells x = map (fun i => (nth i x d, nth (S i) x d)) (seq 0 (length x - 1)).
Proof. assert (F : Forall2 eq (cells x) (cells x)) by (induction (cells x); constructor; auto). apply (seq_cells _ d) in F. revert F. generalize (cells x) as l, (seq 0 (length x - 1)) as m. intros l m F. induction F as [|i p m l E F IH]; [reflexivity|]. cbn. now rewrite E, IH. Qed.
Lemma partition_raises nquad f x0 rest ranges (before : list (b64 * b64 * (b64 * b64))) c after e : bor_empty rest = Ok ranges -> cells x0 = map fst before ++ c :: after ->
  Forall (fun cp => nquad f (fst cp :: ranges) = Ok (snd cp)) before -> nquad f (c :: ranges) = Raise e -> bquad_partition nquad f x0 rest = Raise e.
Proof.
  intros R C F H. unfold bquad_partition. rewrite R. cbn [bind]. rewrite (cells_seq (of_Z 0)) in C.
  rewrite <- (traverse_map (fun i => (nth i x0 (of_Z 0), nth (S i) x0 (of_Z 0))) (fun c => nquad f (c :: ranges))). rewrite C, (traverse_first _ e); [reflexivity| |exact H].
  clear - F. induction F; constructor; eauto.
Qed.
Lemma partition_array nquad f x0 l : l <> [] -> bquad_partition nquad f x0 (BLArray l) = Raise ValueError.
Proof. intros H. destruct l; [now elim H|reflexivity]. Qed.
(** The largest power of two, twice, and once with the opposite sign; an estimate of 2^512. *)
Definition large_parts : list (b64 * b64) := [(mass 1023, of_Z 0); (mass 1023, of_Z 0); (bopp (mass 1023), mass 512)].
Definition large_nquad (f : list b64 -> b64) (c : list (b64 * b64)) : out (b64 * b64) :=
  match c with (B754_zero _, _) :: _ => Ok (mass 1023, of_Z 0) | (_, e) :: _ => if Beqb e (of_Z 2) then Ok (mass 1023, of_Z 0) else Ok (bopp (mass 1023), mass 512) | [] => NaN end.
Lemma partition_large : Forall2 (fun c p => large_nquad (fun _ => of_Z 0) (c :: []) = Ok p) (cells [of_Z 0; of_Z 1; of_Z 2; of_Z 3]) large_parts /\
  Forall (fun p => finite (fst p) /\ finite (snd p)) large_parts /\ Rsum (map (fun p => B2R (fst p)) large_parts) = 2 ^ 1023 /\
  bquad_partition large_nquad (fun _ => of_Z 0) [of_Z 0; of_Z 1; of_Z 2; of_Z 3] BLNone = Ok (B754_infinity false, B754_infinity false).
Proof.
  split; [|split; [|split]].
  - unfold large_parts. cbn [cells combine tl]. repeat constructor.
  - unfold large_parts. repeat (apply Forall_cons || apply Forall_nil); split; reflexivity.
  - destruct (mass_rep 1023 ltac:(lia)) as [A B]. unfold large_parts. cbn [map fst Rsum fold_right]. unfold bopp. rewrite !B2R_Bopp, B. rewrite pow_bp. change (Z.of_nat 1023) with 1023%Z. lra.
  - vm_compute. reflexivity.
Qed.
