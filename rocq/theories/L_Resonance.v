(** Lemmas on resonances with an arbitrary distribution. *)
From Coq Require Import Reals List ZArith Lra Lia Sorted.
From Coquelicot Require Import Coquelicot.
From Verif Require Import Py Spec M_Num M_Grid M_Dist M_Resonance S_Resonance L_RInt L_Grid L_Darboux L_Dist.
Import ListNotations.
Open Scope R_scope.

Lemma cells_seq {A} (x : nat -> A) i n : cells (map x (seq i (S n))) = map (fun j => (x j, x (S j))) (seq i n).
Proof.
  revert i; induction n as [|n IH]; intros i; [reflexivity|].
  change (seq i (S (S n))) with (i :: S i :: seq (S (S i)) n).
  cbn [map]. rewrite cells_cons.
  change (x (S i) :: map x (seq (S (S i)) n)) with (map x (seq (S i) (S n))). rewrite IH. reflexivity.
Qed.

Lemma ssorted_map_seq_lt (f : nat -> R) i n : (forall j k, (i <= j < k)%nat -> (k < i + n)%nat -> f j < f k) ->
  StronglySorted Rlt (map f (seq i n)).
Proof.
  revert i; induction n as [|n IH]; intros i H; cbn; constructor.
  - apply IH. intros; apply H; lia.
  - apply Forall_forall. intros y Hy. apply in_map_iff in Hy. destruct Hy as (j & <- & Hj).
    apply in_seq in Hj. apply H; lia.
Qed.

(** Grids given by equidistant values of a CDF. *)
Section Grid.
  Variables f F : R -> R.
  Hypothesis D : density_of f F.

  Lemma grid_spec (c : R) (x : nat -> R) p h n : (2 <= n)%Z -> 0 < h ->
    (forall i, (i < Z.to_nat n)%nat -> F (x i) = p + INR i * h) ->
    equal_integral_grid (fun E => c * f E) (x 0%nat) (x (Z.to_nat n - 1)%nat) n (map x (seq 0 (Z.to_nat n))).
  Proof.
    intros Hn Hh HF. destruct (Z.to_nat n) as [|m] eqn:En; [lia|].
    split; [rewrite map_length, seq_length; lia|].
    split; [|split; [|split]].
    - apply ssorted_map_seq_lt. intros j k Hjk Hk. apply (dens_lt_inv f F D).
      rewrite !HF by lia. apply Rplus_lt_compat_l, Rmult_lt_compat_r; [assumption|]. apply lt_INR; lia.
    - reflexivity.
    - unfold final. rewrite last_map_seq. f_equal. lia.
    - exists (c * h). rewrite cells_seq. apply List.Forall_forall. intros [a b] Hin.
      apply in_map_iff in Hin. destruct Hin as (j & E & Hj). injection E as <- <-. apply in_seq in Hj. cbn [fst snd].
      replace h with (F (x (S j)) - F (x j)) by (rewrite !HF by lia; rewrite S_INR; ring).
      apply (is_RInt_scal (V := R_NormedModule) f (x j) (x (S j)) c).
      apply (dens_is_RInt f F D).
  Qed.

  Lemma quantiles_of p q n xs : (2 <= n)%Z -> 0 < p -> p < q -> q < 1 ->
    Forall2 (is_quantile F) (map (fun i => p + INR i * ((q - p) / IZR (n - 1))) (seq 0 (Z.to_nat n))) xs ->
    exists x, xs = map (fun i => Finite (x i)) (seq 0 (Z.to_nat n)) /\
      (forall i, (i < Z.to_nat n)%nat -> F (x i) = p + INR i * ((q - p) / IZR (n - 1))) /\
      F (x 0%nat) = p /\ F (x (Z.to_nat n - 1)%nat) = q.
  Proof.
    intros Hn Hp Hpq Hq HF. set (h := (q - p) / IZR (n - 1)) in *.
    assert (Hn1 : 1 <= IZR (n - 1)) by (apply IZR_le; lia).
    assert (Hh : 0 < h) by (apply Rdiv_lt_0_compat; lra).
    assert (Hh1 : h * IZR (n - 1) = q - p) by (unfold h; field; lra).
    assert (B : forall i, (i < Z.to_nat n)%nat -> 0 < p + INR i * h < 1).
    { intros i Hi. pose proof (pos_INR i). assert (INR i <= IZR (n - 1)).
      { rewrite INR_IZR_INZ. apply IZR_le. lia. }
      split; nra. }
    exists (fun i => real (quantile F (p + INR i * h))).
    assert (Q : forall i, (i < Z.to_nat n)%nat ->
               exists r, quantile F (p + INR i * h) = Finite r /\ F r = p + INR i * h).
    { intros i Hi. apply (is_quantile_finite F); [now apply B|].
      apply (quantile_is f F D). pose proof (B i Hi). lra. }
    assert (HX : forall i, (i < Z.to_nat n)%nat -> F (real (quantile F (p + INR i * h))) = p + INR i * h).
    { intros i Hi. destruct (Q i Hi) as (r & -> & E). exact E. }
    split; [|split; [exact HX|split]].
    - assert (G : forall l xs, (forall i, In i l -> (i < Z.to_nat n)%nat) ->
                 Forall2 (is_quantile F) (map (fun i => p + INR i * h) l) xs ->
                 xs = map (fun i => Finite (real (quantile F (p + INR i * h)))) l).
      { clear xs HF. induction l as [|i l IH]; intros xs Hl HF; inversion HF; subst; [reflexivity|].
        cbn [map]. f_equal.
        - destruct (Q i (Hl i (or_introl eq_refl))) as (r & -> & E). cbn.
          eapply (is_quantile_fun f F D); [eassumption|exact E].
        - apply IH; [intros; apply Hl; now right|assumption]. }
      apply G; [|exact HF]. intros i Hi. apply in_seq in Hi. lia.
    - rewrite HX by lia. cbn. ring.
    - rewrite HX by lia. rewrite INR_IZR_INZ. replace (Z.of_nat (Z.to_nat n - 1)) with (n - 1)%Z by lia.
      lra.
  Qed.

  Lemma linspace_in p q n : (2 <= n)%Z -> 0 <= p -> p <= q -> q <= 1 ->
    List.Forall (fun x => 0 <= x <= 1) (map (fun i => p + INR i * ((q - p) / IZR (n - 1))) (seq 0 (Z.to_nat n))).
  Proof.
    intros Hn Hp Hpq Hq. apply List.Forall_forall. intros y Hy. apply in_map_iff in Hy. destruct Hy as (i & <- & Hi).
    apply in_seq in Hi. set (h := (q - p) / IZR (n - 1)).
    assert (Hn1 : 1 <= IZR (n - 1)) by (apply IZR_le; lia).
    assert (Hh : 0 <= h) by (apply Rmult_le_pos; [lra|left; apply Rinv_0_lt_compat; lra]).
    assert (Hh1 : h * IZR (n - 1) = q - p) by (unfold h; field; lra).
    pose proof (pos_INR i). assert (INR i <= IZR (n - 1)) by (rewrite INR_IZR_INZ; apply IZR_le; lia).
    split; nra.
  Qed.
End Grid.

Lemma set_first_same {A} (x : nat -> A) n v : x 0%nat = v -> (1 <= n)%nat ->
  set_first (map x (seq 0 n)) v = Ok (map x (seq 0 n)).
Proof. intros <- H. destruct n; [lia|]. reflexivity. Qed.
Lemma set_last_same {A} (x : nat -> A) n v : x (n - 1)%nat = v -> (1 <= n)%nat ->
  set_last (map x (seq 0 n)) v = Ok (map x (seq 0 n)).
Proof.
  intros <- H. destruct n as [|n]; [lia|]. unfold set_last.
  destruct (map x (seq 0 (S n))) eqn:E; [discriminate|]. rewrite <- E. f_equal.
  rewrite removelast_map, removelast_seq, seq_S, map_app. cbn. now rewrite Nat.sub_0_r.
Qed.

(** ** A resonance with a density and exact quantiles *)
Section Res.
  Variable r : resonance.
  Variables f F : R -> R.
  Hypothesis H : has_density (r_dist r) (r_params r) f F.
  Let D : density_of f F := proj1 H.

  Lemma res_value : cross_section_is r (fun E => r_integrated r * f E).
  Proof. intros E. unfold res_call. pose proof (proj1 (proj2 H)) as P. rewrite P. reflexivity. Qed.

  Lemma res_integral a b : is_RInt (fun E => r_integrated r * f E) a b (r_integrated r * (F b - F a)).
  Proof. apply (is_RInt_scal (V := R_NormedModule) f a b (r_integrated r)). apply (dens_is_RInt f F D). Qed.

  Hypothesis Q : exact_quantiles (r_dist r) (r_params r) F.

  Lemma coverage_quantiles c : 0 <= c < 1 -> exists ws lo hi,
    d_ppf (r_dist r) (r_params r) [1 / 2 * (1 - c); 1 / 2 * (1 + c)] = (ws, Ok (Some [Finite lo; Finite hi])) /\
    F lo = 1 / 2 * (1 - c) /\ F hi = 1 / 2 * (1 + c).
  Proof.
    intros Hc. destruct (Q [1 / 2 * (1 - c); 1 / 2 * (1 + c)]) as (ws & xs & E & F2).
    - repeat constructor; lra.
    - inversion F2 as [|? x1 ? l1 Q1 F2']; subst. inversion F2' as [|? x2 ? l2 Q2 F2'']; subst.
      inversion F2''; subst.
      destruct (is_quantile_finite F (1 / 2 * (1 - c)) _ ltac:(lra) Q1) as (lo & -> & E1).
      destruct (is_quantile_finite F (1 / 2 * (1 + c)) _ ltac:(lra) Q2) as (hi & -> & E2).
      exists ws, lo, hi. auto.
  Qed.

  Hypothesis M : F (r_energy r) = 1 / 2.

  Lemma res_covers c : (exists x, d_cdf (r_dist r) [] 0 = Ok x) -> 0 <= c < 1 -> covers r c.
  Proof.
    intros [F0 HF0] Hc. destruct (coverage_quantiles c Hc) as (ws & lo & hi & E & E1 & E2).
    unfold covers, coverage_interval. rewrite E. cbn [Rbar_is_inf Rbar_negative].
    assert (B : lo <= r_energy r <= hi).
    { split; apply (dens_le_inv f F D); rewrite M; lra. }
    assert (I1 : is_RInt (fun E => r_integrated r * f E) lo (r_energy r) (c / 2 * r_integrated r)).
    { replace (c / 2 * r_integrated r) with (r_integrated r * (F (r_energy r) - F lo)) by (rewrite M, E1; field).
      apply res_integral. }
    assert (I2 : is_RInt (fun E => r_integrated r * f E) (r_energy r) hi (c / 2 * r_integrated r)).
    { replace (c / 2 * r_integrated r) with (r_integrated r * (F hi - F (r_energy r))) by (rewrite M, E2; field).
      apply res_integral. }
    destruct (Rlt_dec lo 0).
    - rewrite HF0. do 4 eexists. split; [reflexivity|]. split; [exact B|]. split; [apply res_value|]. split; eassumption.
    - do 4 eexists. split; [reflexivity|]. split; [exact B|]. split; [apply res_value|]. split; eassumption.
  Qed.

  Lemma res_grid_limits a b n : a < b -> (2 <= n)%Z -> exists ws g,
    res_probability_grid r (Limits a b) n = (ws, Ok (Some (map Finite g))) /\
    equal_integral_grid (fun E => r_integrated r * f E) a b n g.
  Proof.
    intros Hab Hn. pose proof (dens_range f F D a) as Ra. pose proof (dens_range f F D b) as Rb.
    pose proof (dens_incr f F D a b Hab) as Lt.
    unfold res_probability_grid. pose proof (proj2 (proj2 H)) as C. rewrite !C. cbn [bind].
    rewrite (linspace_ok _ _ n Hn).
    destruct (Q _ (linspace_in (F a) (F b) n Hn ltac:(lra) ltac:(lra) ltac:(lra))) as (ws & xs & E & F2).
    rewrite E. destruct (quantiles_of f F D (F a) (F b) n xs Hn ltac:(lra) Lt ltac:(lra) F2) as (x & -> & HF & H0 & H1).
    cbn [bind].
    assert (Ea : x 0%nat = a) by (apply (dens_inj f F D); exact H0).
    assert (Eb : x (Z.to_nat n - 1)%nat = b) by (apply (dens_inj f F D); exact H1).
    rewrite (set_first_same (fun i => Finite (x i))) by (now rewrite ?Ea || lia). cbn [bind].
    rewrite (set_last_same (fun i => Finite (x i))) by (now rewrite ?Eb || lia). cbn [bind].
    exists ws, (map x (seq 0 (Z.to_nat n))). split; [now rewrite map_map|].
    rewrite <- Ea, <- Eb. eapply grid_spec; [exact D|exact Hn| |exact HF].
    apply Rdiv_lt_0_compat; [lra|]. assert (1 <= IZR (n - 1)) by (apply IZR_le; lia). lra.
  Qed.

  Lemma res_grid_coverage c n : 0 < c < 1 -> (2 <= n)%Z -> exists ws g lo hi,
    res_probability_grid r (Coverage c) n = (ws, Ok (Some (map Finite g))) /\
    equal_integral_grid (fun E => r_integrated r * f E) lo hi n g /\
    F lo = 1 / 2 * (1 - c) /\ F hi = 1 / 2 * (1 + c).
  Proof.
    intros Hc Hn. unfold res_probability_grid. cbn [bind]. rewrite (linspace_ok _ _ n Hn).
    destruct (Q _ (linspace_in (1 / 2 * (1 - c)) (1 / 2 * (1 + c)) n Hn ltac:(lra) ltac:(lra) ltac:(lra)))
      as (ws & xs & E & F2).
    rewrite E. destruct (quantiles_of f F D (1 / 2 * (1 - c)) (1 / 2 * (1 + c)) n xs Hn ltac:(lra) ltac:(lra) ltac:(lra) F2) as (x & -> & HF & H0 & H1).
    exists ws, (map x (seq 0 (Z.to_nat n))), (x 0%nat), (x (Z.to_nat n - 1)%nat).
    split; [now rewrite map_map|]. split; [|auto].
    eapply grid_spec; [exact D|exact Hn| |exact HF].
    apply Rdiv_lt_0_compat; [lra|]. assert (1 <= IZR (n - 1)) by (apply IZR_le; lia). lra.
  Qed.
End Res.
