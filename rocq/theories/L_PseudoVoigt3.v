(** Resonances with the pseudo-Voigt distribution. *)
From Coq Require Import Reals List ZArith Lra Lia Sorted.
From Coquelicot Require Import Coquelicot.
From Verif Require Import Py Spec M_Num M_Grid M_Constituents M_Thermal M_Dist M_Resonance M_PseudoVoigt
  S_Resonance S_PseudoVoigt L_RInt L_Grid L_Darboux L_Dist L_Resonance L_Resonance2 L_Resonance3 L_Resonance4 L_Resonance5 L_Newton
  L_PseudoVoigt L_PseudoVoigt2.
Import ListNotations.
Open Scope R_scope.

Lemma accuracy_pos p : pv_valid p -> 0 < accuracy p.
Proof. intros V. unfold accuracy. apply Rdiv_lt_0_compat; [lra|apply V]. Qed.

Lemma Forall2_seq {A} (P : A -> R -> Prop) (a : nat -> A) i n b : Forall2 P (map a (seq i n)) b ->
  b = map (fun j => nth j b 0) (seq 0 n) /\ forall j, (j < n)%nat -> P (a (i + j)%nat) (nth j b 0).
Proof.
  revert i b; induction n as [|n IH]; intros i b H; cbn in H; inversion H as [|? y ? b' Hy Hb]; subst.
  - split; [reflexivity|lia].
  - destruct (IH _ _ Hb) as [E K]. split.
    + cbn. f_equal. rewrite <- seq_shift, map_map. exact E.
    + intros [|j] Hj; [now rewrite Nat.add_0_r|]. cbn. replace (i + S j)%nat with (S i + j)%nat by lia. apply K. lia.
Qed.
Lemma sa_nth (x : nat -> R) n : strictly_ascending (map x (seq 0 n)) -> forall j k, (j < k)%nat -> (k < n)%nat -> x j < x k.
Proof.
  intros H j k Hjk Hk. revert H.
  replace n with (j + S (n - j - 1))%nat by lia. rewrite seq_app, map_app. cbn [seq map plus].
  intros H. assert (H' : StronglySorted Rlt (x j :: map x (seq (S j) (n - j - 1)))).
  { clear - H. induction (map x (seq 0 j)) as [|y l IH]; [exact H|]. apply IH. cbn in H. now inversion H. }
  inversion H' as [|? ? _ Fo]; subst. rewrite List.Forall_forall in Fo. apply Fo. apply in_map, in_seq. lia.
Qed.

Section Res.
  Variables (r : resonance) (p : pv) (modern : bool).
  Hypothesis V : pv_valid p.
  Hypothesis HE : pv_energy p = r_energy r.
  Hypothesis HP : r_params r = [].
  Hypothesis Hppf : forall qs, d_ppf (r_dist r) [] qs = pv_ppf modern p qs.
  Hypothesis Hcdf : forall x, d_cdf (r_dist r) [] x = Ok (pvF p x).
  Let F := pvF p.
  Let D := pv_density p V.

  Lemma near_left q x : near p q x -> q <= 1 / 2 -> x <= r_energy r /\ q <= F x <= q + accuracy p.
  Proof. intros [_ H] Hq. rewrite <- HE. exact (H Hq). Qed.
  Lemma near_right q x : near p q x -> 1 / 2 <= q -> r_energy r <= x /\ q - accuracy p <= F x <= q.
  Proof. intros [H _] Hq. rewrite <- HE. exact (H Hq). Qed.

  Lemma pv_coverage c ws lo hi : 0 <= c <= 1 -> coverage_interval r c = (ws, Ok (lo, hi)) -> inverted ws ->
    exists a b, lo = Finite a /\ hi = Finite b /\
      near p (1 / 2 * (1 - c)) a /\ near p (1 / 2 * (1 + c)) b /\
      (forall x, In (NegativeLowerLimit x) ws <-> a < 0 /\ x = 100 * (1 - F 0)) /\
      ~ In InfiniteUpperLimit ws.
  Proof.
    intros Hc E I. unfold coverage_interval in E. rewrite HP, Hppf in E.
    destruct (pv_ppf modern p [1 / 2 * (1 - c); 1 / 2 * (1 + c)]) as [w res] eqn:EP.
    destruct res as [[l|]| |]; try discriminate.
    assert (I' : inverted w).
    { intros K. apply I. destruct l as [|u [|v l]]; try discriminate.
      destruct (Rbar_negative u); [rewrite Hcdf in E|]; injection E as <- _ _; apply in_or_app; now left. }
    destruct (ppf_inverted p V _ _ _ _ EP I') as (rs & -> & -> & N & _).
    inversion N as [|? a ? rs1 Na N1]; subst. inversion N1 as [|? b ? rs2 Nb N2]; subst. inversion N2; subst.
    cbn in E. destruct (Rlt_dec a 0) as [Ha|Ha].
    - rewrite Hcdf in E. injection E as <- <- <-. exists a, b. repeat (split; [first [reflexivity|assumption]|]). split.
      + intros x. split; [intros [K|[]]; injection K as <-; auto|intros [_ ->]; now left].
      + intros [K|[]]; discriminate.
    - injection E as <- <- <-. exists a, b. repeat (split; [first [reflexivity|assumption]|]). split.
      + intros x. split; [intros []|intros [K _]; contradiction].
      + intros [].
  Qed.

  Lemma step_pos (u v : R) n : (2 <= n)%Z -> u < v -> 0 < (v - u) / IZR (n - 1).
  Proof.
    intros Hn H. apply Rdiv_lt_0_compat; [lra|]. assert (1 <= IZR (n - 1)) by (apply IZR_le; lia). lra.
  Qed.
  Lemma quantile_sorted u h n : 0 < h -> strictly_ascending (map (fun i => u + INR i * h) (seq 0 n)).
  Proof.
    intros Hh. apply ssorted_map_seq_lt. intros j k Hjk _. apply Rplus_lt_compat_l, Rmult_lt_compat_r; [assumption|].
    apply lt_INR; lia.
  Qed.
  Lemma almost_cells x u h n e : (2 <= n)%nat -> strictly_ascending (map x (seq 0 n)) ->
    (forall j, (j < n)%nat -> Rabs (F (x j) - (u + INR j * h)) <= e) ->
    almost_equal_grid (r_integrated r) (fun E => r_integrated r * pvf p E) h (2 * e) (map x (seq 0 n)).
  Proof.
    intros Hn Sx B. split; [exact Sx|]. destruct n as [|n]; [lia|]. rewrite cells_seq. apply List.Forall_forall.
    intros [a b] Hin. apply in_map_iff in Hin. destruct Hin as (j & E & Hj). injection E as <- <-. apply in_seq in Hj. cbn [fst snd].
    exists (F (x (S j)) - F (x j)). split.
    - apply (is_RInt_scal (V := R_NormedModule) (pvf p) (x j) (x (S j)) (r_integrated r)). apply (dens_is_RInt _ _ D).
    - pose proof (B j ltac:(lia)) as B1. pose proof (B (S j) ltac:(lia)) as B2. rewrite S_INR in B2.
      replace (F (x (S j)) - F (x j) - h) with ((F (x (S j)) - (u + (INR j + 1) * h)) - (F (x j) - (u + INR j * h))) by ring.
      unfold Rminus at 1. eapply Rle_trans; [apply Rabs_triang|]. rewrite Rabs_Ropp. lra.
  Qed.

  Lemma pv_grid_coverage c n ws g : 0 < c <= 1 -> (2 <= n)%Z ->
    res_probability_grid r (Coverage c) n = (ws, Ok (Some g)) -> inverted ws ->
    exists xs, g = map Finite xs /\ Z.of_nat (List.length xs) = n /\
      almost_equal_grid (r_integrated r) (fun E => r_integrated r * pvf p E) (c / IZR (n - 1)) (2 * accuracy p) xs /\
      near p (1 / 2 * (1 - c)) (first xs) /\ near p (1 / 2 * (1 + c)) (final xs).
  Proof.
    intros Hc Hn E I. unfold res_probability_grid in E. cbn [bind] in E. rewrite (linspace_ok _ _ n Hn) in E.
    rewrite HP, Hppf in E. set (h := (1 / 2 * (1 + c) - 1 / 2 * (1 - c)) / IZR (n - 1)) in E.
    set (u := 1 / 2 * (1 - c)) in *.
    destruct (pv_ppf modern p _) as [w res] eqn:EP. injection E as <- ->.
    destruct (ppf_inverted p V _ _ _ _ EP I) as (rs & -> & -> & N & Sx).
    specialize (Sx (quantile_sorted u h (Z.to_nat n) (step_pos u (1 / 2 * (1 + c)) n Hn ltac:(unfold u; lra)))).
    destruct (Forall2_seq _ _ _ _ _ N) as [Er K]. set (x := fun j => nth j rs 0) in *. cbn [Nat.add] in K.
    assert (n1 : 1 <= IZR (n - 1)) by (apply IZR_le; lia).
    exists rs. split; [reflexivity|].
    rewrite Er in Sx |- *. split; [rewrite map_length, seq_length; lia|].
    replace (c / IZR (n - 1)) with h by (unfold h, u; field; lra).
    split.
    { eapply almost_cells; [lia|exact Sx|]. intros j Hj. apply near_abs; [exact V|]. apply (K j Hj). }
    split.
    - replace (first _) with (x 0%nat) by (destruct (Z.to_nat n) eqn:En; [lia|reflexivity]).
      pose proof (K 0%nat ltac:(lia)) as K0. cbn [INR] in K0. replace (u + 0 * h) with u in K0 by ring. exact K0.
    - unfold final. destruct (Z.to_nat n) as [|k] eqn:En; [lia|]. rewrite last_map_seq.
      pose proof (K k ltac:(lia)) as K0. cbn [Nat.add]. replace (u + INR k * h) with (1 / 2 * (1 + c)) in K0; [exact K0|].
      unfold h. rewrite INR_IZR_INZ. replace (Z.of_nat k) with (n - 1)%Z by lia. unfold u. field. lra.
  Qed.

  Lemma pv_grid_limits a b n ws g : a < b -> a <= r_energy r <= b -> (2 <= n)%Z ->
    res_probability_grid r (Limits a b) n = (ws, Ok (Some g)) -> inverted ws ->
    exists xs, g = map Finite xs /\ Z.of_nat (List.length xs) = n /\ first xs = a /\ final xs = b /\
      almost_equal_grid (r_integrated r) (fun E => r_integrated r * pvf p E) ((F b - F a) / IZR (n - 1)) (2 * accuracy p) xs.
  Proof.
    intros Hab HE' Hn E I. unfold res_probability_grid in E. rewrite HP, !Hcdf in E. cbn [bind] in E.
    fold (F a) in E. fold (F b) in E. rewrite (linspace_ok _ _ n Hn) in E.
    pose proof (dens_incr _ _ D a b Hab) as Lt. fold F in Lt.
    rewrite Hppf in E. set (h := (F b - F a) / IZR (n - 1)) in *.
    destruct (pv_ppf modern p _) as [w res] eqn:EP. injection E as <- E.
    destruct res as [[l|]| |]; cbn [bind] in E; try discriminate.
    destruct (ppf_inverted p V _ _ _ _ EP I) as (rs & -> & -> & N & Sx).
    specialize (Sx (quantile_sorted (F a) h (Z.to_nat n) (step_pos (F a) (F b) n Hn Lt))).
    destruct (Forall2_seq _ _ _ _ _ N) as [Er K]. set (x := fun j => nth j rs 0) in *. cbn [Nat.add] in K.
    assert (n1 : 1 <= IZR (n - 1)) by (apply IZR_le; lia).
    rewrite Er, map_map in E. rewrite Er in Sx.
    rewrite (set_ends (fun i => Finite (x i)) (Z.to_nat n) (Finite a) (Finite b) (fun l => Ok (Some l))) in E by lia.
    injection E as <-.
    set (y := fun i => if Nat.eqb i 0 then a else if Nat.eqb i (Z.to_nat n - 1) then b else x i).
    assert (Elast : F a + INR (Z.to_nat n - 1) * h = F b).
    { unfold h. rewrite INR_IZR_INZ. replace (Z.of_nat (Z.to_nat n - 1)) with (n - 1)%Z by lia. field. lra. }
    assert (M : F (r_energy r) = 1 / 2) by (rewrite <- HE; apply pv_median).
    pose proof (dens_le _ _ D a (r_energy r) ltac:(lra)) as La. pose proof (dens_le _ _ D (r_energy r) b ltac:(lra)) as Lb.
    fold F in La, Lb. rewrite M in La, Lb.
    assert (X0 : a <= x 0%nat).
    { pose proof (K 0%nat ltac:(lia)) as K0. cbn [INR] in K0. replace (F a + 0 * h) with (F a) in K0 by ring.
      destruct (near_left _ _ K0 ltac:(lra)) as [_ B]. apply (dens_le_inv _ _ D). apply B. }
    assert (X1 : x (Z.to_nat n - 1)%nat <= b).
    { pose proof (K (Z.to_nat n - 1)%nat ltac:(lia)) as K0. rewrite Elast in K0.
      destruct (near_right _ _ K0 ltac:(lra)) as [_ B]. apply (dens_le_inv _ _ D). apply B. }
    pose proof (sa_nth x _ Sx) as S1.
    exists (map y (seq 0 (Z.to_nat n))). split.
    { rewrite map_map. apply map_ext. intros i. unfold y. destruct (Nat.eqb i 0); [reflexivity|]. destruct (Nat.eqb i _); reflexivity. }
    split; [rewrite map_length, seq_length; lia|].
    split; [destruct (Z.to_nat n) eqn:En; [lia|]; reflexivity|].
    split.
    { unfold final. destruct (Z.to_nat n) as [|k] eqn:En; [lia|]. rewrite last_map_seq. unfold y. cbn [Nat.add].
      destruct (Nat.eqb_spec k 0); [lia|]. destruct (Nat.eqb_spec k (S k - 1)); [reflexivity|lia]. }
    eapply almost_cells; [lia| |].
    - apply ssorted_map_seq_lt. intros j k Hjk Hk. unfold y.
      destruct (Nat.eqb_spec k 0); [lia|]. destruct (Nat.eqb_spec j 0) as [->|].
      + destruct (Nat.eqb_spec k (Z.to_nat n - 1)); [exact Hab|].
        pose proof (S1 0%nat k ltac:(lia) ltac:(lia)). lra.
      + destruct (Nat.eqb_spec j (Z.to_nat n - 1)); [lia|].
        destruct (Nat.eqb_spec k (Z.to_nat n - 1)) as [->|].
        * pose proof (S1 j (Z.to_nat n - 1)%nat ltac:(lia) ltac:(lia)). lra.
        * apply S1; lia.
    - pose proof (accuracy_pos p V). intros j Hj. unfold y.
      destruct (Nat.eqb_spec j 0) as [->|].
      { cbn [INR]. replace (F a - (F a + 0 * h)) with 0 by ring. rewrite Rabs_R0. lra. }
      destruct (Nat.eqb_spec j (Z.to_nat n - 1)) as [->|].
      { rewrite Elast, Rminus_eq_0, Rabs_R0. lra. }
      apply near_abs; [exact V|]. apply (K j Hj).
  Qed.
End Res.
