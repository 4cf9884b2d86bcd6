(** quad_partition with rounding. *)
From Coq Require Import Reals List ZArith Lra Lia Psatz.
From Flocq Require Import Core.
From Coquelicot Require Import Coquelicot.
From Verif Require Import Py Spec M_Num M_Quad S_Quad M_Float S_Float M_Float4 M_Float10 L_CrossSection2 L_Darboux L_Quad L_Float L_Float2 L_Float7 L_Float9 L_Float12 L_Float34 L_Float36 L_Float37.
Import ListNotations.
Open Scope R_scope.
Open Scope py_scope.

(** ** Sums from left to right *)
Lemma fold_fadd_error {A} (g : A -> R) (G : A -> R) d l : 0 <= d -> List.Forall (fun a => double (g a) /\ Rabs (g a - G a) <= d * Rabs (G a)) l ->
  forall acc B, double acc -> forall AC, Rabs AC <= B -> forall n, Rabs (acc - AC) <= ((1 + u) ^ n * (1 + d) - 1) * B ->
  let r := fold_left (fun acc a => fadd acc (g a)) l acc in
  double r /\ Rabs (r - (AC + Rsum (map G l))) <= ((1 + u) ^ (n + List.length l) * (1 + d) - 1) * (B + Rsum (map (fun a => Rabs (G a)) l)).
Proof.
  intros Hd F. induction F as [|a l (Da & Ea) F IH]; intros acc B Dacc AC HB n H; cbn [fold_left map List.length].
  - rewrite Nat.add_0_r. cbn. rewrite !Rplus_0_r. now split.
  - rewrite !Rsum_cons', <- !Rplus_assoc. replace (n + S (List.length l))%nat with (S n + List.length l)%nat by lia.
    apply (IH (fadd acc (g a)) (B + Rabs (G a)) (rnd_double _) (AC + G a)).
    + eapply Rle_trans; [apply Rabs_triang|]. lra.
    + pose proof (pow_ge_1 n) as P1. pose proof u_pos. assert (Q : 1 <= (1 + u) ^ n * (1 + d)) by nra.
      eapply Rle_trans; [apply (fadd_step acc (g a) AC (G a) B (Rabs (G a)) ((1 + u) ^ n * (1 + d)) Dacc Da Q HB (Rle_refl _) H)|].
      * eapply Rle_trans; [exact Ea|]. apply Rmult_le_compat_r; [apply Rabs_pos|]. nra.
      * cbn [pow]. right. ring.
Qed.
(** The first addition is exact. *)
Lemma fadd_0 x : double x -> fadd 0 x = x.
Proof. intros D. unfold fadd. rewrite Rplus_0_l. now apply rnd_id. Qed.
Lemma sum_error {A} (g G : A -> R) d l : 0 <= d -> List.Forall (fun a => double (g a) /\ Rabs (g a - G a) <= d * Rabs (G a)) l ->
  let r := fold_left (fun acc a => fadd acc (g a)) l 0 in
  double r /\ Rabs (r - Rsum (map G l)) <= ((1 + u) ^ (List.length l - 1) * (1 + d) - 1) * Rsum (map (fun a => Rabs (G a)) l).
Proof.
  intros Hd F. destruct F as [|a l (Da & Ea) F]; cbn [fold_left map List.length]; [cbn; split; [apply double_0|]; rewrite Rminus_0_r, Rabs_R0; lra|].
  rewrite fadd_0 by exact Da. rewrite !Rsum_cons'. replace (S (List.length l) - 1)%nat with (0 + List.length l)%nat by lia. apply (fold_fadd_error g G d l Hd F (g a) (Rabs (G a)) Da (G a) (Rle_refl _) 0%nat). cbn [pow]. lra.
Qed.
Lemma sqrt_normal x : double x -> 0 < x -> bpow radix2 (-1022) <= sqrt x.
Proof.
  intros D P. assert (G : bpow radix2 (-1074) <= x).
  { apply (generic_format_ge_bpow radix2 fexp64); [intros e; unfold fexp64, FLT_exp; lia|lra|exact D]. }
  apply Rle_trans with (bpow radix2 (-537)); [apply bpow_le; lia|]. rewrite <- (sqrt_square (bpow radix2 (-537))) by apply bpow_ge_0. rewrite <- bpow_plus. apply sqrt_le_1_alt. exact G.
Qed.
Section Partition.
Variables (nquad : (list R -> R) -> list (R * R) -> out (R * R)) (f : list R -> R) (x0 : list R) (rest : limits_arg) (ranges : list (R * R)) (parts : list (R * R)).
Hypothesis HR : or_empty rest = Ok ranges.
Hypothesis HP : Forall2 (fun c p => nquad f (c :: ranges) = Ok p) (cells x0) parts.
Lemma fpartition_value : fquad_partition nquad f x0 rest = Ok (fold_left (fun acc p => fadd acc (fst p)) parts 0, fsqrt (fold_left (fun acc p => fadd acc (fmul (snd p) (snd p))) parts 0)).
Proof.
  unfold fquad_partition. rewrite HR. cbn [bind]. unfold traverse. rewrite (seq_cells (fun c => nquad f (c :: ranges))).
  change (sequence (map (fun c => nquad f (c :: ranges)) (cells x0))) with (traverse (fun c => nquad f (c :: ranges)) (cells x0)).
  rewrite (proj2 (traverse_spec _ _ _) HP). reflexivity.
Qed.
Lemma fpartition_integral : List.Forall (fun p => double (fst p)) parts -> exists v err v' err', quad_partition nquad f x0 rest = Ok (v, err) /\ fquad_partition nquad f x0 rest = Ok (v', err') /\
  Rabs (v' - v) <= ((1 + unit_roundoff) ^ (List.length parts - 1) - 1) * Rsum (map (fun p => Rabs (fst p)) parts).
Proof.
  intros D. do 4 eexists. split; [exact (quad_partition_parts nquad f x0 rest ranges parts HR HP)|]. split; [exact fpartition_value|]. change unit_roundoff with u.
  destruct (sum_error (fun p : R * R => fst p) (fun p => fst p) 0 parts ltac:(lra)) as [_ B]; [|rewrite Rplus_0_r, Rmult_1_r in B; exact B].
  apply List.Forall_forall. intros p I. rewrite List.Forall_forall in D. split; [now apply D|]. unfold Rminus. rewrite Rplus_opp_r, Rabs_R0, Rmult_0_l. lra.
Qed.
Lemma sqrt_near a b d : 0 <= a -> 0 <= b -> 0 <= d -> Rabs (a - b) <= d * b -> Rabs (sqrt a - sqrt b) <= d * sqrt b.
Proof.
  intros Ha Hb Hd H. destruct (Req_dec b 0) as [->|N]; [rewrite Rmult_0_r in H; assert (a = 0) by (rewrite Rminus_0_r in H; pose proof (Rabs_pos a); destruct (Req_dec a 0) as [E|E]; [exact E|apply Rabs_no_R0 in E; lra]); subst a; rewrite sqrt_0, Rminus_0_r, Rabs_R0; lra|].
  assert (P : 0 < sqrt b) by (apply sqrt_lt_R0; lra). pose proof (sqrt_pos a) as Q. apply Rmult_le_reg_r with (sqrt b); [exact P|]. rewrite Rmult_assoc, sqrt_sqrt by lra.
  apply Rle_trans with (Rabs (sqrt a - sqrt b) * (sqrt a + sqrt b)); [apply Rmult_le_compat_l; [apply Rabs_pos|lra]|].
  rewrite <- (Rabs_pos_eq (sqrt a + sqrt b)) by lra. rewrite <- Rabs_mult. replace ((sqrt a - sqrt b) * (sqrt a + sqrt b)) with (sqrt a * sqrt a - sqrt b * sqrt b) by ring. rewrite !sqrt_sqrt by lra. exact H.
Qed.
Lemma square_near e : double e -> e = 0 \/ / 2 ^ 500 <= Rabs e -> double (fmul e e) /\ Rabs (fmul e e - e * e) <= u * Rabs (e * e).
Proof.
  intros D H. split; [apply rnd_double|]. destruct H as [->|H]; [unfold fmul; rewrite Rmult_0_l, rnd_0, Rminus_0_r, Rabs_R0; lra|].
  apply rnd_rel_any. rewrite Rabs_mult. apply Rle_trans with (/ 2 ^ 500 * / 2 ^ 500); [|apply Rmult_le_compat; try exact H; left; apply Rinv_0_lt_compat, pow_lt; lra].
  rewrite <- Rinv_mult, <- pow_add. rewrite <- bpow_neg. apply bpow_le. lia.
Qed.
Lemma rsum_squares (l : list (R * R)) : map (fun p => Rabs (snd p * snd p)) l = map (fun p => snd p * snd p) l.
Proof. apply map_ext. intros p. apply Rabs_pos_eq. nra. Qed.
Lemma fpartition_uncertainty : List.Forall (fun p => double (snd p) /\ (snd p = 0 \/ / 2 ^ 500 <= Rabs (snd p))) parts ->
  exists v err v' err', quad_partition nquad f x0 rest = Ok (v, err) /\ fquad_partition nquad f x0 rest = Ok (v', err') /\
  Rabs (err' - err) <= ((1 + unit_roundoff) ^ (List.length parts + 1) - 1) * err.
Proof.
  intros D. do 4 eexists. split; [exact (quad_partition_parts nquad f x0 rest ranges parts HR HP)|]. split; [exact fpartition_value|]. change unit_roundoff with u. pose proof u_pos as Pu.
  destruct (sum_error (fun p : R * R => fmul (snd p) (snd p)) (fun p => snd p * snd p) u parts ltac:(lra)) as [DU B].
  { apply List.Forall_forall. intros p I. rewrite List.Forall_forall in D. apply square_near; now apply D. }
  rewrite rsum_squares in B. set (U' := fold_left _ parts 0) in *. set (U := Rsum (map (fun p => snd p * snd p) parts)) in *.
  assert (PU : 0 <= U). { unfold U. clear. induction parts as [|p l IH]; [cbn; lra|]. cbn [map]. rewrite Rsum_cons'. nra. }
  assert (PU' : 0 <= U').
  { unfold U'. clear. assert (G : forall acc, 0 <= acc -> 0 <= fold_left (fun acc p => fadd acc (fmul (snd p) (snd p))) parts acc); [|apply G; lra].
    induction parts as [|p l IH]; intros acc H; [exact H|]. cbn [fold_left]. apply IH. apply rnd_nonneg. assert (0 <= fmul (snd p) (snd p)) by (apply rnd_nonneg; nra). lra. }
  destruct parts as [|p0 ps] eqn:EP; [unfold U', U, fsqrt; cbn; rewrite sqrt_0, rnd_0, Rminus_0_r, Rabs_R0, Rmult_0_r; lra|]. rewrite <- EP in *. assert (L : (1 <= List.length parts)%nat) by (rewrite EP; cbn; lia).
  assert (Q : (1 + u) ^ (List.length parts - 1) * (1 + u) = (1 + u) ^ List.length parts) by (replace (List.length parts) with (S (List.length parts - 1)) at 2 by lia; cbn [pow]; ring). rewrite Q in B.
  set (n := List.length parts) in *. pose proof (pow_ge_1 n) as Pn. pose proof (sqrt_near U' U ((1 + u) ^ n - 1) PU' PU ltac:(lra) B) as SN. pose proof (sqrt_pos U) as SP. pose proof (sqrt_pos U') as SP'.
  assert (RS : Rabs (fsqrt U' - sqrt U') <= u * sqrt U').
  { unfold fsqrt. destruct (Req_dec U' 0) as [->|NZ]; [rewrite sqrt_0, rnd_0, Rminus_0_r, Rabs_R0; lra|]. rewrite <- (Rabs_pos_eq (sqrt U')) at 3 by exact SP'. apply rnd_rel_any. rewrite Rabs_pos_eq by exact SP'.
    apply sqrt_normal; [exact DU|lra]. }
  rewrite Nat.add_1_r. cbn [pow]. replace (fsqrt U' - sqrt U) with ((fsqrt U' - sqrt U') + (sqrt U' - sqrt U)) by ring. eapply Rle_trans; [apply Rabs_triang|].
  assert (UB : sqrt U' <= (1 + u) ^ n * sqrt U) by (apply Rabs_le_inv in SN; lra). nra.
Qed.
End Partition.
(** ** The true error *)
Lemma fpartition_honest nquad f x0 rest ranges parts : x0 <> [] -> or_empty rest = Ok ranges ->
  Forall2 (fun c p => nquad f (c :: ranges) = Ok p) (cells x0) parts ->
  (forall c, In c (cells x0) -> box_integrable f (c :: ranges) /\ honest_on nquad f (c :: ranges)) ->
  List.Forall (fun p => double (fst p) /\ double (snd p) /\ (snd p = 0 \/ / 2 ^ 500 <= Rabs (snd p))) parts ->
  exists v err exact, fquad_partition nquad f x0 rest = Ok (v, err) /\ 0 <= exact /\ Rabs (err - exact) <= ((1 + unit_roundoff) ^ (List.length parts + 1) - 1) * exact /\
    Rabs (v - box_integral f ((first x0, final x0) :: ranges)) <= sqrt (INR (List.length parts)) * exact + ((1 + unit_roundoff) ^ (List.length parts - 1) - 1) * Rsum (map (fun p => Rabs (fst p)) parts).
Proof.
  intros N HR HP H D.
  destruct (fpartition_integral nquad f x0 rest ranges parts HR HP) as (v1 & e1 & v1' & e1' & Q1 & F1 & B1). { eapply List.Forall_impl; [|exact D]. cbv beta. tauto. }
  destruct (fpartition_uncertainty nquad f x0 rest ranges parts HR HP) as (v2 & e2 & v2' & e2' & Q2 & F2 & B2). { eapply List.Forall_impl; [|exact D]. cbv beta. tauto. }
  destruct (partition_honest nquad f x0 rest ranges N HR H) as (v3 & e3 & Q3 & B3).
  rewrite Q1 in Q2, Q3. rewrite F1 in F2. injection Q2 as <- <-. injection Q3 as <- <-. injection F2 as <- <-.
  assert (L : List.length parts = (List.length x0 - 1)%nat). { rewrite <- cells_length. symmetry. clear - HP. induction HP; simpl; auto. }
  exists v1', e1', e1. split; [exact F1|]. split; [|split; [exact B2|]].
  - rewrite (quad_partition_parts nquad f x0 rest ranges parts HR HP) in Q1. injection Q1 as _ <-. apply sqrt_pos.
  - replace (v1' - box_integral f ((first x0, final x0) :: ranges)) with ((v1' - v1) + (v1 - box_integral f ((first x0, final x0) :: ranges))) by ring. eapply Rle_trans; [apply Rabs_triang|]. rewrite <- L in B3. lra.
Qed.
(** ** Small estimates are lost *)
Definition tiny_nquad : (list R -> R) -> list (R * R) -> out (R * R) := fun _ _ => Ok (bpow radix2 (-540), bpow radix2 (-540)).
Lemma zero_box : box_integral (fun _ => 0) [(0, 1)] = 0.
Proof. unfold box_integral. cbn [rev app iterated]. rewrite RInt_const. unfold scal. simpl. unfold mult. simpl. ring. Qed.
Lemma partition_underflow : honest_on tiny_nquad (fun _ => 0) [(0, 1)] /\ fquad_partition tiny_nquad (fun _ => 0) [0; 1] LNone = Ok (bpow radix2 (-540), 0).
Proof.
  pose proof (bpow_gt_0 radix2 (-540)) as P. split.
  - exists (bpow radix2 (-540)), (bpow radix2 (-540)). split; [reflexivity|]. rewrite zero_box, Rminus_0_r, Rabs_pos_eq; lra.
  - unfold fquad_partition, tiny_nquad. cbn [or_empty bind List.length Nat.sub seq traverse map sequence fold_left fst snd]. rewrite fadd_0 by (apply double_bpow; lia). f_equal. f_equal.
    assert (Z : fmul (bpow radix2 (-540)) (bpow radix2 (-540)) = 0). { unfold fmul. rewrite <- bpow_plus. apply rnd_zero. split; [apply bpow_ge_0|]. unfold eta. apply Rle_trans with (bpow radix2 (-1076)); [apply bpow_le; lia|]. change (-1074)%Z with (2 + -1076)%Z. rewrite bpow_plus. change (bpow radix2 2) with 4. lra. }
    rewrite Z, fadd_0 by apply double_0. unfold fsqrt. now rewrite sqrt_0, rnd_0.
Qed.
Lemma underflow_refuted : exists nquad f x0 v, honest_on nquad f [(0, 1)] /\ x0 = [0; 1] /\
  fquad_partition nquad f x0 LNone = Ok (v, 0) /\ 0 < Rabs (v - box_integral f [(0, 1)]).
Proof.
  exists tiny_nquad, (fun _ => 0), [0; 1], (bpow radix2 (-540)). destruct partition_underflow as [A B]. pose proof (bpow_gt_0 radix2 (-540)). repeat split; auto.
  rewrite zero_box, Rminus_0_r, Rabs_pos_eq; lra.
Qed.
Lemma double_half : double (/ 2).
Proof. replace (/ 2) with (bpow radix2 (-1)) by (simpl; lra). apply double_bpow. lia. Qed.
Lemma partition_case : let nquad := fun (_ : list R -> R) (_ : list (R * R)) => Ok (1, / 2) in
  or_empty LNone = Ok [] /\ Forall2 (fun c p => nquad (fun _ => 1) (c :: []) = Ok p) (cells [0; 1; 2]) [(1, / 2); (1, / 2)] /\
  List.Forall (fun p : R * R => double (fst p) /\ double (snd p) /\ (snd p = 0 \/ / 2 ^ 500 <= Rabs (snd p))) [(1, / 2); (1, / 2)] /\
  (forall c, In c (cells [0; 1; 2]) -> box_integrable (fun _ => 1) (c :: []) /\ honest_on nquad (fun _ => 1) (c :: [])).
Proof.
  cbv zeta. split; [reflexivity|]. split; [repeat constructor|]. split.
  - assert (H : double 1 /\ double (/ 2) /\ (/ 2 = 0 \/ / 2 ^ 500 <= Rabs (/ 2))).
    { split; [apply double_1|]. split; [apply double_half|]. right. rewrite Rabs_pos_eq by lra. apply Rle_trans with (/ 2 ^ 1); [apply ipow2_le; lia|simpl; lra]. }
    constructor; [exact H|]. constructor; [exact H|]. constructor.
  - intros c Hc. assert (B : box_integral (fun _ => 1) [c] = 1).
    { unfold box_integral. destruct Hc as [<-|[<-|[]]]; cbn [rev app iterated]; rewrite RInt_const; unfold scal; simpl; unfold mult; simpl; ring. }
    split.
    + unfold box_integrable. destruct c as [a b]. cbn [rev app integrable iterated]. split; [apply ex_RInt_const|]. intros. exact I.
    + exists 1, (/ 2). split; auto. rewrite B. replace (1 - 1) with 0 by ring. rewrite Rabs_R0. lra.
Qed.
