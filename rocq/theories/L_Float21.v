(** Probability grids with rounding. *)
From Coq Require Import Reals List ZArith Lra Lia Psatz Sorted.
From Coquelicot Require Import Coquelicot.
From Flocq Require Import Core.
From Verif Require Import Py Spec M_Num M_Dist M_Grid M_CrossSection M_Resonance S_Resonance M_Float S_Float M_Float4 M_Float6 S_Float6
  L_RInt L_Gauss L_Dist L_Constituents L_Float L_Float5 L_Float7 L_Float20.
Import ListNotations.
Open Scope R_scope.
Open Scope py_scope.

(** ** Lists *)
Definition ends {A} (a b : A) (g : nat -> A) (m i : nat) : A := if (i =? 0)%nat then a else if (i =? S m)%nat then b else g i.
Lemma ends_list {A} (a b : A) g m : a :: map g (seq 1 m) ++ [b] = map (ends a b g m) (seq 0 (S (S m))).
Proof.
  rewrite seq_S. cbn [seq]. rewrite map_app. cbn [map app]. change (ends a b g m 0) with a. f_equal. f_equal.
  - apply map_ext_in. intros i I. apply in_seq in I. unfold ends. destruct (Nat.eqb_spec i 0); [lia|]. destruct (Nat.eqb_spec i (S m)); [lia|reflexivity].
  - unfold ends. cbn [Nat.add Nat.eqb]. now rewrite Nat.eqb_refl.
Qed.
Lemma nth_seq {A} (g : nat -> A) k i x : (i < k)%nat -> nth i (map g (seq 0 k)) x = g i.
Proof.
  intros H. rewrite nth_indep with (d' := g 0%nat) by (rewrite map_length, seq_length; exact H). rewrite map_nth, seq_nth by exact H. reflexivity.
Qed.

Section Grid.
Variables (f : family) (d : fdist) (l s : R).
Hypothesis (K : fdist_ok f d) (L : fline l s).
Let F := line_cdf f l s.
Definition val (q : R) : Rbar := match fppf d l s q with Ok v => v | _ => m_infty end.
Lemma fppf_val q : 0 <= q <= 1 -> fppf d l s q = Ok (val q).
Proof.
  intros H. pose proof (s_pos l s L). unfold val, fppf. destruct (Rlt_dec 0 s); [|lra]. destruct (Rlt_dec q 0); [lra|]. destruct (Rlt_dec 1 q); [lra|].
  destruct (Req_EM_T q 0); [reflexivity|]. destruct (Req_EM_T q 1); reflexivity.
Qed.
Lemma val_finite q : double q -> 0 < q < 1 -> val q = Finite (real (val q)) /\ Rabs (F (real (val q)) - q) <= (11 + Rabs l / s) * u.
Proof. intros D H. destruct (fppf_ok f d l s K L q D H) as (x & E & _ & B). unfold val. rewrite E. split; [reflexivity|exact B]. Qed.

(** ** Quantiles *)
Variables (p q P Q : R) (m : nat).
Let n := Z.of_nat (S (S m)).
Let h := (Q - P) / INR (S m).
Hypothesis (Dp : double p) (Dq : double q) (Rp : 0 <= p <= 1) (Rq : 0 <= q <= 1) (RP : 0 <= P <= 1) (RQ : 0 <= Q <= 1).
Hypothesis (Ep : Rabs (p - P) <= 7 * u) (Eq : Rabs (q - Q) <= 7 * u).
Hypothesis (Hn : (n <= 2 ^ 50)%Z) (Hh : 2 * blur l s < h).
Lemma blur_ge : 32 * u <= blur l s.
Proof.
  unfold blur. change unit_roundoff with u. pose proof (s_pos l s L). pose proof u_pos. assert (0 <= Rabs l / s) by (apply Rmult_le_pos; [apply Rabs_pos|left; now apply Rinv_0_lt_compat]). nra.
Qed.
Lemma Sm_pos : 1 <= INR (S m).
Proof. rewrite S_INR. pose proof (pos_INR m). lra. Qed.
Lemma QP : Q - P = INR (S m) * h.
Proof. unfold h. pose proof Sm_pos. field. lra. Qed.
Lemma pq_gap : 50 * u * INR (S m) <= q - p.
Proof.
  pose proof Sm_pos. pose proof QP as X. pose proof blur_ge. pose proof u_pos. apply Rabs_le_inv in Ep, Eq. assert (64 * u * INR (S m) <= h * INR (S m)) by (apply Rmult_le_compat_r; lra). nra.
Qed.
Lemma pq_le : p <= q.
Proof. pose proof pq_gap. pose proof Sm_pos. pose proof u_pos. nra. Qed.
Lemma n1 : IZR (n - 1) = INR (S m).
Proof. rewrite INR_IZR_INZ. f_equal. unfold n. lia. Qed.
Lemma nu : no_underflow p q n.
Proof.
  right. rewrite n1. pose proof pq_gap as H. pose proof Sm_pos. eapply Rle_trans; [|exact H]. apply Rmult_le_compat_r; [lra|]. pose proof u_pos as U. apply Rle_trans with u; [|clear - U; lra].
  unfold u. replace (/ 2 ^ 53) with (bpow radix2 (-53)); [apply bpow_le; lia|]. change (bpow radix2 (-53)) with (/ 9007199254740992). simpl. lra.
Qed.
Let pt := flinspace_point p q n.
Lemma n_range : (2 <= n <= 2 ^ 50)%Z.
Proof. split; [unfold n; lia|exact Hn]. Qed.
Lemma n_index i : (i <= m)%nat -> (Z.of_nat i < n - 1)%Z.
Proof. unfold n. lia. Qed.
Lemma pt_range i : (i <= m)%nat -> p <= pt i <= q.
Proof. intros H. exact (point_range p q n Dp Dq pq_le n_range nu i (n_index i H)). Qed.
Lemma pt_double i : double (pt i).
Proof. apply rnd_double. Qed.
Lemma convex t : 0 <= t <= 1 -> Rabs ((p + t * (q - p)) - (P + t * (Q - P))) <= 7 * u.
Proof. intros H. apply Rabs_le_inv in Ep, Eq. apply Rabs_le. nra. Qed.
Lemma pt_error i : (i <= m)%nat -> Rabs (pt i - (P + INR i * h)) <= 15 * u.
Proof.
  intros H. assert (E : Rabs (pt i - (p + INR i * ((q - p) / IZR (n - 1)))) <= 8 * u * Rmax (Rabs p) (Rabs q)) by exact (point_error p q n Dp Dq pq_le n_range nu i (n_index i H)).
  rewrite n1 in E. pose proof Sm_pos as Ps. pose proof u_pos. assert (M : Rmax (Rabs p) (Rabs q) <= 1) by (apply Rmax_lub; rewrite Rabs_pos_eq; lra).
  assert (T : 0 <= INR i / INR (S m) <= 1).
  { pose proof (pos_INR i). assert (INR i <= INR (S m)) by (apply le_INR; lia). split; [apply Rmult_le_pos; [lra|left; apply Rinv_0_lt_compat; lra]|]. apply (Rmult_le_reg_r (INR (S m))); [lra|]. unfold Rdiv. rewrite Rmult_assoc, Rinv_l by lra. lra. }
  pose proof (convex _ T) as C. replace (INR i / INR (S m) * (q - p)) with (INR i * ((q - p) / INR (S m))) in C by (field; lra).
  replace (INR i / INR (S m) * (Q - P)) with (INR i * h) in C by (unfold h; field; lra).
  assert (8 * u * Rmax (Rabs p) (Rabs q) <= 8 * u) by nra. apply Rabs_le_inv in C, E. apply Rabs_le. lra.
Qed.
Lemma pt_inner i : (1 <= i <= m)%nat -> 0 < pt i < 1.
Proof.
  intros H. pose proof (pt_error i ltac:(lia)) as E. apply Rabs_le_inv in E. pose proof blur_ge. pose proof u_pos. pose proof QP as X.
  assert (1 <= INR i) by (apply (le_INR 1); lia). assert (INR i + 1 <= INR (S m)) by (rewrite <- S_INR; apply le_INR; lia).
  assert (Y1 : h <= INR i * h) by nra. assert (Y2 : (INR i + 1) * h <= INR (S m) * h) by (apply Rmult_le_compat_r; lra). lra.
Qed.
Lemma inner_error i : (1 <= i <= m)%nat -> val (pt i) = Finite (real (val (pt i))) /\ Rabs (F (real (val (pt i))) - (P + INR i * h)) <= blur l s.
Proof.
  intros H. destruct (val_finite (pt i) (pt_double i) (pt_inner i H)) as [V E]. split; [exact V|]. pose proof (pt_error i ltac:(lia)) as E2. unfold blur. change unit_roundoff with u. pose proof u_pos. apply Rabs_le_inv in E, E2. apply Rabs_le. lra.
Qed.
Lemma qs_ok : flinspace p q n = Ok (map pt (seq 0 (S m)) ++ [q]).
Proof. rewrite flinspace_ok by (unfold n; lia). do 3 f_equal. f_equal. unfold n. lia. Qed.
Lemma ppf_ok : traverse (fppf d l s) (map pt (seq 0 (S m)) ++ [q]) = Ok (map val (map pt (seq 0 (S m)) ++ [q])).
Proof.
  apply traverse_ok. intros y I. apply fppf_val. apply in_app_iff in I. destruct I as [I|[<-|[]]]; [|lra]. apply in_map_iff in I. destruct I as (i & <- & I). apply in_seq in I.
  pose proof (pt_range i ltac:(lia)). lra.
Qed.

(** ** The points *)
Lemma points_ok (a b : R) xs : xs = map (ends a b (fun i => real (val (pt i))) m) (seq 0 (S (S m))) ->
  Rabs (F a - P) <= blur l s -> Rabs (F b - Q) <= blur l s ->
  first xs = a /\ final xs = b /\ strictly_ascending xs /\ equidistant_to F P Q n (blur l s) xs.
Proof.
  intros -> Ea Eb. pose proof QP as X. set (g := ends a b _ m).
  assert (E : forall i, (i < S (S m))%nat -> Rabs (F (g i) - (P + INR i * h)) <= blur l s).
  { intros i Hi. unfold g, ends. destruct (Nat.eqb_spec i 0) as [->|N0]; [change (INR 0) with 0; now rewrite Rmult_0_l, Rplus_0_r|].
    destruct (Nat.eqb_spec i (S m)) as [->|N1]; [rewrite <- X; now replace (P + (Q - P)) with Q by ring|]. apply inner_error. lia. }
  split; [reflexivity|]. split; [|split; [|split]].
  - unfold final. rewrite seq_S, map_app. cbn [map Nat.add]. rewrite last_last. unfold g, ends. cbn [Nat.eqb]. now rewrite Nat.eqb_refl.
  - apply sorted_map_seq. intros i j [I1 I2]. pose proof (E i ltac:(lia)) as E1. pose proof (E j I2) as E2. apply Rabs_le_inv in E1, E2.
    assert (INR i + 1 <= INR j) by (rewrite <- S_INR; apply le_INR; lia). pose proof blur_ge. pose proof u_pos.
    assert (LT : F (g i) < F (g j)) by nra. unfold F in LT. rewrite !line_F0 in LT. apply (dens_lt_inv _ _ (F0_density f)) in LT. pose proof (s_pos l s L) as Ps.
    apply (Rmult_lt_compat_r s) in LT; [|exact Ps]. unfold Rdiv in LT. rewrite !Rmult_assoc, Rinv_l in LT by lra. lra.
  - rewrite map_length, seq_length. unfold n. lia.
  - intros i Hi. assert (Hi' : (i < S (S m))%nat) by (unfold n in Hi; lia). rewrite nth_seq by exact Hi'. rewrite n1. apply E. exact Hi'.
Qed.
Lemma finite_list a b : map Finite (map (ends a b (fun i => real (val (pt i))) m) (seq 0 (S (S m)))) = Finite a :: map val (map pt (seq 1 m)) ++ [Finite b].
Proof.
  rewrite <- ends_list. cbn [map]. rewrite map_app. cbn [map]. do 2 f_equal. rewrite !map_map. apply map_ext_in. intros i I. apply in_seq in I. symmetry. apply inner_error. lia.
Qed.
End Grid.

Lemma split_n n : (2 <= n)%Z -> exists m, n = Z.of_nat (S (S m)).
Proof. intros H. exists (Z.to_nat (n - 2)). lia. Qed.
Lemma set_ends {A} (x y a b : A) r : (let! g := set_first (x :: r ++ [y]) a in set_last g b) = Ok (a :: r ++ [b]).
Proof. cbn [set_first bind]. unfold set_last. cbn [bind]. rewrite app_comm_cons. now rewrite removelast_last. Qed.

(** ** Grids between two energies *)
Lemma limits_grid f d l s a b n : fdist_ok f d -> fline l s -> double a -> double b -> (2 <= n <= 2 ^ 50)%Z ->
  2 * blur l s < (line_cdf f l s b - line_cdf f l s a) / IZR (n - 1) ->
  exists xs, fprobability_grid d l s (Limits a b) n = Ok (map Finite xs) /\ first xs = a /\ final xs = b /\ strictly_ascending xs /\
    equidistant_to (line_cdf f l s) (line_cdf f l s a) (line_cdf f l s b) n (blur l s) xs.
Proof.
  intros K L Da Db Hn H. destruct (split_n n (proj1 Hn)) as (m & ->). destruct (fcdf_ok f d l s K L a Da) as (p & Ep & Dp & Rp & Bp). destruct (fcdf_ok f d l s K L b Db) as (q & Eq & Dq & Rq & Bq).
  assert (RP : 0 <= line_cdf f l s a <= 1) by (rewrite line_F0; pose proof (F0_range f ((a - l) / s)); lra).
  assert (RQ : 0 <= line_cdf f l s b <= 1) by (rewrite line_F0; pose proof (F0_range f ((b - l) / s)); lra).
  rewrite (n1 m) in H. unfold fprobability_grid. rewrite Ep. cbn [bind]. rewrite Eq. cbn [bind]. rewrite (qs_ok p q m). cbn [bind].
  rewrite (ppf_ok d l s L p q _ _ m Dp Dq Rp Rq RP RQ Bp Bq (proj2 Hn) H). cbn [bind].
  change (seq 0 (S m)) with (0%nat :: seq 1 m). cbn [map app]. rewrite map_app. cbn [map]. rewrite set_ends.
  eexists. split; [rewrite <- (finite_list f d l s K L p q _ _ m Dp Dq Rp Rq RP RQ Bp Bq (proj2 Hn) H a b); reflexivity|].
  pose proof (blur_ge l s L) as G. pose proof u_pos.
  apply (points_ok f d l s K L p q _ _ m Dp Dq Rp Rq RP RQ Bp Bq (proj2 Hn) H); [reflexivity| |]; rewrite Rminus_diag_eq, Rabs_R0 by reflexivity; lra.
Qed.
