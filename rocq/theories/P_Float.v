(** Properties with rounding: what is left of the exact statements when every operation is rounded to the
    nearest float. *)
From Coq Require Import Reals List ZArith Lra Lia Permutation Sorted String.
From Coquelicot Require Import Coquelicot.
From Flocq Require Import Core.
From Verif Require Import Py Spec M_Num M_Grid M_CrossSection S_CrossSection M_Constituents M_Resonance M_Darboux M_Float S_Float
  L_Float L_Float2 L_Float3 L_Float4 L_Float5 L_Float6.
Import ListNotations.
Open Scope R_scope.
Open Scope list_scope.

(** ** C72 *)
Theorem C72_add : forall a b s E, ~ is_foreign a -> ~ is_foreign b -> ~ (is_number a /\ is_number b) -> ~ (is_sum a /\ is_sum b) ->
  double_result (float_at a E) -> double_result (float_at b E) ->
  fpy_add a b = Ok s -> fcall s E = foadd (float_at a E) (float_at b E).
Proof. exact fadd_exact. Qed.
Theorem C72_multiply : forall a c s E, is_plain a -> fpy_mul a c = Ok s -> fcall s E = foscale c (fcall a E).
Proof. exact fcs_mul_exact. Qed.
Theorem C72_negate : forall a s E, ~ is_foreign a -> ~ is_number a -> factors_double a -> double_result (fcall a E) ->
  fpy_mul a (-1) = Ok s -> fcall s E = oneg (fcall a E).
Proof. exact fneg_exact. Qed.
Theorem C72_error : forall rs ss E x, (List.length rs <= List.length ss)%nat -> List.Forall is_plain rs -> call (VSum rs ss) E = Ok x ->
  exists y vs, fcall (VSum rs ss) E = Ok y /\ List.Forall2 (fun r v => call r E = Ok v) rs vs /\
    Rabs (y - x) <= ((1 + unit_roundoff) ^ List.length rs - 1) * total_magnitude (map2 Rmult ss vs) +
      INR (List.length rs) * ((1 + unit_roundoff) ^ Nat.pred (List.length rs) * half_smallest).
Proof. exact fcall_error. Qed.
Theorem C72_nonnegative : forall rs ss E y vs, (List.length rs <= List.length ss)%nat -> List.Forall2 (fun r v => fcall r E = Ok v) rs vs ->
  List.Forall (Rle 0) ss -> List.Forall (Rle 0) vs -> fcall (VSum rs ss) E = Ok y ->
  0 <= y /\ forall i s v, nth_error ss i = Some s -> nth_error vs i = Some v -> fmul s v <= y.
Proof. exact fcall_nonneg. Qed.
Theorem C72_sum_of_sums_refuted : exists a b s E x y z, is_sum a /\ is_sum b /\ fpy_add a b = Ok s /\
  fcall a E = Ok x /\ fcall b E = Ok y /\ fcall s E = Ok z /\ double x /\ double y /\ z <> fadd x y.
Proof. exact sum_of_sums. Qed.
Theorem C72_order_refuted : exists a b c s t E x y, is_plain a /\ is_plain b /\ is_plain c /\
  py_sum [a; b; c] = Ok s /\ py_sum [c; b; a] = Ok t /\ fcall s E = Ok x /\ fcall t E = Ok y /\ x <> y.
Proof. exact order_matters. Qed.
Theorem C72_multiply_sum_refuted : exists a s E x y, is_sum a /\ fpy_mul a 3 = Ok s /\ fcall a E = Ok x /\ fcall s E = Ok y /\ y <> fmul 3 x.
Proof. exact product_of_sum. Qed.
(** A sum of two constants, as a sum and a constant. *)
Example C72_ex E : fpy_add ex_b (VConst 18014398509481984) = Ok (VSum [VConst (3 / 2); VConst (3 / 2); VConst 18014398509481984] [1; 1; 1]) /\
  fcall (VSum [VConst (3 / 2); VConst (3 / 2); VConst 18014398509481984] [1; 1; 1]) E = Ok 18014398509481988.
Proof.
  split; [reflexivity|]. refine (eq_trans (fadd_exact ex_b (VConst 18014398509481984) _ E _ _ _ _ _ _ eq_refl) _); cbn [is_foreign is_number is_sum ex_b]; try tauto.
  - change (double_result (fcall ex_b E)). rewrite ex_b_val. apply double_int. lia.
  - apply double_big.
  - change (foadd (fcall ex_b E) (Ok 18014398509481984) = Ok 18014398509481988). rewrite ex_b_val. cbn [foadd]. now rewrite fadd_comm, big_plus3.
Qed.

(** ** C73 *)
(** The upper sum is the lower sum of the negated values with the opposite sign. *)
Theorem C73_sums_in_order : forall t fx x, grid x -> List.length fx = List.length x -> order_of (List.length x - 1) t ->
  let L := fst (fdarboux t fx x) in let U := - fst (fdarboux t (map Ropp fx) x) in
  double L /\ double U /\ L <= U /\ snd (fdarboux t fx x) = fsub U L.
Proof. exact fdarboux_difference. Qed.
Theorem C73_monotone : forall t fx gx x, grid x -> List.length fx = List.length x -> order_of (List.length x - 1) t ->
  List.Forall2 Rle fx gx -> fst (fdarboux t fx x) <= fst (fdarboux t gx x).
Proof. exact fdarboux_monotone. Qed.
Theorem C73_nonnegative : forall t fx x, grid x -> List.Forall (Rle 0) fx -> 0 <= fst (fdarboux t fx x).
Proof. exact fdarboux_nonneg. Qed.
Theorem C73_constant : forall t c x, snd (fdarboux t (map (fun _ => c) x) x) = 0.
Proof. exact fdarboux_constant. Qed.
Theorem C73_error : forall t fx x L d L0 d0, grid x -> List.length fx = List.length x -> x <> [] -> order_of (List.length x - 1) t ->
  fdarboux t fx x = (L, d) -> darboux (Values fx) x = Ok (L0, d0) ->
  let B := rounding_bound (depth_of t) (List.length x - 1) 0 (magnitude_sum fx x) in
  Rabs (L - L0) <= B /\ Rabs (d - d0) <= unit_roundoff * d0 + 2 * (1 + unit_roundoff) * B.
Proof. exact fdarboux_error. Qed.
Theorem C73_encloses : forall t f g x delta L d, grid x -> x <> [] -> order_of (List.length x - 1) t ->
  0 <= delta -> (forall y, In y x -> Rabs (g y - f y) <= delta * Rabs (f y)) ->
  (forall a b, In (a, b) (cells x) -> monotone_on f a b) -> ex_RInt f (first x) (final x) ->
  fdarboux t (map g x) x = (L, d) ->
  let B := rounding_bound (depth_of t) (List.length x - 1) delta (magnitude_sum (map f x) x) in
  L - B <= RInt f (first x) (final x) <= L + (1 + 2 * unit_roundoff) * d + B.
Proof. exact fdarboux_encloses. Qed.
(** The bound is small, and there is an order of summation with a small depth. *)
Theorem C73_bound_size : forall n, (n <= 2 ^ 52)%nat -> (1 + unit_roundoff) ^ n - 1 <= 2 * INR n * unit_roundoff.
Proof. exact bound_size. Qed.
Theorem C73_order_exists : forall n, exists t, order_of n t /\ (depth_of t <= Nat.log2_up n)%nat.
Proof. exact order_exists. Qed.
Theorem C73_exact_enclosure_refuted : exists t f x L d, grid x /\ order_of (List.length x - 1) t /\ (forall y, double (f y)) /\
  (forall a b, In (a, b) (cells x) -> monotone_on f a b) /\ ex_RInt f (first x) (final x) /\
  fdarboux t (map f x) x = (L, d) /\ d = 0 /\ L + d < RInt f (first x) (final x).
Proof. exact lost_enclosure. Qed.
Example C73_ex : grid [1; 2; 4] /\ order_of (List.length [1; 2; 4] - 1) (Some (Plus (Index 0) (Index 1))) /\
  fdarboux (Some (Plus (Index 0) (Index 1))) [1; 3; 2] [1; 2; 4] = (5, 4).
Proof.
  assert (I : forall z, (Z.abs z < 2 ^ 53)%Z -> double (IZR z)) by exact double_int.
  split; [split; [repeat constructor; lra|repeat constructor; apply I; lia]|]. split; [apply Permutation_refl|].
  unfold fdarboux, fdifferences, roll1. cbn [removelast last app map2 tl np_sum np_sum_in nth]. rewrite (Rmin_left 1 3), (Rmin_right 3 2), (Rmax_right 1 3), (Rmax_left 3 2) by lra.
  unfold fsub, fmul, fadd. replace (2 - 1) with 1 by lra. replace (4 - 2) with 2 by lra. rewrite (rnd_id 1), (rnd_id 2) by (apply I; lia).
  replace (1 * 1) with 1 by lra. replace (2 * 2) with 4 by lra. replace (3 * 1) with 3 by lra. replace (3 * 2) with 6 by lra.
  rewrite (rnd_id 1), (rnd_id 3), (rnd_id 4), (rnd_id 6) by (apply I; lia). replace (1 + 4) with 5 by lra. replace (3 + 6) with 9 by lra.
  rewrite (rnd_id 5), (rnd_id 9) by (apply I; lia). replace (9 - 5) with 4 by lra. rewrite (rnd_id 4) by (apply I; lia). rewrite Rabs_pos_eq by lra. reflexivity.
Qed.

(** ** C74 *)
Theorem C74_grid : forall a b n, double a -> double b -> a <= b -> (2 <= n <= 2 ^ 50)%Z -> no_underflow a b n ->
  exists xs ys, flinspace a b n = Ok xs /\ linspace a b n = Ok ys /\
    List.length xs = Z.to_nat n /\ ascending xs /\ List.Forall (fun x => double x /\ a <= x <= b) xs /\ first xs = a /\ final xs = b /\
    List.Forall2 (fun x y => Rabs (x - y) <= 8 * unit_roundoff * Rmax (Rabs a) (Rabs b)) xs ys.
Proof. exact flinspace_grid. Qed.
Theorem C74_strict : forall a b n xs, double a -> double b -> a <= b -> (2 <= n <= 2 ^ 50)%Z -> no_underflow a b n ->
  16 * unit_roundoff * Rmax (Rabs a) (Rabs b) < (b - a) / IZR (n - 1) -> flinspace a b n = Ok xs -> StronglySorted Rlt xs.
Proof. exact flinspace_strict. Qed.
Theorem C74_distinct_refuted : exists a b n xs, double a /\ double b /\ a < b /\ (2 <= n <= 2 ^ 50)%Z /\ no_underflow a b n /\
  flinspace a b n = Ok xs /\ ~ NoDup xs.
Proof. exact repeated_points. Qed.
Theorem C74_underflow_refuted : exists a b n xs, double a /\ double b /\ a < b /\ (2 <= n <= 2 ^ 50)%Z /\
  flinspace a b n = Ok xs /\ ~ ascending xs.
Proof. exact descending_points. Qed.
(** From 0 to 10 MeV with 1001 points. *)
Example C74_ex : double 0 /\ double 10 /\ 0 <= 10 /\ (2 <= 1001 <= 2 ^ 50)%Z /\ no_underflow 0 10 1001 /\
  16 * unit_roundoff * Rmax (Rabs 0) (Rabs 10) < (10 - 0) / IZR (1001 - 1).
Proof.
  split; [apply double_0|]. split; [apply double_int; lia|]. split; [lra|]. split; [lia|]. split.
  - right. apply Rle_trans with (bpow radix2 (-60) * 1000).
    + apply Rmult_le_compat_r; [apply IZR_le; lia|apply bpow_le; lia].
    + change (bpow radix2 (-60)) with (/ 1152921504606846976). lra.
  - rewrite Rabs_R0, (Rabs_pos_eq 10), Rmax_right by lra. change (IZR (1001 - 1)) with 1000. pose proof u_small as K. change unit_roundoff with u.
    assert (u < / 1000000).
    { unfold u. apply Rinv_lt_contravar; [apply Rmult_lt_0_compat; [lra|apply pow_lt; lra]|]. apply Rlt_le_trans with (2 ^ 20); [simpl; lra|]. apply Rle_pow; [lra|lia]. }
    lra.
Qed.

(** ** C75 *)
Theorem C75_width_error : forall J tJ p E pw s s0 w w0, dict_ok pw -> List.Forall double (dvalues pw) ->
  fState J tJ p E pw = Ok s -> State J tJ p E pw = Ok s0 -> width s = Ok w -> width s0 = Ok w0 ->
  Rabs (w - w0) <= ((1 + unit_roundoff) ^ Nat.pred (List.length pw) - 1) * total_magnitude (dvalues pw).
Proof. exact width_error. Qed.
Theorem C75_width_bounds : forall J tJ p E pw s w, dict_ok pw -> List.Forall double (dvalues pw) -> List.Forall (Rle 0) (dvalues pw) ->
  fState J tJ p E pw = Ok s -> width s = Ok w ->
  double w /\ (forall j g, In (j, g) pw -> 0 <= g <= w) /\ (w = 0 <-> List.Forall (eq 0) (dvalues pw)).
Proof. exact fwidth_bounds. Qed.
Theorem C75_branching_range : forall J tJ p E pw s w f b, dict_ok pw -> List.Forall double (dvalues pw) -> List.Forall (Rle 0) (dvalues pw) ->
  fState J tJ p E pw = Ok s -> width s = Ok w -> fget_final_state_branching_ratio s (Some f) = Ok b -> 0 <= b <= 1 /\ double b.
Proof. exact fbranching_range. Qed.
Theorem C75_branching_defined : forall J tJ p E pw s w f g, dict_ok pw -> List.Forall double (dvalues pw) -> List.Forall (Rle 0) (dvalues pw) ->
  fState J tJ p E pw = Ok s -> width s = Ok w -> In (st_J_pi f, g) pw -> 0 < g -> exists b, fget_final_state_branching_ratio s (Some f) = Ok b.
Proof. exact fbranching_positive. Qed.
Theorem C75_single_channel : forall J tJ p E j g s f, double g -> g <> 0 -> fState J tJ p E [(j, g)] = Ok s -> st_J_pi f = j ->
  fget_final_state_branching_ratio s (Some f) = Ok 1.
Proof. exact fbranching_single. Qed.
Theorem C75_branching_sum : forall J tJ p E pw s w fs, dict_ok pw -> List.Forall double (dvalues pw) -> List.Forall (Rle 0) (dvalues pw) -> (List.length pw <= 2 ^ 51)%nat ->
  fState J tJ p E pw = Ok s -> width s = Ok w -> w <> 0 -> Permutation (map st_J_pi fs) (dkeys pw) ->
  exists brs, traverse (fun f => fget_final_state_branching_ratio s (Some f)) fs = Ok brs /\
    Rabs (Rsum brs - 1) <= 2 * ((1 + unit_roundoff) ^ List.length pw - 1) + INR (List.length pw) * half_smallest.
Proof. exact fbranching_sum. Qed.
Theorem C75_element_mass : forall t isotopes abundances m, dict_ok isotopes -> dict_ok abundances ->
  List.Forall (fun ki => 0 <= iso_mass (snd ki)) isotopes -> List.Forall (Rle 0) (dvalues abundances) -> order_of (List.length isotopes) t ->
  amu_from_isotopic_composition (fun m a => Ok (m * a)) py_sum_R abundances isotopes = Ok m ->
  exists m', famu t abundances isotopes = Ok m' /\ 0 <= m' /\
    Rabs (m' - m) <= ((1 + unit_roundoff) ^ S (depth_of t) - 1) * m + INR (List.length isotopes) * ((1 + unit_roundoff) ^ depth_of t * half_smallest).
Proof. exact famu_error. Qed.
Theorem C75_order_refuted : exists J tJ p E pw pw' s s' w w', dict_ok pw /\ Permutation pw pw' /\ List.Forall double (dvalues pw) /\ List.Forall (Rle 0) (dvalues pw) /\
  fState J tJ p E pw = Ok s /\ fState J tJ p E pw' = Ok s' /\ width s = Ok w /\ width s' = Ok w' /\ w <> w'.
Proof. exact width_depends_on_order. Qed.
Theorem C75_sum_is_one_refuted : exists J tJ p E pw s w fs brs, dict_ok pw /\ List.Forall double (dvalues pw) /\ List.Forall (Rle 0) (dvalues pw) /\
  fState J tJ p E pw = Ok s /\ width s = Ok w /\ w <> 0 /\ Permutation (map st_J_pi fs) (dkeys pw) /\
  traverse (fun f => fget_final_state_branching_ratio s (Some f)) fs = Ok brs /\ Rsum brs <> 1.
Proof. exact ratios_not_one. Qed.
Open Scope string_scope.
Example C75_ex : dict_ok [("0^+_1", 1); ("2^+_1", 1 / 2)] /\ List.Forall double (dvalues [("0^+_1", 1); ("2^+_1", 1 / 2)]) /\
  List.Forall (Rle 0) (dvalues [("0^+_1", 1); ("2^+_1", 1 / 2)]) /\ (exists s, fState "1^-_1" 2 (-1) 1 [("0^+_1", 1); ("2^+_1", 1 / 2)] = Ok s /\ width s = Ok (3 / 2)).
Proof.
  assert (D : double (1 / 2)) by (apply (double_scaled 1 (-1) (/ 2)); [reflexivity|lia|lia]). split; [repeat constructor; cbn; intuition discriminate|]. split; [repeat constructor; [apply double_1|exact D]|].
  split; [repeat constructor; cbn; lra|]. destruct (fstate_total "1^-_1" 2 (-1) 1 [("0^+_1", 1); ("2^+_1", 1 / 2)]) as (s & H & _ & W & _); [repeat constructor; cbn; intuition discriminate|].
  exists s. split; [exact H|]. rewrite W. f_equal. unfold fsum. cbn [dvalues map snd fold_left]. rewrite (fadd_0_l 1 double_1). unfold fadd. replace (1 + 1 / 2) with (3 / 2) by lra. apply rnd_id, double_15.
Qed.

Print Assumptions C72_add.
Print Assumptions C72_multiply.
Print Assumptions C72_negate.
Print Assumptions C72_error.
Print Assumptions C72_nonnegative.
Print Assumptions C72_sum_of_sums_refuted.
Print Assumptions C72_order_refuted.
Print Assumptions C72_multiply_sum_refuted.
Print Assumptions C73_sums_in_order.
Print Assumptions C73_monotone.
Print Assumptions C73_nonnegative.
Print Assumptions C73_constant.
Print Assumptions C73_error.
Print Assumptions C73_encloses.
Print Assumptions C73_bound_size.
Print Assumptions C73_order_exists.
Print Assumptions C73_exact_enclosure_refuted.
Print Assumptions C74_grid.
Print Assumptions C74_strict.
Print Assumptions C74_distinct_refuted.
Print Assumptions C74_underflow_refuted.
Print Assumptions C75_width_error.
Print Assumptions C75_width_bounds.
Print Assumptions C75_branching_range.
Print Assumptions C75_branching_defined.
Print Assumptions C75_single_channel.
Print Assumptions C75_branching_sum.
Print Assumptions C75_element_mass.
Print Assumptions C75_order_refuted.
Print Assumptions C75_sum_is_one_refuted.
