(** Properties C09-C17: darboux and quad_partition. *)
From Coq Require Import Reals List ZArith Bool Lia Lra Sorted.
From Coquelicot Require Import Coquelicot.
From Verif Require Import Py Spec M_Num M_Grid M_CrossSection S_CrossSection M_Darboux M_Quad S_Quad
  L_Darboux L_Quad L_Integration.
Import ListNotations.
Open Scope R_scope.

(** ** C09 *)
Theorem C09_darboux_encloses_integral : forall f x, x <> [] -> ascending x ->
  (forall a b, In (a, b) (cells x) -> monotone_on f a b) ->
  ex_RInt f (first x) (final x) ->
  exists L d, darboux (vectorized f) x = Ok (L, d) /\
              L <= RInt f (first x) (final x) <= L + d.
Proof. exact darboux_encloses. Qed.

(** The hypotheses are met by the square function on a grid that has its minimum as a node. *)
Example C09_ex : let f := fun t => t * t in let x := [-1; 0; 2] in
  ascending x /\ (forall a b, In (a, b) (cells x) -> monotone_on f a b) /\
  ex_RInt f (first x) (final x) /\ darboux (vectorized f) x = Ok (0, 9).
Proof. exact darboux_example. Qed.

(** ** C10 *)
Theorem C10_darboux_true_sums : forall f x, x <> [] -> ascending x ->
  (forall a b, In (a, b) (cells x) -> monotone_on f a b) ->
  exists L d ms Ms, darboux (vectorized f) x = Ok (L, d) /\
    Forall2 (fun p m => is_inf_on f (fst p) (snd p) m) (cells x) ms /\
    Forall2 (fun p m => is_sup_on f (fst p) (snd p) m) (cells x) Ms /\
    L = Rsum (map2 (fun p m => m * (snd p - fst p)) (cells x) ms) /\
    L + d = Rsum (map2 (fun p m => m * (snd p - fst p)) (cells x) Ms).
Proof. exact darboux_true_sums. Qed.

(** ** C11 *)
Theorem C11_error_nonnegative : forall f x L d, darboux f x = Ok (L, d) -> 0 <= d.
Proof. exact darboux_error_nonneg. Qed.

Theorem C11_constant_exact : forall c x, x <> [] ->
  darboux (vectorized (fun _ => c)) x = Ok (c * (final x - first x), 0).
Proof. exact darboux_constant. Qed.

Theorem C11_error_bound : forall f x h L d, x <> [] -> ascending x ->
  monotone_on f (first x) (final x) -> 0 <= h ->
  (forall a b, In (a, b) (cells x) -> b - a <= h) ->
  darboux (vectorized f) x = Ok (L, d) ->
  d <= h * Rabs (f (final x) - f (first x)).
Proof. exact darboux_error_bound. Qed.

Theorem C11_additive : forall f l p r, ascending (l ++ p :: r) -> exists L1 d1 L2 d2,
  darboux (vectorized f) (l ++ [p]) = Ok (L1, d1) /\ darboux (vectorized f) (p :: r) = Ok (L2, d2) /\
  darboux (vectorized f) (l ++ p :: r) = Ok (L1 + L2, d1 + d2).
Proof. exact darboux_split. Qed.

(** ** C12 *)
Theorem C12_descending : forall f x, x <> [] -> exists L d,
  darboux (vectorized f) x = Ok (L, d) /\ darboux (vectorized f) (rev x) = Ok (- L, d).
Proof. exact darboux_rev. Qed.

(** ... so that the first number is not below the integral over the descending grid: it bounds it
    from above. *)
Theorem C12_descending_bounds_from_above : forall f x, x <> [] -> descending x ->
  (forall a b, In (a, b) (cells x) -> monotone_on f b a) ->
  ex_RInt f (first x) (final x) ->
  exists L d, darboux (vectorized f) x = Ok (L, d) /\
              L - d <= RInt f (first x) (final x) <= L.
Proof. exact darboux_descending. Qed.

Example C12_ex : darboux (vectorized (fun t => t * t)) [2; 0; -1] = Ok (0, 9).
Proof. exact darboux_descending_example. Qed.

(** ** C13 *)
Theorem C13_shape_error_exactly : forall fx x,
  let m := (length fx - 1)%nat in let n := (length x - 1)%nat in
  (darboux (Values fx) x = Raise ValueError <-> fx = [] \/ (m <> n /\ m <> 1 /\ n <> 1)%nat) /\
  (darboux (Values fx) x <> Raise ValueError -> exists L d, darboux (Values fx) x = Ok (L, d)).
Proof. exact darboux_shape. Qed.

(** Different numbers of values and grid points are accepted silently. *)
Theorem C13_shape_refuted : exists fx x L d, length fx <> length x /\ darboux (Values fx) x = Ok (L, d) /\
  L = 3 /\ d = 3.
Proof. exact darboux_shape_accepts. Qed.

(** ** C14 *)
Theorem C14_darboux_cross_section : forall v x, x <> [] -> (forall E, In E x -> exists r, call v E = Ok r) ->
  (constants_only v = true -> darboux (of_value v) x = Raise TypeError) /\
  (constants_only v = false -> exists f, (forall E, In E x -> call v E = Ok (f E)) /\
      darboux (of_value v) x = darboux (vectorized f) x).
Proof. exact darboux_value. Qed.

Theorem C14_constant_refuted : exists v x, (forall E, In E x -> exists r, call v E = Ok r) /\
  darboux (of_value v) x = Raise TypeError.
Proof. exact darboux_constant_cs. Qed.

(** ** C15 *)
Theorem C15_partition_independent : forall nquad f x0 rest ranges, x0 <> [] ->
  or_empty rest = Ok ranges ->
  (forall c, In c (cells x0) -> box_integrable f (c :: ranges) /\ exact_on nquad f (c :: ranges)) ->
  exists err, quad_partition nquad f x0 rest = Ok (box_integral f ((first x0, final x0) :: ranges), err).
Proof. exact partition_exact. Qed.

Example C15_ex : exists err,
  quad_partition (fun f r => Ok (box_integral f r, 0)) (fun _ => 1) [0; 5; 2] (LList [(1, 4)]) = Ok (6, err).
Proof. exact partition_example. Qed.

(** ** C16 *)
Theorem C16_error_is_root_sum_square : forall nquad f x0 rest ranges parts,
  or_empty rest = Ok ranges ->
  Forall2 (fun c p => nquad f (c :: ranges) = Ok p) (cells x0) parts ->
  exists v err, quad_partition nquad f x0 rest = Ok (v, err) /\
    v = Rsum (map fst parts) /\
    err ^ 2 = Rsum (map (fun p => snd p ^ 2) parts) /\
    (forall p, In p parts -> Rabs (snd p) <= err) /\ 0 <= err <= Rsum (map (fun p => Rabs (snd p)) parts).
Proof. exact partition_error. Qed.

Theorem C16_error_bound : forall nquad f x0 rest ranges, x0 <> [] -> or_empty rest = Ok ranges ->
  (forall c, In c (cells x0) -> box_integrable f (c :: ranges) /\ honest_on nquad f (c :: ranges)) ->
  exists v err, quad_partition nquad f x0 rest = Ok (v, err) /\
    Rabs (v - box_integral f ((first x0, final x0) :: ranges)) <= sqrt (INR (length x0 - 1)) * err.
Proof. exact partition_honest. Qed.

Theorem C16_error_bound_refuted : exists nquad, (forall f r, honest_on nquad f r) /\
  exists v err, quad_partition nquad (fun _ => 0) [0; 1; 2] LNone = Ok (v, err) /\
  err < Rabs (v - box_integral (fun _ => 0) [(0, 2)]).
Proof. exact (ex_intro _ biased_nquad (conj honest_biased biased_result)). Qed.

(** ** C17 *)
Theorem C17_omitted_or_list : forall nquad f x0 l,
  quad_partition nquad f x0 LNone = quad_partition nquad f x0 (LList []) /\
  or_empty (LList l) = Ok l.
Proof. exact (fun nquad f x0 l => conj eq_refl eq_refl). Qed.

Theorem C17_array_refuted : forall nquad f x0 l, l <> [] ->
  quad_partition nquad f x0 (LArray l) = Raise ValueError.
Proof. exact partition_array. Qed.

Print Assumptions C09_darboux_encloses_integral.
Print Assumptions C10_darboux_true_sums.
Print Assumptions C11_error_nonnegative.
Print Assumptions C11_constant_exact.
Print Assumptions C11_error_bound.
Print Assumptions C11_additive.
Print Assumptions C12_descending.
Print Assumptions C12_descending_bounds_from_above.
Print Assumptions C13_shape_error_exactly.
Print Assumptions C13_shape_refuted.
Print Assumptions C14_darboux_cross_section.
Print Assumptions C14_constant_refuted.
Print Assumptions C15_partition_independent.
Print Assumptions C16_error_is_root_sum_square.
Print Assumptions C16_error_bound.
Print Assumptions C16_error_bound_refuted.
Print Assumptions C17_omitted_or_list.
Print Assumptions C17_array_refuted.
