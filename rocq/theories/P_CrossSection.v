(** Properties C01-C03, C05-C08: arithmetic of cross sections and their grids. *)
From Coq Require Import Reals List ZArith Bool Lia Lra Sorted Permutation.
From Coquelicot Require Import Rbar.
From Verif Require Import Py Spec M_Num M_Grid M_CrossSection S_CrossSection
  L_CrossSection L_Grid L_CrossSection2.
Import ListNotations.
Open Scope R_scope.

(** Concrete objects used in the non-vacuity examples. *)
Definition ex_line : leaf := {| l_call := fun E => Ok (2 * E); l_pgrid := fun _ _ => Ok (Some [Finite 1; Finite 3]) |}.
Definition ex_bad : leaf := {| l_call := fun E => if Rlt_dec E 0 then Raise ValueError else Ok 1;
                               l_pgrid := fun _ _ => Ok (Some [Finite 2; p_infty]) |}.

(** ** C01 *)
Theorem C01_add_pointwise : forall a b s,
  ~ is_foreign a -> ~ is_foreign b -> ~ (is_number a /\ is_number b) ->
  py_add a b = Ok s ->
  forall E, call s E = oadd (at_energy a E) (at_energy b E).
Proof. exact (fun a b s Fa Fb N H E => py_add_call a b s E Fa Fb N H). Qed.

Theorem C01_add_returns : forall a b,
  ~ is_foreign b -> enough_factors a -> enough_factors b ->
  exists s, py_add a b = Ok s /\ enough_factors s /\ ~ is_foreign s /\
            (is_number s <-> (is_number a \/ is_foreign a) /\ is_number b).
Proof. exact py_add_ok. Qed.

(** Arrays: a call with an array returns, element by element, what calls with its elements return
    (a plain number standing for all elements exactly if only constants are involved). *)
Theorem C01_arrays_elementwise : forall v Es,
  Es <> [] -> (forall E, In E Es -> exists r, call v E = Ok r) ->
  exists x, call_arr v Es = Ok x /\
    match x with Scalar a => forall E, In E Es -> call v E = Ok a
               | Array l => Forall2 (fun E y => call v E = Ok y) Es l end /\
    ((exists a, x = Scalar a) <-> constants_only v = true).
Proof. exact call_arr_spec. Qed.

Example C01_ex : exists s, py_add (VLeaf ex_line) (VSum [VLeaf ex_bad; VConst 5] [3; 7]) = Ok s /\
  call s 10 = Ok 58 /\ call s (-1) = Raise ValueError.
Proof.
  eexists; split; [reflexivity|]; split; simpl; destruct (Rlt_dec _ 0); try lra; simpl; auto.
  f_equal; lra.
Qed.
Example C01_ex2 : exists s, py_add (VNum 4) (VLeaf ex_line) = Ok s /\ call s 10 = Ok 24.
Proof. eexists; split; [reflexivity|]. simpl. f_equal; lra. Qed.

(** ** C02 *)
Theorem C02_mul_pointwise : forall a c s, ~ is_foreign a -> py_mul a c = Ok s ->
  forall E, at_energy s E = oscale c (at_energy a E).
Proof. exact (fun a c s F H E => py_mul_call a c s E F H). Qed.

Theorem C02_rmul_pointwise : forall a c s, ~ is_foreign a -> py_rmul c a = Ok s ->
  forall E, at_energy s E = oscale c (at_energy a E).
Proof. exact (fun a c s F H E => py_rmul_call a c s E F H). Qed.

Theorem C02_mul_returns : forall a c, ~ is_foreign a -> enough_factors a ->
  (exists s, py_mul a c = Ok s /\ enough_factors s /\ ~ is_foreign s /\ (is_number s <-> is_number a)) /\
  (exists s, py_rmul c a = Ok s /\ enough_factors s /\ ~ is_foreign s /\ (is_number s <-> is_number a)).
Proof. exact (fun a c F L => conj (py_mul_ok a c F L) (py_rmul_ok a c F L)). Qed.

Example C02_ex : exists s, py_rmul (-2) (VSum [VLeaf ex_line; VConst 5] [3; 7]) = Ok s /\ call s 10 = Ok (-190).
Proof. eexists; split; [reflexivity|]. simpl. f_equal; lra. Qed.

(** ** C03 *)
Theorem C03_expression_is_linear_combination : forall e, well_formed e = true ->
  exists v, run e = Ok v /\
  forall E, at_energy v E = osum (map (fun t => oscale (fst t) (snd t E)) (combination e)).
Proof. exact L_CrossSection2.expr_linear. Qed.

Theorem C03_expression_pointwise : forall e, well_formed e = true ->
  exists v, run e = Ok v /\ forall E, at_energy v E = denote e E.
Proof. exact L_CrossSection2.expr_pointwise. Qed.

Theorem C03_builtin_sum : forall l, Forall (fun v => ~ is_foreign v /\ enough_factors v) l ->
  exists s, py_sum l = Ok s /\ forall E, at_energy s E = osum (map (fun v => at_energy v E) l).
Proof. exact L_CrossSection2.builtin_sum. Qed.

(** Reordering and regrouping: the value only depends on the terms, in any order. *)
Theorem C03_reorder : forall e e' v v' E,
  well_formed e = true -> well_formed e' = true -> run e = Ok v -> run e' = Ok v' ->
  Permutation (map (fun t => oscale (fst t) (snd t E)) (combination e))
              (map (fun t => oscale (fst t) (snd t E)) (combination e')) ->
  (forall t x, In t (combination e) -> snd t E <> Raise x) ->
  at_energy v E = at_energy v' E.
Proof. exact L_CrossSection2.reorder. Qed.

Example C03_ex : exists v, run (EAdd (ENum 1) (EMul (ESum [EAtom ex_line; ENum 2; EWeighted [EConst 3; EAtom ex_line] [4; 5]]) 10)) = Ok v
  /\ call v 7 = Ok 981.
Proof. eexists; split; [reflexivity|]. simpl. f_equal; lra. Qed.

(** ** C05 *)
Theorem C05_default_weights : forall rs s, new_sum (Some rs) None = Ok s ->
  forall E, call s E = osum (map (fun r => call r E) rs).
Proof. exact (fun rs s H E => new_sum_default rs s E H). Qed.

Theorem C05_weights : forall rs ss surplus s, length rs = length ss ->
  new_sum (Some rs) (Some (ss ++ surplus)) = Ok s ->
  forall E, call s E = osum (map2 (fun w r => oscale w (call r E)) ss rs).
Proof. exact L_CrossSection2.weights. Qed.

Theorem C05_missing_weights : forall rs ss s E, (length ss < length rs)%nat ->
  new_sum (Some rs) (Some ss) = Ok s ->
  (forall r e, In r (firstn (length ss) rs) -> call r E <> Raise e) ->
  call s E = Raise IndexError.
Proof. exact L_CrossSection2.missing_weights. Qed.

Theorem C05_constructor_returns : forall rs ss, exists s s',
  new_sum (Some rs) None = Ok s /\ new_sum (Some rs) (Some ss) = Ok s'.
Proof. exact (fun rs ss => ex_intro _ _ (ex_intro _ _ (conj eq_refl eq_refl))). Qed.

(** The documented default arguments are not usable. *)
Theorem C05_default_arguments_refuted : new_sum None None = Raise TypeError.
Proof. exact eq_refl. Qed.

Example C05_ex : exists s, new_sum (Some [VLeaf ex_line; VConst 1]) (Some [2]) = Ok s /\ call s 3 = Raise IndexError.
Proof. eexists; split; reflexivity. Qed.

(** ** C06 *)
Theorem C06_grid_is_union : forall rs ss g n r, pgrid (VSum rs ss) g n = Ok (Some r) ->
  StronglySorted Rbar_lt r /\
  (forall x, In x r <-> exists m l, In m (members (VSum rs ss)) /\ pgrid m g n = Ok (Some l) /\ In x l).
Proof. exact (fun rs ss g n r H => conj (pgrid_sorted rs ss g n r H) (pgrid_members _ g n r H)). Qed.

(** The grid is returned if and only if all members return one. *)
Theorem C06_grid_returns : forall rs ss g n,
  (exists r, pgrid (VSum rs ss) g n = Ok r) <->
  (forall m, In m (members (VSum rs ss)) -> exists l, pgrid m g n = Ok (Some l)).
Proof. exact L_CrossSection2.grid_returns. Qed.

Theorem C06_grid_raises : forall rs1 m rs2 ss g n e,
  (forall r, In r rs1 -> exists l, pgrid r g n = Ok (Some l)) -> pgrid m g n = Raise e ->
  pgrid (VSum (rs1 ++ m :: rs2) ss) g n = Raise e.
Proof. exact pgrid_raise. Qed.

(** Scale factors, order, multiplicity and nesting are irrelevant. *)
Theorem C06_grid_invariant : forall rs ss rs' ss' g n r,
  (forall m, In m (members (VSum rs ss)) <-> In m (members (VSum rs' ss'))) ->
  pgrid (VSum rs ss) g n = Ok (Some r) -> pgrid (VSum rs' ss') g n = Ok (Some r).
Proof. exact L_CrossSection2.grid_invariant. Qed.

Example C06_ex : exists r, pgrid (VSum [VLeaf ex_line; VSum [VLeaf ex_bad; VConst 1] [1; 1]] [1; 0]) (Limits 0 1) 2 = Ok (Some r)
  /\ length r = 5%nat /\ In p_infty r.
Proof. exact (L_CrossSection2.union_example ex_line ex_bad (fun _ _ => eq_refl) (fun _ _ => eq_refl)). Qed.

(** ** C07 *)
Theorem C07_energy_grid : forall a b n, (2 <= n)%Z ->
  exists l, equidistant_energy_grid (Limits a b) n = Ok l /\
  length l = Z.to_nat n /\ first l = a /\ final l = b /\
  (forall i, (S i < length l)%nat -> nth (S i) l 0 - nth i l 0 = (b - a) / IZR (n - 1)) /\
  (a < b -> strictly_ascending l) /\ (b < a -> StronglySorted Rgt l).
Proof. exact linspace_grid. Qed.

Theorem C07_small_n : forall a b n,
  ((n < 0)%Z -> equidistant_energy_grid (Limits a b) n = Raise ValueError) /\
  equidistant_energy_grid (Limits a b) 0 = Ok [] /\ equidistant_energy_grid (Limits a b) 1 = Ok [a].
Proof. exact (fun a b n => conj (linspace_neg a b n) (conj eq_refl eq_refl)). Qed.

Theorem C07_constant_and_nonresonant : forall a b n,
  constant_probability_grid (Limits a b) n = omap (fun l => Some (map Finite l)) (equidistant_energy_grid (Limits a b) n) /\
  nonresonant_probability_grid (Limits a b) n = omap (fun l => Some (map Finite l)) (equidistant_energy_grid (Limits a b) n).
Proof. exact (fun a b n => conj eq_refl eq_refl). Qed.

(** ** C08 *)
Theorem C08_foreign_number : forall rs ss c r E, (length rs <= length ss)%nat ->
  py_add (VSum rs ss) (VOther r) = Raise AttributeError /\
  (forall v, (v = VLeaf c \/ v = VConst r) -> exists s, py_add v (VOther r) = Ok s /\
     ((forall e, call v E <> Raise e) -> call s E = Raise TypeError)).
Proof. exact L_CrossSection2.foreign. Qed.

Example C08_ex : exists s, py_add (VLeaf ex_line) (VOther 3) = Ok s /\ call s 2 = Raise TypeError.
Proof. eexists; split; reflexivity. Qed.

Print Assumptions C01_add_pointwise.
Print Assumptions C01_add_returns.
Print Assumptions C01_arrays_elementwise.
Print Assumptions C02_mul_pointwise.
Print Assumptions C02_rmul_pointwise.
Print Assumptions C02_mul_returns.
Print Assumptions C03_expression_is_linear_combination.
Print Assumptions C03_expression_pointwise.
Print Assumptions C03_builtin_sum.
Print Assumptions C03_reorder.
Print Assumptions C05_default_weights.
Print Assumptions C05_weights.
Print Assumptions C05_missing_weights.
Print Assumptions C05_constructor_returns.
Print Assumptions C05_default_arguments_refuted.
Print Assumptions C06_grid_is_union.
Print Assumptions C06_grid_returns.
Print Assumptions C06_grid_raises.
Print Assumptions C06_grid_invariant.
Print Assumptions C07_energy_grid.
Print Assumptions C07_small_n.
Print Assumptions C07_constant_and_nonresonant.
Print Assumptions C08_foreign_number.
