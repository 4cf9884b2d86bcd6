(** C50: interpolation of attenuation coefficients. *)
From Coq Require Import Reals List ZArith Lra Lia Permutation Sorting.Sorted.
From Verif Require Import Py Spec M_Num M_Xrmac S_Xrmac L_Xrmac L_Xrmac2.
Import ListNotations.
Open Scope R_scope.

(** A table with an absorption edge at energy 2. *)
Example xr_ex : exists o, XRMAC 2 [(1, 5); (2, 3); (2, 7); (4, 1)] = Ok o /\
  table_ok [(1, 5); (2, 3); (2, 7); (4, 1)] /\ ascending (map fst [(1, 5); (2, 3); (2, 7); (4, 1)]) /\
  xrmac_call o 1 = Ok 5 /\ xrmac_call o 2 = Ok 7 /\ xrmac_call o 9 = Ok 1.
Proof.
  assert (T : table_ok [(1, 5); (2, 3); (2, 7); (4, 1)]).
  { split; [discriminate|]. apply List.Forall_forall. intros p [<-|[<-|[<-|[<-|[]]]]]; cbn; lra. }
  assert (A : ascending (map fst [(1, 5); (2, 3); (2, 7); (4, 1)])) by (cbn; repeat constructor; lra).
  destruct (constructs 2 _ T ltac:(cbn; lia)) as [o HO]. exists o. split; [exact HO|]. split; [exact T|]. split; [exact A|]. split; [|split].
  - apply (call_node 2 _ o T A HO [] 1 5 [(2, 3); (2, 7); (4, 1)]); [reflexivity|]. apply List.Forall_forall. intros p [<-|[<-|[<-|[]]]]; cbn; lra.
  - apply (call_node 2 _ o T A HO [(1, 5); (2, 3)] 2 7 [(4, 1)]); [reflexivity|]. apply List.Forall_forall. intros p [<-|[]]; cbn; lra.
  - apply (call_above 2 _ o T A HO). cbn. lra.
Qed.

Theorem C50_constructs : forall minval data, table_ok data -> (minval <= length data)%nat -> exists o, XRMAC minval data = Ok o.
Proof. exact constructs. Qed.
(** The coefficient of the last line with this energy is returned. *)
Theorem C50_tabulated : forall minval data o pre E c post,
  table_ok data -> ascending (map fst data) -> XRMAC minval data = Ok o ->
  data = pre ++ (E, c) :: post -> List.Forall (fun q => E < fst q) post -> xrmac_call o E = Ok c.
Proof. exact (fun minval data o pre E c post T A HO => call_node minval data o T A HO pre E c post). Qed.
(** Between two neighbouring energies: the power law through both points, between their values. *)
Theorem C50_power_law : forall minval data o pre E1 c1 E2 c2 post E,
  table_ok data -> ascending (map fst data) -> XRMAC minval data = Ok o ->
  data = pre ++ (E1, c1) :: (E2, c2) :: post -> E1 < E2 -> E1 <= E ->
  E < E2 \/ E = E2 /\ List.Forall (fun q => E2 < fst q) post ->
  exists v, xrmac_call o E = Ok v /\ v = c1 * Rpower (E / E1) (ln (c2 / c1) / ln (E2 / E1)) /\ Rmin c1 c2 <= v <= Rmax c1 c2.
Proof. exact power_law. Qed.
(** Outside of the table. *)
Theorem C50_below : forall minval data o E, table_ok data -> ascending (map fst data) -> XRMAC minval data = Ok o ->
  0 <= E -> E < fst (hd (0, 0) data) -> xrmac_call o E = Ok (snd (hd (0, 0) data)).
Proof. exact (fun minval data o E T A HO => call_below minval data o T A HO E). Qed.
Theorem C50_above : forall minval data o E, table_ok data -> ascending (map fst data) -> XRMAC minval data = Ok o ->
  fst (last data (0, 0)) < E -> xrmac_call o E = Ok (snd (last data (0, 0))).
Proof. exact (fun minval data o E T A HO => call_above minval data o T A HO E). Qed.
(** All values are positive and between the smallest and the largest coefficient of the table. *)
Theorem C50_positive : forall minval data o E, table_ok data -> ascending (map fst data) -> XRMAC minval data = Ok o ->
  0 <= E -> exists v, xrmac_call o E = Ok v /\ 0 < v.
Proof. exact positive. Qed.
Theorem C50_bounds : forall minval data o lo hi E, table_ok data -> ascending (map fst data) -> XRMAC minval data = Ok o ->
  0 <= E -> 0 < lo -> List.Forall (fun p => lo <= snd p <= hi) data -> exists v, xrmac_call o E = Ok v /\ lo <= v <= hi.
Proof. exact all_bounds. Qed.
(** Negative energies: not a number, unless the table has a single line, which gives its coefficient at any energy whatsoever. *)
Theorem C50_negative_energy : forall minval data o E, XRMAC minval data = Ok o -> E < 0 -> (2 <= length data)%nat -> xrmac_call o E = NaN.
Proof. exact negative. Qed.
Theorem C50_single_line : forall minval e c o, 0 < e -> 0 < c -> XRMAC minval [(e, c)] = Ok o -> forall E, xrmac_call o E = Ok c.
Proof. exact (fun minval e c o He Hc HO E => single minval e c o E He Hc HO). Qed.
Example xr_single : exists o, XRMAC 1 [(1, 5)] = Ok o /\ xrmac_call o (-3) = Ok 5.
Proof.
  assert (T : table_ok [(1, 5)]) by (split; [discriminate|]; constructor; [cbn; lra|constructor]).
  destruct (constructs 1 _ T ltac:(cbn; lia)) as [o HO]. exists o. split; [exact HO|]. apply (single 1 1 5 o (-3)); [lra|lra|exact HO].
Qed.
(** The order of the lines does not matter inside the table. *)
Theorem C50_unsorted : forall minval data sorted o o' E, table_ok data -> Permutation data sorted -> NoDup (map fst data) ->
  ascending (map fst sorted) -> XRMAC minval data = Ok o -> XRMAC minval sorted = Ok o' ->
  fst (hd (0, 0) sorted) <= E <= fst (last sorted (0, 0)) -> xrmac_call o E = xrmac_call o' E.
Proof. exact unsorted. Qed.
Print Assumptions C50_constructs.
Print Assumptions C50_tabulated.
Print Assumptions C50_power_law.
Print Assumptions C50_below.
Print Assumptions C50_above.
Print Assumptions C50_positive.
Print Assumptions C50_bounds.
Print Assumptions C50_negative_energy.
Print Assumptions C50_unsorted.
Print Assumptions C50_single_line.
