(** C77: the interpolated attenuation coefficient as a function of the energy. *)
From Coq Require Import Reals List ZArith Lra Lia Sorting.Sorted.
From Coquelicot Require Import Coquelicot.
From Verif Require Import Py Spec M_Num M_CrossSection M_Xrmac S_Xrmac M_Darboux S_Xrmac2 L_Xrmac L_Xrmac2 L_Xrmac4.
Import ListNotations.
Open Scope R_scope.

(** A table with an absorption edge at energy 2; no edge at energies 1 and 3. *)
Definition edge_table : list (R * R) := [(1, 5); (2, 3); (2, 7); (4, 1)].
Example C77_ex : table_ok edge_table /\ ascending (map fst edge_table) /\ (exists o, XRMAC 2 edge_table = Ok o) /\
  no_edge 1 edge_table /\ no_edge 3 edge_table /\ total_change (map snd edge_table) = 12 /\ spacing_at_most 1 [1; 2; 3].
Proof.
  assert (T : table_ok edge_table). { split; [discriminate|]. apply List.Forall_forall. intros p [<-|[<-|[<-|[<-|[]]]]]; cbn; lra. }
  split; [exact T|]. split; [cbn; repeat constructor; lra|]. split; [apply constructs; [exact T|cbn; lia]|].
  split; [|split; [|split]].
  - intros [|a [|b [|c [|d p]]]] x y q K; unfold edge_table in K; cbn in K; try (injection K; intros; lra); discriminate (f_equal (@List.length _) K) || (apply (f_equal (@List.length _)) in K; rewrite ?app_length in K; cbn in K; rewrite ?app_length in K; cbn in K; lia).
  - intros [|a [|b [|c [|d p]]]] x y q K; unfold edge_table in K; cbn in K; try (injection K; intros; lra); discriminate (f_equal (@List.length _) K) || (apply (f_equal (@List.length _)) in K; rewrite ?app_length in K; cbn in K; rewrite ?app_length in K; cbn in K; lia).
  - unfold total_change. cbn. unfold Rabs. repeat destruct Rcase_abs; lra.
  - intros [|a [|b [|c p]]] x y q K; cbn in K; try (injection K; intros; subst; lra); apply (f_equal (@List.length _)) in K; cbn in K; rewrite ?app_length in K; cbn in K; lia.
Qed.

Theorem C77_continuous : forall minval data o f, table_ok data -> ascending (map fst data) -> XRMAC minval data = Ok o ->
  (forall E, 0 < E -> xrmac_call o E = Ok (f E)) -> forall E, 0 < E -> no_edge E data -> continuity_pt f E.
Proof. exact xr_continuous. Qed.
(** Several lines for an energy: the first one is the limit from below, the last one the value and the limit from above. *)
Theorem C77_edge : forall minval data o f, table_ok data -> ascending (map fst data) -> XRMAC minval data = Ok o ->
  (forall E, 0 < E -> xrmac_call o E = Ok (f E)) -> forall pre E c1 mid c2 post,
  data = pre ++ (E, c1) :: mid ++ (E, c2) :: post -> List.Forall (fun q => fst q < E) pre -> List.Forall (fun q => E < fst q) post ->
  f E = c2 /\ left_limit f E c1 /\ right_limit f E c2.
Proof. exact xr_edge. Qed.
(** Along any energies the coefficient changes at most as much as along the table. *)
Theorem C77_variation : forall minval data o f, table_ok data -> ascending (map fst data) -> XRMAC minval data = Ok o ->
  (forall E, 0 < E -> xrmac_call o E = Ok (f E)) -> forall x, ascending x -> List.Forall (fun E => 0 < E) x ->
  total_change (map f x) <= total_change (map snd data).
Proof. exact xr_variation. Qed.
(** The integral exists, edges or not, and [darboux] approximates it with an error of at most the spacing of the grid times the total change. *)
Theorem C77_integral : forall minval data o f, table_ok data -> ascending (map fst data) -> XRMAC minval data = Ok o ->
  (forall E, 0 < E -> xrmac_call o E = Ok (f E)) -> forall x h, x <> [] -> ascending x -> 0 < first x -> 0 <= h -> spacing_at_most h x ->
  exists L d, darboux (of_value (VLeaf (xrmac_leaf o))) x = Ok (L, d) /\ ex_RInt f (first x) (final x) /\
    Rabs (L - RInt f (first x) (final x)) <= h * total_change (map snd data) /\ d <= h * total_change (map snd data).
Proof. exact xr_integral. Qed.
Theorem C77_descending : forall minval data o f, table_ok data -> ascending (map fst data) -> XRMAC minval data = Ok o ->
  (forall E, 0 < E -> xrmac_call o E = Ok (f E)) -> forall s t, descending (map snd data) -> 0 < s -> s <= t -> f t <= f s.
Proof. exact xr_descending. Qed.
(** Other units of energies and coefficients. *)
Theorem C77_units : forall minval data o a b, table_ok data -> ascending (map fst data) -> XRMAC minval data = Ok o -> 0 < a -> 0 < b ->
  exists o', XRMAC minval (rescale a b data) = Ok o' /\ forall E v, 0 < E -> xrmac_call o E = Ok v -> xrmac_call o' (a * E) = Ok (b * v).
Proof. exact xr_units. Qed.
(** A line that the table already implies changes nothing. *)
Theorem C77_insert : forall minval pre post o E c, table_ok (pre ++ post) -> ascending (map fst (pre ++ post)) -> XRMAC minval (pre ++ post) = Ok o ->
  0 < E -> xrmac_call o E = Ok c -> List.Forall (fun q => fst q <= E) pre -> List.Forall (fun q => E < fst q) post ->
  exists o', XRMAC minval (pre ++ (E, c) :: post) = Ok o' /\ forall t, 0 < t -> xrmac_call o' t = xrmac_call o t.
Proof. exact xr_insert. Qed.
Print Assumptions C77_continuous.
Print Assumptions C77_edge.
Print Assumptions C77_variation.
Print Assumptions C77_integral.
Print Assumptions C77_descending.
Print Assumptions C77_units.
Print Assumptions C77_insert.
