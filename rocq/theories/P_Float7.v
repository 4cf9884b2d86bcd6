(** C83 -- XRMAC attenuation coefficients with binary64 arithmetic. *)
From Coq Require Import Reals List ZArith Lra.
From Verif Require Import Py M_Num M_CrossSection M_Xrmac M_Float S_Float M_Float7 S_Float7 L_Float26.
Import ListNotations.
Open Scope R_scope.

(** Away from absorption edges above the energy, a call gives the exact coefficient up to a small relative error. *)
Theorem C83_accuracy : forall g M S minval data E, llib_ok g -> 1 <= M <= 100 -> 0 <= S -> (1 + S) * M <= 2 ^ 30 -> ftable M S data -> data <> [] ->
  (minval <= length data)%nat -> E = 0 \/ digits 100 E ->
  (forall pre e c c' post, data = pre ++ (e, c) :: (e, c') :: post -> E < e -> E * (1 + / 2 ^ 40) <= e) ->
  exists o o' v V, XRMAC minval data = Ok o /\ finterpolate_log_log g minval data = Ok o' /\ xrmac_call o E = Ok V /\ fxrmac_call g o' E = Ok v /\
    0 < V /\ Rabs (v - V) <= 96 * (1 + S) * M * unit_roundoff * V.
Proof. exact call_acc. Qed.
(** At a tabulated energy the (last) coefficient is returned up to an error that does not depend on the other lines. *)
Theorem C83_tabulated : forall g M S minval pre e c post, llib_ok g -> 1 <= M <= 100 -> ftable M S (pre ++ (e, c) :: post) ->
  (minval <= length (pre ++ (e, c) :: post))%nat -> (forall c' post', post <> (e, c') :: post') ->
  exists o v, finterpolate_log_log g minval (pre ++ (e, c) :: post) = Ok o /\ fxrmac_call g o e = Ok v /\ Rabs (v - c) <= 10 * M * unit_roundoff * c.
Proof. exact call_node_err. Qed.
(** The float below an absorption edge may have the same logarithm, so the coefficient above the edge is returned. *)
Theorem C83_edge_refuted : exists g M S minval data E o o' v V, llib_ok g /\ 1 <= M <= 100 /\ 0 <= S /\ (1 + S) * M <= 2 ^ 30 /\ ftable M S data /\
  (minval <= length data)%nat /\ digits M E /\
  XRMAC minval data = Ok o /\ finterpolate_log_log g minval data = Ok o' /\ xrmac_call o E = Ok V /\ fxrmac_call g o' E = Ok v /\ v = 100 * V /\ 0 < V.
Proof. exact edge_refuted. Qed.

(** *** Non-vacuity *)
(** The correctly rounded functions and a table with an edge, at energies that are not just below it. *)
Example C83_library : llib_ok correct_llib.
Proof. exact correct_llib_ok. Qed.
Example C83_table : ftable 4 1 edge_table /\ (4 <= length edge_table)%nat /\ (1 + 1) * 4 <= 2 ^ 30.
Proof. split; [exact edge_table_ok|]. split; [exact (le_n 4)|simpl; lra]. Qed.
Example C83_energies : forall x, 1000 * (1 + / 2 ^ 40) <= x \/ x * (1 + / 2 ^ 40) <= 1000 ->
  forall pre e c c' post, edge_table = pre ++ (e, c) :: (e, c') :: post -> x < e -> x * (1 + / 2 ^ 40) <= e.
Proof. exact edge_far. Qed.
Print Assumptions C83_accuracy.
Print Assumptions C83_tabulated.
Print Assumptions C83_edge_refuted.
