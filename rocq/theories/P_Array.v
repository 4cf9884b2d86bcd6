(** C96: Compton cross sections of arrays and lists. *)
From Coq Require Import List Arith ZArith.
From Flocq Require Import Core BinarySingleNaN.
From Verif Require Import Py M_Ieee M_Ieee2 M_Ieee3 M_Array S_Ieee S_Ieee3 S_Array L_Ieee13 L_Array L_Array2 L_Array3.
Import ListNotations.

(** Arrays of any dimension: the elements of the result are the values for the elements of the arguments. *)
Theorem C96_total : forall L c a, elementwise (fn1 (bkn_cs_total NumpyFloat L c)) [Nd a] (akn_cs_total L c (Nd a)).
Proof. exact total_elementwise. Qed.
(** Floats, arrays or, for the angles, lists, with broadcasting; [ValueError] if and only if the shapes clash. *)
Theorem C96_angles : forall L me c E T P, bzero me = false -> ~ is_list E ->
  elementwise (fn1 (bkn_compton_edge NumpyFloat L me)) [E] (akn_compton_edge L me E) /\
  elementwise (fn2 (bkn_Ep_over_E NumpyFloat L me)) [E; T] (akn_Ep_over_E L me E T) /\
  elementwise (fn3 (bkn_cs_diff_dOmega NumpyFloat L me c)) [E; T; P] (akn_cs_diff_dOmega L me c E T P) /\
  elementwise (fn2 (bkn_cs_diff_dOmega_unpolarized NumpyFloat L me c)) [E; T] (akn_cs_diff_dOmega_unpolarized L me c E T) /\
  elementwise (fn2 (bkn_cs_diff_dtheta NumpyFloat L me c)) [E; T] (akn_cs_diff_dtheta L me c E T).
Proof. exact angles_elementwise. Qed.
Theorem C96_theta : forall L me E Ep, is_array E \/ is_array Ep ->
  elementwise (fn2 (bkn_theta NumpyFloat L me)) [E; Ep] (akn_theta L me E Ep).
Proof. exact theta_elementwise. Qed.
Theorem C96_energies : forall L me c E Ep P, bzero me = false -> ~ is_list E -> ~ is_list Ep -> is_array E \/ is_array Ep ->
  elementwise (fn2 (bkn_cs_diff_dEp NumpyFloat L me c)) [E; Ep] (akn_cs_diff_dEp L me c E Ep) /\
  elementwise (fn3 (bkn_cs_diff_dEp_dphi NumpyFloat L me c)) [E; Ep; P] (akn_cs_diff_dEp_dphi L me c E Ep P).
Proof. exact energies_elementwise. Qed.
(** The elements are what Python floats give, or infinities and nan where those raise an exception. *)
Theorem C96_total_python : forall L c a, klib_special L ->
  elementwise_python (fn1 (bkn_cs_total PythonFloat L c)) [Nd a] (akn_cs_total L c (Nd a)).
Proof. exact total_python. Qed.
Theorem C96_energies_python : forall L me c E Ep P, klib_special L -> bzero me = false -> ~ is_list E -> ~ is_list Ep -> is_array E \/ is_array Ep ->
  elementwise_python (fn2 (bkn_theta PythonFloat L me)) [E; Ep] (akn_theta L me E Ep) /\
  elementwise_python (fn2 (bkn_cs_diff_dEp PythonFloat L me c)) [E; Ep] (akn_cs_diff_dEp L me c E Ep) /\
  elementwise_python (fn3 (bkn_cs_diff_dEp_dphi PythonFloat L me c)) [E; Ep; P] (akn_cs_diff_dEp_dphi L me c E Ep P).
Proof. exact scattered_python. Qed.
(** Floats only: a numpy float. *)
Theorem C96_floats : forall L me c e ep p,
  akn_cs_total L c (Float e) = numpy_float (bkn_cs_total PythonFloat L c e) /\
  akn_theta L me (Float e) (Float ep) = numpy_float (bkn_theta PythonFloat L me e ep) /\
  akn_cs_diff_dEp L me c (Float e) (Float ep) = numpy_float (bkn_cs_diff_dEp PythonFloat L me c e ep) /\
  akn_cs_diff_dEp_dphi L me c (Float e) (Float ep) (Float p) = numpy_float (bkn_cs_diff_dEp_dphi PythonFloat L me c e ep p).
Proof. exact floats. Qed.
(** Lists of energies are not accepted, although the documentation says "array_like". *)
Theorem C96_lists_refuted : forall L me c a T P,
  akn_cs_total L c (Seq a) = Raise TypeError /\ akn_compton_edge L me (Seq a) = Raise TypeError /\
  akn_Ep_over_E L me (Seq a) T = Raise TypeError /\ akn_cs_diff_dOmega L me c (Seq a) T P = Raise TypeError /\
  akn_cs_diff_dOmega_unpolarized L me c (Seq a) T = Raise TypeError /\ akn_cs_diff_dtheta L me c (Seq a) T = Raise TypeError.
Proof. exact energy_lists. Qed.
Theorem C96_theta_lists_refuted : forall L me E Ep, is_list E \/ is_list Ep -> ~ is_array E -> ~ is_array Ep ->
  akn_theta L me E Ep = Raise TypeError.
Proof. exact theta_lists. Qed.
Theorem C96_energies_lists_refuted : forall L me c E Ep P, bzero me = false -> is_list E \/ is_list Ep ->
  refused (akn_cs_diff_dEp L me c E Ep) /\ refused (akn_cs_diff_dEp_dphi L me c E Ep P).
Proof. exact scattered_lists. Qed.

(** The two cases of [elementwise] exclude each other, and the shape of the result is unique. *)
Theorem C96_shapes : forall ss u, broadcast ss u -> ~ clash ss /\ forall v, broadcast ss v -> v = u.
Proof. exact broadcast_unique. Qed.

(** *** Non-vacuity *)
Example C96_library : klib_special correct_klib. Proof. exact correct_special. Qed.
(** Two energies and a column of three angles give a table with three rows; three angles in a row do not fit. *)
Example C96_ex : clash [[2]; [3]] /\ broadcast [[2]; [1; 3]] [2; 3].
Proof. exact vector_column. Qed.
Example C96_ex_elements : forall e f a b c i, index_of [2; 3] i ->
  element (Nd (vector [e; f])) i = nth (nth 0 i 0) [e; f] (of_Z 0) /\ element (Nd (column [a; b; c])) i = nth (nth 1 i 0) [a; b; c] (of_Z 0).
Proof. exact table_elements. Qed.
Example C96_ex_mass : bzero (of_Z 1) = false /\ ~ is_list (Nd (vector [of_Z 1; of_Z 2])) /\ is_array (Nd (vector [of_Z 1; of_Z 2])).
Proof. exact table_mass. Qed.
Print Assumptions C96_total.
Print Assumptions C96_angles.
Print Assumptions C96_theta.
Print Assumptions C96_energies.
Print Assumptions C96_total_python.
Print Assumptions C96_energies_python.
Print Assumptions C96_floats.
Print Assumptions C96_lists_refuted.
Print Assumptions C96_theta_lists_refuted.
Print Assumptions C96_energies_lists_refuted.
Print Assumptions C96_shapes.
