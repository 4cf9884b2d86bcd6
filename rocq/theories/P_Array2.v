(** * C97: cross sections, Doppler widths and effective temperatures of arrays, lists and floats *)
From Coq Require Import List ZArith Bool Arith.
From Verif Require Import Py M_Num M_CrossSection M_Ieee M_Ieee2 M_Ieee3 M_Array M_Array2 S_Array S_Array2 L_Array3 L_Array4 L_Array5 L_Array6.
Import ListNotations.

(** The value of a cross section for an array of any shape is an array of the same shape with the values for its elements,
    also for sums and nested sums of lines, tables and constants.  Sums of constants alone are Python floats. *)
Theorem C97_arrays v a :
  if constants_only v
  then exists o, (forall x, bcall (numbers NumpyFloat v) x = o) /\ acall v (Nd a) = python_float o
  else elementwise_or_raise (bcall (numbers NumpyFloat v)) a (acall v (Nd a)).
Proof. exact (called_array v a). Qed.
Example C97_arrays_case : constants_only mixed_sum = false /\ calculates mixed_sum = false /\ weighted mixed_sum = true /\
  elementwise (fn1 (bcall (numbers NumpyFloat mixed_sum))) [Nd vector12] (acall mixed_sum (Nd vector12)).
Proof. exact mixed_example. Qed.
(** With a scale factor for each reaction, there is no exception for any array. *)
Theorem C97_no_exceptions v a : weighted v = true -> exists x, acall v (Nd a) = Ok x.
Proof. exact (weighted_runs v a). Qed.
(** For a Python float, the value is a Python float or a numpy float, or there is the same exception. *)
Theorem C97_floats v e : is_number (acall v (Float e)) (bcall (numbers PythonFloat v) e).
Proof. exact (called_float v e). Qed.
(** A list has the values of the array that numpy makes of it, unless a Klein-Nishina cross section or a Voigt line is
    contained in the cross section: then there is a TypeError. *)
Theorem C97_lists v a : calculates v = false -> acall v (Seq a) = acall v (Nd a).
Proof. exact (called_list v a). Qed.
Theorem C97_refused_lists v a : weighted v = true -> calculates v = true -> acall v (Seq a) = Raise TypeError.
Proof. exact (refused_list v a). Qed.
Example C97_refused_lists_case :
  let v := Weighted [mixed_sum; Line (Semi (fun x => x) (of_Z 1)) (of_Z 1) (of_Z 1)] [of_Z 1; of_Z 1] in
  weighted v = true /\ calculates v = true.
Proof. split; reflexivity. Qed.
(** Not always an array, and not always a value for lists, although documented. *)
Theorem C97_constants_refuted : ~ (forall v a, weighted v = true -> exists b, acall v (Nd a) = Ok (Nd b) /\ nd_shape b = nd_shape a).
Proof. exact constants_refuted. Qed.
Theorem C97_lists_refuted : ~ (forall v a, weighted v = true -> acall v (Seq a) = acall v (Nd a)).
Proof. exact lists_refuted. Qed.

(** Breit-Wigner, Gauss and pseudo-Voigt lines: arrays of absolute and relative energies, floats, lists of absolute
    energies; a TypeError for lists of relative energies. *)
Theorem C97_breit_wigner L k initial intermediate final :
  let A := aBreitWigner_call L k initial intermediate final in
  let B := bBreitWigner_call L k initial intermediate final in
  (forall a abs, elementwise_or_raise (fun x => B x abs) a (A (Nd a) abs)) /\
  (forall e abs, A (Float e) abs = numpy_float (B e abs)) /\
  (forall a, A (Seq a) true = A (Nd a) true) /\
  (forall a, A (Seq a) false = Raise TypeError \/ exists ex, A (Seq a) false = Raise ex /\ forall x, B x false = Raise ex).
Proof. exact (breit_wigner_like L k initial intermediate final). Qed.
Theorem C97_gauss L k initial intermediate amu T final :
  let A := aGauss_call L k initial intermediate amu T final in
  let B := bGauss_call L k initial intermediate amu T final in
  (forall a abs, elementwise_or_raise (fun x => B x abs) a (A (Nd a) abs)) /\
  (forall e abs, A (Float e) abs = numpy_float (B e abs)) /\
  (forall a, A (Seq a) true = A (Nd a) true) /\
  (forall a, A (Seq a) false = Raise TypeError \/ exists ex, A (Seq a) false = Raise ex /\ forall x, B x false = Raise ex).
Proof. exact (gauss_like L k initial intermediate amu T final). Qed.
Theorem C97_pseudo_voigt L k initial intermediate amu T final :
  let A := aPseudoVoigt_call L k initial intermediate amu T final in
  let B := bPseudoVoigt_call L k initial intermediate amu T final in
  (forall a abs, elementwise_or_raise (fun x => B x abs) a (A (Nd a) abs)) /\
  (forall e abs, A (Float e) abs = numpy_float (B e abs)) /\
  (forall a, A (Seq a) true = A (Nd a) true) /\
  (forall a, A (Seq a) false = Raise TypeError \/ exists ex, A (Seq a) false = Raise ex /\ forall x, B x false = Raise ex).
Proof. exact (pseudo_voigt_like L k initial intermediate amu T final). Qed.

(** Doppler widths: arrays and floats; lists are refused. *)
Theorem C97_doppler_width k amu T :
  (forall a, elementwise_or_raise (bget_doppler_width k amu T) a (aget_doppler_width k amu T (Nd a))) /\
  (forall e, aget_doppler_width k amu T (Float e) = numpy_float (bget_doppler_width k amu T e)) /\
  (forall a, aget_doppler_width k amu T (Seq a) = Raise TypeError \/ aget_doppler_width k amu T (Seq a) = Raise ZeroDivisionError).
Proof. exact (conj (doppler_array k amu T) (conj (doppler_float k amu T) (doppler_list k amu T))). Qed.
(** Effective temperatures for Doppler widths: broadcasting; a ZeroDivisionError only for Python floats; lists are refused. *)
Theorem C97_effective_temperature k w amu E : ~ is_list w -> ~ is_list E -> is_array w \/ is_array E ->
  elementwise (fn2 (fun w E => bget_effective_temperature NumpyFloat k w amu E)) [w; E] (aget_effective_temperature k w amu E).
Proof. exact (temperature_array k w amu E). Qed.
Example C97_effective_temperature_case :
  ~ is_list (Nd vector12) /\ ~ is_list (Float (of_Z 1)) /\ (is_array (Nd vector12) \/ is_array (Float (of_Z 1))).
Proof.
  split; [intros [a H]; discriminate|]. split; [intros [a H]; discriminate|]. left. exists vector12. reflexivity.
Qed.
Theorem C97_effective_temperature_float k w amu E :
  aget_effective_temperature k (Float w) amu (Float E) = python_float (bget_effective_temperature PythonFloat k w amu E).
Proof. exact (temperature_float k w amu E). Qed.
Theorem C97_effective_temperature_list k w amu E : is_list w \/ is_list E -> aget_effective_temperature k w amu E = Raise TypeError.
Proof. exact (temperature_list k w amu E). Qed.

(** The Debye model: arrays and lists, also of different shapes that fit; empty ones are refused; one invalid element is
    enough for an exception. *)
Theorem C97_debye cube quad T T_D : vectorized (beffective_temperature cube quad) T T_D (aeffective_temperature cube quad T T_D).
Proof. exact (vectorize_spec (beffective_temperature cube quad) T T_D). Qed.
Theorem C97_debye_float cube quad T T_D :
  aeffective_temperature cube quad (Float T) (Float T_D) = numpy_float (beffective_temperature cube quad T T_D).
Proof. exact (debye_float cube quad T T_D). Qed.
Theorem C97_debye_zero cube quad T T_D u i : (forall x, bzero x = true -> cube x = x) -> (forall x, exists q, quad x = Ok q) ->
  broadcast [shape T; shape T_D] u -> index_of u i -> bzero (element T i) = true -> ~ empty T -> ~ empty T_D ->
  aeffective_temperature cube quad T T_D = Raise ZeroDivisionError \/ aeffective_temperature cube quad T T_D = Raise OverflowError.
Proof. exact (debye_array_zero cube quad T T_D u i). Qed.
Example C97_debye_zero_case : (forall x, bzero x = true -> (fun x : b64 => x) x = x) /\ (forall x, exists q, (fun x : b64 => Ok x) x = Ok q) /\
  broadcast [shape (Nd (vector [of_Z 0; of_Z 2])); shape (Float (of_Z 1))] [2%nat] /\ index_of [2%nat] [0%nat] /\ bzero (element (Nd (vector [of_Z 0; of_Z 2])) [0%nat]) = true /\
  ~ empty (Nd (vector [of_Z 0; of_Z 2])) /\ ~ empty (Float (of_Z 1)).
Proof. exact debye_example. Qed.
Print Assumptions C97_arrays.
Print Assumptions C97_no_exceptions.
Print Assumptions C97_floats.
Print Assumptions C97_lists.
Print Assumptions C97_refused_lists.
Print Assumptions C97_constants_refuted.
Print Assumptions C97_lists_refuted.
Print Assumptions C97_breit_wigner.
Print Assumptions C97_gauss.
Print Assumptions C97_pseudo_voigt.
Print Assumptions C97_doppler_width.
Print Assumptions C97_effective_temperature.
Print Assumptions C97_effective_temperature_float.
Print Assumptions C97_effective_temperature_list.
Print Assumptions C97_debye.
Print Assumptions C97_debye_float.
Print Assumptions C97_debye_zero.
