(** Vocabulary for the properties of the pseudo-Voigt distribution (C36-C40). *)
From Coq Require Import Reals List ZArith.
From Coquelicot Require Import Coquelicot.
From Verif Require Import Py Spec M_Num M_Dist M_Resonance M_PseudoVoigt S_Resonance.
Import ListNotations.
Open Scope R_scope.

(** Physically meaningful parameters: something broadens the line. *)
Definition pv_params (k : constants) (E width amu T : R) : Prop :=
  constants_ok k /\ 0 < amu /\ 0 <= T /\ 0 < E /\ 0 <= width /\ (0 < width \/ 0 < T).

(** [p] has the PDF [f] and the CDF [F]. *)
Definition pv_is (p : pv) (f F : R -> R) : Prop :=
  (forall x, pv_pdf p x = Ok (f x)) /\ (forall x, pv_cdf p x = Ok (F x)) /\ density_of f F.

(** Accuracy of the numerical inversion in units of probability; [Gamma] in MeV. *)
Definition accuracy (p : pv) : R := 2 / 10 ^ 8 / pv_Gamma p.

(** The inversion went through: numbers, no fallback. *)
Definition inverted (ws : list warning) : Prop := ~ In InversionFailed ws.

(** Cells whose integrals differ from [h] by at most [e] (relative to the integral over the axis). *)
Definition almost_equal_grid (I : R) (f : R -> R) (h e : R) (g : list R) : Prop :=
  strictly_ascending g /\
  List.Forall (fun xy => exists y, is_RInt f (fst xy) (snd xy) (I * y) /\ Rabs (y - h) <= e) (cells g).
