(** Vocabulary for weighted sums of resonances (C65, C66). *)
From Coq Require Import Reals List ZArith.
From Coquelicot Require Import Coquelicot.
From Verif Require Import Py Spec M_Num M_Grid M_Constituents M_Thermal M_Dist M_Resonance M_CrossSection S_Resonance.
Import ListNotations.
Open Scope R_scope.

(** A naturally broadened or a Doppler-broadened line. *)
Definition line (r : resonance) : Prop :=
  (exists k i m fin w, BreitWigner k i m fin = Ok r /\ width m = Ok w /\ 0 < w) \/
  (exists k i m amu T fin, constants_ok k /\ 0 < amu /\ 0 < T /\ Gauss k i m amu T fin = Ok r /\ 0 < r_energy r).

(** CrossSectionWeightedSum([r_1, r_2, ...], [w_1, w_2, ...]). *)
Definition spectrum (ps : list (R * resonance)) : value :=
  VSum (map (fun p => VLeaf (leaf_of (snd p))) ps) (map fst ps).
