(** Vocabulary for rounding in XRMAC tables. *)
From Coq Require Import Reals List ZArith.
From Verif Require Import Py M_Num M_Xrmac M_Float S_Float M_Float7.
Import ListNotations.
Open Scope R_scope.

(** A monotonic logarithm and an exponential function with relative errors of at most two units. *)
Definition llib_ok (g : llib) : Prop :=
  (forall x, 0 < x -> double x -> double (g_log10 g x) /\ Rabs (g_log10 g x - log10 x) <= 2 * unit_roundoff * Rabs (log10 x)) /\
  (forall x y, 0 < x <= y -> g_log10 g x <= g_log10 g y) /\
  (forall y, Rabs y <= 300 -> double y -> double (g_pow10 g y) /\ Rabs (g_pow10 g y - pow10 y) <= 2 * unit_roundoff * pow10 y).
Definition correct_llib : llib := {| g_log10 := fun x => rnd (log10 x); g_pow10 := fun y => rnd (pow10 y) |}.

(** A positive float with at most [M] decimal digits before or after the point. *)
Definition digits (M x : R) : Prop := 0 < x /\ double x /\ Rabs (log10 x) <= M.
(** Two consecutive lines: an absorption edge, or energies that differ by more than 1e-12 and coefficients that
    change at most like the power [S] of the energy. *)
Definition lines (S : R) (p p' : R * R) : Prop :=
  fst p = fst p' \/
  (fst p * (1 + / 2 ^ 40) <= fst p' /\ Rabs (log10 (snd p') - log10 (snd p)) <= S * (log10 (fst p') - log10 (fst p))).
Fixpoint consecutive {A} (P : A -> A -> Prop) (l : list A) : Prop :=
  match l with a :: ((b :: _) as r) => P a b /\ consecutive P r | _ => True end.
Definition ftable (M S : R) (data : list (R * R)) : Prop :=
  Forall (fun p => digits M (fst p) /\ digits M (snd p)) data /\ consecutive (lines S) data.
(** The energy does not coincide with an absorption edge above it after taking the logarithm. *)
Definition below_edges (g : llib) (data : list (R * R)) (E : R) : Prop :=
  forall pre e c c' post, data = pre ++ (e, c) :: (e, c') :: post -> E < e -> g_log10 g E < g_log10 g e.
