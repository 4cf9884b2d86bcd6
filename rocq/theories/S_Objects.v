(** Specifications for programs that create and modify states, isotopes and elements. *)
From Coq Require Import Reals List String ZArith.
From Verif Require Import Py Spec M_Constituents M_Objects.
Import ListNotations.
Open Scope R_scope.

(** Situations that a program can reach. *)
Definition reachable_world (w : world) : Prop := exists p, run_program nothing p = Ok w.

(** The attribute [width] of every state is the sum of its present partial widths. *)
Definition widths_consistent (w : world) : Prop :=
  forall s st d x, state_of w s = Ok st -> st_decays st = Some (d, x) -> x = Rsum (dvalues d).

(** The attribute [amu] of an element is the weighted sum of the present masses and abundances. *)
Definition mass_consistent (el : element R) : Prop :=
  exists ts, Forall2 (fun ki t => exists a, dget (el_abundances el) (fst ki) = Some a /\ t = iso_mass (snd ki) * a)
               (el_isotopes el) ts /\ el_amu el = Rsum ts.
Definition masses_consistent (w : world) : Prop := forall e el, element_of w e = Ok el -> mass_consistent el.

(** Statements that change an existing dictionary of numbers or exchange it. *)
Definition changes_widths (s : stmt) : Prop :=
  match s with SSet _ _ _ | SDel _ _ | SWidths _ _ => True | _ => False end.
(** Statements that change an existing dictionary or the mass of an isotope. *)
Definition changes_masses (s : stmt) : Prop :=
  match s with SSet _ _ _ | SDel _ _ | SIsoSet _ _ _ | SAmu _ _ => True | _ => False end.

(** The dictionary object behind [s.partial_widths], the list object behind [i.excited_states]. *)
Definition widths_ref (w : world) (s : nat) : option nat :=
  match nth_error (w_states w) s with Some o => option_map fst (so_decays o) | None => None end.
Definition excited_ref (w : world) (i : nat) : option nat := option_map io_excited (nth_error (w_isos w) i).

(** The isotope object behind [e.isotopes[k]]. *)
Definition isotope_ref (w : world) (e : nat) (k : string) : option nat :=
  match nth_error (w_els w) e with
  | Some o => match nth_error (w_isodicts w) (eo_isotopes o) with Some d => dget d k | None => None end
  | None => None
  end.

(** [l.append(...)] for a given list. *)
Definition appends_to (l : nat) (s : stmt) : Prop := match s with SAppend a _ => a = l | _ => False end.
