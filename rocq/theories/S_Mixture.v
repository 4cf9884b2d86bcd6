(** Vocabulary for sums of resonant and nonresonant cross sections (C90). *)
From Coq Require Import Reals List ZArith.
From Verif Require Import Py M_Num M_Resonance M_CrossSection M_KleinNishina M_Xrmac S_Resonance S_Sums S_Xrmac S_Xrmac2.
From Verif Require Spec.
Import ListNotations.
Open Scope R_scope.

(** A resonance, Compton scattering or a table of attenuation coefficients, and a bound for how much its cross section
    changes altogether: twice the peak, the Thomson cross section, the change along the table. *)
Inductive process : leaf -> R -> Prop :=
| resonant r f : line r -> cross_section_is r f -> process (leaf_of r) (2 * Rabs (f (r_energy r)))
| compton k Z mc2 c : constants_ok k -> 0 < Z -> 0 < mc2 -> KleinNishina k Z mc2 = Ok c ->
    process (kn_leaf c) (8 * PI / 3 * (Z * (k_alpha k * k_hbarc_old k / mc2) ^ 2))
| tabulated minval data o : table_ok data -> Spec.ascending (map fst data) -> XRMAC minval data = Ok o ->
    process (xrmac_leaf o) (total_change (map snd data)).
Inductive nonresonant : leaf -> Prop :=
| nonresonant_compton c : nonresonant (kn_leaf c)
| nonresonant_table o : nonresonant (xrmac_leaf o).

(** CrossSectionWeightedSum([p_1, p_2, ...], [w_1, w_2, ...]). *)
Definition material (ps : list (R * leaf)) : value := VSum (map (fun p => VLeaf (snd p)) ps) (map fst ps).
