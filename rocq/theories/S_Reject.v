(** Vocabulary for C85-C87: states that only differ in parity, objects without a width, abstract cross sections. *)
From Coq Require Import Reals List ZArith String.
From Coquelicot Require Import Rbar.
From Verif Require Import Py M_Num M_Grid M_Constituents M_Thermal M_Dist M_CrossSection M_Resonance M_PseudoVoigt.
Import ListNotations.
Open Scope R_scope.

(** The same state up to parity. *)
Definition same_but_parity (s s' : state) : Prop :=
  st_J_pi s' = st_J_pi s /\ st_two_J s' = st_two_J s /\ st_excitation_energy s' = st_excitation_energy s /\
  st_decays s' = st_decays s.
Definition same_final (f f' : option state) : Prop :=
  match f, f' with None, None => True | Some s, Some s' => same_but_parity s s' | _, _ => False end.

(** Two objects that a user cannot tell apart by calling their methods. *)
Definition alike (r r' : resonance) : Prop :=
  (forall E a, res_call r' E a = res_call r E a) /\
  (forall c, coverage_interval r' c = coverage_interval r c) /\
  (forall arg n, res_energy_grid r' arg n = res_energy_grid r arg n) /\
  (forall arg n, res_probability_grid r' arg n = res_probability_grid r arg n).
Definition alike_out (x y : out resonance) : Prop :=
  match x, y with
  | Ok r, Ok r' => alike r r'
  | NaN, NaN => True
  | Raise e, Raise e' => e = e'
  | _, _ => False
  end.

(** No number comes out of a method, except for limits that are passed through. *)
Definition never_a_number (r : resonance) : Prop :=
  (forall E a, res_call r E a = NaN) /\
  (forall c, coverage_interval r c = ([], NaN)) /\
  (forall c n, res_energy_grid r (Coverage c) n = ([], NaN)) /\
  (forall c n, (1 <= n)%Z -> res_probability_grid r (Coverage c) n = ([], NaN)) /\
  (forall a b n, (3 <= n)%Z -> res_probability_grid r (Limits a b) n = ([], NaN)).

(** The base class occurs somewhere in a (nested) weighted sum. *)
Inductive uses_abstract : value -> Prop :=
  | abstract_itself : uses_abstract (VLeaf abstract_leaf)
  | abstract_member rs ss r : In r rs -> uses_abstract r -> uses_abstract (VSum rs ss).

(** All other members answer, and each has a scale factor. *)
Inductive others_answer (E : R) (g : grid_arg) (n : Z) : value -> Prop :=
  | an_abstract : others_answer E g n (VLeaf abstract_leaf)
  | an_other c y l : l_call c E = Ok y -> l_pgrid c g n = Ok (Some l) -> others_answer E g n (VLeaf c)
  | a_constant r a b : g = Limits a b -> (0 <= n)%Z -> others_answer E g n (VConst r)
  | a_sum rs ss : (List.length rs <= List.length ss)%nat -> (forall r, In r rs -> others_answer E g n r) ->
      others_answer E g n (VSum rs ss).
