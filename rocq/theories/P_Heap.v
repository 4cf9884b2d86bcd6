(** Property C04: + and * create new objects, never modify existing ones, and the objects they create
    are snapshots. *)
From Coq Require Import Reals List ZArith Bool Lia Lra.
From Coquelicot Require Import Rbar.
From Verif Require Import Py M_Num M_Grid M_CrossSection M_Heap S_Heap L_Heap.
Import ListNotations.
Open Scope R_scope.

(** The result of [a + b] is a new object; no existing object has other members, other factors or
    another value afterwards (for every recursion limit and energy). *)
Theorem C04_add_modifies_nothing : forall h a b h1 o,
  reachable h -> hadd h a b = Ok (h1, o) ->
  (forall q, (q < length (h_sums h))%nat ->
     q <> o /\ reactions_of h1 q = reactions_of h q /\ factors_of h1 q = factors_of h q) /\
  (forall r, ref_ok h r -> forall fuel E, hcall fuel h1 r E = hcall fuel h r E).
Proof. exact add_pure. Qed.

Theorem C04_mul_modifies_nothing : forall h a c h1 o,
  reachable h -> hmul h a c = Ok (h1, o) ->
  (forall q, (q < length (h_sums h))%nat ->
     q <> o /\ reactions_of h1 q = reactions_of h q /\ factors_of h1 q = factors_of h q) /\
  (forall r, ref_ok h r -> forall fuel E, hcall fuel h1 r E = hcall fuel h r E).
Proof. exact mul_pure. Qed.

(** The new object has the sum (the multiple) of the present values of the operands. *)
Theorem C04_add_value : forall h a b h1 o n E,
  reachable h -> ref_ok h a -> ref_ok h b -> hadd h a b = Ok (h1, o) ->
  depth_le n h a -> depth_le n h b ->
  hcall (S n) h1 (RSum o) E = oadd (hat n h a E) (hat n h b E).
Proof. exact add_value. Qed.

Theorem C04_mul_value : forall h a c h1 o n E,
  reachable h -> ref_ok h a -> hmul h a c = Ok (h1, o) -> depth_le n h a ->
  hcall (S n) h1 (RSum o) E = oscale c (hat n h a E).
Proof. exact mul_value. Qed.

(** Snapshots: whatever is done later to the operands (or to anything else but the result itself),
    the value of the result stays the same. *)
Theorem C04_add_snapshot : forall h a b h1 o l,
  reachable h -> ref_ok h a -> ref_ok h b -> hadd h a b = Ok (h1, o) ->
  copying a b -> flat h a -> flat h b ->
  steps_ok h1 l -> Forall (spares o) l ->
  forall fuel E, hcall fuel (execs h1 l) (RSum o) E = hcall fuel h1 (RSum o) E.
Proof. exact add_snapshot_flat. Qed.

Theorem C04_mul_snapshot : forall h a c h1 o l,
  reachable h -> ref_ok h a -> hmul h a c = Ok (h1, o) -> flat h a ->
  steps_ok h1 l -> Forall (spares o) l ->
  forall fuel E, hcall fuel (execs h1 l) (RSum o) E = hcall fuel h1 (RSum o) E.
Proof. exact mul_snapshot_flat. Qed.

(** Without [copying] (a cross section that is not a sum, plus a sum) the result refers to the sum:
    changing a factor of the sum afterwards changes the earlier result from 11 to 15. *)
Theorem C04_snapshot_refuted : exists h a b h1 o l fuel E x y,
  reachable h /\ ref_ok h a /\ ref_ok h b /\ hadd h a b = Ok (h1, o) /\ flat h a /\ flat h b /\
  steps_ok h1 l /\ Forall (spares o) l /\
  hcall fuel h1 (RSum o) E = Ok x /\ hcall fuel (execs h1 l) (RSum o) E = Ok y /\ x <> y.
Proof. exact snapshot_refuted. Qed.

(** A concrete case: s = CrossSectionWeightedSum([C(1)], [1]); t = s + C(10); s.scale_factors[0] = 5. *)
Example C04_ex :
  let h := execs empty_heap [SNew [RConst 1] [1]] in
  reachable h /\ copying (RSum 0) (RConst 10) /\ flat h (RSum 0) /\
  exists h1, hadd h (RSum 0) (RConst 10) = Ok (h1, 1%nat) /\
    steps_ok h1 [SModifyFactors 0 [5]] /\ Forall (spares 1) [SModifyFactors 0 [5]] /\
    hcall 3 (execs h1 [SModifyFactors 0 [5]]) (RSum 1) 0 = Ok 11 /\
    hcall 3 (execs h1 [SModifyFactors 0 [5]]) (RSum 0) 0 = Ok 5.
Proof. exact snapshot_example. Qed.

Print Assumptions C04_add_modifies_nothing.
Print Assumptions C04_mul_modifies_nothing.
Print Assumptions C04_add_value.
Print Assumptions C04_mul_value.
Print Assumptions C04_add_snapshot.
Print Assumptions C04_mul_snapshot.
Print Assumptions C04_snapshot_refuted.
