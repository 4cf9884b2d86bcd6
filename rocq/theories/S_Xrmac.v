(** Tables of attenuation coefficients (C50): lines (energy, coefficient), at least one, all numbers positive. *)
From Coq Require Import Reals List.
Import ListNotations.
Open Scope R_scope.
Definition table_ok (data : list (R * R)) : Prop := data <> [] /\ Forall (fun p => 0 < fst p /\ 0 < snd p) data.
