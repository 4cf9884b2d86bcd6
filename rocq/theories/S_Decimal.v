(** Decimal numbers as real numbers (C55, C57, C58): m * 10^e. *)
From Coq Require Import Reals ZArith.
From Verif Require Import PyNum.
Open Scope R_scope.
Definition worth (n : num) (x : R) : Prop := match n with Fin m e => x = IZR m * powerRZ 10 e | _ => False end.
