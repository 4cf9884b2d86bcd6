(** Generated by tools/gen_data.py. *)
From Coq Require Import String List ZArith.
Import ListNotations.
Open Scope string_scope.
Open Scope Z_scope.

(** ries/resonance/debye_model.py:95-181, [room_temperature_T_D]: all values are whole numbers of
    kelvin or [None]. *)
Definition room_temperature_T_D : list (string * option Z) :=
  [("Al", Some 390);
   ("Am", None);
   ("Sb", Some 200);
   ("Ar", None);
   ("As", Some 275);
   ("Ba", Some 116);
   ("Be", Some 1031);
   ("Bi", Some 116);
   ("B", Some 1362);
   ("Cd", Some 221);
   ("Ca", Some 230);
   ("C", Some 1550);
   ("Ce", Some 138);
   ("Cs", Some 43);
   ("Cr", Some 424);
   ("Co", Some 386);
   ("Cu", Some 310);
   ("Cm", None);
   ("Dy", Some 158);
   ("Er", Some 163);
   ("Eu", None);
   ("Fr", None);
   ("Gd", Some 155);
   ("Ga", Some 240);
   ("Ge", Some 403);
   ("Au", Some 178);
   ("Hf", Some 213);
   ("Ho", Some 161);
   ("H", None);
   ("In", Some 129);
   ("I", None);
   ("Ir", Some 228);
   ("Fe", Some 373);
   ("Kr", None);
   ("La", Some 135);
   ("Pb", Some 87);
   ("Li", Some 448);
   ("Lu", Some 116);
   ("Mg", Some 330);
   ("Ma", Some 363);
   ("Hg", Some 92);
   ("Mo", Some 377);
   ("Nd", Some 148);
   ("Ne", None);
   ("Np", Some 163);
   ("Ni", Some 345);
   ("Nb", Some 260);
   ("Os", Some 400);
   ("Pd", Some 275);
   ("P", Some 576);
   ("Pt", Some 225);
   ("Pu", Some 176);
   ("K", Some 100);
   ("Pr", Some 138);
   ("Pa", Some 262);
   ("Ra", None);
   ("Re", Some 275);
   ("Rh", Some 350);
   ("Rb", Some 59);
   ("Ru", Some 415);
   ("Sm", Some 184);
   ("Sc", Some 476);
   ("Se", None);
   ("Si", Some 692);
   ("Ag", Some 221);
   ("Na", Some 155);
   ("Sr", Some 148);
   ("S", Some 527);
   ("Ta", Some 225);
   ("Tc", Some 422);
   ("Te", None);
   ("Tb", Some 158);
   ("Tl", Some 96);
   ("Th", Some 100);
   ("Tm", Some 167);
   ("Sn", Some 254);
   ("Ti", Some 380);
   ("W", Some 312);
   ("U", Some 300);
   ("Va", Some 390);
   ("Xe", None);
   ("Yb", None);
   ("Y", Some 214);
   ("Zn", Some 237);
   ("Zr", Some 250)].
