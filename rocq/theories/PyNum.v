(** Python's [int(str)] and [float(str)].  A float literal is kept as the exact decimal number it
    spells; rounding to binary64 is left out here, [M_Float9] has it for XRMAC tables. *)
From Coq Require Import Ascii String List ZArith Bool.
From Verif Require Import Py PyStr.
Import ListNotations.
Open Scope string_scope.

(** Value of a float literal: [Fin m e] is m * 10^e. *)
Inductive num :=
  | Fin (m e : Z)
  | PInf | NInf | NotNum.

(** digitpart ::= digit (["_"] digit)* .
    Returns the value accumulated in [acc], the number of digits and the rest. *)
Fixpoint digits (s : string) (acc : Z) (cnt : nat) : Z * nat * string :=
  match s with
  | EmptyString => (acc, cnt, s)
  | String c r =>
      match digit_val c with
      | Some d => digits r (10 * acc + d)%Z (S cnt)
      | None =>
          if Ascii.eqb c "_" then
            match cnt, r with
            | S _, String c2 r2 =>
                match digit_val c2 with
                | Some d => digits r2 (10 * acc + d)%Z (S cnt)
                | None => (acc, cnt, s)
                end
            | _, _ => (acc, cnt, s)
            end
          else (acc, cnt, s)
      end
  end.

(** Optional sign: returns the factor and the rest. *)
Definition sign (s : string) : Z * string :=
  match s with
  | String c r => if Ascii.eqb c "-" then ((-1)%Z, r)
                  else if Ascii.eqb c "+" then (1%Z, r) else (1%Z, s)
  | EmptyString => (1%Z, s)
  end.

(** [int(s)] *)
Definition py_int (s : string) : out Z :=
  let '(sg, r) := sign (lstrip s) in
  match digits r 0 0 with
  | (v, S _, r') => if all_space r' then Ok (sg * v)%Z else Raise ValueError
  | (_, O, _) => Raise ValueError
  end.

(** Optional exponent part: [None] if malformed. *)
Definition exponent (s : string) : option (Z * string) :=
  match s with
  | String c r =>
      if Ascii.eqb (to_lower c) "e" then
        let '(sg, r1) := sign r in
        match digits r1 0 0 with
        | (v, S _, r2) => Some ((sg * v)%Z, r2)
        | (_, O, _) => None
        end
      else Some (0%Z, s)
  | EmptyString => Some (0%Z, s)
  end.

(** The words accepted by [float()], up to trailing white space. *)
Definition special (sg : Z) (s : string) : option num :=
  let w := lower s in
  let try (p : string) :=
    prefixb p w && all_space (substring (String.length p) (String.length w - String.length p) w) in
  if try "inf" || try "infinity" then Some (if (sg <? 0)%Z then NInf else PInf)
  else if try "nan" then Some NotNum else None.

(** [float(s)] *)
Definition py_float (s : string) : out num :=
  let '(sg, r) := sign (lstrip s) in
  let '(ip, ni, r1) := digits r 0 0 in
  let '(m, nf, r2) :=
    match r1 with
    | String c r' =>
        if Ascii.eqb c "." then
          let '(v, n, rest) := digits r' 0 0 in ((ip * 10 ^ Z.of_nat n + v)%Z, n, rest)
        else (ip, O, r1)
    | EmptyString => (ip, O, r1)
    end in
  if (ni + nf =? 0)%nat then
    match special sg r with Some v => Ok v | None => Raise ValueError end
  else
    match exponent r2 with
    | Some (e, r3) =>
        if all_space r3 then Ok (Fin (sg * m) (e - Z.of_nat nf)) else Raise ValueError
    | None => Raise ValueError
    end.

(** Decimal representation of a nonnegative integer, at least one digit (the [{:d}] format and
    [str(int)]).  [fuel] is an upper bound for the number of digits. *)
Definition digit_char (d : Z) : ascii := ascii_of_nat (Z.to_nat (48 + d)).
Fixpoint show_pos (fuel : nat) (n : Z) (acc : string) : string :=
  let acc' := String (digit_char (n mod 10)) acc in
  match fuel with
  | O => acc'
  | S f => if (n / 10 =? 0)%Z then acc' else show_pos f (n / 10) acc'
  end.
Definition show_Z (n : Z) : string :=
  if (n <? 0)%Z then String "-" (show_pos (Z.to_nat (Z.log2_up (- n) + 1)) (- n) EmptyString)
  else show_pos (Z.to_nat (Z.log2_up n + 1)) n EmptyString.

Example py_float_ex1 : py_float "   1.50000E-03 " = Ok (Fin 150000 (-8)). Proof. reflexivity. Qed.
Example py_float_ex2 : py_float "3.595E-0" = Ok (Fin 3595 (-3)). Proof. reflexivity. Qed.
Example py_float_ex3 : py_float " -Infinity " = Ok NInf. Proof. reflexivity. Qed.
Example py_float_ex4 : py_float "2." = Ok (Fin 2 0). Proof. reflexivity. Qed.
Example py_float_ex5 : py_float "1_0.5_0e1_0" = Ok (Fin 1050 8). Proof. reflexivity. Qed.
Example py_float_ex6 : py_float "" = Raise ValueError. Proof. reflexivity. Qed.
Example py_float_ex7 : py_float "1._5" = Raise ValueError. Proof. reflexivity. Qed.
Example py_int_ex1 : py_int " 118" = Ok 118%Z. Proof. reflexivity. Qed.
Example py_int_ex2 : py_int "1 1" = Raise ValueError. Proof. reflexivity. Qed.
Example show_Z_ex : show_Z 208 = "208" /\ show_Z 0 = "0" /\ show_Z (-35) = "-35".
Proof. repeat split. Qed.
