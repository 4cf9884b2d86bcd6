(** Python string operations used by the readers.  Characters are ASCII: all data files of the
    repository are ASCII; non-ASCII digits and white space of Python's str are not modelled. *)
From Coq Require Import Ascii String List ZArith Bool.
Import ListNotations.
Open Scope string_scope.

Definition slen (s : string) : Z := Z.of_nat (String.length s).

(** Python's normalisation of a slice bound [i] for a sequence of length [n]. *)
Definition norm_index (n i : Z) : Z :=
  (if i <? 0 then Z.max 0 (i + n) else Z.min i n)%Z.

Definition slice_nat (s : string) (a b : nat) : string := substring a (b - a) s.

(** [s[i:j]]. *)
Definition py_slice (s : string) (i j : Z) : string :=
  slice_nat s (Z.to_nat (norm_index (slen s) i)) (Z.to_nat (norm_index (slen s) j)).

(** [s[i:]]. *)
Definition py_slice_from (s : string) (i : Z) : string := py_slice s i (slen s).

Fixpoint prefixb (p s : string) : bool :=
  match p, s with
  | EmptyString, _ => true
  | String a p', String b s' => if Ascii.eqb a b then prefixb p' s' else false
  | String _ _, EmptyString => false
  end.

(** Position of the first occurrence of [p] in [s]. *)
Fixpoint find_nat (p s : string) : option nat :=
  if prefixb p s then Some 0%nat
  else match s with
       | EmptyString => None
       | String _ s' => match find_nat p s' with Some n => Some (S n) | None => None end
       end.

(** [s.find(p)]. *)
Definition py_find (s p : string) : Z :=
  match find_nat p s with Some n => Z.of_nat n | None => (-1)%Z end.

(** [p in s]. *)
Definition py_in (p s : string) : bool :=
  match find_nat p s with Some _ => true | None => false end.

(** [s.split(sep)] for a nonempty separator: non-overlapping occurrences from left to right.
    [skip] counts the characters of a separator that are still to be dropped. *)
Fixpoint split_go (sep : string) (skip : nat) (s : string) : list string :=
  match s with
  | EmptyString => [EmptyString]
  | String c r =>
      match skip with
      | S k => split_go sep k r
      | O => if prefixb sep s then EmptyString :: split_go sep (String.length sep - 1) r
             else match split_go sep 0 r with
                  | h :: t => String c h :: t
                  | [] => []
                  end
      end
  end.
Definition py_split (sep s : string) : list string := split_go sep 0 s.

Definition newline : ascii := "010"%char.

(** Iteration over the lines of a file opened in text mode: every line keeps its newline, the last
    one may lack it.  (Universal-newline translation is not modelled: the files contain no CR.) *)
Fixpoint file_lines (s : string) : list string :=
  match s with
  | EmptyString => []
  | String c r =>
      if Ascii.eqb c newline then String c EmptyString :: file_lines r
      else match file_lines r with
           | [] => [String c EmptyString]
           | h :: t => String c h :: t
           end
  end.

Definition digit_val (c : ascii) : option Z :=
  let n := Z.of_nat (nat_of_ascii c) in
  if ((48 <=? n) && (n <=? 57))%Z then Some (n - 48)%Z else None.

(** [c.isdigit()] *)
Definition is_digit (c : ascii) : bool :=
  match digit_val c with Some _ => true | None => false end.

(** White space stripped by [int()] and [float()]. *)
Definition is_space (c : ascii) : bool :=
  let n := nat_of_ascii c in
  ((9 <=? n) && (n <=? 13) || (n =? 32) || ((28 <=? n) && (n <=? 31)))%nat.

Fixpoint lstrip (s : string) : string :=
  match s with
  | EmptyString => EmptyString
  | String c r => if is_space c then lstrip r else s
  end.

Fixpoint all_space (s : string) : bool :=
  match s with
  | EmptyString => true
  | String c r => is_space c && all_space r
  end.

Definition to_lower (c : ascii) : ascii :=
  let n := nat_of_ascii c in
  if ((65 <=? n) && (n <=? 90))%nat then ascii_of_nat (n + 32) else c.

Fixpoint lower (s : string) : string :=
  match s with EmptyString => EmptyString | String c r => String (to_lower c) (lower r) end.

Definition concat_lines (l : list string) : string := fold_right append EmptyString l.
