(** Vocabulary for the properties of the file readers (C51-C56): what a well-formed file looks like and
    which numbers it spells, independent of the readers. *)
From Coq Require Import Ascii String List ZArith Bool.
From Verif Require Import Py PyNum.
Import ListNotations.
Open Scope string_scope.

(** Every character of [s] satisfies [p]. *)
Fixpoint every (p : ascii -> bool) (s : string) : bool :=
  match s with EmptyString => true | String c r => p c && every p r end.
(** [c] does not occur in [s]. *)
Definition lacks (c : ascii) (s : string) : Prop := every (fun x => negb (Ascii.eqb x c)) s = true.
Definition nl : ascii := "010"%char.

(** Decimal digits: the character, and the number spelled by a list of digits. *)
Definition digit_text (d : Z) : ascii := nth (Z.to_nat d) (list_ascii_of_string "0123456789") "0"%char.
Definition text (ds : list Z) : string := string_of_list_ascii (map digit_text ds).
Definition spelled (ds : list Z) : Z := fold_left (fun acc d => 10 * acc + d)%Z ds 0%Z.
Definition digits_ok (ds : list Z) : Prop := Forall (fun d => (0 <= d <= 9)%Z) ds.

(** 1.234E-02 *)
Definition scientific (d0 : Z) (ds : list Z) (negative : bool) (es : list Z) : string :=
  text [d0] ++ "." ++ text ds ++ "E" ++ (if negative then "-" else "+") ++ text es.
Definition scientific_value (d0 : Z) (ds : list Z) (negative : bool) (es : list Z) : num :=
  Fin (spelled (d0 :: ds)) ((if negative then - spelled es else spelled es) - Z.of_nat (List.length ds)).
(** 12.345 *)
Definition decimal (is fs : list Z) : string := text is ++ "." ++ text fs.
Definition decimal_value (is fs : list Z) : num := Fin (spelled (is ++ fs)) (- Z.of_nat (List.length fs)).

(** ** Tables of Hubbell and Seltzer (xrmac.py:171-197) *)
Record xline := { x_label : string; x_energy : string; x_coefficient : string; x_absorption : string }.
Definition x_numbers (l : xline) : string := x_energy l ++ "  " ++ x_coefficient l ++ "  " ++ x_absorption l.
Definition xrow (labelled : bool) (l : xline) : string :=
  (if labelled then x_label l else "") ++ x_numbers l ++ " ".
Definition xfile (labelled : bool) (ls : list xline) : string :=
  fold_right (fun l r => xrow labelled l ++ String nl r) "" ls.
(** The same without the newline at the end of the file. *)
Fixpoint xfile_open (labelled : bool) (ls : list xline) : string :=
  match ls with
  | [] => ""
  | [l] => xrow labelled l
  | l :: r => xrow labelled l ++ String nl (xfile_open labelled r)
  end.
(** Numbers without spaces and newlines, labels of three characters. *)
Definition field_ok (s : string) : Prop := lacks " " s /\ lacks nl s.
Definition xline_ok (labelled : bool) (l : xline) : Prop :=
  field_ok (x_energy l) /\ field_ok (x_coefficient l) /\ field_ok (x_absorption l) /\
  (labelled = true -> String.length (x_label l) = 3 /\ lacks nl (x_label l)).
(** The first character of a file tells whether there are labels. *)
Definition begins_with_digit (s : string) : Prop := exists d r, (0 <= d <= 9)%Z /\ s = String (digit_text d) r.
Definition labels_ok (labelled : bool) (ls : list xline) : Prop :=
  match ls with
  | [] => False
  | l :: _ => if labelled then ~ begins_with_digit (x_label l) else begins_with_digit (x_energy l)
  end.
(** The fields spell these numbers. *)
Definition xline_spells (l : xline) (v : num * num * num) : Prop :=
  py_float (x_energy l) = Ok (fst (fst v)) /\ py_float (x_coefficient l) = Ok (snd (fst v)) /\
  py_float (x_absorption l) = Ok (snd v).

(** Tables of numbers in scientific notation. *)
Record sci := { s_d0 : Z; s_ds : list Z; s_neg : bool; s_es : list Z }.
Definition sci_ok (s : sci) : Prop := digits_ok (s_d0 s :: s_ds s) /\ digits_ok (s_es s) /\ s_es s <> [].
Definition sci_text (s : sci) : string := scientific (s_d0 s) (s_ds s) (s_neg s) (s_es s).
Definition sci_value (s : sci) : num := scientific_value (s_d0 s) (s_ds s) (s_neg s) (s_es s).
Record sline := { t_label : string; t_energy : sci; t_coefficient : sci; t_absorption : sci }.
Definition sline_ok (l : sline) : Prop :=
  sci_ok (t_energy l) /\ sci_ok (t_coefficient l) /\ sci_ok (t_absorption l) /\
  String.length (t_label l) = 3 /\ lacks nl (t_label l) /\ ~ begins_with_digit (t_label l).
Definition sline_text (l : sline) : xline :=
  {| x_label := t_label l; x_energy := sci_text (t_energy l); x_coefficient := sci_text (t_coefficient l);
     x_absorption := sci_text (t_absorption l) |}.
Definition sline_value (l : sline) : num * num * num :=
  (sci_value (t_energy l), sci_value (t_coefficient l), sci_value (t_absorption l)).
(** The number without the last digit of its exponent. *)
Definition cut_exponent (s : sci) : sci :=
  {| s_d0 := s_d0 s; s_ds := s_ds s; s_neg := s_neg s; s_es := removelast (s_es s) |}.

(** ** Density file (natural_element_data.py:208-240) *)
Definition letter (c : ascii) : bool :=
  let n := nat_of_ascii c in ((65 <=? n) && (n <=? 90) || (97 <=? n) && (n <=? 122))%nat.
Definition symbol_ok (s : string) : Prop := s <> "" /\ every letter s = true.
Definition contains (p s : string) : Prop := exists a b, s = a ++ p ++ b.
(** Symbols in a column of two characters, then the density. *)
Definition dline (e : string * string) : string := fst e ++ (if String.length (fst e) =? 1 then " " else "")%nat ++ snd e.
(** A text file; the last line may lack its newline. *)
Fixpoint text_file (final : bool) (lines : list string) : string :=
  match lines with
  | [] => ""
  | [l] => l ++ (if final then String nl "" else "")
  | l :: r => l ++ String nl (text_file final r)
  end.
Definition comment_ok (c : string) : Prop := lacks nl c /\ (c = "#" \/ exists r, c = "# " ++ r).
Definition dentry_ok (e : string * string) : Prop :=
  symbol_ok (fst e) /\ String.length (fst e) <= 2 /\ lacks nl (snd e) /\ exists v, py_float (snd e) = Ok v.
Definition dfile (final : bool) (comments : list string) (entries : list (string * string)) : string :=
  text_file final (comments ++ map dline entries).

(** ** NIST element data (natural_element_data.py:35-83) *)
(** A value: missing, VALUE(UNCERTAINTY), or VALUE without uncertainty. *)
Inductive value := VEmpty | VUncertain (t u : string) | VPlain (t : string).
Definition value_text (v : value) : string :=
  match v with VEmpty => "" | VUncertain t u => t ++ "(" ++ u | VPlain t => t end.
Definition value_ok (v : value) : Prop :=
  match v with
  | VEmpty => True
  | VUncertain t u => lacks "(" t /\ lacks "=" t /\ lacks nl t /\ lacks "=" u /\ lacks nl u /\ exists x, py_float t = Ok x
  | VPlain t => lacks "(" t /\ lacks "=" t /\ lacks nl t /\ exists x, py_float t = Ok x
  end.
(** The number that a value spells, if any. *)
Definition value_spells (v : value) (x : option num) : Prop :=
  match v with
  | VEmpty => x = None
  | VUncertain t _ | VPlain t => exists y, py_float t = Ok y /\ x = Some y
  end.
(** Digits of a natural number without leading zeros. *)
Definition canonical (ds : list Z) : Prop := digits_ok ds /\ ds <> [] /\ (hd 0%Z ds = 0%Z -> List.length ds = 1).
(** One paragraph; [p_others] are the further lines. *)
Record paragraph := { p_Z : list Z; p_X : string; p_A : list Z; p_mass : value; p_composition : value; p_others : list string }.
Definition other_ok (l : string) : Prop := lacks nl l /\
  ~ contains "Atomic Number = " l /\ ~ contains "Atomic Symbol = " l /\ ~ contains "Mass Number = " l /\
  ~ contains "Relative Atomic Mass = " l /\ ~ contains "Isotopic Composition = " l.
Definition paragraph_ok (p : paragraph) : Prop :=
  canonical (p_Z p) /\ symbol_ok (p_X p) /\ canonical (p_A p) /\ value_ok (p_mass p) /\ value_ok (p_composition p) /\
  Forall other_ok (p_others p).
Definition paragraph_lines (p : paragraph) : list string :=
  (["Atomic Number = " ++ text (p_Z p); "Atomic Symbol = " ++ p_X p; "Mass Number = " ++ text (p_A p);
   "Relative Atomic Mass = " ++ value_text (p_mass p); "Isotopic Composition = " ++ value_text (p_composition p)]%string ++ p_others p)%list.
Definition nist_file (final : bool) (header : list string) (ps : list paragraph) : string :=
  text_file final (header ++ flat_map paragraph_lines ps).
(** The newline at the end of the file may be missing after a line that is not read. *)
Definition ending_ok (final : bool) (header : list string) (ps : list paragraph) : Prop :=
  final = true \/ exists ls l, (header ++ flat_map paragraph_lines ps = ls ++ [l])%list /\ other_ok l /\ l <> "".
(** Isotope names: mass number and symbol. *)
Definition isotope_name (p : paragraph) : string := text (p_A p) ++ p_X p.
Definition of_Z (Z0 : Z) (ps : list paragraph) : list paragraph := filter (fun p => Z.eqb (spelled (p_Z p)) Z0) ps.
(** Atomic numbers do not decrease. *)
Fixpoint ordered_Z (ps : list paragraph) : Prop :=
  match ps with
  | [] => True
  | p :: r => Forall (fun q => (spelled (p_Z p) <= spelled (p_Z q))%Z) r /\ ordered_Z r
  end.
(** The abundance that a value spells; nothing stands for zero. *)
Definition abundance_spelled (v : value) (x : option num) : Prop :=
  match v with
  | VEmpty => x = Some (Fin 0 0)
  | VUncertain t _ | VPlain t => exists y, py_float t = Ok y /\ x = Some y
  end.
Definition with_uncertainty (v : value) : Prop := match v with VPlain _ => False | _ => True end.
