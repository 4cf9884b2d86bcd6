(** C51, C52: reading tables of attenuation coefficients from files. *)
From Coq Require Import Ascii String List ZArith Bool Lia.
From Verif Require Import Py PyStr PyNum M_Readers S_Readers L_Str L_XrmacReader D_Xrmac.
Import ListNotations.
Open Scope string_scope.

(** Two lines of a file with labels. *)
Definition line1 : sline := {| t_label := "   "; t_energy := {| s_d0 := 1; s_ds := [0; 0; 0; 0; 0]%Z; s_neg := true; s_es := [0; 3]%Z |};
  t_coefficient := {| s_d0 := 5; s_ds := [2; 1; 0]%Z; s_neg := false; s_es := [0; 3]%Z |}; t_absorption := {| s_d0 := 5; s_ds := [1; 9; 7]%Z; s_neg := false; s_es := [0; 3]%Z |} |}.
Definition line2 : sline := {| t_label := "L1 "; t_energy := {| s_d0 := 2; s_ds := [0; 0; 0; 0; 0]%Z; s_neg := false; s_es := [0; 1]%Z |};
  t_coefficient := {| s_d0 := 6; s_ds := [2; 0; 6]%Z; s_neg := true; s_es := [0; 2]%Z |}; t_absorption := {| s_d0 := 3; s_ds := [5; 9; 5]%Z; s_neg := true; s_es := [0; 2]%Z |} |}.
Example lines_ok : Forall sline_ok [line1; line2].
Proof.
  assert (D : forall s, forallb (fun d => (0 <=? d) && (d <=? 9))%Z s = true -> digits_ok s).
  { intros s H. apply Forall_forall. intros d Hd. rewrite forallb_forall in H. specialize (H d Hd). lia. }
  repeat constructor; try (now apply D); try discriminate; try lia; intros (d & r & Hd & E); injection E as E _; digit_case Hd; discriminate.
Qed.
Example lines_text : xfile true (map sline_text [line1; line2]) = "   1.00000E-03  5.210E+03  5.197E+03 
L1 2.00000E+01  6.206E-02  3.595E-02 
".
Proof. reflexivity. Qed.

(** ** C51 *)
(** Any texts that [float()] accepts, without spaces and newlines; any labels. *)
Theorem C51_reads : forall labelled ls vs, Forall (xline_ok labelled) ls -> labels_ok labelled ls -> Forall2 xline_spells ls vs ->
  read_nist_xrmac Ok Ok (xfile labelled ls) = Ok vs.
Proof. exact read_plain. Qed.
Theorem C51_converts : forall {A} (f g : num -> A) labelled ls vs,
  Forall (xline_ok labelled) ls -> labels_ok labelled ls -> Forall2 xline_spells ls vs ->
  read_nist_xrmac (fun v => Ok (f v)) (fun v => Ok (g v)) (xfile labelled ls) =
  Ok (map (fun v => (f (fst (fst v)), g (snd (fst v)), g (snd v))) vs).
Proof. exact @read_total. Qed.
(** Numbers in scientific notation with any number of digits. *)
Theorem C51_scientific : forall labelled ls, Forall sline_ok ls -> ls <> [] ->
  read_nist_xrmac Ok Ok (xfile labelled (map sline_text ls)) = Ok (map sline_value ls).
Proof. exact read_scientific. Qed.
(** [float()] of a number in scientific notation. *)
Theorem C51_float : forall s, sci_ok s -> py_float (sci_text s) = Ok (sci_value s).
Proof. exact (fun s '(conj A (conj B C)) => float_scientific (s_d0 s) (s_ds s) (s_neg s) (s_es s) A B C). Qed.

(** ** C52 *)
(** The supplied file of lead is not read like the same file with a newline at its end. *)
Theorem C52_final_newline_refuted :
  ~ forall file, file <> "" -> read_nist_xrmac Ok Ok file = read_nist_xrmac Ok Ok (file ++ String nl "").
Proof. exact (fun H => ltac:(specialize (H xrmac_82 ltac:(discriminate)); vm_compute in H; discriminate H)). Qed.
(** What is read instead: in the last line, the last digit of the last exponent is missing.  The first two columns, the only
    ones used by [interpolate_log_log], are not affected. *)
Theorem C52_last_exponent : forall labelled ls l, Forall sline_ok ls -> sline_ok l -> (2 <= List.length (s_es (t_absorption l)))%nat ->
  read_nist_xrmac Ok Ok (xfile_open labelled (map sline_text (ls ++ [l]))) =
  Ok (map sline_value ls ++ [(sci_value (t_energy l), sci_value (t_coefficient l), sci_value (cut_exponent (t_absorption l)))])%list.
Proof. exact read_scientific_open. Qed.
Theorem C52_first_columns : forall labelled ls l, Forall sline_ok ls -> sline_ok l -> (2 <= List.length (s_es (t_absorption l)))%nat ->
  omap (map fst) (read_nist_xrmac Ok Ok (xfile_open labelled (map sline_text (ls ++ [l])))) =
  omap (map fst) (read_nist_xrmac Ok Ok (xfile labelled (map sline_text (ls ++ [l])))).
Proof. exact first_columns. Qed.
Example open_ex : read_nist_xrmac Ok Ok (xfile_open true (map sline_text [line1; line2])) =
  Ok [(Fin 100000 (-8), Fin 5210 0, Fin 5197 0); (Fin 200000 (-4), Fin 6206 (-5), Fin 3595 (-3))]%Z.
Proof. vm_compute. reflexivity. Qed.
Print Assumptions C51_reads.
Print Assumptions C51_converts.
Print Assumptions C51_scientific.
Print Assumptions C51_float.
Print Assumptions C52_final_newline_refuted.
Print Assumptions C52_last_exponent.
Print Assumptions C52_first_columns.
