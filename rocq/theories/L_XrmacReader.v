(** Reading tables of attenuation coefficients. *)
From Coq Require Import Ascii String List ZArith Bool Lia.
From Verif Require Import Py PyStr PyNum M_Readers S_Readers L_Str.
Import ListNotations.
Open Scope string_scope.
Open Scope py_scope.

Lemma digit_val_inv c d : digit_val c = Some d -> (0 <= d <= 9)%Z /\ c = digit_text d.
Proof.
  destruct c as [[] [] [] [] [] [] [] []]; cbv; intros H; try discriminate; injection H as <-; split; try reflexivity; split; discriminate.
Qed.
Lemma is_digit_iff s c r : s = String c r -> is_digit c = true <-> begins_with_digit s.
Proof.
  intros ->. unfold is_digit. split.
  - destruct (digit_val c) as [d|] eqn:E; [|discriminate]. intros _. apply digit_val_inv in E. destruct E as [H ->]. now exists d, r.
  - intros (d & r' & H & E). injection E as -> ->. now rewrite digit_val_text.
Qed.

Lemma traverse_cons {A B} (f : A -> out B) x r : traverse f (x :: r) = let! a := f x in let! b := traverse f r in Ok (a :: b).
Proof. reflexivity. Qed.
Lemma traverse_map {A B C} (g : A -> B) (f : B -> out C) l : traverse f (map g l) = traverse (fun x => f (g x)) l.
Proof. unfold traverse. now rewrite map_map. Qed.
Lemma traverse_ext2 {A B C} (P : A -> B -> Prop) (f : A -> out C) (g : B -> out C) l m :
  Forall2 P l m -> (forall a b, P a b -> f a = g b) -> traverse f l = traverse g m.
Proof. intros H E. induction H as [|a b l m Hab H IH]; [reflexivity|]. rewrite !traverse_cons, IH. now rewrite (E a b Hab). Qed.
Lemma traverse_ok {A B} (f : A -> B) l : traverse (fun x => Ok (f x)) l = Ok (map f l).
Proof. induction l as [|x l IH]; [reflexivity|]. rewrite traverse_cons, IH. reflexivity. Qed.
Lemma traverse_app {A B} (f : A -> out B) l m : traverse f (l ++ m) = let! a := traverse f l in let! b := traverse f m in Ok (a ++ b)%list.
Proof.
  induction l as [|x l IH]; cbn [app].
  - change (traverse f []) with (@Ok (list B) []). cbn. destruct (traverse f m); reflexivity.
  - rewrite !traverse_cons, IH. destruct (f x); [cbn|reflexivity..]. destruct (traverse f l); [cbn|reflexivity..]. destruct (traverse f m); reflexivity.
Qed.

Definition skip_of (labelled : bool) : Z := if labelled then 3%Z else 0%Z.
Definition label_of (labelled : bool) (l : xline) : string := if labelled then x_label l else "".
Lemma row_lacks b l : xline_ok b l -> lacks nl (xrow b l).
Proof.
  intros ((_ & H0) & (_ & H1) & (_ & H2) & HL). unfold xrow, x_numbers. rewrite !lacks_app.
  repeat split; try assumption; try reflexivity. destruct b; [now apply HL|reflexivity].
Qed.
Lemma label_len b l : xline_ok b l -> skip_of b = slen (label_of b l).
Proof. intros (_ & _ & _ & HL). destruct b; [|reflexivity]. unfold slen, label_of. destruct (HL eq_refl) as [-> _]. reflexivity. Qed.
Lemma fields_line l s : field_ok (x_energy l) -> field_ok (x_coefficient l) -> field_ok s ->
  py_split "  " (x_energy l ++ "  " ++ x_coefficient l ++ "  " ++ s) = [x_energy l; x_coefficient l; s].
Proof. intros (H0 & _) (H1 & _) (H2 & _). now rewrite !split_field, split_last. Qed.

Section Conv.
  Context {A : Type} (econv xconv : num -> out A).
  (** The converted line. *)
  Definition converted (v : num * num * num) : out (A * A * A) :=
    let! e := econv (fst (fst v)) in let! x := xconv (snd (fst v)) in let! y := xconv (snd v) in Ok (e, x, y).

  Lemma line_closed b l v : xline_ok b l -> xline_spells l v ->
    xrmac_line econv xconv (skip_of b) (xrow b l ++ String nl "") = converted v.
  Proof.
    intros OK (S0 & S1 & S2). pose proof (label_len b l OK) as LL. pose proof OK as (H0 & H1 & H2 & _). unfold xrmac_line, xrow. fold (label_of b l).
    replace ((label_of b l ++ x_numbers l ++ " ") ++ String nl "") with (label_of b l ++ x_numbers l ++ String " " (String nl ""))
      by (rewrite !app_assoc_s; reflexivity).
    rewrite slice_mid; [|exact LL|discriminate|reflexivity]. unfold x_numbers. rewrite fields_line by assumption.
    cbn. rewrite S0, S1, S2. reflexivity.
  Qed.
  (** Without the newline: the last character of the third number is missing. *)
  Lemma line_open b l a c v0 v1 : xline_ok b l -> x_absorption l = a ++ String c "" ->
    py_float (x_energy l) = Ok v0 -> py_float (x_coefficient l) = Ok v1 ->
    xrmac_line econv xconv (skip_of b) (xrow b l) =
    let! e := econv v0 in let! x := xconv v1 in let! v2 := py_float a in let! y := xconv v2 in Ok (e, x, y).
  Proof.
    intros OK E S0 S1. pose proof (label_len b l OK) as LL. pose proof OK as (H0 & H1 & [H2 H3] & _). unfold xrmac_line, xrow. fold (label_of b l).
    unfold x_numbers. rewrite E in H2, H3 |- *.
    replace ((x_energy l ++ "  " ++ x_coefficient l ++ "  " ++ a ++ String c "") ++ " ")
      with ((x_energy l ++ "  " ++ x_coefficient l ++ "  " ++ a) ++ String c " ") by (rewrite !app_assoc_s; reflexivity).
    rewrite slice_mid; [|exact LL|discriminate|reflexivity]. apply lacks_app in H2, H3. rewrite fields_line by (assumption || now split).
    cbn. rewrite S0, S1. reflexivity.
  Qed.

  Lemma skip_ok b l r s : labels_ok b (l :: r) -> xline_ok b l -> xrmac_skip (xrow b l ++ s) = Ok (skip_of b) .
  Proof.
    intros L OK. unfold xrmac_skip. pose proof OK as (_ & _ & _ & HL).
    assert (E : exists c t, xrow b l ++ s = String c t /\ is_digit c = negb b /\ c <> nl).
    { unfold xrow. destruct b; cbn in L.
      - destruct (HL eq_refl) as [H3 H4]. destruct (x_label l) as [|c t] eqn:EL; [discriminate|]. eexists c, _. split; [reflexivity|]. 
        apply lacks_cons in H4. split; [|tauto]. cbn. destruct (is_digit c) eqn:D; [|reflexivity]. apply (is_digit_iff _ c t eq_refl) in D. contradiction.
      - destruct (x_energy l) as [|c t] eqn:EL; [destruct L as (d & r' & _ & E); discriminate|]. unfold x_numbers. rewrite EL. eexists c, _. split; [reflexivity|].
        pose proof L as L'. apply (is_digit_iff _ c t eq_refl) in L'. split; [exact L'|]. destruct L as (d & r' & Hd & E). injection E as -> ->. digit_case Hd; discriminate. }
    destruct E as (c & t & -> & D & N). cbn [file_lines]. change newline with nl. rewrite (proj2 (Ascii.eqb_neq c nl) N).
    destruct (file_lines t); rewrite D; destruct b; reflexivity.
  Qed.
  Lemma lines_file b ls : Forall (xline_ok b) ls -> file_lines (xfile b ls) = map (fun l => xrow b l ++ String nl "") ls.
  Proof.
    induction 1 as [|l ls H F IH]; [reflexivity|]. cbn [map]. rewrite <- IH. apply lines_cons. now apply row_lacks.
  Qed.
  Lemma xfile_open_snoc b ls l : xfile_open b (ls ++ [l]) = (xfile b ls ++ xrow b l).
  Proof.
    induction ls as [|k ls IH]; [reflexivity|]. change ((k :: ls) ++ [l])%list with (k :: (ls ++ [l]))%list.
    assert (E : xfile_open b (k :: (ls ++ [l])%list) = xrow b k ++ String nl (xfile_open b (ls ++ [l])%list)) by (destruct ls; reflexivity).
    rewrite E, IH. unfold xfile. cbn [fold_right]. rewrite app_assoc_s. reflexivity.
  Qed.
  Lemma lines_file_open b ls l : Forall (xline_ok b) ls -> xline_ok b l ->
    file_lines (xfile b ls ++ xrow b l) = (map (fun l => (xrow b l ++ String nl "")%string) ls ++ [xrow b l])%list.
  Proof.
    intros F H. induction F as [|k ls Hk F IH].
    - cbn [xfile fold_right map app]. change ("" ++ xrow b l) with (xrow b l). apply lines_open; [now apply row_lacks|]. unfold xrow. destruct (if b then x_label l else ""); [|discriminate].
      cbn. destruct (x_numbers l); discriminate.
    - cbn [map app]. rewrite <- IH. unfold xfile at 1. cbn [fold_right]. rewrite app_assoc_s. apply lines_cons. now apply row_lacks.
  Qed.

  Theorem read_file b ls vs : Forall (xline_ok b) ls -> labels_ok b ls -> Forall2 xline_spells ls vs ->
    read_nist_xrmac econv xconv (xfile b ls) = traverse converted vs.
  Proof.
    intros F L S2. unfold read_nist_xrmac. destruct ls as [|l r]; [contradiction|].
    change (xfile b (l :: r)) with (xrow b l ++ String nl (xfile b r)) at 1.
    rewrite (skip_ok b l r); [|assumption|now apply Forall_inv in F]. cbn [bind]. rewrite lines_file by assumption. rewrite traverse_map.
    apply (traverse_ext2 (fun l v => xline_ok b l /\ xline_spells l v)).
    - clear L. induction S2; constructor; inversion F; subst; auto.
    - intros k v [H1 H2]. now apply line_closed.
  Qed.
  Theorem read_file_open b ls l vs a c v0 v1 : Forall (xline_ok b) (ls ++ [l]) -> labels_ok b (ls ++ [l]) -> Forall2 xline_spells ls vs ->
    x_absorption l = a ++ String c "" -> py_float (x_energy l) = Ok v0 -> py_float (x_coefficient l) = Ok v1 ->
    read_nist_xrmac econv xconv (xfile_open b (ls ++ [l])) =
    let! rest := traverse converted vs in
    let! e := econv v0 in let! x := xconv v1 in let! v2 := py_float a in let! y := xconv v2 in Ok (rest ++ [(e, x, y)])%list.
  Proof.
    intros F L S2 E S0 S1. unfold read_nist_xrmac. rewrite xfile_open_snoc. apply Forall_app in F. destruct F as [F Fl]. apply Forall_inv in Fl.
    assert (SK : xrmac_skip (xfile b ls ++ xrow b l) = Ok (skip_of b)).
    { destruct ls as [|k r].
      - change (xfile b [] ++ xrow b l) with (xrow b l). rewrite <- (app_nil_s (xrow b l)). now apply (skip_ok b l []).
      - unfold xfile. cbn [fold_right]. rewrite app_assoc_s. apply (skip_ok b k (r ++ [l])); [exact L|]. now apply Forall_inv in F. }
    rewrite SK. cbn [bind]. rewrite lines_file_open by assumption. rewrite traverse_app, traverse_map.
    rewrite (traverse_ext2 (fun l v => xline_ok b l /\ xline_spells l v) (fun x => xrmac_line econv xconv (skip_of b) (xrow b x ++ String nl "")) converted ls vs).
    - destruct (traverse converted vs) as [rest| |]; [|reflexivity..]. cbn [bind]. rewrite traverse_cons, (line_open b l a c v0 v1) by assumption.
      destruct (econv v0); [cbn [bind]|reflexivity..]. destruct (xconv v1); [cbn [bind]|reflexivity..].
      destruct (py_float a) as [v2| |]; [cbn [bind]|reflexivity..]. destruct (xconv v2); reflexivity.
    - clear L SK. induction S2; constructor; inversion F; subst; auto.
    - intros k v [H1 H2]. now apply line_closed.
  Qed.
End Conv.

Lemma traverse_converted {A} (f g : num -> A) vs :
  traverse (converted (fun v => Ok (f v)) (fun v => Ok (g v))) vs = Ok (map (fun v => (f (fst (fst v)), g (snd (fst v)), g (snd v))) vs).
Proof. rewrite <- traverse_ok. reflexivity. Qed.
Theorem read_total {A} (f g : num -> A) b ls vs : Forall (xline_ok b) ls -> labels_ok b ls -> Forall2 xline_spells ls vs ->
  read_nist_xrmac (fun v => Ok (f v)) (fun v => Ok (g v)) (xfile b ls) = Ok (map (fun v => (f (fst (fst v)), g (snd (fst v)), g (snd v))) vs).
Proof. intros F L S2. rewrite (read_file _ _ b ls vs F L S2). apply traverse_converted. Qed.
Theorem read_plain b ls vs : Forall (xline_ok b) ls -> labels_ok b ls -> Forall2 xline_spells ls vs ->
  read_nist_xrmac Ok Ok (xfile b ls) = Ok vs.
Proof.
  intros F L S2. rewrite (read_file Ok Ok b ls vs F L S2). unfold converted. cbn. 
  rewrite (traverse_ok (fun v : num * num * num => (fst (fst v), snd (fst v), snd v))). f_equal. rewrite <- (map_id vs) at 2. apply map_ext. now intros [[? ?] ?].
Qed.

(** Scientific notation fits into a line. *)
Lemma text_lacks c ds : digits_ok ds -> digit_val c = None -> lacks c (text ds).
Proof.
  intros H D. induction H as [|d ds Hd H IH]; [reflexivity|]. rewrite text_cons. apply lacks_cons. split; [|exact IH].
  intros <-. now rewrite digit_val_text in D.
Qed.
Lemma scientific_field d0 ds neg es : digits_ok (d0 :: ds) -> digits_ok es -> field_ok (scientific d0 ds neg es).
Proof.
  intros H He. inversion H; subst. assert (digits_ok [d0]) by (constructor; [assumption|constructor]).
  unfold scientific. split; rewrite !lacks_app; repeat split; try reflexivity; try (apply text_lacks; [assumption|reflexivity]); destruct neg; reflexivity.
Qed.
Lemma scientific_digit d0 ds neg es : digits_ok (d0 :: ds) -> begins_with_digit (scientific d0 ds neg es).
Proof. intros H. inversion H; subst. exists d0. eexists. split; [assumption|]. reflexivity. Qed.

Lemma sline_xline b l : sline_ok l -> xline_ok b (sline_text l) /\ xline_spells (sline_text l) (sline_value l) /\
  (if b then ~ begins_with_digit (x_label (sline_text l)) else begins_with_digit (x_energy (sline_text l))).
Proof.
  intros ((H1 & H2 & H3) & (H4 & H5 & H6) & (H7 & H8 & H9) & H10 & H11 & H12). split; [|split].
  - unfold xline_ok. cbn. repeat apply conj; try (now apply scientific_field). intros _. now split.
  - unfold xline_spells. cbn. repeat apply conj; now apply float_scientific.
  - destruct b; cbn; [exact H12|]. apply scientific_digit. assumption.
Qed.
Lemma slines_ok b ls : Forall sline_ok ls -> ls <> [] -> Forall (xline_ok b) (map sline_text ls) /\ labels_ok b (map sline_text ls) /\
  Forall2 xline_spells (map sline_text ls) (map sline_value ls).
Proof.
  intros F N. split; [|split].
  - apply Forall_map. apply (Forall_impl _ (fun l H => proj1 (sline_xline b l H)) F).
  - destruct ls as [|l r]; [contradiction|]. apply Forall_inv in F. apply (sline_xline b l F).
  - clear N. induction F as [|l r H F IH]; constructor; [apply (sline_xline b l H)|exact IH].
Qed.
Theorem read_scientific b ls : Forall sline_ok ls -> ls <> [] ->
  read_nist_xrmac Ok Ok (xfile b (map sline_text ls)) = Ok (map sline_value ls).
Proof. intros F N. destruct (slines_ok b ls F N) as (A & B & C). now apply read_plain. Qed.
Theorem read_scientific_open b ls l : Forall sline_ok ls -> sline_ok l -> (2 <= List.length (s_es (t_absorption l)))%nat ->
  read_nist_xrmac Ok Ok (xfile_open b (map sline_text (ls ++ [l]))) =
  Ok (map sline_value ls ++ [(sci_value (t_energy l), sci_value (t_coefficient l), sci_value (cut_exponent (t_absorption l)))])%list.
Proof.
  intros F H Len. assert (N : (ls ++ [l])%list <> []) by (destruct ls; discriminate).
  assert (F' : Forall sline_ok (ls ++ [l])) by (apply Forall_app; split; [exact F|constructor; [exact H|constructor]]).
  destruct (slines_ok b _ F' N) as (A & B & C). rewrite map_app in A, B, C |- *. cbn [map] in *.
  apply Forall2_app_inv_l in C. destruct C as (vs1 & vs2 & C1 & C2 & C3).
  assert (CL : Forall2 xline_spells (map sline_text ls) (map sline_value ls)).
  { clear - F. induction F as [|k r Hk F IH]; constructor; [apply (sline_xline true k Hk)|exact IH]. }
  destruct H as (H1 & H2 & (H3 & H4 & H5) & _). 
  assert (X : exists a, sci_text (t_absorption l) = a ++ String (digit_text (last (s_es (t_absorption l)) 0%Z)) "" /\ a = sci_text (cut_exponent (t_absorption l))).
  { eexists. split; [|reflexivity]. unfold sci_text, scientific, cut_exponent. cbn [s_d0 s_ds s_neg s_es]. rewrite !app_assoc_s. do 5 f_equal.
    rewrite (app_removelast_last 0%Z H5) at 1. generalize (removelast (s_es (t_absorption l))) as xs. intros xs.
    induction xs as [|x xs IH]; [reflexivity|]. change ((x :: xs) ++ [last (s_es (t_absorption l)) 0%Z])%list with (x :: (xs ++ [last (s_es (t_absorption l)) 0%Z]))%list.
    rewrite !text_cons. cbn [append]. now rewrite IH. }
  destruct X as (a & E & Ea).
  destruct H1 as (H1 & H1' & H1''). destruct H2 as (H2 & H2' & H2'').
  rewrite (read_file_open Ok Ok b (map sline_text ls) (sline_text l) (map sline_value ls) a _ (sci_value (t_energy l)) (sci_value (t_coefficient l)) A B CL E
    (float_scientific _ _ _ _ H1 H1' H1'') (float_scientific _ _ _ _ H2 H2' H2'')).
  assert (Y : py_float a = Ok (sci_value (cut_exponent (t_absorption l)))).
  { rewrite Ea. apply float_scientific; cbn.
    - exact H3.
    - rewrite (app_removelast_last 0%Z H5) in H4. apply Forall_app in H4. apply H4.
    - intros Z. rewrite (app_removelast_last 0%Z H5), Z in Len. cbn in Len. lia. }
  rewrite Y. cbn [bind]. assert (TC : traverse (converted Ok Ok) (map sline_value ls) = Ok (map sline_value ls)).
  { unfold converted. cbn. rewrite (traverse_ok (fun v : num * num * num => (fst (fst v), snd (fst v), snd v))). f_equal. rewrite <- (map_id (map sline_value ls)) at 2. apply map_ext. now intros [[? ?] ?]. }
  rewrite TC. reflexivity.
Qed.

Lemma first_columns b ls l : Forall sline_ok ls -> sline_ok l -> (2 <= List.length (s_es (t_absorption l)))%nat ->
  omap (map fst) (read_nist_xrmac Ok Ok (xfile_open b (map sline_text (ls ++ [l])))) =
  omap (map fst) (read_nist_xrmac Ok Ok (xfile b (map sline_text (ls ++ [l])))).
Proof.
  intros F H Len. rewrite read_scientific_open by assumption. rewrite read_scientific; [|apply Forall_app; split; [exact F|constructor; [exact H|constructor]]|destruct ls; discriminate].
  cbn [omap bind]. now rewrite !map_app.
Qed.
