(** The lookup of densities. *)
From Coq Require Import Ascii String List ZArith Bool Lia.
From Verif Require Import Py PyStr PyNum M_Readers S_Readers L_Str L_Density.
Import ListNotations.
Open Scope string_scope.
Open Scope py_scope.

(** The lines of a file with their ends. *)
Fixpoint ended (final : bool) (ls : list string) : list (string * string) :=
  match ls with
  | [] => []
  | [l] => [(l, if final then String nl "" else "")]
  | l :: r => (l, String nl "") :: ended final r
  end.
Lemma lines_text final ls : Forall (fun l => lacks nl l /\ l <> "") ls -> file_lines (text_file final ls) = map (fun p => fst p ++ snd p) (ended final ls).
Proof.
  induction 1 as [|l ls [H N] F IH]; [reflexivity|]. destruct ls as [|k r].
  - cbn. destruct final; [now apply lines_cons|]. rewrite app_nil_s. now apply lines_open.
  - cbn [ended map fst snd]. change (text_file final (l :: k :: r)) with (l ++ String nl (text_file final (k :: r))). rewrite lines_cons by exact H. now rewrite IH.
Qed.
Lemma ended_spec final ls : map fst (ended final ls) = ls /\ Forall (fun p => snd p = "" \/ snd p = String nl "") (ended final ls).
Proof.
  induction ls as [|l ls [IH1 IH2]]; [split; [reflexivity|constructor]|]. destruct ls as [|k r].
  - split; [reflexivity|]. constructor; [|constructor]. destruct final; [now right|now left].
  - split; [cbn [ended map fst]; f_equal; exact IH1|]. constructor; [now right|exact IH2].
Qed.

Definition pad (s : string) : string := s ++ (if String.length s =? 1 then " " else "")%nat.
Lemma pad_length s : s <> "" -> String.length s <= 2 -> String.length (pad s) = 2%nat.
Proof. destruct s as [|a [|b [|c s]]]; cbn; intros; try reflexivity; try contradiction; lia. Qed.
Lemma no_letters X s : symbol_ok X -> contains X s -> every (fun c => negb (letter c)) s = true -> False.
Proof.
  intros [N L] C E. apply (every_contains X _ s C) in E. destruct X as [|c X]; [contradiction|]. cbn in L, E. apply andb_prop in L, E.
  destruct L as [L _], E as [E _]. now rewrite L in E.
Qed.
Lemma contains_pad X s : symbol_ok X -> s <> "" -> String.length s <= 2 -> contains X (pad s) <-> contains X s.
Proof.
  intros HX N L. unfold pad. destruct (Nat.eqb_spec (String.length s) 1) as [E|E].
  - split; [|intros (a & b & ->); exists a, (b ++ " "); rewrite !app_assoc_s; reflexivity].
    destruct s as [|c [|d s]]; [discriminate| |discriminate]. cbn. intros (a & b & H). destruct a as [|a1 a].
    + destruct HX as [NX LX]. destruct X as [|x X]; [contradiction|]. cbn in H. injection H as <- H. destruct X as [|y X]; [exists "", ""; reflexivity|].
      cbn in H. injection H as <- H. cbn in LX. rewrite andb_false_r in LX. discriminate.
    + exfalso. cbn in H. injection H as _ H. apply (no_letters X " " HX); [now exists a, b|reflexivity].
  - rewrite app_nil_s. reflexivity.
Qed.
Lemma dline_pad e : dline e = pad (fst e) ++ snd e.
Proof. unfold dline, pad. now rewrite app_assoc_s. Qed.
Lemma letters_nl s : every letter s = true -> lacks nl s.
Proof.
  induction s as [|c s IH]; intros H; [reflexivity|]. cbn in H. apply andb_prop in H. destruct H as [H1 H2]. apply lacks_cons. split; [|now apply IH].
  intros ->. discriminate.
Qed.
Lemma dline_lacks e : dentry_ok e -> lacks nl (dline e).
Proof.
  intros ([N L] & _ & H & _). unfold dline. rewrite !lacks_app. split; [now apply letters_nl|]. split; [|exact H]. destruct (Nat.eqb _ _); reflexivity.
Qed.
Lemma line_head e w : dentry_ok e -> py_slice (dline e ++ w) 0 2 = pad (fst e).
Proof.
  intros ([N L] & H2 & _). rewrite dline_pad, app_assoc_s. apply slice_head. unfold slen. now rewrite pad_length.
Qed.
Lemma line_tail e w : dentry_ok e -> py_slice_from (dline e ++ w) 2 = snd e ++ w.
Proof.
  intros ([N L] & H2 & _). rewrite dline_pad, app_assoc_s. apply slice_tail. unfold slen. now rewrite pad_length.
Qed.
Definition line_end (w : string) : Prop := w = "" \/ w = String nl "".
Lemma line_end_space w : line_end w -> all_space w = true.
Proof. now intros [->| ->]. Qed.

Section Reader.
  Context {A : Type} (conv : num -> out A).
  Lemma comment_no X c w r : symbol_ok X -> comment_ok c -> line_end w ->
    density_loop conv X ((c ++ w) :: r) = density_loop conv X r.
  Proof.
    intros HX [Hn Hc] W. cbn [density_loop].
    assert (E : py_in X (py_slice (c ++ w) 0 2) = false); [|now rewrite E].
    apply not_true_is_false. intros H. apply py_in_iff in H. destruct Hc as [->|[s ->]].
    - destruct W as [->| ->]; apply (no_letters X _ HX H); reflexivity.
    - replace (("# " ++ s) ++ w) with ("# " ++ (s ++ w)) in H by reflexivity. rewrite slice_head in H by reflexivity.
      apply (no_letters X _ HX H). reflexivity.
  Qed.
  Lemma entry_no X e w r : symbol_ok X -> dentry_ok e -> ~ contains X (fst e) ->
    density_loop conv X ((dline e ++ w) :: r) = density_loop conv X r.
  Proof.
    intros HX He N. cbn [density_loop]. rewrite line_head by exact He. destruct (py_in X (pad (fst e))) eqn:E; [|reflexivity].
    exfalso. apply N. apply py_in_iff in E. destruct He as ((N1 & _) & L & _). now apply (contains_pad X (fst e) HX N1 L).
  Qed.
  Lemma entry_yes X e w r v : symbol_ok X -> dentry_ok e -> line_end w -> contains X (fst e) -> py_float (snd e) = Ok v ->
    density_loop conv X ((dline e ++ w) :: r) = omap Some (conv v).
  Proof.
    intros HX He W C V. cbn [density_loop]. rewrite line_head by exact He. rewrite line_tail by exact He.
    assert (E : py_in X (pad (fst e)) = true) by (apply py_in_iff; destruct He as ((N1 & _) & L & _); now apply (contains_pad X (fst e) HX N1 L)).
    rewrite E. rewrite (float_w w (line_end_space w W) _ v V). reflexivity.
  Qed.
  (** Comments and entries with their line ends. *)
  Lemma file_loop final cs es X : symbol_ok X -> Forall comment_ok cs -> Forall dentry_ok es ->
    exists ws, map fst ws = es /\ Forall (fun p => line_end (snd p)) ws /\
    read_density_data (dfile final cs es) conv X = density_loop conv X (map (fun p => dline (fst p) ++ snd p) ws).
  Proof.
    intros HX Fc Fe. unfold read_density_data, dfile. rewrite lines_text.
    - destruct (ended_spec final (cs ++ map dline es)) as [H1 H2]. revert H1 H2. generalize (ended final (cs ++ map dline es)) as L. clear final.
      induction Fc as [|c cs Hc Fc IH]; intros L H1 H2.
      + cbn [app] in H1. revert L H1 H2. induction Fe as [|e es He Fe IH]; intros L H1 H2.
        * apply map_eq_nil in H1. subst. exists []. split; [reflexivity|]. split; [constructor|reflexivity].
        * destruct L as [|[l w] L]; [discriminate|]. cbn in H1. injection H1 as -> H1. inversion H2; subst.
          destruct (IH L H1 ltac:(assumption)) as (ws & E1 & E2 & E3). exists ((e, w) :: ws). split; [cbn; now rewrite E1|]. split; [now constructor|].
          cbn [map fst snd]. clear - E3 He HX. cbn [density_loop]. destruct (py_in X _); [reflexivity|exact E3].
      + destruct L as [|[l w] L]; [discriminate|]. cbn in H1. injection H1 as -> H1. inversion H2; subst.
        destruct (IH L H1 ltac:(assumption)) as (ws & E1 & E2 & E3). exists ws. split; [exact E1|]. split; [exact E2|].
        cbn [map fst snd]. rewrite comment_no by assumption. exact E3.
    - apply Forall_app. split.
      + apply Forall_forall. rewrite Forall_forall in Fc. intros c I. destruct (Fc c I) as [H1 H2]. split; [exact H1|].
        intros ->. destruct H2 as [H2|[r H2]]; discriminate H2.
      + apply Forall_map. apply (Forall_impl (P := dentry_ok)); [|exact Fe]. intros e He. split; [now apply dline_lacks|].
        destruct He as ((N & _) & _). unfold dline. destruct (fst e); [contradiction|discriminate].
  Qed.
  Lemma first_match final cs pre Y t post X v : symbol_ok X -> Forall comment_ok cs -> Forall dentry_ok (pre ++ (Y, t) :: post) ->
    Forall (fun e => ~ contains X (fst e)) pre -> contains X Y -> py_float t = Ok v ->
    read_density_data (dfile final cs (pre ++ (Y, t) :: post)) conv X = omap Some (conv v).
  Proof.
    intros HX Fc Fe Fn C V. destruct (file_loop final cs _ X HX Fc Fe) as (ws & E1 & E2 & ->). clear Fc cs final. revert ws E1 E2. induction pre as [|e pre IH]; intros ws E1 E2.
    - destruct ws as [|[f w] ws]; [discriminate|]. cbn in E1. injection E1 as -> E1. cbn [map fst snd]. inversion E2; subst.
      apply entry_yes; try assumption. now apply Forall_inv in Fe.
    - destruct ws as [|[f w] ws]; [discriminate|]. cbn in E1. injection E1 as -> E1. cbn [map fst snd]. inversion E2; subst.
      cbn [app] in Fe. inversion Fe; subst. inversion Fn; subst. rewrite entry_no by assumption. now apply IH.
  Qed.
  Lemma no_match final cs es X : symbol_ok X -> Forall comment_ok cs -> Forall dentry_ok es -> Forall (fun e => ~ contains X (fst e)) es ->
    read_density_data (dfile final cs es) conv X = Ok None.
  Proof.
    intros HX Fc Fe Fn. destruct (file_loop final cs _ X HX Fc Fe) as (ws & E1 & E2 & ->). clear Fc cs final. revert ws E1 E2. induction Fn as [|e es N Fn IH]; intros ws E1 E2.
    - apply map_eq_nil in E1. now subst.
    - destruct ws as [|[f w] ws]; [discriminate|]. cbn in E1. injection E1 as -> E1. cbn [map fst snd]. inversion E2; subst.
      inversion Fe; subst. rewrite entry_no by assumption. now apply IH.
  Qed.
End Reader.

(** A symbol with at least two characters is contained in no other one. *)
Lemma contains_two X Y : (2 <= String.length X)%nat -> (String.length Y <= 2)%nat -> contains X Y -> X = Y.
Proof.
  intros HX HY (a & b & ->). rewrite !length_app_s in HY. destruct a; [|cbn in HY; lia]. destruct b; [|cbn in HY; lia]. cbn. symmetry. apply app_nil_s.
Qed.
Lemma two_letters {A} (conv : num -> out A) final cs es X t v : symbol_ok X -> Forall comment_ok cs -> Forall dentry_ok es -> NoDup (map fst es) ->
  String.length X = 2%nat -> In (X, t) es -> py_float t = Ok v -> read_density_data (dfile final cs es) conv X = omap Some (conv v).
Proof.
  intros HX Fc Fe ND L I V. apply in_split in I. destruct I as (pre & post & ->). apply first_match; try assumption.
  - rewrite map_app in ND. cbn in ND. apply Forall_forall. intros e He C. apply contains_two in C; [|lia|].
    + apply (NoDup_remove_2 _ _ _ ND). apply in_or_app. left. rewrite C. now apply in_map.
    + rewrite Forall_forall in Fe. destruct (Fe e) as (_ & H & _); [apply in_or_app; now left|exact H].
  - exists "", "". cbn. now rewrite app_nil_s.
Qed.
Lemma two_letters_absent {A} (conv : num -> out A) final cs es X : symbol_ok X -> Forall comment_ok cs -> Forall dentry_ok es ->
  (2 <= String.length X)%nat -> ~ In X (map fst es) -> read_density_data (dfile final cs es) conv X = Ok None.
Proof.
  intros HX Fc Fe L N. apply no_match; try assumption. apply Forall_forall. intros e He C. apply N. apply contains_two in C; [|exact L|].
  - rewrite C. now apply in_map.
  - rewrite Forall_forall in Fe. now destruct (Fe e He) as (_ & H & _).
Qed.
