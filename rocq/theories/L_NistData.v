(** The supplied NIST file. *)
From Coq Require Import Ascii String List ZArith Bool Lia.
From Verif Require Import Py PyStr PyNum M_Readers S_Readers S_Elements L_Str L_Density L_Density2 L_DensityData L_Nist L_Nist2 L_Nist3 D_Elements.
Import ListNotations.
Open Scope string_scope.

(** ** Header and paragraphs of the supplied file *)
Definition cut (p l : string) : string := substring (String.length p) (String.length l - String.length p) l.
Definition digits_of (s : string) : list Z := map (fun c => match digit_val c with Some d => d | None => 0%Z end) (list_ascii_of_string s).
Definition value_of (s : string) : value :=
  if String.eqb s "" then VEmpty
  else match find_nat "(" s with
       | Some n => VUncertain (substring 0 n s) (substring (S n) (String.length s - S n) s)
       | None => VPlain s
       end.
Definition groups (ls : list string) : list string * list (list string) :=
  fold_right (fun l acc => if prefixb Z_prefix l then ([], (l :: fst acc) :: snd acc) else (l :: fst acc, snd acc)) ([], []) ls.
Definition paragraph_of (ls : list string) : paragraph :=
  {| p_Z := digits_of (cut Z_prefix (nth 0 ls "")); p_X := cut X_prefix (nth 1 ls ""); p_A := digits_of (cut A_prefix (nth 2 ls ""));
     p_mass := value_of (cut amu_prefix (nth 3 ls "")); p_composition := value_of (cut abundance_prefix (nth 4 ls "")); p_others := skipn 5 ls |}.
Definition supplied_header : list string := Eval vm_compute in fst (groups (map chop (file_lines elements_txt))).
Definition supplied_paragraphs : list paragraph := Eval vm_compute in map paragraph_of (snd (groups (map chop (file_lines elements_txt)))).
Lemma supplied_nist : nist_file false supplied_header supplied_paragraphs = elements_txt.
Proof. apply String.eqb_eq. vm_compute. reflexivity. Qed.

Definition digits_okb (ds : list Z) : bool := forallb (fun d => (0 <=? d) && (d <=? 9))%Z ds.
Lemma digits_okb_ok ds : digits_okb ds = true -> digits_ok ds.
Proof. unfold digits_okb. rewrite forallb_forall. intros H. apply Forall_forall. intros d Hd. specialize (H d Hd). apply andb_prop in H. destruct H as [H1 H2]. apply Z.leb_le in H1, H2. lia. Qed.
Definition canonicalb (ds : list Z) : bool := digits_okb ds && negb (match ds with [] => true | _ => false end) && (negb (hd 0 ds =? 0)%Z || (List.length ds =? 1)%nat).
Lemma canonicalb_ok ds : canonicalb ds = true -> canonical ds.
Proof.
  unfold canonicalb. rewrite !andb_true_iff. intros ((H1 & H2) & H3). split; [now apply digits_okb_ok|]. split; [intros ->; discriminate|].
  intros E. rewrite E in H3. cbn in H3. now apply Nat.eqb_eq.
Qed.
Definition floatb (t : string) : bool := match py_float t with Ok _ => true | _ => false end.
Lemma floatb_ok t : floatb t = true -> exists x, py_float t = Ok x.
Proof. unfold floatb. destruct (py_float t) as [x| |]; [now exists x|discriminate..]. Qed.
Definition value_okb (v : value) : bool :=
  match v with
  | VEmpty => true
  | VUncertain t u => lacksb "(" t && lacksb "=" t && lacksb nl t && lacksb "=" u && lacksb nl u && floatb t
  | VPlain t => lacksb "(" t && lacksb "=" t && lacksb nl t && floatb t
  end.
Lemma value_okb_ok v : value_okb v = true -> value_ok v.
Proof. destruct v as [|t u|t]; cbn; rewrite ?andb_true_iff; intros H; [exact I| |]; repeat split; try apply H; apply floatb_ok; apply H. Qed.
Definition other_okb (l : string) : bool :=
  lacksb nl l && negb (py_in Z_prefix l) && negb (py_in X_prefix l) && negb (py_in A_prefix l) && negb (py_in amu_prefix l) && negb (py_in abundance_prefix l).
Lemma other_okb_ok l : other_okb l = true -> other_ok l.
Proof.
  unfold other_okb. rewrite !andb_true_iff, !negb_true_iff. intros (((((H1 & H2) & H3) & H4) & H5) & H6).
  split; [exact H1|]. repeat split; intros C; apply py_in_iff in C;
    [exact (eq_true_false_abs _ C H2)|exact (eq_true_false_abs _ C H3)|exact (eq_true_false_abs _ C H4)|exact (eq_true_false_abs _ C H5)|exact (eq_true_false_abs _ C H6)].
Qed.
Definition paragraph_okb (p : paragraph) : bool :=
  canonicalb (p_Z p) && (negb (String.eqb (p_X p) "") && every letter (p_X p)) && canonicalb (p_A p) && value_okb (p_mass p) && value_okb (p_composition p) && forallb other_okb (p_others p).
Lemma paragraph_okb_ok p : paragraph_okb p = true -> paragraph_ok p.
Proof.
  unfold paragraph_okb. rewrite !andb_true_iff. intros (((((H1 & H2 & H2') & H3) & H4) & H5) & H6). 
  split; [now apply canonicalb_ok|]. split; [split; [now apply String.eqb_neq, negb_true_iff|exact H2']|]. split; [now apply canonicalb_ok|].
  split; [now apply value_okb_ok|]. split; [now apply value_okb_ok|]. apply Forall_forall. intros l Hl. apply other_okb_ok. rewrite forallb_forall in H6. now apply H6.
Qed.
Lemma supplied_header_ok : Forall other_ok supplied_header.
Proof.
  apply Forall_forall. intros l Hl. apply other_okb_ok. assert (H : forallb other_okb supplied_header = true) by (vm_compute; reflexivity). rewrite forallb_forall in H. now apply H.
Qed.
Lemma supplied_paragraphs_ok : Forall paragraph_ok supplied_paragraphs.
Proof.
  apply Forall_forall. intros l Hl. apply paragraph_okb_ok. assert (H : forallb paragraph_okb supplied_paragraphs = true) by (vm_compute; reflexivity). rewrite forallb_forall in H. now apply H.
Qed.
Lemma supplied_ending : ending_ok false supplied_header supplied_paragraphs.
Proof.
  right. exists (removelast (supplied_header ++ flat_map paragraph_lines supplied_paragraphs)), (last (supplied_header ++ flat_map paragraph_lines supplied_paragraphs)%list ""). split; [|split].
  - apply app_removelast_last. discriminate.
  - apply other_okb_ok. vm_compute. reflexivity.
  - vm_compute. discriminate.
Qed.
Fixpoint ordered_Zb (ps : list paragraph) : bool :=
  match ps with
  | [] => true
  | p :: r => forallb (fun q => (spelled (p_Z p) <=? spelled (p_Z q))%Z) r && ordered_Zb r
  end.
Lemma ordered_Zb_ok ps : ordered_Zb ps = true -> ordered_Z ps.
Proof.
  induction ps as [|p r IH]; [exact (fun _ => I)|]. cbn. rewrite andb_true_iff. intros [H1 H2]. split; [|now apply IH].
  apply Forall_forall. intros q Hq. rewrite forallb_forall in H1. now apply Z.leb_le, H1.
Qed.
Lemma supplied_ordered : ordered_Z supplied_paragraphs.
Proof. apply ordered_Zb_ok. vm_compute. reflexivity. Qed.
Lemma NoDup_filter {A B} (f : A -> B) g l : NoDup (map f l) -> NoDup (map f (filter g l)).
Proof.
  induction l as [|x l IH]; [exact (fun H => H)|]. cbn. intros H. inversion H; subst. destruct (g x); cbn; [|now apply IH]. constructor; [|now apply IH].
  intros I. apply in_map_iff in I. destruct I as (y & E & I). apply filter_In in I. match goal with N : ~ In _ _ |- _ => apply N end. rewrite <- E. apply in_map. apply I.
Qed.
Lemma supplied_names Z0 : NoDup (map isotope_name (of_Z Z0 supplied_paragraphs)).
Proof.
  apply NoDup_filter. assert (E : nodup string_dec (map isotope_name supplied_paragraphs) = map isotope_name supplied_paragraphs) by (vm_compute; reflexivity).
  rewrite <- E. apply NoDup_nodup.
Qed.
