(** The supplied tables of attenuation coefficients. *)
From Coq Require Import Reals Ascii String List ZArith Bool Lia Lra.
From Verif Require Import Py PyStr PyNum M_Readers M_Constituents S_Decimal S_Readers L_Decimal D_Xrmac.
Import ListNotations.
Open Scope string_scope.
Definition posb (n : num) : bool := match n with Fin m _ => (0 <? m)%Z | _ => false end.
Definition finb (n : num) : bool := match n with Fin _ _ => true | _ => false end.
Fixpoint incb (l : list num) : bool := match l with a :: ((b :: _) as r) => (num_le a b && incb r)%bool | _ => true end.
Definition num_eqb (a b : num) : bool := (num_le a b && num_le b a)%bool.
Definition rows_check (rows : list (num * num * num)) : bool :=
  (forallb (fun r => posb (fst (fst r)) && posb (snd (fst r)) && posb (snd r)) rows && incb (map (fun r => fst (fst r)) rows) &&
   num_eqb (hd NotNum (map (fun r => fst (fst r)) rows)) (Fin 1 (-3)) && num_eqb (last (map (fun r => fst (fst r)) rows) NotNum) (Fin 20 0) && (10 <=? List.length rows)%nat)%bool.
Definition file_check (file : string) : bool := match read_nist_xrmac Ok Ok file with Ok rows => rows_check rows | _ => false end.
Lemma files_checked : forallb file_check xrmac_files = true.
Proof. vm_compute. reflexivity. Qed.
From Verif Require Import Spec S_XrmacTables M_XrmacTables L_XrmacTables L_XrmacTables2.
Open Scope R_scope.
Definition supplied_xrmac (z : Z) : string := nth (Z.to_nat (z - 1)) xrmac_files "".
Lemma files_length : List.length xrmac_files = 92%nat. Proof. reflexivity. Qed.
Lemma nth_check (l : list string) n : forallb file_check l = true -> (n < List.length l)%nat -> file_check (nth n l "") = true.
Proof. intros H L. rewrite forallb_forall in H. apply H. now apply nth_In. Qed.
Lemma supplied_checked z : (1 <= z <= 92)%Z -> file_check (supplied_xrmac z) = true.
Proof. intros H. apply nth_check; [exact files_checked|]. rewrite files_length. lia. Qed.
Lemma file_check_rows file : file_check file = true -> exists rows, read_nist_xrmac Ok Ok file = Ok rows /\ rows_check rows = true.
Proof. unfold file_check. destruct (read_nist_xrmac Ok Ok file) as [rows| |]; try discriminate. now exists rows. Qed.
Lemma posb_worth n : posb n = true -> exists x, worth n x /\ 0 < x.
Proof. destruct n as [m e| | |]; try discriminate. cbn [posb]. intros H. apply Z.ltb_lt in H. exists (IZR m * powerRZ 10 e). split; [reflexivity|]. apply Rmult_lt_0_compat; [now apply IZR_lt|apply powerRZ_10_pos]. Qed.
Lemma worth_pos n x : posb n = true -> worth n x -> 0 < x.
Proof. intros P W. destruct (posb_worth n P) as (y & Wy & Hy). now rewrite (worth_fun _ _ _ W Wy). Qed.
Lemma incb_ascending ns xs : Forall2 worth ns xs -> incb ns = true -> ascending xs.
Proof.
  intros F. unfold ascending. induction F as [|n x ns xs W F IH]; intros H; [constructor|]. inversion F as [|n' x' ns' xs' W' F']; subst; [repeat constructor|].
  change (incb (n :: n' :: ns')) with (num_le n n' && incb (n' :: ns'))%bool in H. apply andb_true_iff in H. destruct H as [H1 H2]. specialize (IH H2). constructor; [exact IH|].
  apply (num_le_worth _ _ _ _ W W') in H1. constructor; [exact H1|]. apply Sorted.StronglySorted_inv in IH. destruct IH as [_ IH]. apply List.Forall_forall. intros y I. rewrite List.Forall_forall in IH. specialize (IH y I). lra.
Qed.
Lemma num_eqb_worth a b x y : worth a x -> worth b y -> num_eqb a b = true -> x = y.
Proof. intros Wa Wb H. apply andb_true_iff in H. destruct H as [H1 H2]. apply (num_le_worth _ _ _ _ Wa Wb) in H1. apply (num_le_worth _ _ _ _ Wb Wa) in H2. lra. Qed.
Lemma last_map' {A B} (f : A -> B) l a b : l <> [] -> last (map f l) b = f (last l a).
Proof. intros N. induction l as [|x l IH]; [congruence|]. destruct l as [|y l]; [reflexivity|]. cbn [map last] in *. apply IH. discriminate. Qed.
Lemma last_worth rows data r d : Forall2 row_worth rows data -> rows <> [] -> row_worth (last rows r) (last data d).
Proof. induction 1 as [|x y rows data W F IH]; [congruence|]. intros _. inversion F as [|x' y' rows' data' W' F']; subst; [exact W|]. cbn [last] in *. apply IH. discriminate. Qed.
Lemma rows_check_ok rows : rows_check rows = true -> exists data, Forall2 row_worth rows data /\ ascending (map (fun r => fst (fst r)) data) /\ table_1keV_20MeV data.
Proof.
  unfold rows_check. rewrite !andb_true_iff. intros ((((P & A) & H1) & H2) & L). apply Nat.leb_le in L.
  assert (D : exists data, Forall2 row_worth rows data /\ List.Forall (fun r => 0 < fst (fst r) /\ 0 < snd (fst r) /\ 0 < snd r) data).
  { clear - P. induction rows as [|[[a b] c] rows IH]; [exists []; split; constructor|]. cbn [forallb] in P. apply andb_true_iff in P. destruct P as [P P']. destruct (IH P') as (data & F & Q).
    cbn [fst snd] in P. rewrite !andb_true_iff in P. destruct P as [[Pa Pb] Pc]. destruct (posb_worth a Pa) as (x & Wx & Px). destruct (posb_worth b Pb) as (y & Wy & Py). destruct (posb_worth c Pc) as (w & Ww & Pw).
    exists ((x, y, w) :: data). split; constructor; try assumption; repeat split; assumption. }
  destruct D as (data & F & Q). exists data. split; [exact F|]. 
  assert (FE : Forall2 worth (map (fun r => fst (fst r)) rows) (map (fun r => fst (fst r)) data)) by (clear - F; induction F as [|r d rows data (W & _) F IH]; constructor; assumption).
  split; [exact (incb_ascending _ _ FE A)|]. split; [exact Q|]. assert (LD : List.length data = List.length rows) by (symmetry; exact (F2_length _ _ _ F)). split; [lia|].
  assert (N : rows <> []) by (intros ->; cbn in L; lia). intros d. split.
  - destruct F as [|r x rows data (W & _) F]; [congruence|]. cbn [map hd] in H1 |- *. refine (num_eqb_worth _ _ _ _ W _ H1). unfold worth. replace (powerRZ 10 (-3)) with (1 / 1000); [lra|]. change (powerRZ 10 (-3)) with (/ 10 ^ 3). field.
  - destruct rows as [|r0 rows0] eqn:ER; [congruence|]. rewrite <- ER in *. rewrite (last_map' _ rows r0 NotNum N) in H2. destruct (last_worth rows data r0 d F N) as (W & _). refine (num_eqb_worth _ _ _ _ W _ H2). cbn. lra.
Qed.
Lemma supplied_table z : (1 <= z <= 92)%Z -> exists rows data, read_nist_xrmac Ok Ok (supplied_xrmac z) = Ok rows /\ Forall2 row_worth rows data /\
  ascending (map (fun r => fst (fst r)) data) /\ table_1keV_20MeV data.
Proof.
  intros H. destruct (file_check_rows _ (supplied_checked z H)) as (rows & R0 & C). destruct (rows_check_ok rows C) as (data & Q). exists rows, data. split; [exact R0|exact Q].
Qed.
