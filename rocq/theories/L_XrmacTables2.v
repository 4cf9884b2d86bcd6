(** Scaling of tables, and statements about the whole module. *)
From Coq Require Import Reals Ascii String List ZArith Bool Lia Lra.
From Verif Require Import Py PyStr PyNum M_Readers M_Constituents M_Num M_Xrmac M_XrmacTables S_Decimal S_Natural S_XrmacTables S_Xrmac L_Decimal L_Natural L_XrmacReader L_Xrmac L_Xrmac2 L_XrmacTables.
Import ListNotations.
Open Scope R_scope.
Open Scope py_scope.

Definition shift (s : R) (p : R * R) : R * R := (fst p, snd p + s).
Lemma insert_shift s p l : insert_stable (shift s p) (map (shift s) l) = map (shift s) (insert_stable p l).
Proof. induction l as [|q l IH]; [reflexivity|]. cbn. destruct (Rle_dec (fst p) (fst q)); [reflexivity|]. cbn. now rewrite IH. Qed.
Lemma sort_shift s l : sort_stable (map (shift s) l) = map (shift s) (sort_stable l).
Proof. induction l as [|p l IH]; [reflexivity|]. cbn. unfold sort_stable in IH. rewrite IH. apply insert_shift. Qed.
Lemma interp_shift s l x : l <> [] -> np_interp (map (shift s) l) x = np_interp l x + s.
Proof.
  intros N. destruct l as [|p l]; [congruence|]. clear N. revert p. induction l as [|q l IH]; intros p; [destruct p; reflexivity|].
  specialize (IH q). destruct p as [x0 y0], q as [x1 y1]. cbn [map] in IH |- *.
  change (shift s (x0, y0)) with (x0, y0 + s). change (shift s (x1, y1)) with (x1, y1 + s) in *.
  change (np_interp ((x0, y0 + s) :: (x1, y1 + s) :: map (shift s) l) x) with
    (if Rlt_dec x x1 then if Req_EM_T x x0 then y0 + s else (y1 + s - (y0 + s)) / (x1 - x0) * (x - x0) + (y0 + s) else np_interp ((x1, y1 + s) :: map (shift s) l) x).
  change (np_interp ((x0, y0) :: (x1, y1) :: l) x) with
    (if Rlt_dec x x1 then if Req_EM_T x x0 then y0 else (y1 - y0) / (x1 - x0) * (x - x0) + y0 else np_interp ((x1, y1) :: l) x).
  destruct (Rlt_dec x x1); [|exact IH]. destruct (Req_EM_T x x0); [reflexivity|]. unfold Rdiv. ring.
Qed.
Lemma sort_nil l : l <> [] -> sort_stable l <> [].
Proof. intros N E. apply N. apply Permutation.Permutation_nil. rewrite <- E. apply sort_perm. Qed.
Lemma log10_mult x y : 0 < x -> 0 < y -> log10 (x * y) = log10 x + log10 y.
Proof. intros Hx Hy. unfold log10. rewrite ln_mult by assumption. field. pose proof ln10_pos. lra. Qed.
Lemma pow10_plus x y : pow10 (x + y) = pow10 x * pow10 y.
Proof. unfold pow10. rewrite Rmult_plus_distr_r. apply exp_plus. Qed.
Definition stretch (c : R) (p : R * R) : R * R := (fst p, snd p * c).
Lemma is_pos_iff x : is_pos x = true <-> 0 < x.
Proof. unfold is_pos. destruct (Rlt_dec 0 x); split; intros H; try reflexivity; try assumption; try discriminate; contradiction. Qed.
Lemma all_pos_iff data : forallb (fun p => is_pos (fst p) && is_pos (snd p))%bool data = true <-> List.Forall (fun p => 0 < fst p /\ 0 < snd p) data.
Proof.
  rewrite forallb_forall, List.Forall_forall. split; intros H p I; specialize (H p I).
  - apply andb_true_iff in H. now rewrite !is_pos_iff in H.
  - apply andb_true_iff. now rewrite !is_pos_iff.
Qed.
Lemma last_map {A B} (f : A -> B) l d : l <> [] -> last (map f l) (f d) = f (last l d).
Proof. intros N. induction l as [|a l IH]; [congruence|]. destruct l as [|b l]; [reflexivity|]. cbn [map] in *. cbn [last] in *. apply IH. discriminate. Qed.
Lemma last_default {A} (l : list A) d d' : l <> [] -> last l d = last l d'.
Proof. intros N. induction l as [|a l IH]; [congruence|]. destruct l as [|b l]; [reflexivity|]. cbn [last] in *. apply IH. discriminate. Qed.
Lemma last_in_list {A} (d : A) data a : In (last (d :: data) a) (d :: data).
Proof. revert d. induction data as [|b data IH]; intros d; [now left|]. right. apply IH. Qed.
Lemma stretched minval c data o : 0 < c -> XRMAC minval data = Ok o ->
  exists o', XRMAC minval (map (stretch c) data) = Ok o' /\ forall E, xrmac_call o' E = let! v := xrmac_call o E in Ok (v * c).
Proof.
  intros Hc H. unfold XRMAC, interpolate_log_log in *. destruct data as [|d data]; [discriminate|]. cbn [map]. change (stretch c d :: map (stretch c) data) with (map (stretch c) (d :: data)).
  rewrite map_length. destruct (_ <? _)%nat; [discriminate|]. destruct (forallb _ (d :: data)) eqn:P; [|discriminate]. apply all_pos_iff in P.
  assert (P' : forallb (fun p => is_pos (fst p) && is_pos (snd p))%bool (map (stretch c) (d :: data)) = true).
  { apply all_pos_iff. apply List.Forall_forall. intros p I. apply in_map_iff in I. destruct I as (q & <- & I). rewrite List.Forall_forall in P. destruct (P q I). split; [assumption|]. cbn. now apply Rmult_lt_0_compat. }
  rewrite P'. injection H as <-. set (s := log10 c).
  assert (E1 : sort_stable (map (fun p => (log10 (fst p), log10 (snd p))) (map (stretch c) (d :: data))) = map (shift s) (sort_stable (map (fun p => (log10 (fst p), log10 (snd p))) (d :: data)))).
  { rewrite <- sort_shift. f_equal. rewrite !map_map. apply map_ext_in. intros p I. unfold shift, stretch, s. cbn [fst snd]. rewrite List.Forall_forall in P. destruct (P p I). now rewrite log10_mult. }
  assert (E2 : log10 (snd (stretch c d)) = log10 (snd d) + s).
  { cbn. inversion P as [|? ? [_ Pd] _]. now apply log10_mult. }
  assert (E3 : log10 (snd (last (map (stretch c) (d :: data)) (0, 0))) = log10 (snd (last (d :: data) (0, 0))) + s).
  { rewrite (last_default _ (0, 0) (stretch c d)) by discriminate. rewrite last_map by discriminate. rewrite (last_default _ d (0, 0)) by discriminate.
    pose proof (last_in_list d data (0, 0)) as I.
    rewrite List.Forall_forall in P. destruct (P _ I). cbn [stretch snd]. now apply log10_mult. }
  set (pts := sort_stable (map (fun p => (log10 (fst p), log10 (snd p))) (d :: data))).
  exists {| i_points := map (shift s) pts; i_below := log10 (snd d) + s; i_above := log10 (snd (last (d :: data) (0, 0))) + s |}.
  split; [unfold pts; rewrite <- E1, <- E2, <- E3; reflexivity|].
  assert (N : pts <> []) by (apply sort_nil; discriminate).
  intros E. unfold xrmac_call. cbn [i_below]. change (sort_stable (map (fun p => (log10 (fst p), log10 (snd p))) (d :: data))) with pts.
  assert (S : pow10 s = c) by (apply pow10_log10; exact Hc).
  destruct (Rlt_dec E 0). { change (omap pow10 match map (shift s) pts with [(_, y)] => Ok y | _ => NaN end = let! v := omap pow10 match pts with [(_, y)] => Ok y | _ => NaN end in Ok (v * c)).
    destruct pts as [|[a b] [|q r0]]; [reflexivity| |reflexivity]. cbn [map shift fst snd omap bind]. now rewrite pow10_plus, S. }
  destruct (Req_EM_T E 0); cbn [bind]; f_equal; [now rewrite pow10_plus, S|]. rewrite <- S, <- pow10_plus. f_equal.
  unfold interp_eval. cbn [i_points i_below i_above].
  assert (Hh : fst (hd (0, 0) (map (shift s) pts)) = fst (hd (0, 0) pts)) by (destruct pts; [congruence|reflexivity]).
  assert (Hl : fst (last (map (shift s) pts) (0, 0)) = fst (last pts (0, 0))).
  { rewrite (last_default _ (0, 0) (shift s (0, 0))) by (destruct pts; [congruence|discriminate]). rewrite last_map by exact N. reflexivity. }
  rewrite Hh, Hl. destruct (Rlt_dec _ _); [reflexivity|]. destruct (Rlt_dec _ _); [reflexivity|]. now apply interp_shift.
Qed.

Lemma scaled_stretch c data1 data2 : Forall2 (scaled c) data1 data2 -> map fst data2 = map (stretch c) (map fst data1).
Proof.
  induction 1 as [|x y l m (H1 & H2 & H3) F IH]; [reflexivity|]. cbn [map]. rewrite IH. f_equal. unfold stretch. rewrite <- H1, <- H2. now destruct (fst y).
Qed.

Lemma per_atom_pos u m : 0 < u -> 0 < m -> 0 < per_atom u m.
Proof.
  intros Hu Hm. unfold per_atom. assert (0 < 10 ^ 26) by (apply pow_lt; lra). assert (0 < 10 ^ 3) by (apply pow_lt; lra).
  apply Rmult_lt_0_compat; [|assumption]. apply Rmult_lt_0_compat; [|assumption]. now apply Rmult_lt_0_compat.
Qed.

Section Module.
  Variables (minval : nat) (amc : R) (file : Z -> string) (X : list (option Z * option string)) (els : dict natural_element) (Xs : list string).
  Variables (g : globals) (cm2 fm2 : dict xrmac_object).
  Hypothesis M : xrmac_module minval amc file X els = Ok (g, cm2, fm2).
  Hypothesis T : symbol_table X xrmac_Z Xs.
  Hypothesis ND : NoDup Xs.
  Lemma module_made : g_Z g = 92%Z /\ g_X g = X /\ g_natural_elements g = els /\ dkeys cm2 = Xs /\ dkeys fm2 = Xs /\
    Forall2 (fun z x => exists o1 o2, dget cm2 x = Some o1 /\ dget fm2 x = Some o2 /\ made minval amc file X els z x o1 o2) xrmac_Z Xs.
  Proof.
    destruct (loop_made minval amc file xrmac_Z {| g_Z := 0; g_X := X; g_natural_elements := els |} [] [] Xs T ND eq_refl _ _ _ M) as (Q1 & Q2 & Q3 & Q4 & Q5 & _ & _ & Q8). repeat split; assumption.
  Qed.
  Lemma module_data : dkeys cm2 = Xs /\ dkeys fm2 = Xs /\
    Forall2 (fun z x => exists o1 o2, dget cm2 x = Some o1 /\ dget fm2 x = Some o2 /\ converted_table amc (file z) els x o1 o2) xrmac_Z Xs.
  Proof.
    destruct module_made as (_ & _ & _ & K1 & K2 & F). split; [exact K1|]. split; [exact K2|]. clear - F. induction F as [|z x l m (o1 & o2 & D1 & D2 & C & _) F IH]; constructor; [|exact IH]. now exists o1, o2.
  Qed.
  Lemma Forall2_in_snd {A B} (P : A -> B -> Prop) l m b : Forall2 P l m -> In b m -> exists a, In (a, b) (combine l m) /\ P a b.
  Proof. induction 1 as [|x y l m H F IH]; [intros []|]. intros [<-|I]; [exists x; split; [now left|exact H]|]. destruct (IH I) as (a & I' & Pa). exists a. split; [now right|exact Pa]. Qed.
  Lemma module_calls x o1 o2 e m : dget cm2 x = Some o1 -> dget fm2 x = Some o2 -> dget els x = Some e -> has_mass e m ->
    0 < m -> 0 < amc -> List.Forall (fun r => 0 < fst (fst r) /\ 0 < snd (fst r)) (xo_data o1) ->
    forall E, xrmac_object_call o2 E = let! v := xrmac_object_call o1 E in Ok (v * per_atom amc m).
  Proof.
    intros D1 D2 De Me Pm Pa Pd E. destruct module_made as (_ & _ & _ & K1 & _ & F). assert (I : In x Xs) by (rewrite <- K1; exact (dget_some_key _ _ _ D1)).
    destruct (Forall2_in_snd _ _ _ x F I) as (z & _ & o1' & o2' & D1' & D2' & (rows & e' & m' & _ & _ & De' & Me' & S) & _ & _ & I1 & I2).
    rewrite D1 in D1'. injection D1' as <-. rewrite D2 in D2'. injection D2' as <-. rewrite De in De'. injection De' as <-.
    assert (m' = m) by (destruct Me as (a & A1 & A2), Me' as (b & B1 & B2); rewrite A1 in B1; injection B1 as <-; exact (worth_fun _ _ _ B2 A2)). subst m'.
    unfold xrmac_object_call. rewrite I1, I2, (scaled_stretch _ _ _ S).
    assert (Pc : 0 < per_atom amc m) by (now apply per_atom_pos).
    assert (C : interpolate_log_log minval (map fst (xo_data o1)) = NaN \/ (exists e0, interpolate_log_log minval (map fst (xo_data o1)) = Raise e0) \/ exists i, interpolate_log_log minval (map fst (xo_data o1)) = Ok i)
      by (destruct (interpolate_log_log minval (map fst (xo_data o1))); eauto).
    destruct C as [C|[[e0 C]|[i C]]].
    - exfalso. unfold interpolate_log_log in C. destruct (map fst (xo_data o1)) eqn:Em; [discriminate|]. destruct (_ <? _)%nat; [discriminate|]. rewrite <- Em in C.
      assert (P : forallb (fun p => is_pos (fst p) && is_pos (snd p))%bool (map fst (xo_data o1)) = true).
      { apply all_pos_iff. apply List.Forall_forall. intros q Iq. apply in_map_iff in Iq. destruct Iq as (r & <- & Ir). rewrite List.Forall_forall in Pd. now apply Pd. }
      rewrite P in C. discriminate.
    - rewrite C. unfold interpolate_log_log in C |- *. destruct (map fst (xo_data o1)) eqn:Em; [cbn; injection C as <-; reflexivity|]. rewrite map_length.
      cbn [map]. destruct (_ <? _)%nat; [injection C as <-; reflexivity|]. destruct (forallb _ _) in C; discriminate.
    - destruct (stretched minval (per_atom amc m) (map fst (xo_data o1)) i Pc C) as (o' & Ho & Hc). unfold XRMAC in Ho. rewrite C, Ho. cbn [bind]. apply Hc.
  Qed.
  Lemma module_later x o2 U e m v : dget fm2 x = Some o2 -> zget X (Some 92%Z) = Some (Some U) -> dget els U = Some e -> has_mass e m ->
    xo_xrmac_conversion o2 g v = Ok (v * per_atom amc m).
  Proof.
    intros D2 HU De Me. destruct module_made as (G1 & G2 & G3 & _ & K2 & F). assert (I : In x Xs) by (rewrite <- K2; exact (dget_some_key _ _ _ D2)).
    destruct (Forall2_in_snd _ _ _ x F I) as (z & _ & o1' & o2' & D1' & D2' & _ & _ & C & _). rewrite D2 in D2'. injection D2' as <-. rewrite C.
    apply conversion_iff. exists m. split; [|reflexivity]. exists U, e. split; [unfold current_symbol; rewrite G1, G2, HU; reflexivity|]. rewrite G3. now split.
  Qed.
End Module.
