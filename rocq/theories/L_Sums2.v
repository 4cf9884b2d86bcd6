(** Darboux integration of sums of resonances on their common grid. *)
From Coq Require Import Reals List ZArith String Lra Lia Sorted.
From Coquelicot Require Import Coquelicot.
From Verif Require Import Py Spec M_Num M_Grid M_Constituents M_Thermal M_Dist M_Resonance M_CrossSection M_Darboux
  S_CrossSection S_Resonance S_Sums L_RInt L_Grid L_CrossSection L_CrossSection2 L_Darboux L_Darboux2 L_Integration
  L_Dist L_Resonance L_Resonance2 L_Resonance3 L_Resonance4 L_Resonance5 L_Resonance6 L_Axis L_Sums.
Import ListNotations.
Open Scope R_scope.

Lemma cells_gap g x a b : strictly_ascending g -> In x g -> In (a, b) (cells g) -> x <= a \/ b <= x.
Proof.
  induction g as [|c g IH]; intros S X I; [destruct X|]. destruct g as [|d g]; [destruct I|].
  inversion S as [|? ? S' F]; subst. rewrite cells_cons in I. destruct I as [E|I].
  - injection E as <- <-. destruct X as [->|X]; [left; lra|]. right. apply (first_le d g x); [now apply strict_ascending|exact X].
  - destruct X as [->|X]; [|now apply IH]. left. rewrite List.Forall_forall in F. left. apply F.
    apply (in_combine_l _ _ _ _ I).
Qed.

Lemma choose {A B} (P : A -> B -> Prop) l : (forall a, In a l -> exists b, P a b) -> exists m, List.Forall2 P l m.
Proof.
  induction l as [|a l IH]; intros H; [exists []; constructor|].
  destruct (H a (or_introl eq_refl)) as [b Hb]. destruct IH as [m Hm]; [intros; apply H; now right|].
  exists (b :: m). now constructor.
Qed.

Lemma spectrum_call ps (fs : list (R -> R)) : List.Forall2 (fun p f => cross_section_is (snd p) f) ps fs ->
  forall E, call (spectrum ps) E = Ok (wsum (combine (map fst ps) fs) E).
Proof.
  intros F E. unfold spectrum. rewrite call_sum by (rewrite !map_length; lia). rewrite <- osum_ok. f_equal.
  induction F as [|p f ps fs H F IH]; [reflexivity|]. cbn [map map2 combine fst snd].
  cbn [call leaf_of l_call]. rewrite H, IH. reflexivity.
Qed.
Lemma spectrum_not_constant ps : ps <> [] -> constants_only (spectrum ps) = false.
Proof. destruct ps; [contradiction|reflexivity]. Qed.

(** The integral of each line, its sums, and the part of it that the grid covers. *)
Definition enclosed (g : list R) (c : R) (r : resonance) (q : (R -> R) * R * (R * R)) : Prop :=
  let '(f, J, (L, d)) := q in
  cross_section_is r f /\ is_RInt f (first g) (final g) J /\
  darboux (of_value (VLeaf (leaf_of r))) g = Ok (L, d) /\ L <= J <= L + d /\
  (0 <= r_integrated r -> c * r_integrated r <= J <= r_integrated r).

Lemma line_enclosed (ps : list (R * resonance)) c n g p : ps <> [] -> (forall p, In p ps -> line (snd p)) -> 0 < c < 1 -> (2 <= n)%Z -> Z.odd n = true ->
  strictly_ascending g -> g <> [] ->
  (forall x, In x g <-> exists p l, In p ps /\ snd (res_probability_grid (snd p) (Coverage c) n) = Ok (Some (map Finite l)) /\ In x l) ->
  In p ps -> exists q, enclosed g c (snd p) q.
Proof.
  intros N Ls Hc Hn Ho S Ng M Hp. destruct (line_shape _ (Ls p Hp)) as (f & F & Sh).
  destruct (line_grid _ f F c n Sh Hc Hn) as (l & E & Sl & Nl & F0 & F1 & Io). specialize (Io Ho).
  destruct Sh as (H & _ & Hm & U). set (r := snd p) in *. pose proof (proj1 H) as D.
  assert (Incl : incl l g) by (intros x Hx; apply M; exists p, l; auto).
  pose proof (strict_ascending g S) as Sa.
  set (v := fun t => r_integrated r * f t).
  pose proof (res_integral r f F H (first g) (final g)) as HI. fold v in HI.
  exists (v, r_integrated r * (F (final g) - F (first g)), (lower v g, upper v g - lower v g)).
  split; [apply (res_value r f F H)|]. split; [exact HI|].
  split. { rewrite (darboux_leaf r v g Ng); [now apply darboux_ascending|]. apply (res_value r f F H). }
  split.
  - assert (V : RInt v (first g) (final g) = r_integrated r * (F (final g) - F (first g))) by (apply is_RInt_unique; exact HI).
    destruct (enclosure v g Ng Sa) as [B1 B2].
    + intros a b Hab. apply (unimodal_cell (r_energy r)); [exact U|].
      destruct (cells_gap g (r_energy r) a b S (Incl _ Io) Hab); [now right|now left].
    + eexists; exact HI.
    + rewrite V in B1, B2. lra.
  - intros P.
    assert (first g <= first l).
    { destruct g as [|x g]; [contradiction|]. apply (first_le x g); [exact Sa|]. apply Incl. destruct l; [contradiction|now left]. }
    assert (final l <= final g). { apply ascending_final; [exact Sa|]. apply Incl, last_in. exact Nl. }
    assert (F (first g) <= F (first l)) by (apply (dens_le f F D); assumption).
    assert (F (final l) <= F (final g)) by (apply (dens_le f F D); assumption).
    pose proof (dens_range f F D (first g)). pose proof (dens_range f F D (final g)).
    split.
    + rewrite Rmult_comm. apply Rmult_le_compat_l; lra.
    + rewrite <- (Rmult_1_r (r_integrated r)) at 2. apply Rmult_le_compat_l; lra.
Qed.

Lemma spectrum_enclosed ps c n : ps <> [] -> (forall p, In p ps -> line (snd p)) -> 0 < c < 1 -> (2 <= n)%Z -> Z.odd n = true ->
  exists g f parts, pgrid (spectrum ps) (Coverage c) n = Ok (Some (map Finite g)) /\
    (forall E, call (spectrum ps) E = Ok (f E)) /\ ex_RInt f (first g) (final g) /\
    List.Forall2 (fun p Ld => darboux (of_value (VLeaf (leaf_of (snd p)))) g = Ok Ld) ps parts /\
    Rabs (RInt f (first g) (final g) - Rsum (map2 (fun p Ld => fst p * fst Ld) ps parts))
      <= Rsum (map2 (fun p Ld => Rabs (fst p) * snd Ld) ps parts) /\
    ((forall p, In p ps -> 0 <= fst p) ->
      Rsum (map2 (fun p Ld => fst p * fst Ld) ps parts) <= RInt f (first g) (final g)
        <= Rsum (map2 (fun p Ld => fst p * (fst Ld + snd Ld)) ps parts)) /\
    ((forall p, In p ps -> 0 <= fst p /\ 0 <= r_integrated (snd p)) ->
      let total := Rsum (map (fun p => fst p * r_integrated (snd p)) ps) in
      c * total <= RInt f (first g) (final g) <= total).
Proof.
  intros N Ls Hc Hn Ho. destruct (spectrum_grid ps c n N Ls Hc Hn) as (g & E & S & Ng & M).
  destruct (choose (fun p q => enclosed g c (snd p) q) ps) as [qs Q].
  { intros p Hp. eapply line_enclosed; eassumption. }
  exists g, (wsum (combine (map fst ps) (map (fun q => fst (fst q)) qs))), (map snd qs).
  split; [exact E|]. split.
  { apply spectrum_call. clear - Q. induction Q as [|p [[f J] [L d]] ps qs H Q IH]; [constructor|]. constructor; [apply H|exact IH]. }
  assert (HI : is_RInt (wsum (combine (map fst ps) (map (fun q => fst (fst q)) qs))) (first g) (final g)
    (Rsum (map2 (fun p q => fst p * snd (fst q)) ps qs))).
  { replace (Rsum (map2 (fun p q => fst p * snd (fst q)) ps qs)) with
      (Rsum (map2 (fun (t : R * (R -> R)) I => fst t * I) (combine (map fst ps) (map (fun q => fst (fst q)) qs)) (map (fun q => snd (fst q)) qs))).
    - apply wsum_RInt. clear - Q. induction Q as [|p [[f J] [L d]] ps qs H Q IH]; [constructor|]. cbn. constructor; [apply H|exact IH].
    - f_equal. clear - Q. induction Q as [|p [[f J] [L d]] ps qs H Q IH]; [reflexivity|]. cbn. now rewrite IH. }
  split; [eexists; exact HI|]. rewrite (RInt_val _ _ _ _ HI). split.
  { clear - Q. induction Q as [|p [[f J] [L d]] ps qs H Q IH]; [constructor|]. constructor; [apply H|exact IH]. }
  clear - Q. split; [|split].
  - induction Q as [|p [[f J] [L d]] ps qs H Q IH]; cbn [map map2 Rsum fold_right].
    + rewrite Rminus_diag_eq, Rabs_R0 by reflexivity. lra.
    + unfold Rsum in *. cbn [fst snd] in *. destruct H as (_ & _ & _ & B & _).
      match goal with |- Rabs (?a + ?b - (?c + ?e)) <= _ => replace (a + b - (c + e)) with ((a - c) + (b - e)) by ring end.
      eapply Rle_trans; [apply Rabs_triang|]. apply Rplus_le_compat; [|exact IH].
      rewrite <- Rmult_minus_distr_l, Rabs_mult. apply Rmult_le_compat_l; [apply Rabs_pos|]. apply Rabs_le_between. lra.
  - intros P. induction Q as [|p [[f J] [L d]] ps qs H Q IH]; cbn [map map2 Rsum fold_right]; [lra|].
    specialize (IH (fun q Hq => P q (or_intror Hq))). specialize (P p (or_introl eq_refl)).
    unfold Rsum in *. cbn [fst snd] in *. destruct H as (_ & _ & _ & B & _). nra.
  - intros P. cbv zeta. induction Q as [|p [[f J] [L d]] ps qs H Q IH]; cbn [map map2 Rsum fold_right]; [lra|].
    specialize (IH (fun q Hq => P q (or_intror Hq))). destruct (P p (or_introl eq_refl)) as [P1 P2].
    unfold Rsum in *. cbn [fst snd] in *. destruct H as (_ & _ & _ & _ & B). specialize (B P2). nra.
Qed.

Lemma spectrum_axis ps : (forall p, In p ps -> line (snd p)) ->
  exists f, (forall E, call (spectrum ps) E = Ok (f E)) /\
    integral_over_axis f (Rsum (map (fun p => fst p * r_integrated (snd p)) ps)).
Proof.
  intros Ls. destruct (choose (fun p f => cross_section_is (snd p) f /\ integral_over_axis f (r_integrated (snd p))) ps) as [fs F].
  { intros p Hp. destruct (line_shape _ (Ls p Hp)) as (f & G & H & _). exists (fun E => r_integrated (snd p) * f E).
    split; [apply (res_value _ f G H)|]. apply (dens_axis_scal f G _ (proj1 H)). }
  exists (wsum (combine (map fst ps) fs)). split.
  { apply spectrum_call. clear - F. induction F as [|p f ps fs H F IH]; [constructor|]. constructor; [apply H|exact IH]. }
  replace (Rsum (map (fun p => fst p * r_integrated (snd p)) ps)) with
    (Rsum (map2 (fun (t : R * (R -> R)) I => fst t * I) (combine (map fst ps) fs) (map (fun p => r_integrated (snd p)) ps))).
  - apply wsum_axis. clear - F. induction F as [|p f ps fs H F IH]; [constructor|]. cbn. constructor; [apply H|exact IH].
  - f_equal. clear - F. induction F as [|p f ps fs H F IH]; [reflexivity|]. cbn. now rewrite IH.
Qed.
