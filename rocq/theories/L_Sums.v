(** Integrals of sums of resonances and Darboux integration on their common grid. *)
From Coq Require Import Reals List ZArith Lra Lia Sorted.
From Coquelicot Require Import Coquelicot.
From Verif Require Import Py Spec M_Num M_Grid M_Constituents M_Thermal M_Dist M_Resonance M_CrossSection M_Darboux
  S_CrossSection S_Resonance S_Sums L_RInt L_Grid L_CrossSection L_CrossSection2 L_Darboux L_Darboux2 L_Integration
  L_Dist L_Resonance L_Resonance2 L_Resonance3 L_Resonance4 L_Resonance5 L_Resonance6 L_Axis.
Import ListNotations.
Open Scope R_scope.

(** ** Linear combinations of functions *)
Definition wsum (ts : list (R * (R -> R))) (E : R) : R := Rsum (map (fun t => fst t * snd t E) ts).

Lemma is_RInt_const0 a b : is_RInt (fun _ => 0) a b 0.
Proof.
  pose proof (is_RInt_const (V := R_NormedModule) a b 0) as C. rewrite (scal_zero_r (V := R_NormedModule)) in C. exact C.
Qed.
Lemma axis_const0 : integral_over_axis (fun _ => 0) 0.
Proof.
  assert (K : integral_over_axis (fun _ => 0) (0 - 0)).
  { apply (axis_primitive (fun _ => 0) (fun _ => 0)); [|apply is_lim_const|apply is_lim_const].
    intros a b. rewrite Rminus_diag_eq by reflexivity.
    apply is_RInt_const0. }
  now rewrite Rminus_0_r in K.
Qed.
Lemma wsum_axis ts Is : List.Forall2 (fun t I => integral_over_axis (snd t) I) ts Is ->
  integral_over_axis (wsum ts) (Rsum (map2 (fun t I => fst t * I) ts Is)).
Proof.
  induction 1 as [|t I ts Is H F IH].
  - exact axis_const0.
  - cbn [map2]. change (Rsum (fst t * I :: map2 (fun t I => fst t * I) ts Is)) with
      (fst t * I + Rsum (map2 (fun t I => fst t * I) ts Is)).
    apply (axis_ext (fun E => fst t * snd t E + wsum ts E)); [reflexivity|].
    apply axis_plus; [|exact IH]. now apply axis_mult.
Qed.
Lemma wsum_RInt ts Is a b : List.Forall2 (fun t I => is_RInt (snd t) a b I) ts Is ->
  is_RInt (wsum ts) a b (Rsum (map2 (fun t I => fst t * I) ts Is)).
Proof.
  induction 1 as [|t I ts Is H F IH].
  - exact (is_RInt_const0 a b).
  - cbn [map2]. change (Rsum (fst t * I :: map2 (fun t I => fst t * I) ts Is)) with
      (fst t * I + Rsum (map2 (fun t I => fst t * I) ts Is)).
    apply (is_RInt_ext (fun E => fst t * snd t E + wsum ts E)); [reflexivity|].
    apply (is_RInt_plus (V := R_NormedModule)); [|exact IH]. now apply (is_RInt_scal (V := R_NormedModule)).
Qed.

Lemma osum_ok (ts : list (R * (R -> R))) E :
  osum (map (fun t => oscale (fst t) (Ok (snd t E))) ts) = Ok (wsum ts E).
Proof.
  induction ts as [|t ts IH]; [reflexivity|]. cbn [map osum fold_right].
  change (fold_right oadd (Ok 0) (map (fun t => oscale (fst t) (Ok (snd t E))) ts)) with (osum (map (fun t => oscale (fst t) (Ok (snd t E))) ts)).
  rewrite IH. reflexivity.
Qed.

Lemma combination_values (cs : list (R * (R -> out R))) (fs : list (R -> R)) :
  List.Forall2 (fun t f => forall E, snd t E = Ok (f E)) cs fs ->
  forall E, osum (map (fun t => oscale (fst t) (snd t E)) cs) = Ok (wsum (combine (map fst cs) fs) E).
Proof.
  intros F E. rewrite <- osum_ok. f_equal. induction F as [|t f cs fs H F IH]; [reflexivity|].
  cbn [map combine fst snd]. rewrite H, IH. reflexivity.
Qed.

(** The integral of an expression. *)
Lemma expression_integral e a b fs Is : well_formed e = true ->
  List.Forall2 (fun t f => forall E, snd t E = Ok (f E)) (combination e) fs ->
  List.Forall2 (fun f I => is_RInt f a b I) fs Is ->
  exists v f, run e = Ok v /\ (forall E, at_energy v E = Ok (f E)) /\
    is_RInt f a b (Rsum (map2 (fun t I => fst t * I) (combination e) Is)).
Proof.
  intros W F G. destruct (expr_linear e W) as (v & Hv & K). exists v, (wsum (combine (map fst (combination e)) fs)). split; [exact Hv|].
  split; [intros E; rewrite K; apply (combination_values _ _ F)|].
  replace (Rsum (map2 (fun t I => fst t * I) (combination e) Is)) with
    (Rsum (map2 (fun (t : R * (R -> R)) I => fst t * I) (combine (map fst (combination e)) fs) Is)).
  - apply wsum_RInt. clear - F G. revert Is G. induction F as [|t f cs fs H F IH]; intros Is G; [inversion G; constructor|].
    inversion G; subst. cbn [map combine]. constructor; [assumption|]. now apply IH.
  - clear - F G. f_equal. revert Is G. induction F as [|t f cs fs H F IH]; intros Is G; [reflexivity|].
    inversion G; subst. cbn [map combine map2 fst]. f_equal. now apply IH.
Qed.
Lemma expression_axis e fs Is : well_formed e = true ->
  List.Forall2 (fun t f => forall E, snd t E = Ok (f E)) (combination e) fs ->
  List.Forall2 (fun f I => integral_over_axis f I) fs Is ->
  exists v f, run e = Ok v /\ (forall E, at_energy v E = Ok (f E)) /\
    integral_over_axis f (Rsum (map2 (fun t I => fst t * I) (combination e) Is)).
Proof.
  intros W F G. destruct (expr_linear e W) as (v & Hv & K). exists v, (wsum (combine (map fst (combination e)) fs)). split; [exact Hv|].
  split; [intros E; rewrite K; apply (combination_values _ _ F)|].
  replace (Rsum (map2 (fun t I => fst t * I) (combination e) Is)) with
    (Rsum (map2 (fun (t : R * (R -> R)) I => fst t * I) (combine (map fst (combination e)) fs) Is)).
  - apply wsum_axis. clear - F G. revert Is G. induction F as [|t f cs fs H F IH]; intros Is G; [inversion G; constructor|].
    inversion G; subst. cbn [map combine]. constructor; [assumption|]. now apply IH.
  - clear - F G. f_equal. revert Is G. induction F as [|t f cs fs H F IH]; intros Is G; [reflexivity|].
    inversion G; subst. cbn [map combine map2 fst]. f_equal. now apply IH.
Qed.

(** ** Lines *)
Definition shape (r : resonance) (f F : R -> R) : Prop :=
  has_density (r_dist r) (r_params r) f F /\ exact_quantiles (r_dist r) (r_params r) F /\
  F (r_energy r) = 1 / 2 /\ unimodal (r_energy r) f.

Lemma line_shape r : line r -> exists f F, shape r f F.
Proof.
  intros [(k & i & m & fin & w & H & W & Hw)|(k & i & m & amu & T & fin & K & Ha & HT & H & HE)].
  - destruct (breit_wigner_density _ _ _ _ _ _ H W Hw) as (HD & HQ & HM). do 2 eexists.
    split; [exact HD|]. split; [exact HQ|]. split; [exact HM|]. apply cauchy_unimodal. lra.
  - destruct (gauss_density _ _ _ _ _ _ _ K Ha HT H HE) as (d & _ & Hd & HD & HQ & HM). do 2 eexists.
    split; [exact HD|]. split; [exact HQ|]. split; [exact HM|]. apply norm_unimodal. now apply scale_pos.
Qed.

Lemma unimodal_cell m f c a b : unimodal m f -> b <= m \/ m <= a -> monotone_on (fun E => c * f E) a b.
Proof.
  intros [U V] [H|H]; destruct (Rle_dec 0 c).
  - left. intros s t ? ? ?. apply Rmult_le_compat_l; [assumption|]. apply U; lra.
  - right. intros s t ? ? ?. assert (f s <= f t) by (apply U; lra). nra.
  - right. intros s t ? ? ?. apply Rmult_le_compat_l; [assumption|]. apply V; lra.
  - left. intros s t ? ? ?. assert (f t <= f s) by (apply V; lra). nra.
Qed.

(** The grid of a line for an odd number of points. *)
Lemma line_grid r f F c n : shape r f F -> 0 < c < 1 -> (2 <= n)%Z -> exists g,
  snd (res_probability_grid r (Coverage c) n) = Ok (Some (map Finite g)) /\ strictly_ascending g /\ g <> [] /\
  F (first g) = 1 / 2 * (1 - c) /\ F (final g) = 1 / 2 * (1 + c) /\
  (Z.odd n = true -> In (r_energy r) g).
Proof.
  intros (H & Q & M & _) Hc Hn. pose proof (proj1 H) as D.
  unfold res_probability_grid. cbn [bind]. rewrite (linspace_ok _ _ n Hn).
  destruct (Q _ (linspace_in (1 / 2 * (1 - c)) (1 / 2 * (1 + c)) n Hn ltac:(lra) ltac:(lra) ltac:(lra)))
    as (ws & xs & E & F2).
  rewrite E. destruct (quantiles_of f F D (1 / 2 * (1 - c)) (1 / 2 * (1 + c)) n xs Hn ltac:(lra) ltac:(lra) ltac:(lra) F2) as (x & -> & HF & H0 & H1).
  set (h := (1 / 2 * (1 + c) - 1 / 2 * (1 - c)) / IZR (n - 1)) in *.
  assert (Hn1 : 1 <= IZR (n - 1)) by (apply IZR_le; lia).
  assert (Hh : 0 < h) by (apply Rdiv_lt_0_compat; lra).
  assert (Hh1 : h * IZR (n - 1) = c) by (unfold h; field; lra).
  destruct (grid_spec f F D (r_integrated r) x _ h n Hn Hh HF) as (Len & Asc & Fi & La & _).
  exists (map x (seq 0 (Z.to_nat n))). cbn [snd]. split; [now rewrite map_map|]. split; [exact Asc|].
  split. { intros K; rewrite K in Len; cbn in Len; lia. }
  split; [now rewrite Fi|]. split; [now rewrite La|].
  intros Hodd. assert (exists i, n = 2 * Z.of_nat i + 1)%Z as (i & Hi).
  { exists (Z.to_nat (Z.div2 n)). rewrite Z2Nat.id by (apply Z.div2_nonneg; lia).
    rewrite (Z.div2_odd n) at 1. now rewrite Hodd. }
  assert (Hm : 1 / 2 * (1 - c) + INR i * h = 1 / 2).
  { rewrite INR_IZR_INZ. replace (IZR (n - 1)) with (2 * IZR (Z.of_nat i)) in Hh1.
    - lra.
    - rewrite <- mult_IZR. f_equal. lia. }
  apply in_map_iff. exists i. split; [|apply in_seq; lia].
  apply (dens_inj f F D). rewrite M, HF by lia. exact Hm.
Qed.

Lemma finite_list (l : list Rbar) : (forall x, In x l -> exists r : R, x = Finite r) -> exists g, l = map Finite g.
Proof.
  induction l as [|x l IH]; intros H; [now exists []|].
  destruct (H x) as [r ->]; [now left|]. destruct IH as [g ->]; [intros; apply H; now right|]. now exists (r :: g).
Qed.
Lemma finite_sorted g : StronglySorted Rbar_lt (map Finite g) -> strictly_ascending g.
Proof.
  induction g as [|a g IH]; intros S; [constructor|]. inversion S as [|? ? S' F]; subst. constructor; [now apply IH|].
  rewrite List.Forall_forall in *. intros t T. apply (F (Finite t)). now apply in_map.
Qed.

Lemma spectrum_members ps m : In m (members (spectrum ps)) <-> exists p, In p ps /\ m = VLeaf (leaf_of (snd p)).
Proof.
  unfold spectrum. cbn [members]. induction ps as [|p ps IH]; cbn [map].
  - split; [intros []|intros (p & [] & _)].
  - cbn. rewrite ?app_nil_r. split.
    + intros [<-|H]; [exists p; auto|]. apply IH in H. destruct H as (q & Hq & ->). exists q; auto.
    + intros (q & [<-|Hq] & ->); [now left|]. right. apply IH. now exists q.
Qed.

(** The common grid of a sum of lines. *)
Lemma spectrum_grid ps c n : ps <> [] -> (forall p, In p ps -> line (snd p)) -> 0 < c < 1 -> (2 <= n)%Z ->
  exists g, pgrid (spectrum ps) (Coverage c) n = Ok (Some (map Finite g)) /\ strictly_ascending g /\ g <> [] /\
    (forall x, In x g <-> exists p l, In p ps /\ snd (res_probability_grid (snd p) (Coverage c) n) = Ok (Some (map Finite l)) /\ In x l).
Proof.
  intros N L Hc Hn.
  assert (D : forall p, In p ps -> exists l, snd (res_probability_grid (snd p) (Coverage c) n) = Ok (Some (map Finite l)) /\ l <> []).
  { intros p Hp. destruct (line_shape _ (L p Hp)) as (f & F & S). destruct (line_grid _ f F c n S Hc Hn) as (l & E & _ & NE & _). eauto. }
  destruct (proj2 (grid_returns (map (fun p => VLeaf (leaf_of (snd p))) ps) (map fst ps) (Coverage c) n)) as [r Hr].
  { intros m Hm. apply (spectrum_members ps m) in Hm. destruct Hm as (p & Hp & ->). destruct (D p Hp) as (l & E & _). exists (map Finite l). exact E. }
  destruct r as [r|]; [|destruct (pgrid_sum_inv _ _ _ _ _ Hr) as (? & _ & ?); discriminate].
  pose proof (pgrid_sorted _ _ _ _ _ Hr) as S. pose proof (pgrid_members _ _ _ _ Hr) as M.
  assert (M' : forall x, In x r <-> exists p l, In p ps /\ snd (res_probability_grid (snd p) (Coverage c) n) = Ok (Some (map Finite l)) /\ In x (map Finite l)).
  { intros x. rewrite M. split.
    - intros (m & l & Hm & Hl & Hx). apply (spectrum_members ps m) in Hm. destruct Hm as (p & Hp & ->).
      destruct (D p Hp) as (l' & E & _). exists p, l'. split; [exact Hp|]. split; [exact E|].
      change (pgrid (VLeaf (leaf_of (snd p))) (Coverage c) n) with (snd (res_probability_grid (snd p) (Coverage c) n)) in Hl.
      unfold delivers in Hl. cbn in Hl. rewrite E in Hl. injection Hl as <-. exact Hx.
    - intros (p & l & Hp & E & Hx). exists (VLeaf (leaf_of (snd p))), (map Finite l).
      split; [apply (spectrum_members ps); now exists p|]. split; [exact E|exact Hx]. }
  destruct (finite_list r) as [g ->].
  { intros x Hx. apply M' in Hx. destruct Hx as (p & l & _ & _ & Hx). apply in_map_iff in Hx. destruct Hx as (t & <- & _). now exists t. }
  exists g. split; [exact Hr|]. split; [now apply finite_sorted|].
  assert (M2 : forall x, In x g <-> exists p l, In p ps /\ snd (res_probability_grid (snd p) (Coverage c) n) = Ok (Some (map Finite l)) /\ In x l).
  { intros x. split.
    - intros Hx. apply (in_map Finite) in Hx. apply M' in Hx. destruct Hx as (p & l & Hp & E & Hx). exists p, l. repeat split; auto.
      apply in_map_iff in Hx. destruct Hx as (t & Et & Ht). injection Et as <-. exact Ht.
    - intros (p & l & Hp & E & Hx). assert (K : In (Finite x) (map Finite g)).
      { apply M'. exists p, l. repeat split; auto. now apply in_map. }
      apply in_map_iff in K. destruct K as (t & Et & Ht). injection Et as <-. exact Ht. }
  split; [|exact M2]. intros ->. destruct ps as [|p ps]; [contradiction|]. destruct (D p (or_introl eq_refl)) as (l & E & NE).
  destruct l as [|t l]; [contradiction|]. apply (M2 t). exists p, (t :: l). cbn; auto.
Qed.
