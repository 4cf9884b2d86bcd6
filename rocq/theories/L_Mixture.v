(** Sums of resonant and nonresonant cross sections. *)
From Coq Require Import Reals List ZArith String Lra Lia Sorted Psatz.
From Coquelicot Require Import Coquelicot.
From Verif Require Import Py Spec M_Num M_Grid M_Constituents M_Thermal M_Dist M_Resonance M_CrossSection M_Darboux M_KleinNishina M_Xrmac
  S_CrossSection S_Resonance S_Sums S_Xrmac S_Xrmac2 S_Mixture L_RInt L_Grid L_CrossSection L_CrossSection2 L_Darboux L_Darboux2 L_Integration
  L_Dist L_Resonance L_Resonance2 L_Resonance3 L_Resonance4 L_Resonance5 L_Resonance6 L_Axis L_Sums L_Sums2 L_Sums3 L_Sums4
  L_KleinNishina L_KleinNishina2 L_KleinNishina3 L_Xrmac L_Xrmac2 L_Xrmac3 L_Xrmac4.
Import ListNotations.
Open Scope R_scope.

(** *** Functions of bounded change *)
Definition changes (f : R -> R) (V : R) : Prop :=
  (forall a b, 0 < a -> a <= b -> ex_RInt f a b) /\
  exists W, (forall s t, 0 < s -> s <= t -> Rabs (f s - f t) <= W t - W s) /\ (forall s t, 0 < s -> s <= t -> W t - W s <= V).

Lemma decreasing_changes f V : (forall a b, 0 < a -> a <= b -> ex_RInt f a b) -> (forall s t, 0 < s -> s <= t -> f t <= f s) ->
  (forall s, 0 < s -> 0 <= f s <= V) -> changes f V.
Proof.
  intros I D B. split; [exact I|]. exists (fun t => - f t). split; intros s t Hs Hst; pose proof (D s t Hs Hst).
  - rewrite Rabs_pos_eq; lra.
  - pose proof (B s Hs). pose proof (B t ltac:(lra)). lra.
Qed.
Lemma unimodal_changes m (f : R -> R) : (forall t, continuous f t) -> (forall t, 0 <= f t) -> unimodal m f -> changes f (2 * f m).
Proof.
  intros C P [U V]. split; [intros; apply (ex_RInt_continuous f); intros; apply C|].
  exists (fun t => if Rle_dec t m then f t else 2 * f m - f t). split; intros s t Hs Hst.
  - destruct (Rle_dec s m), (Rle_dec t m); try lra.
    + pose proof (U s t Hst ltac:(lra)). rewrite Rabs_left1; lra.
    + pose proof (U s m ltac:(lra) ltac:(lra)). pose proof (V m t ltac:(lra) ltac:(lra)). apply Rabs_le. lra.
    + pose proof (V s t ltac:(lra) Hst). rewrite Rabs_pos_eq; lra.
  - pose proof (P s). pose proof (P t).
    assert (f s <= f m) by (destruct (Rle_dec s m); [apply U|apply V]; lra).
    assert (f t <= f m) by (destruct (Rle_dec t m); [apply U|apply V]; lra).
    destruct (Rle_dec s m), (Rle_dec t m); lra.
Qed.
Lemma changes_scal c f V : changes f V -> changes (fun E => c * f E) (Rabs c * V).
Proof.
  intros [I (W & A & B)]. split; [intros; apply (ex_RInt_scal f); auto|]. exists (fun t => Rabs c * W t).
  split; intros s t Hs Hst; rewrite <- Rmult_minus_distr_l.
  - rewrite <- Rmult_minus_distr_l, Rabs_mult. apply Rmult_le_compat_l; [apply Rabs_pos|auto].
  - apply Rmult_le_compat_l; [apply Rabs_pos|auto].
Qed.
Lemma changes_plus f g V W : changes f V -> changes g W -> changes (fun E => f E + g E) (V + W).
Proof.
  intros [I (X & A & B)] [J (Y & C & D)]. split; [intros; apply (ex_RInt_plus f g); auto|]. exists (fun t => X t + Y t).
  split; intros s t Hs Hst; specialize (A s t Hs Hst); specialize (B s t Hs Hst); specialize (C s t Hs Hst); specialize (D s t Hs Hst).
  - replace (f s + g s - (f t + g t)) with ((f s - f t) + (g s - g t)) by ring. eapply Rle_trans; [apply Rabs_triang|lra].
  - lra.
Qed.
Lemma changes_0 : changes (fun _ => 0) 0.
Proof.
  split; [intros; apply ex_RInt_const|]. exists (fun _ => 0). split; intros; [rewrite Rminus_0_r, Rabs_R0|]; lra.
Qed.
Lemma changes_ext f g V : (forall E, 0 < E -> f E = g E) -> changes f V -> changes g V.
Proof.
  intros E [I (W & A & B)]. split.
  - intros a b Ha Hab. apply (ex_RInt_ext f); [|auto]. intros x. rewrite Rmin_left, Rmax_right by lra. intros. apply E. lra.
  - exists W. split; [|exact B]. intros s t Hs Hst. rewrite <- !E by lra. auto.
Qed.
Lemma wsum_changes ws (fs : list (R -> R)) Vs : List.Forall2 changes fs Vs -> List.length ws = List.length fs ->
  changes (wsum (combine ws fs)) (Rsum (map2 (fun w V => Rabs w * V) ws Vs)).
Proof.
  intros F. revert ws. induction F as [|f V fs Vs Hf F IH]; intros [|w ws] L; cbn in L; try discriminate; [apply changes_0|].
  injection L as L. apply (changes_plus (fun E => w * f E) (wsum (combine ws fs))); [now apply changes_scal|now apply IH].
Qed.

(** *** Each process *)
Lemma hh_continuous x : 0 < x -> continuous hh x.
Proof.
  intros H. apply (ex_derive_continuous (V := R_NormedModule)). unfold hh. auto_derive.
  pose proof (pow_lt x 3 H). pose proof (pow_lt (1 + 2 * x) 2 ltac:(lra)). cbn in *. repeat split; try lra; try nra.
Qed.
Lemma process_values l V : process l V -> exists f, (forall E, 0 < E -> l_call l E = Ok (f E)) /\ changes f V.
Proof.
  intros [r f Hl Hf|k Z mc2 c Hk HZ Hm Hc|minval data o HT HA HO].
  - exists f. split; [intros E _; exact (Hf E)|].
    destruct (line_shape r Hl) as (g & G & (D & _ & _ & U)). pose proof D as [[Dc [Dp _]] [Dv _]].
    assert (K : forall E, f E = r_integrated r * g E).
    { intros E. specialize (Hf E). unfold res_call in Hf. rewrite Dv in Hf. cbn in Hf. now injection Hf. }
    apply (changes_ext (fun E => r_integrated r * g E)); [intros; now rewrite K|].
    rewrite K, Rabs_mult, (Rabs_pos_eq (g _)) by (left; apply Dp). replace (2 * (Rabs (r_integrated r) * g (r_energy r))) with (Rabs (r_integrated r) * (2 * g (r_energy r))) by ring.
    apply changes_scal, unimodal_changes; auto. intros; left; apply Dp.
  - destruct (kn_inv _ _ _ _ Hc) as (M & _ & Em & Es). rewrite <- Em in Hm.
    pose proof (scale_pos _ _ _ _ Hk Hc HZ) as S0. pose proof PI_RGT_0 as HP.
    exists (fun E => PI * kn_scale_factor c * hh (E / kn_mc2 c)). split; [intros E HE; exact (total_ok c E Hm HE)|].
    assert (X : forall E, 0 < E -> 0 < E / kn_mc2 c) by (intros; now apply Rdiv_lt_0_compat).
    assert (S1 : 0 < PI * kn_scale_factor c) by (now apply Rmult_lt_0_compat).
    fold (thomson k Z mc2). rewrite <- (thomson_scale _ _ _ _ Hc).
    apply decreasing_changes.
    + intros a b Ha Hab. apply (ex_RInt_continuous (V := R_CompleteNormedModule)). intros z. rewrite Rmin_left, Rmax_right by lra. intros Hz.
      apply (continuous_mult (fun _ => PI * kn_scale_factor c) (fun E => hh (E / kn_mc2 c))); [apply continuous_const|].
      apply (continuous_comp (fun E => E / kn_mc2 c) hh); [|apply hh_continuous, X; lra].
      apply (ex_derive_continuous (V := R_NormedModule)). auto_derive. lra.
    + intros s t Hs [Hst| ->]; [|lra]. apply Rmult_le_compat_l; [lra|]. left. apply hh_decr; [now apply X|].
      apply Rmult_lt_compat_r; [now apply Rinv_0_lt_compat|exact Hst].
    + intros s Hs. pose proof (hh_pos _ (X s Hs)). pose proof (hh_lt _ (X s Hs)). split; [apply Rmult_le_pos; lra|].
      replace (8 * PI / 3 * kn_scale_factor c) with (PI * kn_scale_factor c * (8 / 3)) by field. apply Rmult_le_compat_l; lra.
  - pose proof (logs_ordered data HT HA) as Or. set (f := fun E => pow10 (gi (logs data) (log10 E))).
    assert (Hf : forall E, 0 < E -> xrmac_call o E = Ok (f E)) by (intros E HE; now apply (call_gi minval data o E HT HA HO)).
    exists f. split; [exact Hf|]. split; [intros; now apply (xr_integrable minval data o f HT HA HO Hf)|].
    exists (fun E => var pow10 (logs data) (log10 E)). split; intros s t Hs Hst.
    + apply var_diff; [exact pow10_le|exact Or|apply log10_le; lra].
    + rewrite <- (steps_total (map snd data)), <- (coefficients data HT).
      pose proof (var_bounds pow10 pow10_le (logs data) (log10 t) Or). pose proof (var_bounds pow10 pow10_le (logs data) (log10 s) Or). lra.
Qed.

(** *** Sums *)
Lemma processes ps Vs : List.Forall2 (fun (p : R * leaf) V => process (snd p) V) ps Vs ->
  exists fs, List.Forall2 (fun p f => forall E, 0 < E -> l_call (snd p) E = Ok (f E)) ps fs /\ List.Forall2 changes fs Vs.
Proof.
  induction 1 as [|p V ps Vs H F (fs & IH1 & IH2)]; [exists []; split; constructor|].
  destruct (process_values _ _ H) as (f & Hf & Cf). exists (f :: fs). split; constructor; auto.
Qed.
Lemma material_call ps (fs : list (R -> R)) : List.Forall2 (fun p f => forall E, 0 < E -> l_call (snd p) E = Ok (f E)) ps fs ->
  forall E, 0 < E -> call (material ps) E = Ok (wsum (combine (map fst ps) fs) E).
Proof.
  intros F E HE. unfold material. rewrite call_sum by (rewrite !map_length; lia). rewrite <- osum_ok. f_equal.
  induction F as [|p f ps fs H F IH]; [reflexivity|]. cbn [map map2 combine fst snd call]. rewrite H, IH by exact HE. reflexivity.
Qed.
Lemma material_value ps Vs : List.Forall2 (fun (p : R * leaf) V => process (snd p) V) ps Vs ->
  exists fs, List.Forall2 (fun p f => forall E, 0 < E -> l_call (snd p) E = Ok (f E)) ps fs /\
    forall E, 0 < E -> call (material ps) E = Ok (Rsum (map2 (fun p f => fst p * f E) ps fs)).
Proof.
  intros H. destruct (processes _ _ H) as (fs & F & _). exists fs. split; [exact F|]. intros E HE. rewrite (material_call ps fs F E HE). f_equal. unfold wsum.
  clear -F. induction F as [|p f ps fs _ F IH]; [reflexivity|]. cbn [map combine map2 Rsum fold_right fst snd] in *. now f_equal.
Qed.
Lemma material_integral ps Vs x h : ps <> [] -> List.Forall2 (fun (p : R * leaf) V => process (snd p) V) ps Vs ->
  x <> [] -> ascending x -> 0 < first x -> (forall a b, In (a, b) (cells x) -> b - a <= h) -> 0 <= h ->
  exists f L d, (forall E, 0 < E -> call (material ps) E = Ok (f E)) /\ ex_RInt f (first x) (final x) /\
    darboux (of_value (material ps)) x = Ok (L, d) /\
    Rabs (L - RInt f (first x) (final x)) <= h * Rsum (map2 (fun p V => Rabs (fst p) * V) ps Vs) /\
    d <= h * Rsum (map2 (fun p V => Rabs (fst p) * V) ps Vs).
Proof.
  intros N H Nx Ax Px Hc Hh. destruct (processes _ _ H) as (fs & F & C).
  assert (Lf : List.length (map fst ps) = List.length fs) by (rewrite map_length; clear -F; induction F; cbn; congruence).
  pose proof (wsum_changes (map fst ps) fs Vs C Lf) as [I (W & A & B)]. set (f := wsum _) in *.
  replace (map2 (fun w V => Rabs w * V) (map fst ps) Vs) with (map2 (fun p V => Rabs (fst p) * V) ps Vs) in B
    by (clear; revert Vs; induction ps as [|p ps IH]; intros [|V Vs]; cbn; auto; f_equal; auto).
  set (V := Rsum _) in *.
  assert (FF : first x <= final x) by (destruct x as [|a x]; [contradiction|]; apply (ascending_first_final a x Ax)).
  assert (Pos : forall E, In E x -> 0 < E). { intros E HE. destruct x as [|a x]; [contradiction|]. pose proof (first_le a x E Ax HE). unfold first in Px. cbn in Px. lra. }
  destruct (darboux_variation f W x h Nx Ax (I _ _ Px FF)) as (L & d & D1 & D2 & D3); [intros; apply A; lra|exact Hc|].
  exists f, L, d. split; [apply (material_call ps fs F)|]. split; [now apply I|]. split.
  - rewrite (darboux_of_value _ f x Nx); [exact D1|destruct ps; [contradiction|reflexivity]|]. intros E HE. apply (material_call ps fs F), Pos, HE.
  - pose proof (Rmult_le_compat_l h _ _ Hh (B _ _ Px FF)). lra.
Qed.

(** *** Grids *)
Lemma nonresonant_grid l a b n : nonresonant l -> (2 <= n)%Z -> a < b -> exists g,
  equidistant_energy_grid (Limits a b) n = Ok g /\ l_pgrid l (Limits a b) n = Ok (Some (map Finite g)) /\
  List.length g = Z.to_nat n /\ strictly_ascending g /\ first g = a /\ final g = b /\
  (forall x y, In (x, y) (cells g) -> y - x = (b - a) / IZR (n - 1)).
Proof.
  intros H Hn Hab. destruct (linspace_grid a b n Hn) as (g & E & L & F1 & F2 & C & As & _). exists g.
  split; [exact E|]. split; [destruct H; cbn; unfold nonresonant_probability_grid, equidistant_energy_grid; now rewrite E|].
  split; [exact L|]. split; [now apply As|]. split; [exact F1|]. split; [exact F2|].
  intros x y I. destruct (cells_nth g 0 (x, y) I) as (i & Hi & K). injection K as -> ->. now apply C.
Qed.
Lemma process_grid l V a b n : process l V -> (2 <= n)%Z -> a < b -> exists g,
  l_pgrid l (Limits a b) n = Ok (Some (map Finite g)) /\ strictly_ascending g /\ first g = a /\ final g = b /\ g <> [].
Proof.
  intros H Hn Hab. destruct H as [r f Hl Hf|k Z mc2 c Hk HZ Hm Hc|minval data o HT HA HO].
  - destruct (line_shape r Hl) as (g & G & (D & Q & _)). destruct (density_grid_limits r g G a b n D Q Hab Hn) as (ws & x & f' & _ & E & (E1 & E2 & E3 & E4 & _)).
    exists x. cbn. rewrite E. repeat split; auto. intros ->. cbn in E1. lia.
  - destruct (nonresonant_grid (kn_leaf c) a b n (nonresonant_compton c) Hn Hab) as (g & _ & E & L & A & F1 & F2 & _).
    exists g. repeat split; auto. intros ->. cbn in L. lia.
  - destruct (nonresonant_grid (xrmac_leaf o) a b n (nonresonant_table o) Hn Hab) as (g & _ & E & L & A & F1 & F2 & _).
    exists g. repeat split; auto. intros ->. cbn in L. lia.
Qed.
Lemma material_members ps m : In m (members (material ps)) <-> exists p, In p ps /\ m = VLeaf (snd p).
Proof.
  unfold material. cbn [members]. rewrite in_flat_map. split.
  - intros (x & I & J). apply in_map_iff in I. destruct I as (p & <- & I). cbn in J. destruct J as [<-|[]]. eauto.
  - intros (p & I & ->). exists (VLeaf (snd p)). split; [now apply (in_map (fun p => VLeaf (snd p)))|now left].
Qed.
Lemma material_grid ps Vs a b n : ps <> [] -> List.Forall2 (fun (p : R * leaf) V => process (snd p) V) ps Vs -> a < b -> (2 <= n)%Z ->
  exists g, pgrid (material ps) (Limits a b) n = Ok (Some (map Finite g)) /\ strictly_ascending g /\ first g = a /\ final g = b /\
    (forall E, In E g <-> exists p l, In p ps /\ l_pgrid (snd p) (Limits a b) n = Ok (Some l) /\ In (Finite E) l) /\
    forall p e, In p ps -> nonresonant (snd p) -> equidistant_energy_grid (Limits a b) n = Ok e -> incl e g.
Proof.
  intros N H Hab Hn.
  assert (PG : forall p, In p ps -> exists g, l_pgrid (snd p) (Limits a b) n = Ok (Some (map Finite g)) /\ strictly_ascending g /\ first g = a /\ final g = b /\ g <> []).
  { intros p I. assert (exists V, process (snd p) V) as [V HV]. { clear -H I. induction H; [destruct I|]. destruct I as [<-|I]; eauto. } now apply (process_grid _ V). }
  destruct (pgrid_ok_members (material ps) (Limits a b) n) as [r Hr].
  { intros m I. apply material_members in I. destruct I as (p & I & ->). destruct (PG p I) as (g & E & _). now exists (map Finite g). }
  pose proof (pgrid_sorted _ _ _ _ _ Hr) as S. pose proof (pgrid_members _ _ _ _ Hr) as M.
  destruct (finite_list r) as (g & ->).
  { intros x Ix. apply M in Ix. destruct Ix as (m & l & I & E & J). apply material_members in I. destruct I as (p & I & ->). destruct (PG p I) as (g & E' & _).
    change (l_pgrid (snd p) (Limits a b) n = Ok (Some l)) in E. rewrite E' in E. injection E as <-. apply in_map_iff in J. destruct J as (t & <- & _). now exists t. }
  exists g. split; [exact Hr|]. pose proof (finite_sorted g S) as SA. split; [exact SA|].
  assert (M' : forall E, In E g <-> exists p l, In p ps /\ l_pgrid (snd p) (Limits a b) n = Ok (Some l) /\ In (Finite E) l).
  { intros E. split.
    - intros I. apply (in_map Finite) in I. apply M in I. destruct I as (m & l & I & El & J). apply material_members in I. destruct I as (p & I & ->). now exists p, l.
    - intros (p & l & I & El & J). assert (K : In (Finite E) (map Finite g)). { apply M. exists (VLeaf (snd p)), l. split; [apply material_members; eauto|]. now split. }
      apply in_map_iff in K. destruct K as (t & Et & It). injection Et as ->. exact It. }
  assert (B : forall E, In E g -> a <= E <= b).
  { intros E I. apply M' in I. destruct I as (p & l & I & El & J). destruct (PG p I) as (x & Ex & Ax & F1 & F2 & Nx). rewrite Ex in El. injection El as <-.
    apply in_map_iff in J. destruct J as (t & Et & It). injection Et as ->. apply strict_ascending in Ax. destruct x as [|y x]; [contradiction|].
    rewrite <- F1, <- F2. split; [apply (first_le y x E Ax It)|apply (ascending_final (y :: x) E Ax It)]. }
  assert (AB : In a g /\ In b g).
  { destruct ps as [|p ps]; [contradiction|]. destruct (PG p (or_introl eq_refl)) as (x & Ex & Ax & F1 & F2 & Nx).
    split; apply M'; exists p, (map Finite x); (split; [now left|]); (split; [exact Ex|]); apply in_map.
    - rewrite <- F1. destruct x; [contradiction|now left].
    - rewrite <- F2. destruct x as [|y x]; [contradiction|]. apply (L_Darboux.last_in (y :: x)). discriminate. }
  destruct AB as [Ia Ib]. split; [|split; [|split; [exact M'|]]].
  - apply strict_ascending in SA. destruct g as [|y g]; [destruct Ia|]. pose proof (first_le y g a SA Ia). pose proof (B y (or_introl eq_refl)). unfold first in *. cbn in *. lra.
  - apply strict_ascending in SA. destruct g as [|y g]; [destruct Ib|]. pose proof (ascending_final (y :: g) b SA Ib). assert (In (final (y :: g)) (y :: g)) as IF by (apply (L_Darboux.last_in (y :: g)); discriminate).
    pose proof (B _ IF). lra.
  - intros p e I NR Ee E IE. destruct (nonresonant_grid (snd p) a b n NR Hn Hab) as (x & Ex & Px & _). rewrite Ex in Ee. injection Ee as <-.
    apply M'. exists p, (map Finite x). split; [exact I|]. split; [exact Px|]. now apply in_map.
Qed.
(** A coverage cannot be requested as soon as one member is nonresonant. *)
Lemma material_coverage ps q rest c n : (forall p, In p ps -> exists r, snd p = leaf_of r /\ line r) -> nonresonant (snd q) -> 0 < c < 1 -> (2 <= n)%Z ->
  pgrid (material (ps ++ q :: rest)) (Coverage c) n = Raise TypeError.
Proof.
  intros HL HN Hc Hn. unfold material. rewrite map_app. cbn [map]. apply pgrid_raise; [|destruct HN; reflexivity].
  intros v I. apply in_map_iff in I. destruct I as (p & <- & I). destruct (HL p I) as (r & -> & Hr). destruct (line_shape r Hr) as (f & F & Sh).
  destruct (line_grid r f F c n Sh Hc Hn) as (g & E & _). exists (map Finite g). exact E.
Qed.

(** A resonance at 1, Compton scattering and a table with an edge. *)
Lemma material_example : exists r c o Vs, List.Forall2 (fun (p : R * leaf) V => process (snd p) V) [(2, leaf_of r); (3, kn_leaf c); (- 1 / 2, xrmac_leaf o)] Vs /\
  line r /\ nonresonant (kn_leaf c) /\ nonresonant (xrmac_leaf o).
Proof.
  destruct lines_example as (r & _ & Hr & _). destruct (line_shape r Hr) as (g & G & (D & _)). pose proof D as [_ [Dv _]].
  pose proof codata_ok as K. destruct (kn_ok codata 26 (k_me codata) (Rgt_not_eq _ _ (me_pos codata K))) as [c Hc].
  assert (T : table_ok [(1, 5); (2, 3); (2, 9); (4, 1)]). { split; [discriminate|]. apply List.Forall_forall. intros p [<-|[<-|[<-|[<-|[]]]]]; cbn; lra. }
  destruct (constructs 2 _ T) as [o Ho]; [cbn; lia|].
  exists r, c, o. eexists. split.
  - apply List.Forall2_cons; [|apply List.Forall2_cons; [|apply List.Forall2_cons; [|apply List.Forall2_nil]]]; cbn [snd].
    + apply (resonant r (fun E => r_integrated r * g E)); [exact Hr|]. intros E. unfold res_call. rewrite Dv. reflexivity.
    + apply (compton codata 26 (k_me codata) c); [exact K|lra|apply (me_pos codata K)|exact Hc].
    + apply (tabulated 2 [(1, 5); (2, 3); (2, 9); (4, 1)] o); [exact T| |exact Ho]. cbn. repeat constructor; lra.
  - split; [exact Hr|]. split; constructor.
Qed.
Lemma coverage_refuted : ~ forall ps Vs c n, ps <> [] -> List.Forall2 (fun (p : R * leaf) V => process (snd p) V) ps Vs -> 0 < c < 1 -> (2 <= n)%Z ->
  exists g, pgrid (material ps) (Coverage c) n = Ok (Some g).
Proof.
  intros H. destruct material_example as (r & c & o & Vs & P & L & N1 & N2).
  assert (N : [(2, leaf_of r); (3, kn_leaf c); (- 1 / 2, xrmac_leaf o)] <> []) by (intros K; discriminate K).
  destruct (H _ Vs (1 / 2) 3%Z N P ltac:(lra) ltac:(lia)) as (g & E).
  assert (C : pgrid (material ([(2, leaf_of r)] ++ (3, kn_leaf c) :: [(- 1 / 2, xrmac_leaf o)])) (Coverage (1 / 2)) 3 = Raise TypeError).
  { apply material_coverage; [|exact N1|lra|lia]. intros p [<-|[]]. cbn. eauto. }
  cbn [app] in C. rewrite C in E. discriminate.
Qed.
