(** Grids of a line for a given coverage: energy grid, exact uncertainty, convergence. *)
From Coq Require Import Reals List ZArith Lra Lia Sorted.
From Coquelicot Require Import Coquelicot.
From Verif Require Import Py Spec M_Num M_Grid M_Constituents M_Thermal M_Dist M_Resonance M_CrossSection M_Darboux
  S_CrossSection S_Resonance S_Sums L_RInt L_Grid L_CrossSection L_CrossSection2 L_Darboux L_Darboux2 L_Integration
  L_Dist L_Resonance L_Resonance2 L_Resonance3 L_Resonance4 L_Resonance5 L_Resonance6 L_Axis L_Sums L_Sums2.
Import ListNotations.
Open Scope R_scope.

Lemma line_shape_symm r : line r -> exists f F, shape r f F /\ symmetric_about (r_energy r) f /\
  exists x, d_cdf (r_dist r) [] 0 = Ok x.
Proof.
  intros [(k & i & m & fin & w & H & W & Hw)|(k & i & m & amu & T & fin & K & Ha & HT & H & HE)].
  - destruct (breit_wigner_density _ _ _ _ _ _ H W Hw) as (HD & HQ & HM). do 2 eexists.
    split; [split; [exact HD|]; split; [exact HQ|]; split; [exact HM|]; apply cauchy_unimodal; lra|].
    split; [apply cauchy_symm|]. destruct (bw_scipy _ _ _ _ _ _ H W Hw) as (_ & Hd). rewrite Hd. exists (1 / 2). apply cauchy_default.
  - destruct (gauss_density _ _ _ _ _ _ _ K Ha HT H HE) as (d & _ & Hd & HD & HQ & HM). do 2 eexists.
    split; [split; [exact HD|]; split; [exact HQ|]; split; [exact HM|]; apply norm_unimodal; now apply scale_pos|].
    split; [apply norm_symm|]. destruct (gauss_inv _ _ _ _ _ _ _ H) as (r0 & d' & _ & _ & ->). cbn [with_dist r_dist].
    exists (1 / 2). apply norm_default.
Qed.

Lemma symm_cdf f F m d : density_of f F -> symmetric_about m f -> F m = 1 / 2 -> F (m - d) + F (m + d) = 1.
Proof.
  intros D S M.
  assert (K : RInt f (m - d) m = RInt f m (m + d)).
  { assert (A : is_RInt (fun y => f (2 * m - y)) (m - d) m (F (m + d) - F m)).
    { apply (is_RInt_ext (fun y => opp (opp (f (-1 * y + 2 * m))))).
      - intros x _. rewrite opp_opp. f_equal. ring.
      - assert (B : is_RInt (fun y => scal (-1) (f (-1 * y + 2 * m))) (m - d) m (F m - F (m + d))).
        { apply (is_RInt_comp_lin (V := R_NormedModule) f (-1) (2 * m) (m - d) m).
          replace (-1 * (m - d) + 2 * m) with (m + d) by ring. replace (-1 * m + 2 * m) with m by ring. apply (dens_is_RInt f F D). }
        replace (F (m + d) - F m) with (opp (F m - F (m + d))) by (unfold opp; cbn; ring).
        apply (is_RInt_opp (V := R_NormedModule)). apply (is_RInt_ext (fun y => scal (-1) (f (-1 * y + 2 * m)))); [|exact B].
        intros x _. apply (scal_opp_one (V := R_NormedModule)). }
    rewrite (dens_RInt f F D m (m + d)). apply RInt_val.
    apply (is_RInt_ext (fun y => f (2 * m - y))); [|exact A]. intros x _.
    replace (2 * m - x) with (m + (m - x)) by ring. rewrite <- S. f_equal. ring. }
  rewrite !(dens_RInt f F D) in K. lra.
Qed.

Lemma line_interval r f F c : shape r f F -> symmetric_about (r_energy r) f -> (exists x, d_cdf (r_dist r) [] 0 = Ok x) -> 0 < c < 1 ->
  exists ws d, 0 < d /\ coverage_interval r c = (ws, Ok (Finite (r_energy r - d), Finite (r_energy r + d))) /\
    F (r_energy r - d) = 1 / 2 * (1 - c) /\ F (r_energy r + d) = 1 / 2 * (1 + c).
Proof.
  intros (H & Q & M & _) S [F0 HF0] Hc. pose proof (proj1 H) as D.
  destruct (coverage_quantiles r F Q c ltac:(lra)) as (ws & lo & hi & E & E1 & E2).
  assert (Hd : 0 < hi - r_energy r). { assert (r_energy r < hi) by (apply (dens_lt_inv f F D); lra). lra. }
  assert (lo = r_energy r - (hi - r_energy r)) as ->.
  { apply (dens_inj f F D). pose proof (symm_cdf f F (r_energy r) (hi - r_energy r) D S M) as K.
    replace (r_energy r + (hi - r_energy r)) with hi in K by ring. lra. }
  unfold coverage_interval. rewrite E, HF0. cbn [Rbar_is_inf Rbar_negative].
  destruct (Rlt_dec _ 0); eexists; exists (hi - r_energy r); (split; [exact Hd|]; split; [|split; [exact E1|]]);
    replace (r_energy r + (hi - r_energy r)) with hi by ring; first [reflexivity|exact E2].
Qed.

(** ** Exact uncertainty on an equidistant grid *)
Lemma error_exact f x h : x <> [] -> ascending x -> monotone_on f (first x) (final x) ->
  (forall a b, In (a, b) (cells x) -> b - a = h) ->
  upper f x - lower f x = h * Rabs (f (final x) - f (first x)).
Proof.
  intros N A M Hh. rewrite error_formula.
  assert (K : forall sg, (forall a b, In (a, b) (cells x) -> Rabs (f b - f a) = sg * (f b - f a)) ->
    Rsum (map (fun p => Rabs (f (snd p) - f (fst p)) * (snd p - fst p)) (cells x)) = h * (sg * (f (final x) - f (first x)))).
  { intros sg. clear M. induction x as [|a x IH]; [contradiction|]. intros Hs. destruct x as [|b x].
    - cbn. unfold first, final; cbn. ring.
    - rewrite cells_cons in *. cbn [map Rsum fold_right fst snd]. rewrite (Hs a b), (Hh a b) by now left.
      rewrite final_cons. unfold first; cbn [hd]. inversion A; subst.
      specialize (IH ltac:(discriminate) ltac:(assumption) ltac:(intros; apply Hh; now right) ltac:(intros; apply Hs; now right)).
      unfold Rsum in IH. rewrite IH. unfold first; cbn [hd]. ring. }
  assert (W : forall a b, In (a, b) (cells x) -> first x <= a /\ a <= b /\ b <= final x).
  { intros a b I. destruct (cell_within x a b A I). pose proof (ascending_cells x a b A I). auto. }
  assert (FF : first x <= final x). { destruct x; [contradiction|]. now apply ascending_first_final. }
  destruct M as [M|M].
  - rewrite (K 1). { rewrite Rabs_pos_eq; [ring|]. pose proof (M (first x) (final x) ltac:(lra) FF ltac:(lra)). lra. }
    intros a b I. destruct (W a b I) as (? & ? & ?). rewrite Rabs_pos_eq; [ring|]. pose proof (M a b ltac:(lra) ltac:(lra) ltac:(lra)). lra.
  - rewrite (K (-1)). { rewrite Rabs_left1; [ring|]. pose proof (M (first x) (final x) ltac:(lra) FF ltac:(lra)). lra. }
    intros a b I. destruct (W a b I) as (? & ? & ?). rewrite Rabs_left1; [ring|]. pose proof (M a b ltac:(lra) ltac:(lra) ltac:(lra)). lra.
Qed.

Lemma cells_app_l (l r : list R) p ab : In ab (cells (l ++ [p])) -> In ab (cells (l ++ p :: r)).
Proof. intros H. rewrite cells_app. apply in_or_app. now left. Qed.
Lemma cells_app_r (l r : list R) p ab : In ab (cells (p :: r)) -> In ab (cells (l ++ p :: r)).
Proof. intros H. rewrite cells_app. apply in_or_app. now right. Qed.
Lemma first_app (l : list R) p r : first (l ++ p :: r) = first (l ++ [p]).
Proof. destruct l; reflexivity. Qed.

Lemma error_peak f m x h : ascending x -> In m x -> unimodal m f -> (forall a b, In (a, b) (cells x) -> b - a = h) ->
  upper f x - lower f x = h * (2 * f m - f (first x) - f (final x)).
Proof.
  intros A I [U V] Hh. destruct (in_split m x I) as (l & r & ->).
  assert (A1 : ascending (l ++ [m])) by (apply (ssorted_app_l _ _ r); rewrite <- app_assoc; exact A).
  assert (A2 : ascending (m :: r)) by (eapply ssorted_app_r; exact A).
  rewrite lower_split, upper_split.
  assert (F1 : final (l ++ [m]) = m) by (rewrite final_app; reflexivity).
  assert (N1 : l ++ [m] <> []) by (destruct l; discriminate).
  assert (B1 : first (l ++ [m]) <= m). { rewrite <- F1 at 2. destruct (l ++ [m]); [contradiction|]. now apply ascending_first_final. }
  assert (B2 : m <= final (m :: r)) by now apply ascending_first_final.
  pose proof (error_exact f (l ++ [m]) h N1 A1) as E1. rewrite F1 in E1. specialize (E1 ltac:(left; intros s t ? ? ?; apply U; lra)
    ltac:(intros a b Hab; apply Hh; now apply cells_app_l)).
  pose proof (error_exact f (m :: r) h ltac:(discriminate) A2 ltac:(right; intros s t ? ? ?; apply V; unfold first in *; cbn [hd] in *; lra)
    ltac:(intros a b Hab; apply Hh; now apply cells_app_r)) as E2.
  change (first (m :: r)) with m in E2. rewrite first_app, final_app.
  rewrite Rabs_pos_eq in E1. 2: { pose proof (U (first (l ++ [m])) m B1 ltac:(lra)). lra. }
  rewrite Rabs_left1 in E2. 2: { pose proof (V m (final (m :: r)) ltac:(lra) B2). lra. }
  lra.
Qed.

Lemma unimodal_scal' m f c : 0 <= c -> unimodal m f -> unimodal m (fun E => c * f E).
Proof. intros Hc [U V]. split; intros; apply Rmult_le_compat_l; auto. Qed.

Lemma odd_half n : (2 <= n)%Z -> Z.odd n = true -> exists i, (i < Z.to_nat n)%nat /\ IZR (n - 1) = 2 * INR i.
Proof.
  intros Hn Hodd. exists (Z.to_nat (Z.div2 n)).
  assert (n = 2 * Z.div2 n + 1)%Z by (rewrite (Z.div2_odd n) at 1; now rewrite Hodd).
  split; [lia|]. rewrite INR_IZR_INZ, Z2Nat.id by lia. rewrite <- mult_IZR. f_equal. lia.
Qed.

Lemma line_energy_grid r c n : line r -> 0 < c < 1 -> (2 <= n)%Z ->
  exists ws g f d, 0 < d /\ cross_section_is r f /\
    res_energy_grid r (Coverage c) n = (ws, Ok g) /\
    coverage_interval r c = (ws, Ok (Finite (r_energy r - d), Finite (r_energy r + d))) /\
    Z.of_nat (length g) = n /\ (forall i, (i < length g)%nat -> nth i g 0 = r_energy r - d + INR i * (2 * d / IZR (n - 1))) /\
    is_RInt f (first g) (final g) (c * r_integrated r) /\
    (Z.odd n = true -> In (r_energy r) g) /\
    (0 <= r_integrated r -> exists L e, darboux (of_value (VLeaf (leaf_of r))) g = Ok (L, e) /\ L <= c * r_integrated r /\
      (Z.odd n = true -> c * r_integrated r <= L + e /\ e = 4 * d / IZR (n - 1) * (f (r_energy r) - f (r_energy r + d)))).
Proof.
  intros Ln Hc Hn. destruct (line_shape_symm r Ln) as (f & F & Sh & Sy & D0).
  destruct (line_interval r f F c Sh Sy D0 Hc) as (ws & d & Hd & CI & F1 & F2).
  destruct Sh as (H & Q & M & U). pose proof (proj1 H) as D.
  set (a := r_energy r - d) in *. set (b := r_energy r + d) in *.
  destruct (linspace_grid a b n Hn) as (g & Eg & Len & Fi & La & St & As & _).
  assert (Hab : a < b) by (unfold a, b; lra). specialize (As Hab). pose proof (strict_ascending g As) as Ag.
  change (first g = a) in Fi. change (final g = b) in La.
  assert (Hn1 : 1 <= IZR (n - 1)) by (apply IZR_le; lia).
  assert (Ng : g <> []) by (intros ->; cbn in Len; lia).
  set (v := fun E => r_integrated r * f E).
  assert (Nth : forall i, (i < length g)%nat -> nth i g 0 = a + INR i * (2 * d / IZR (n - 1))).
  { induction i as [|i IH]; intros Hi.
    - rewrite <- Fi. unfold first. destruct g; [contradiction|]. cbn. ring.
    - specialize (IH ltac:(lia)). pose proof (St i Hi) as K. rewrite S_INR. replace (b - a) with (2 * d) in K by (unfold a, b; ring). lra. }
  assert (Hodd : Z.odd n = true -> In (r_energy r) g).
  { intros Ho. destruct (odd_half n Hn Ho) as (i & Hi & Ei). replace (r_energy r) with (nth i g 0); [apply nth_In; lia|].
    rewrite Nth by lia. rewrite Ei. unfold a. assert (0 < INR i) by lra. field. lra. }
  assert (Cw : forall x y, In (x, y) (cells g) -> y - x = 2 * d / IZR (n - 1)).
  { intros x y I. destruct (cells_nth g 0 (x, y) I) as (i & Hi & Ei). injection Ei as -> ->. rewrite (St i Hi). unfold a, b. f_equal. ring. }
  exists ws, g, v, d. split; [exact Hd|]. split; [apply (res_value r f F H)|].
  split. { unfold res_energy_grid. rewrite CI. cbn [bind]. now rewrite Eg. }
  split; [exact CI|]. split; [lia|]. split; [exact Nth|].
  assert (HI : is_RInt v (first g) (final g) (c * r_integrated r)).
  { rewrite Fi, La. replace (c * r_integrated r) with (r_integrated r * (F b - F a)) by (rewrite F1, F2; field). apply (res_integral r f F H). }
  split; [exact HI|]. split; [exact Hodd|].
  intros P. pose proof (unimodal_scal' (r_energy r) f _ P U) as Uv. fold v in Uv.
  exists (lower v g), (upper v g - lower v g).
  split. { rewrite (darboux_leaf r v g Ng); [now apply darboux_ascending|]. apply (res_value r f F H). }
  assert (V : RInt v (first g) (final g) = c * r_integrated r) by (apply RInt_val; exact HI).
  split. { rewrite <- V. apply (unimodal_lower (r_energy r)); try assumption. eexists; exact HI. }
  intros Ho. specialize (Hodd Ho). split.
  - destruct (enclosure v g Ng Ag) as [_ B].
    + intros x y I. apply (unimodal_cell (r_energy r)); [exact U|]. destruct (cells_gap g (r_energy r) x y As Hodd I); [now right|now left].
    + eexists; exact HI.
    + rewrite V in B. lra.
  - rewrite (error_peak v (r_energy r) g (2 * d / IZR (n - 1)) Ag Hodd Uv Cw). rewrite Fi, La.
    change (r_energy r + d) with b. replace (v a) with (v b); [field; lra|]. unfold v, a, b. now rewrite Sy.
Qed.

Lemma line_continuous r f : line r -> cross_section_is r f -> forall E, continuity_pt f E.
Proof.
  intros Ln Hf E. destruct (line_shape r Ln) as (f0 & F & (H & _)). 
  assert (K : forall E, f E = r_integrated r * f0 E).
  { intros x. pose proof (res_value r f0 F H x) as V. rewrite (Hf x) in V. now injection V. }
  apply continuity_pt_filterlim. apply (continuous_ext (fun E => r_integrated r * f0 E)); [intros; now rewrite K|].
  apply (continuous_scal_r (V := R_NormedModule)). apply (proj1 H).
Qed.

Lemma energy_grid_limit r c eps : line r -> 0 < c < 1 -> 0 < eps -> exists N, forall n, (N <= n)%Z ->
  exists ws g L d, res_energy_grid r (Coverage c) n = (ws, Ok g) /\
    darboux (of_value (VLeaf (leaf_of r))) g = Ok (L, d) /\ Rabs (L - c * r_integrated r) <= eps /\ d <= eps.
Proof.
  intros Ln Hc He. destruct (line_shape_symm r Ln) as (f & F & Sh & Sy & D0).
  destruct (line_interval r f F c Sh Sy D0 Hc) as (ws & d & Hd & CI & F1 & F2). destruct Sh as (H & _).
  destruct (cross_section_converges (VLeaf (leaf_of r)) (fun E => r_integrated r * f E) (r_energy r - d) (r_energy r + d) eps) as [N K];
    [reflexivity|intros E _; apply (res_value r f F H)|lra|intros; apply (line_continuous r); [exact Ln|apply (res_value r f F H)]|exact He|].
  exists N. intros n Hn. destruct (K n Hn) as (g & L & e & Eg & Da & B & Be). exists ws, g, L, e.
  split. { unfold res_energy_grid. rewrite CI. cbn [bind]. change (linspace (r_energy r - d) (r_energy r + d) n = Ok g) in Eg. now rewrite Eg. }
  split; [exact Da|]. split; [|exact Be].
  replace (c * r_integrated r) with (RInt (fun E => r_integrated r * f E) (r_energy r - d) (r_energy r + d)); [exact B|].
  rewrite (RInt_val _ _ _ _ (res_integral r f F H (r_energy r - d) (r_energy r + d))). rewrite F1, F2. eqR. field.
Qed.

Lemma line_cells r f F c n : shape r f F -> 0 < c < 1 -> (2 <= n)%Z -> exists g,
  snd (res_probability_grid r (Coverage c) n) = Ok (Some (map Finite g)) /\ strictly_ascending g /\ g <> [] /\
  F (first g) = 1 / 2 * (1 - c) /\ F (final g) = 1 / 2 * (1 + c) /\
  forall a b, In (a, b) (cells g) -> F b - F a = c / IZR (n - 1).
Proof.
  intros (H & Q & M & _) Hc Hn. pose proof (proj1 H) as D.
  unfold res_probability_grid. cbn [bind]. rewrite (linspace_ok _ _ n Hn).
  destruct (Q _ (linspace_in (1 / 2 * (1 - c)) (1 / 2 * (1 + c)) n Hn ltac:(lra) ltac:(lra) ltac:(lra)))
    as (ws & xs & E & F2).
  rewrite E. destruct (quantiles_of f F D (1 / 2 * (1 - c)) (1 / 2 * (1 + c)) n xs Hn ltac:(lra) ltac:(lra) ltac:(lra) F2) as (x & -> & HF & H0 & H1).
  set (h := (1 / 2 * (1 + c) - 1 / 2 * (1 - c)) / IZR (n - 1)) in *.
  assert (Hn1 : 1 <= IZR (n - 1)) by (apply IZR_le; lia).
  assert (Hh : 0 < h) by (apply Rdiv_lt_0_compat; lra).
  destruct (grid_spec f F D (r_integrated r) x _ h n Hn Hh HF) as (Len & Asc & Fi & La & _).
  exists (map x (seq 0 (Z.to_nat n))). cbn [snd]. split; [now rewrite map_map|]. split; [exact Asc|].
  split. { intros K; rewrite K in Len; cbn in Len; lia. }
  split; [now rewrite Fi|]. split; [now rewrite La|].
  intros a b I. destruct (Z.to_nat n) as [|k] eqn:Ek; [lia|].
  rewrite cells_seq in I. apply in_map_iff in I. destruct I as (j & Ej & Hj). injection Ej as <- <-. apply in_seq in Hj.
  rewrite !HF by lia. rewrite S_INR. unfold h. field. lra.
Qed.

(** ** Probability grid: the cells shrink because the density is bounded below on the grid *)
Lemma probability_grid_limit r c eps : line r -> 0 < c < 1 -> 0 < eps -> exists N, forall n, (N <= n)%Z ->
  exists g L d, snd (res_probability_grid r (Coverage c) n) = Ok (Some (map Finite g)) /\
    darboux (of_value (VLeaf (leaf_of r))) g = Ok (L, d) /\ Rabs (L - c * r_integrated r) <= eps /\ d <= eps.
Proof.
  intros Ln Hc He. destruct (line_shape_symm r Ln) as (f & F & Sh & Sy & D0).
  destruct (line_interval r f F c Sh Sy D0 Hc) as (ws & d & Hd & CI & F1 & F2).
  set (v := fun E => r_integrated r * f E). pose proof Sh as (H & _ & _ & U). pose proof (proj1 H) as D.
  set (a := r_energy r - d) in *. set (b := r_energy r + d) in *. assert (Hab : a < b) by (unfold a, b; lra).
  destruct (darboux_converges v a b eps) as (h & Hh & K);
    [lra|intros; apply (line_continuous r); [exact Ln|apply (res_value r f F H)]|exact He|].
  set (mn := Rmin (f a) (f b)).
  assert (Hm : 0 < mn) by (apply Rmin_glb_lt; apply (dens_pos f F D)).
  assert (Lo : forall t, a <= t <= b -> mn <= f t).
  { intros t Ht. destruct U as [U V]. destruct (Rle_dec t (r_energy r)).
    - eapply Rle_trans; [apply Rmin_l|]. apply U; lra.
    - eapply Rle_trans; [apply Rmin_r|]. apply V; lra. }
  exists (Z.max 2 (up (c / (mn * h)) + 2)). intros n Hn.
  destruct (line_cells r f F c n Sh Hc ltac:(lia)) as (g & Eg & Sg & Ng & G1 & G2 & Cells).
  assert (Fi : first g = a) by (apply (dens_inj f F D); lra). assert (La : final g = b) by (apply (dens_inj f F D); lra).
  pose proof (strict_ascending g Sg) as Ag.
  destruct (K g Ng Ag Fi La) as (L & e & Da & B & Be).
  - intros x y I. specialize (Cells x y I). destruct (cell_within g x y Ag I) as [W1 W2]. rewrite Fi in W1. rewrite La in W2.
    pose proof (ascending_cells g x y Ag I) as XY.
    assert (Q : mn * (y - x) <= F y - F x).
    { rewrite <- (dens_RInt f F D x y). rewrite <- RInt_const_R. apply RInt_le; [exact XY|apply ex_RInt_const|eexists; apply (dens_is_RInt f F D)|].
      intros t Ht. apply Lo. lra. }
    destruct (archimed (c / (mn * h))) as [Ar _].
    assert (Mh : 0 < mn * h) by (apply Rmult_lt_0_compat; assumption).
    assert (P0 : 0 < c / (mn * h)) by (apply Rdiv_lt_0_compat; lra).
    assert (P1 : c / (mn * h) < IZR (n - 1)). { eapply Rlt_le_trans; [exact Ar|]. apply IZR_le. lia. }
    assert (P2 : c / IZR (n - 1) < mn * h).
    { apply (Rmult_lt_reg_r (IZR (n - 1))); [lra|]. unfold Rdiv. rewrite Rmult_assoc, Rinv_l, Rmult_1_r by lra.
      apply (Rmult_lt_compat_r (mn * h)) in P1; [|exact Mh]. unfold Rdiv in P1. rewrite Rmult_assoc, Rinv_l, Rmult_1_r in P1 by lra. lra. }
    rewrite Cells in Q. apply (Rmult_lt_reg_l mn); [exact Hm|]. lra.
  - exists g, L, e. split; [exact Eg|]. split.
    { rewrite (darboux_leaf r v g Ng); [exact Da|]. apply (res_value r f F H). }
    split; [|exact Be]. replace (c * r_integrated r) with (RInt v a b); [exact B|].
    unfold v. rewrite (RInt_val _ _ _ _ (res_integral r f F H a b)). rewrite F1, F2. eqR. field.
Qed.

(** Two points: the reported uncertainty is 0 although the peak is missed. *)
Lemma unimodal_strict f m a b : continuous f m -> unimodal m f -> a < m < b -> f a < f m -> f b < f m ->
  ex_RInt f a b -> Rmin (f a) (f b) * (b - a) < RInt f a b.
Proof.
  intros C [U V] Hm Ha Hb E.
  set (e := f m - Rmin (f a) (f b)).
  assert (He : 0 < e / 2). { unfold e. pose proof (Rmin_l (f a) (f b)). lra. }
  destruct (proj1 (filterlim_locally f (f m)) C (mkposreal _ He)) as [dl Hdl].
  assert (Bl : forall t, Rabs (t - m) < dl -> Rmin (f a) (f b) + e / 2 <= f t).
  { intros t Ht. specialize (Hdl t Ht). unfold ball in Hdl; cbn in Hdl. unfold AbsRing_ball, abs, minus, plus, opp in Hdl; cbn in Hdl.
    apply Rabs_lt_between in Hdl. unfold e in *. lra. }
  pose proof (cond_pos dl) as Pd.
  set (s := Rmin (dl / 2) ((b - m) / 2)). assert (Hs : 0 < s) by (unfold s; apply Rmin_glb_lt; lra).
  assert (Hs1 : s <= dl / 2) by apply Rmin_l. assert (Hs2 : s <= (b - m) / 2) by apply Rmin_r.
  assert (Lo : forall t, a <= t <= b -> Rmin (f a) (f b) <= f t).
  { intros t Ht. destruct (Rle_dec t m).
    - eapply Rle_trans; [apply Rmin_l|]. apply U; lra.
    - eapply Rle_trans; [apply Rmin_r|]. apply V; lra. }
  assert (E1 : ex_RInt f a m) by (apply ex_RInt_left with b; solve [lra|exact E]).
  assert (E2 : ex_RInt f m b) by (apply ex_RInt_right with a; solve [lra|exact E]).
  assert (E3 : ex_RInt f m (m + s)) by (apply ex_RInt_left with b; solve [lra|exact E2]).
  assert (E4 : ex_RInt f (m + s) b) by (apply ex_RInt_right with m; solve [lra|exact E2]).
  pose proof (RInt_join f a m b E1 E2) as J1. pose proof (RInt_join f m (m + s) b E3 E4) as J2.
  assert (K1 : Rmin (f a) (f b) * (m - a) <= RInt f a m).
  { rewrite <- RInt_const_R. apply RInt_le; [lra|apply ex_RInt_const|exact E1|]. intros t Ht. apply Lo. lra. }
  assert (K2 : (Rmin (f a) (f b) + e / 2) * (m + s - m) <= RInt f m (m + s)).
  { rewrite <- RInt_const_R. apply RInt_le; [lra|apply ex_RInt_const|exact E3|]. intros t Ht. apply Bl. apply Rabs_lt_between. lra. }
  assert (K3 : Rmin (f a) (f b) * (b - (m + s)) <= RInt f (m + s) b).
  { rewrite <- RInt_const_R. apply RInt_le; [lra|apply ex_RInt_const|exact E4|]. intros t Ht. apply Lo. lra. }
  assert (0 < e / 2 * s) by (apply Rmult_lt_0_compat; assumption). nra.
Qed.

Lemma line_peak r f : line r -> cross_section_is r f -> 0 < r_integrated r -> forall E, E <> r_energy r -> f E < f (r_energy r).
Proof.
  intros Ln Hf P E NE.
  destruct Ln as [(k & i & m & fin & w & H & W & Hw)|(k & i & m & amu & T & fin & K & Ha & HT & H & HE)].
  - destruct (breit_wigner_density _ _ _ _ _ _ H W Hw) as (HD & _ & _).
    assert (V : forall E, f E = r_integrated r * cauchy_pdf (r_energy r) (1 / 2 * w) E).
    { intros x. pose proof (res_value r _ _ HD x) as V. rewrite (Hf x) in V. now injection V. }
    rewrite !V. apply Rmult_lt_compat_l; [exact P|]. rewrite !cauchy_pdf_alt by lra. pose proof PI_RGT_0.
    assert (0 < (1 / 2 * w) ^ 2) by (apply pow_lt; lra).
    assert (0 < (E - r_energy r) ^ 2) by (apply pow2_gt_0; lra).
    unfold Rdiv. apply Rmult_lt_compat_l; [lra|]. apply Rinv_lt_contravar.
    + apply Rmult_lt_0_compat; (apply Rmult_lt_0_compat; [lra|]); [|]; try (rewrite Rminus_diag_eq by reflexivity; nra). nra.
    + apply Rmult_lt_compat_l; [lra|]. rewrite (Rminus_diag_eq (r_energy r)) by reflexivity. nra.
  - destruct (gauss_density _ _ _ _ _ _ _ K Ha HT H HE) as (d & _ & Hd & HD & _ & _).
    assert (V : forall E, f E = r_integrated r * norm_pdf (r_energy r) (d / sqrt 2) E).
    { intros x. pose proof (res_value r _ _ HD x) as V. rewrite (Hf x) in V. now injection V. }
    rewrite !V. apply Rmult_lt_compat_l; [exact P|]. pose proof (scale_pos d Hd) as Hs.
    unfold norm_pdf, gauss0. pose proof PI_RGT_0.
    assert (0 < / sqrt (2 * PI)) by (apply Rinv_0_lt_compat, sqrt_lt_R0; lra).
    apply Rmult_lt_compat_r; [now apply Rinv_0_lt_compat|].
    rewrite (Rminus_diag_eq (r_energy r) (r_energy r)) by reflexivity. unfold Rdiv. rewrite Rmult_0_l.
    apply Rmult_lt_compat_r; [assumption|]. apply exp_increasing.
    assert (0 < ((E - r_energy r) * / (d * / sqrt 2)) ^ 2); [|lra]. apply pow2_gt_0.
    apply Rmult_integral_contrapositive. split; [lra|]. apply Rinv_neq_0_compat. fold (d / sqrt 2). lra.
Qed.

Lemma two_points r c : line r -> 0 < r_integrated r -> 0 < c < 1 -> exists ws g L,
  res_energy_grid r (Coverage c) 2 = (ws, Ok g) /\ darboux (of_value (VLeaf (leaf_of r))) g = Ok (L, 0) /\
  L < c * r_integrated r.
Proof.
  intros Ln P Hc. destruct (line_shape_symm r Ln) as (f & F & Sh & Sy & D0).
  destruct (line_interval r f F c Sh Sy D0 Hc) as (ws & d & Hd & CI & F1 & F2).
  destruct Sh as (H & _ & _ & U). pose proof (proj1 H) as D.
  set (v := fun E => r_integrated r * f E). set (a := r_energy r - d) in *. set (b := r_energy r + d) in *.
  assert (Hv : cross_section_is r v) by apply (res_value r f F H).
  assert (Eab : v a = v b) by (unfold v, a, b; now rewrite Sy).
  exists ws, [a; b], (v b * (b - a)). split.
  { unfold res_energy_grid. rewrite CI. cbn [bind]. rewrite (linspace_ok a b 2 ltac:(lia)). change (Z.to_nat 2) with 2%nat. cbn [seq map].
    do 2 f_equal. f_equal; [cbn; ring|]. f_equal. change (IZR (2 - 1)) with 1. cbn. field. }
  split.
  - rewrite (darboux_leaf r v [a; b] ltac:(discriminate) Hv), darboux_ascending; [|discriminate|].
    + rewrite lower_cons, upper_cons, Eab, Rmin_left, Rmax_left by lra. unfold lower, upper; cbn [cells combine tl map Rsum fold_right]. do 2 f_equal; ring.
    + apply strict_ascending. repeat constructor. unfold a, b; lra.
  - pose proof (line_peak r v Ln Hv P) as Pk.
    assert (HI : is_RInt v a b (r_integrated r * (F b - F a))) by apply (res_integral r f F H).
    pose proof (unimodal_strict v (r_energy r) a b) as K. rewrite (RInt_val _ _ _ _ HI) in K. rewrite F1, F2 in K.
    replace (c * r_integrated r) with (r_integrated r * (1 / 2 * (1 + c) - 1 / 2 * (1 - c))) by field.
    rewrite Eab, Rmin_left in K by lra. apply K.
    + apply continuity_pt_filterlim. now apply (line_continuous r).
    + apply unimodal_scal'; [lra|exact U].
    + unfold a, b; lra.
    + rewrite <- Eab. apply Pk. unfold a; lra.
    + apply Pk. unfold b; lra.
    + eexists; exact HI.
Qed.
