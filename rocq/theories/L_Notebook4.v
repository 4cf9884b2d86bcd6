(** Energy ranges of Voigt profiles, and the rates in four layers. *)
From Coq Require Import Reals List ZArith Lra Lia Psatz.
From Coquelicot Require Import Coquelicot.
From Verif Require Import Py Spec M_Num M_Grid M_Constituents M_Thermal M_Dist M_Resonance M_PseudoVoigt M_Notebook S_Resonance S_PseudoVoigt S_Voigt S_Notebook
  L_RInt L_Grid L_Resonance L_Resonance6 L_PseudoVoigt L_PseudoVoigt2 L_PseudoVoigt4 L_PseudoVoigt6 L_PseudoVoigt8 L_Voigt2 L_Notebook L_Notebook2 L_Notebook3.
Import ListNotations.
Open Scope R_scope.
Open Scope py_scope.

Lemma voigt_range modern k i m amu T fin r w p c : Voigt modern k i m amu T fin = Ok r -> width m = Ok w ->
  pv_params k (r_energy r) w amu T -> PseudoVoigtDistribution k (r_energy r) w amu T = Ok p -> 0 < c < 1 -> pv_Gamma p <= 2 ^ 70 * (1 - c) ^ 4 ->
  exists ws a b, coverage_interval r c = (ws, Ok (Finite a, Finite b)) /\ a < b /\ a <= r_energy r <= b /\
    snd (res_probability_grid r (Coverage c) 2) = Ok (Some [Finite a; Finite b]).
Proof.
  intros H W P EP Hc HG. destruct (voigt_inv _ _ _ _ _ _ _ _ _ H W P) as (r0 & p' & ER & EP' & Hr & V & HE).
  rewrite EP in EP'. injection EP' as <-. assert (Hc' : 0 <= c < 1) by lra. destruct (coverage_enough p c V Hc' HG) as [L1 L2].
  pose proof (fun q => coverage_dense p q c V Hc') as CO. set (lo := 4 / 7 * (1 - c) ^ 2 / pv_Gamma p) in *.
  destruct (dense_converges modern p lo [1 / 2 * (1 - c); 1 / 2 * (1 + c)] V L1 L2) as (es & E); [cbn; lia|constructor; [apply CO; lra|constructor; [apply CO; lra|constructor]]|].
  destruct (ppf_inverted p V _ _ _ _ E ltac:(intros [])) as (rs & E' & _ & N & S).
  inversion N as [|? a ? rs1 Na N1]; subst. inversion N1 as [|? b ? rs2 Nb N2]; subst. inversion N2; subst. rewrite E' in E.
  assert (AB : a < b).
  { assert (SA : strictly_ascending [1 / 2 * (1 - c); 1 / 2 * (1 + c)]) by (repeat constructor; lra). specialize (S SA). inversion S as [|? ? ? Hd]; subst.
    match goal with K : List.Forall _ _ |- _ => inversion K | K : Sorted.HdRel _ _ _ |- _ => inversion K end; subst; assumption. }
  unfold near in Na, Nb. rewrite HE in Na, Nb. destruct Na as [_ Na]. destruct Nb as [Nb _]. specialize (Na ltac:(lra)). specialize (Nb ltac:(lra)).
  set (r := with_dist r0 (voigt_distribution modern p) []) in *.
  assert (CI : exists ws, coverage_interval r c = (ws, Ok (Finite a, Finite b))).
  { unfold coverage_interval, r. cbn [with_dist r_dist r_params voigt_distribution d_ppf d_cdf]. rewrite E. cbn [map Rbar_is_inf]. destruct (Rbar_negative (Finite a)).
    - cbn [no_params]. rewrite (pv_cdf_ok p 0 V). eauto.
    - eauto. }
  destruct CI as (ws & CI). exists ws, a, b. split; [exact CI|]. split; [exact AB|]. split; [lra|].
  unfold res_probability_grid. cbn [bind]. rewrite linspace_ok by lia. change (Z.to_nat 2) with 2%nat. cbn [seq map INR].
  replace (1 / 2 * (1 - c) + 0 * ((1 / 2 * (1 + c) - 1 / 2 * (1 - c)) / IZR (2 - 1))) with (1 / 2 * (1 - c)) by ring.
  replace (1 / 2 * (1 - c) + 1 * ((1 / 2 * (1 + c) - 1 / 2 * (1 - c)) / IZR (2 - 1))) with (1 / 2 * (1 + c)) by (replace (IZR (2 - 1)) with 1 by reflexivity; field).
  unfold r. cbn [with_dist r_dist r_params voigt_distribution d_ppf]. rewrite E. reflexivity.
Qed.

Lemma line_values r p : voigt_line r p -> exists f, cross_section_is r f /\ (forall E, continuity_pt f E) /\ (forall E, 0 < f E).
Proof.
  intros (modern & k & i & m & amu & T & fin & w & H & W & P & EP & I). destruct (voigt_shape _ _ _ _ _ _ _ _ _ H W P) as (f & C & _ & _ & D & Q). exists f.
  split; [exact C|]. split; [intros E; apply continuity_pt_filterlim; apply D|apply Q, I].
Qed.
Lemma line_range r p : voigt_line r p -> pv_Gamma p <= 10 ^ 9 -> exists a b, energy_range r = Ok (a, b) /\ a < b /\ a <= r_energy r <= b.
Proof.
  intros (modern & k & i & m & amu & T & fin & w & H & W & P & EP & I) G.
  destruct (voigt_range _ _ _ _ _ _ _ _ _ _ (999 / 1000) H W P EP ltac:(lra)) as (ws & a & b & _ & AB & HE & G2).
  - eapply Rle_trans; [exact G|]. lra.
  - exists a, b. unfold energy_range. rewrite G2. cbn [bind]. auto.
Qed.

Section Four.
  Variables (nquad : nquad_fn) (eps : R) (t : target) (n p q : R -> R).
  Hypothesis N : nquad_accurate eps nquad.
  Hypothesis H116 : cross_section_is (t_116 t) p /\ (forall E, continuity_pt p E) /\ (forall E, 0 < p E).
  Hypothesis H112 : cross_section_is (t_112 t) q /\ (forall E, continuity_pt q E) /\ (forall E, 0 < q E).
  Hypothesis Hx : 0 <= t_enrichment_116 t /\ 0 <= t_enrichment_112 t.
  Hypothesis Hd : 0 <= t_I t /\ 0 <= t_II t /\ 0 <= t_III t /\ 0 <= t_IV t.
  Notation sI := (slab_of (t_I t) n (t_enrichment_116 t) p).
  Notation sII := (slab_of (t_II t) n (t_enrichment_112 t) q).
  Notation sIII := (slab_of (t_III t) n (t_enrichment_116 t) p).
  Notation sIV := (slab_of (t_IV t) n (t_enrichment_112 t) q).
  Section Range.
    Variables (a b : R).
    Hypothesis Hab : a <= b.
    Hypothesis Hn : positive_between a b (t_nr t) n.
    Lemma ok_of d x r : 0 <= d -> 0 <= x -> (forall E, continuity_pt r E) -> (forall E, 0 < r E) -> slab_ok a b (slab_of d n x r).
    Proof.
      intros Pd Px C P. split; [exact Pd|]. intros E HE. destruct (Hn E HE) as (_ & C1 & P1). cbn. specialize (P E). assert (0 <= x * r E) by (apply Rmult_le_pos; lra).
      assert (CC : continuity_pt (fun E => x * r E) E) by (apply continuity_pt_scal; apply C).
      split; [exact CC|]. split; [apply continuity_pt_plus; [exact C1|exact CC]|]. split; lra.
    Qed.
    Lemma okI : slab_ok a b sI. Proof. destruct H116 as (_ & C & P). now apply ok_of. Qed.
    Lemma okII : slab_ok a b sII. Proof. destruct H112 as (_ & C & P). now apply ok_of. Qed.
    Lemma okIII : slab_ok a b sIII. Proof. destruct H116 as (_ & C & P). now apply ok_of. Qed.
    Lemma okIV : slab_ok a b sIV. Proof. destruct H112 as (_ & C & P). now apply ok_of. Qed.
  End Range.
  Lemma four_layers a b c d : energy_range (t_116 t) = Ok (a, b) -> energy_range (t_112 t) = Ok (c, d) -> a <= b -> c <= d ->
    positive_between a b (t_nr t) n -> positive_between c d (t_nr t) n ->
    is_rate eps (N_116Sn_I nquad t) [] sI a b /\ is_rate eps (N_112Sn_II nquad t) [sI] sII c d /\
    is_rate eps (N_116Sn_III nquad t) [sI; sII] sIII a b /\ is_rate eps (N_112Sn_IV nquad t) [sI; sII; sIII] sIV c d.
  Proof.
    intros R1 R2 Hab Hcd Hn1 Hn2. destruct H116 as (V1 & _). destruct H112 as (V2 & _).
    split; [|split; [|split]].
    - unfold N_116Sn_I. rewrite R1. cbn [bind]. unfold rho_I. unfold is_rate. apply layer_number; auto; [apply okI; auto|]. intros E rho HE. apply value_I; [apply Hn1; lra|apply V1].
    - unfold N_112Sn_II. rewrite R2. cbn [bind]. unfold rho_II. apply layer_number; auto; [apply Forall_cons; [now apply okI|constructor]|now apply okII|].
      intros E rho HE. apply value_II; [apply Hn2; lra|apply V1|apply V2].
    - unfold N_116Sn_III. rewrite R1. cbn [bind]. unfold rho_III. apply layer_number; auto; [apply Forall_cons; [now apply okI|apply Forall_cons; [now apply okII|constructor]]|now apply okIII|].
      intros E rho HE. apply value_III; [apply Hn1; lra|apply V1|apply V2].
    - unfold N_112Sn_IV. rewrite R2. cbn [bind]. unfold rho_IV. apply layer_number; auto; [apply Forall_cons; [now apply okI|apply Forall_cons; [now apply okII|apply Forall_cons; [now apply okIII|constructor]]]|now apply okIV|].
      intros E rho HE. apply value_IV; [apply Hn2; lra|apply V1|apply V2].
  Qed.
End Four.
Lemma four_rates nquad eps t n pp qq : nquad_accurate eps nquad -> voigt_line (t_116 t) pp -> voigt_line (t_112 t) qq -> pv_Gamma pp <= 10 ^ 9 -> pv_Gamma qq <= 10 ^ 9 ->
  0 <= t_enrichment_116 t /\ 0 <= t_enrichment_112 t -> 0 <= t_I t /\ 0 <= t_II t /\ 0 <= t_III t /\ 0 <= t_IV t ->
  exists a b c d p q, energy_range (t_116 t) = Ok (a, b) /\ energy_range (t_112 t) = Ok (c, d) /\ a < b /\ c < d /\ cross_section_is (t_116 t) p /\ cross_section_is (t_112 t) q /\
  (positive_between a b (t_nr t) n -> positive_between c d (t_nr t) n ->
    let I := slab_of (t_I t) n (t_enrichment_116 t) p in
    let II := slab_of (t_II t) n (t_enrichment_112 t) q in
    let III := slab_of (t_III t) n (t_enrichment_116 t) p in
    let IV := slab_of (t_IV t) n (t_enrichment_112 t) q in
    is_rate eps (N_116Sn_I nquad t) [] I a b /\ is_rate eps (N_112Sn_II nquad t) [I] II c d /\
    is_rate eps (N_116Sn_III nquad t) [I; II] III a b /\ is_rate eps (N_112Sn_IV nquad t) [I; II; III] IV c d).
Proof.
  intros N L1 L2 G1 G2 Hx Hd. destruct (line_range _ _ L1 G1) as (a & b & R1 & AB & _). destruct (line_range _ _ L2 G2) as (c & d & R2 & CD & _).
  destruct (line_values _ _ L1) as (p & V1). destruct (line_values _ _ L2) as (q & V2). exists a, b, c, d, p, q.
  split; [exact R1|]. split; [exact R2|]. split; [exact AB|]. split; [exact CD|]. split; [apply V1|]. split; [apply V2|].
  intros Hn1 Hn2. cbv zeta. apply four_layers; auto; lra.
Qed.
(** Photons are neither lost nor created. *)
Lemma balance t n p q E : t_nr t E = Ok (n E) -> res_call (t_116 t) E true = Ok (p E) -> res_call (t_112 t) E true = Ok (q E) ->
  0 < n E -> 0 <= p E -> 0 <= q E -> 0 <= t_enrichment_116 t /\ 0 <= t_enrichment_112 t -> 0 <= t_I t /\ 0 <= t_II t /\ 0 <= t_III t /\ 0 <= t_IV t ->
  let I := slab_of (t_I t) n (t_enrichment_116 t) p in
  let II := slab_of (t_II t) n (t_enrichment_112 t) q in
  let III := slab_of (t_III t) n (t_enrichment_116 t) p in
  let IV := slab_of (t_IV t) n (t_enrichment_112 t) q in
  exists f1 f2 f3 f4 x1 x2 x3 x4,
    (forall rho, dN_dE_drho_I t E rho = Ok (f1 rho)) /\ is_RInt f1 rho_0 (rho_I t) x1 /\ x1 = reacted [] I E /\
    (forall rho, dN_dE_drho_II t E rho = Ok (f2 rho)) /\ is_RInt f2 (rho_I t) (rho_II t) x2 /\ x2 = reacted [I] II E /\
    (forall rho, dN_dE_drho_III t E rho = Ok (f3 rho)) /\ is_RInt f3 (rho_II t) (rho_III t) x3 /\ x3 = reacted [I; II] III E /\
    (forall rho, dN_dE_drho_IV t E rho = Ok (f4 rho)) /\ is_RInt f4 (rho_III t) (rho_IV t) x4 /\ x4 = reacted [I; II; III] IV E /\
    0 <= x1 /\ 0 <= x2 /\ 0 <= x3 /\ 0 <= x4 /\ x1 + x2 + x3 + x4 + transmission [I; II; III; IV] E <= 1.
Proof.
  intros Hn Hp Hq Pn Pp Pq [X1 X2] (D1 & D2 & D3 & D4) I II III IV.
  assert (0 <= t_enrichment_116 t * p E) by now apply Rmult_le_pos. assert (0 <= t_enrichment_112 t * q E) by now apply Rmult_le_pos.
  pose proof (reacted_bounds [] I E D1 ltac:(cbn; lra) ltac:(cbn; lra)) as B1. pose proof (reacted_bounds [I] II E D2 ltac:(cbn; lra) ltac:(cbn; lra)) as B2.
  pose proof (reacted_bounds [I; II] III E D3 ltac:(cbn; lra) ltac:(cbn; lra)) as B3. pose proof (reacted_bounds [I; II; III] IV E D4 ltac:(cbn; lra) ltac:(cbn; lra)) as B4.
  cbn [app] in B1, B2, B3, B4. change (transmission [] E) with 1 in B1.
  exists (fun rho => rate [] I (rho - rho_0) E), (fun rho => rate [I] II (rho - rho_I t) E), (fun rho => rate [I; II] III (rho - rho_II t) E), (fun rho => rate [I; II; III] IV (rho - rho_III t) E).
  exists (reacted [] I E), (reacted [I] II E), (reacted [I; II] III E), (reacted [I; II; III] IV E).
  split; [intros; now apply value_I|]. split; [apply absorbed; [cbn; lra|reflexivity]|]. split; [reflexivity|].
  split; [intros; now apply value_II|]. split; [apply absorbed; [cbn; lra|reflexivity]|]. split; [reflexivity|].
  split; [intros; now apply value_III|]. split; [apply absorbed; [cbn; lra|reflexivity]|]. split; [reflexivity|].
  split; [intros; now apply value_IV|]. split; [apply absorbed; [cbn; lra|reflexivity]|]. split; [reflexivity|].
  repeat (split; [lra|]). lra.
Qed.
