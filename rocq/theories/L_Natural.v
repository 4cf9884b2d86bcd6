(** The dictionary of natural elements for arbitrary well-formed files. *)
From Coq Require Import Ascii String List ZArith Bool Lia.
From Verif Require Import Py PyStr PyNum M_Readers M_Constituents S_Readers S_Natural L_Str L_Density L_Density2 L_Nist L_Nist2 L_Nist3.
Import ListNotations.
Open Scope string_scope.
Open Scope py_scope.

Lemma density_total final cs es X : symbol_ok X -> Forall comment_ok cs -> Forall dentry_ok es ->
  exists r, read_density_data (dfile final cs es) (fun v => Ok v) X = Ok r.
Proof.
  intros HX Fc Fe. assert (D : Forall (fun e => ~ contains X (fst e)) es \/ exists pre Y t post, es = (pre ++ (Y, t) :: post)%list /\ contains X Y /\ Forall (fun e => ~ contains X (fst e)) pre).
  { clear Fe. induction es as [|[Y t] es IH]; [left; constructor|]. destruct (py_in X Y) eqn:E.
    - right. exists [], Y, t, es. split; [reflexivity|]. split; [now apply py_in_iff|constructor].
    - assert (N : ~ contains X Y) by (intros C; apply py_in_iff in C; congruence). destruct IH as [IH|(pre & Y' & t' & post & -> & C & F)]; [left; now constructor|].
      right. exists ((Y, t) :: pre), Y', t', post. split; [reflexivity|]. split; [exact C|]. now constructor. }
  destruct D as [D|(pre & Y & t & post & -> & C & F)].
  - exists None. now apply no_match.
  - assert (Hv : exists v, py_float t = Ok v) by (rewrite Forall_forall in Fe; destruct (Fe (Y, t)) as (_ & _ & _ & H); [apply in_or_app; right; now left|exact H]).
    destruct Hv as [v Hv]. exists (Some v). now rewrite (first_match _ final cs pre Y t post X v HX Fc Fe F C Hv).
Qed.

Lemma dget_in {V} (d : dict V) k v : NoDup (dkeys d) -> In (k, v) d -> dget d k = Some v.
Proof.
  induction d as [|[k' v'] d IH]; intros ND I; [destruct I|]. cbn in ND |- *. inversion ND as [|? ? N ND']; subst. destruct I as [E|I].
  - injection E as -> ->. now rewrite String.eqb_refl.
  - destruct (String.eqb_spec k k') as [->|Ne]; [|now apply IH]. exfalso. apply N. change k' with (fst (k', v)). now apply in_map.
Qed.
Lemma Forall2_in_l {A B} (P : A -> B -> Prop) l m a : Forall2 P l m -> In a l -> exists b, In b m /\ P a b.
Proof. induction 1 as [|x y l m Hxy F IH]; intros I; [destruct I|]. destruct I as [<-|I]; [exists y; split; [now left|exact Hxy]|]. destruct (IH I) as (b & Hb & Pb). exists b. split; [now right|exact Pb]. Qed.

Lemma products ps ab iso : NoDup (map isotope_name ps) -> Forall2 reads_abundance ps ab -> Forall2 reads_isotope ps iso ->
  Forall (fun p => exists t u, p_mass p = VUncertain t u) ps ->
  exists ms cs, Forall2 (fun p m => mass_of (p_mass p) m) ps ms /\ Forall2 (fun p c => counted (p_composition p) c) ps cs /\
  traverse (fun k => let! i := dgetE (map (fun ki => (fst ki, Isotope (iso_AX (snd ki)) (iso_amu (snd ki)) None None)) iso) k in
                     let! a := dgetE ab k in entry_mul (iso_mass i) a) (dkeys iso) =
  Ok (map (fun p => Some (num_mul (fst p) (snd p))) (combine ms cs)).
Proof.
  intros ND FA FI FM.
  set (d1 := map (fun ki : string * isotope_entry => (fst ki, Isotope (iso_AX (snd ki)) (iso_amu (snd ki)) None None)) iso).
  assert (K1 : dkeys iso = map isotope_name ps) by (clear - FI; unfold dkeys; induction FI as [|p e l m [H _] F IH]; [reflexivity|]; cbn; now rewrite H, IH).
  assert (K2 : dkeys ab = map isotope_name ps) by (clear - FA; unfold dkeys; induction FA as [|p e l m [H _] F IH]; [reflexivity|]; cbn; now rewrite H, IH).
  assert (K3 : dkeys d1 = map isotope_name ps) by (rewrite <- K1; unfold d1, dkeys; rewrite map_map; reflexivity).
  assert (P1 : forall p, In p ps -> exists m, mass_of (p_mass p) m /\ dgetE d1 (isotope_name p) = Ok (Isotope (isotope_name p) (Some m) None None)).
  { intros p Hp. destruct (Forall2_in_l _ _ _ p FI Hp) as ([k i] & Hi & E1 & E2 & E3). cbn in E1, E2, E3. rewrite Forall_forall in FM. destruct (FM p Hp) as (t & u & E4).
    rewrite E4 in E3 |- *. destruct E3 as (y & Ey & E3). exists y. split; [exact Ey|]. unfold dgetE. rewrite (dget_in d1 (isotope_name p) (Isotope (iso_AX i) (iso_amu i) None None)).
    - now rewrite E2, E3.
    - rewrite K3. exact ND.
    - unfold d1. apply in_map_iff. exists (k, i). split; [cbn; now rewrite E1|exact Hi]. }
  assert (P2 : forall p, In p ps -> exists c, counted (p_composition p) c /\ dgetE ab (isotope_name p) = Ok (Some c)).
  { intros p Hp. destruct (Forall2_in_l _ _ _ p FA Hp) as ([k x] & Hi & E1 & E2). cbn in E1, E2. 
    assert (E3 : dget ab (isotope_name p) = Some x) by (apply dget_in; [rewrite K2; exact ND|]; rewrite <- E1; exact Hi).
    unfold dgetE. rewrite E3. destruct (p_composition p) as [|t u|t]; cbn in E2 |- *.
    - subst. exists (Fin 0 0). now split.
    - destruct E2 as (y & Ey & ->). exists y. now split.
    - subst. exists (Fin 0 0). now split. }
  rewrite K1. clear - P1 P2. induction ps as [|p ps IH].
  - exists [], []. repeat split; constructor.
  - destruct IH as (ms & cs & F1 & F2 & E); [intros q Hq; apply P1; now right|intros q Hq; apply P2; now right|].
    destruct (P1 p ltac:(now left)) as (m & Hm & Em). destruct (P2 p ltac:(now left)) as (c & Hc & Ec).
    exists (m :: ms), (c :: cs). split; [now constructor|]. split; [now constructor|]. unfold traverse in *. cbn [map sequence combine]. rewrite Em. cbn [bind]. rewrite Ec. cbn [bind iso_mass Isotope entry_mul fst snd]. rewrite E. reflexivity.
Qed.

Lemma isotope_entries q iso : Forall2 reads_isotope q iso -> Forall (fun p => exists t u, p_mass p = VUncertain t u) q ->
  Forall2 (fun p (ki : string * isotope (option num)) => fst ki = isotope_name p /\ iso_name (snd ki) = isotope_name p /\ exists m, mass_of (p_mass p) m /\ iso_mass (snd ki) = Some m) q
    (map (fun ki : string * isotope_entry => (fst ki, Isotope (iso_AX (snd ki)) (iso_amu (snd ki)) None None)) iso).
Proof.
  intros F FM. induction F as [|p e l m (E1 & E2 & E3) F IH]; [constructor|]. inversion FM as [|? ? (t & u & E4) FM']; subst. cbn [map]. constructor; [|now apply IH].
  cbn [fst snd Isotope iso_name iso_mass]. split; [exact E1|]. split; [exact E2|]. rewrite E4 in E3 |- *. destruct E3 as (y & Ey & E3). exists y. now split.
Qed.
Lemma abundance_entries q ab : Forall2 reads_abundance q ab ->
  Forall2 (fun p (ka : string * option num) => fst ka = isotope_name p /\ exists c, counted (p_composition p) c /\ snd ka = Some c) q ab.
Proof.
  intros F. induction F as [|p e l m (E1 & E2) F IH]; [constructor|]. constructor; [|exact IH]. split; [exact E1|]. destruct (p_composition p); cbn in E2 |- *.
  - exists (Fin 0 0). now split.
  - destruct E2 as (y & Ey & E2). exists y. now split.
  - exists (Fin 0 0). now split.
Qed.

Section Files.
  Variables (final : bool) (header : list string) (ps : list paragraph) (dfinal : bool) (comments : list string) (entries : list (string * string)).
  Hypothesis Fh : Forall other_ok header.
  Hypothesis Fp : Forall paragraph_ok ps.
  Hypothesis En : ending_ok final header ps.
  Hypothesis Or : ordered_Z ps.
  Hypothesis Fc : Forall comment_ok comments.
  Hypothesis Fe : Forall dentry_ok entries.
  Hypothesis FM : Forall (fun p => exists t u, p_mass p = VUncertain t u) ps.
  Let file := nist_file final header ps.
  Let dens := dfile dfinal comments entries.

  Local Notation describes := (describes ps).
  Local Notation first_symbol := (first_symbol ps).
  Lemma one_element d z p : read_nist_element_symbols file = Ok d ->
    (forall k, zget d (Some k) = option_map (fun p => Some (p_X p)) (find (fun p => spelled (p_Z p) =? k)%Z ps)) ->
    NoDup (map isotope_name (of_Z z ps)) -> find (fun p => spelled (p_Z p) =? z)%Z ps = Some p ->
    exists e, natural_element_of file dens d z = Ok e /\ describes z (p_X p) e.
  Proof.
    intros R HD ND Fi. unfold natural_element_of. destruct (read_data final header ps z Fh Fp En Or ND) as (ab & iso & E & FA & FI). fold file in E. rewrite E. cbn [bind].
    rewrite HD, Fi. cbn [option_map bind].
    assert (HX : symbol_ok (p_X p)).
    { apply find_some in Fi. destruct Fi as [Hp _]. rewrite Forall_forall in Fp. now destruct (Fp p Hp) as (_ & H & _). }
    destruct (density_total dfinal comments entries (p_X p) HX Fc Fe) as [r Er]. fold dens in Er. rewrite Er. cbn [bind].
    assert (FM' : Forall (fun p => exists t u, p_mass p = VUncertain t u) (of_Z z ps)).
    { apply Forall_forall. intros q Hq. unfold of_Z in Hq. apply filter_In in Hq. rewrite Forall_forall in FM. apply FM, Hq. }
    destruct (products (of_Z z ps) ab iso ND FA FI FM') as (ms & cs & F1 & F2 & E2).
    unfold Element, amu_from_isotopic_composition. 
    set (d1 := map (fun ki : string * isotope_entry => (fst ki, Isotope (iso_AX (snd ki)) (iso_amu (snd ki)) None None)) iso) in *.
    assert (K : dkeys d1 = dkeys iso) by (unfold d1, dkeys; now rewrite map_map).
    rewrite K, E2. cbn [bind]. eexists. split; [reflexivity|]. split; [reflexivity|]. split; [reflexivity|]. cbn [el_isotopes el_abundances el_amu].
    split; [apply isotope_entries; [exact FI|exact FM']|]. split; [now apply abundance_entries|]. exists ms, cs. split; [exact F1|]. split; [exact F2|]. unfold entry_sum. do 2 f_equal. now rewrite map_map.
  Qed.

  Lemma dget_dset {V} (d : dict V) k v k' : dget (dset d k v) k' = if String.eqb k' k then Some v else dget d k'.
  Proof.
    induction d as [|[a b] d IH]; cbn; [destruct (String.eqb k' k); reflexivity|]. destruct (String.eqb_spec k a) as [->|N]; cbn.
    - destruct (String.eqb k' a); reflexivity.
    - rewrite IH. destruct (String.eqb_spec k' a) as [->|N2]; [|reflexivity]. destruct (String.eqb_spec a k) as [->|]; [congruence|reflexivity].
  Qed.
  Lemma dkeys_new {V} (d : dict V) k v : ~ In k (dkeys d) -> dkeys (dset d k v) = (dkeys d ++ [k])%list.
  Proof. intros N. rewrite dset_new by exact N. unfold dkeys. now rewrite map_app. Qed.

  Lemma loop_elements d zs : read_nist_element_symbols file = Ok d ->
    (forall k, zget d (Some k) = option_map (fun p => Some (p_X p)) (find (fun p => spelled (p_Z p) =? k)%Z ps)) ->
    forall Xs D, Forall2 first_symbol zs Xs -> Forall (fun z => NoDup (map isotope_name (of_Z z ps))) zs -> NoDup (dkeys D ++ Xs) ->
    exists D', natural_elements_loop file dens d zs D = Ok D' /\ dkeys D' = (dkeys D ++ Xs)%list /\
      (forall X e, dget D X = Some e -> dget D' X = Some e) /\
      Forall2 (fun z X => exists e, dget D' X = Some e /\ describes z X e) zs Xs.
  Proof.
    intros R HD. induction zs as [|z zs IH]; intros Xs D F2 FN ND.
    - inversion F2; subst. exists D. rewrite app_nil_r. repeat split; auto.
    - inversion F2 as [|? X ? Xs' (p & Fi & <-) F2']; subst. inversion FN as [|? ? N1 FN']; subst.
      destruct (one_element d z p R HD N1 Fi) as (e & Ee & De). cbn [natural_elements_loop]. rewrite Ee. cbn [bind].
      destruct De as (D1 & D2 & D3). rewrite D2.
      assert (NK : ~ In (p_X p) (dkeys D)) by (intros I; apply NoDup_remove_2 in ND; apply ND, in_or_app; now left).
      destruct (IH Xs' (dset D (p_X p) e) F2' FN') as (D' & L & K & Keep & All).
      + rewrite dkeys_new by exact NK. rewrite <- app_assoc. exact ND.
      + exists D'. split; [exact L|]. split; [rewrite K, dkeys_new by exact NK; now rewrite <- app_assoc|].
        assert (Keep' : forall X e0, dget D X = Some e0 -> dget D' X = Some e0).
        { intros X e0 HX. apply Keep. rewrite dget_dset. destruct (String.eqb_spec X (p_X p)) as [->|]; [|exact HX]. exfalso. apply NK.
          clear - HX. induction D as [|[a b] D IH]; [discriminate|]. cbn in HX |- *. destruct (String.eqb_spec (p_X p) a) as [->|]; [now left|right; now apply IH]. }
        split; [exact Keep'|]. constructor; [|exact All]. exists e. split; [|now split]. apply Keep. rewrite dget_dset, String.eqb_refl. reflexivity.
  Qed.
  Theorem natural_elements_general Xs : Forall2 first_symbol all_Z Xs -> NoDup Xs -> Forall (fun z => NoDup (map isotope_name (of_Z z ps))) all_Z ->
    exists D, make_natural_elements file dens = Ok D /\ dkeys D = Xs /\ Forall2 (fun z X => exists e, dget D X = Some e /\ describes z X e) all_Z Xs.
  Proof.
    intros F2 ND FN. unfold make_natural_elements. destruct (read_symbols final header ps Fh Fp En) as (d & R & HD). fold file in R. rewrite R. cbn [bind].
    destruct (loop_elements d all_Z R HD Xs [] F2 FN ND) as (D & L & K & _ & All). exists D. split; [exact L|]. now split.
  Qed.
End Files.
