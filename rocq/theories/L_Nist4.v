(** Consequences for files with and without uncertainties. *)
From Coq Require Import Ascii String List ZArith Bool Lia.
From Verif Require Import Py PyStr PyNum M_Readers S_Readers S_Elements L_Str L_Density L_Density2 L_DensityData L_Nist L_Nist2 L_Nist3 L_NistData D_Elements.
Import ListNotations.
Open Scope string_scope.

Lemma Forall2_impl_in {A B} (P Q : A -> B -> Prop) l m : (forall a b, In a l -> P a b -> Q a b) -> Forall2 P l m -> Forall2 Q l m.
Proof. intros H F. induction F as [|a b l m Hab F IH]; constructor; [apply H; [now left|exact Hab]|]. apply IH. intros. apply H; [now right|assumption]. Qed.
Lemma reads_uncertain final header ps Z0 : Forall other_ok header -> Forall paragraph_ok ps -> ending_ok final header ps -> ordered_Z ps ->
  NoDup (map isotope_name (of_Z Z0 ps)) -> Forall (fun p => with_uncertainty (p_mass p) /\ with_uncertainty (p_composition p)) (of_Z Z0 ps) ->
  exists ab iso, read_nist_element_data (nist_file final header ps) Z0 = Ok (ab, iso) /\
    Forall2 (fun p e => fst e = isotope_name p /\ abundance_spelled (p_composition p) (snd e)) (of_Z Z0 ps) ab /\
    Forall2 (fun p e => fst e = isotope_name p /\ iso_AX (snd e) = isotope_name p /\ value_spells (p_mass p) (iso_amu (snd e))) (of_Z Z0 ps) iso.
Proof.
  intros Fh Fp En O ND W. destruct (read_data final header ps Z0 Fh Fp En O ND) as (ab & iso & R & F1 & F2). exists ab, iso. split; [exact R|].
  rewrite Forall_forall in W. split.
  - apply (Forall2_impl_in reads_abundance); [|exact F1]. intros p e I [E1 E2]. split; [exact E1|]. destruct (W p I) as [_ Wc]. destruct (p_composition p); [exact E2|exact E2|contradiction].
  - apply (Forall2_impl_in reads_isotope); [|exact F2]. intros p e I (E1 & E2 & E3). split; [exact E1|]. split; [exact E2|]. destruct (W p I) as [Wm _]. destruct (p_mass p); [exact E3|exact E3|contradiction].
Qed.
Lemma Forall2_in {A B} (P : A -> B -> Prop) l m a : Forall2 P l m -> In a l -> exists b, In b m /\ P a b.
Proof. induction 1 as [|x y l m Hxy F IH]; intros I; [destruct I|]. destruct I as [<-|I]; [exists y; split; [now left|exact Hxy]|]. destruct (IH I) as (b & Hb & Pb). exists b. split; [now right|exact Pb]. Qed.
Lemma reads_plain final header ps Z0 p t : Forall other_ok header -> Forall paragraph_ok ps -> ending_ok final header ps -> ordered_Z ps ->
  NoDup (map isotope_name (of_Z Z0 ps)) -> In p (of_Z Z0 ps) ->
  exists ab iso, read_nist_element_data (nist_file final header ps) Z0 = Ok (ab, iso) /\
  (p_composition p = VPlain t -> In (isotope_name p, Some (Fin 0 0)) ab) /\
  (p_mass p = VPlain t -> In (isotope_name p, {| iso_AX := isotope_name p; iso_amu := None |}) iso).
Proof.
  intros Fh Fp En O ND Hp. destruct (read_data final header ps Z0 Fh Fp En O ND) as (ab & iso & R & F1 & F2). exists ab, iso. split; [exact R|]. split; intros E.
  - destruct (Forall2_in _ _ _ p F1 Hp) as ([k x] & Hb & E1 & E2). cbn in E1, E2. rewrite E in E2. cbn in E2. now subst.
  - destruct (Forall2_in _ _ _ p F2 Hp) as ([k [y z]] & Hb & E1 & E2 & E3). cbn in E1, E2, E3. rewrite E in E3. cbn in E3. now subst.
Qed.
Lemma be_read : read_nist_element_data elements_txt 4 = Ok ([("9Be", Some (Fin 0 0))], [("9Be", {| iso_AX := "9Be"; iso_amu := Some (Fin 9012183065 (-9)) |})]).
Proof. vm_compute. reflexivity. Qed.
Definition be : paragraph := {| p_Z := [4%Z]; p_X := "Be"; p_A := [9%Z]; p_mass := VUncertain "9.012183065" "82)"; p_composition := VPlain "1";
  p_others := ["Standard Atomic Weight = 9.0121831(5)"; "Notes =  "; ""] |}.
Lemma be_paragraph : of_Z 4 supplied_paragraphs = [be].
Proof. vm_compute. reflexivity. Qed.
Lemma Forall2_inv {A B} (P : A -> B -> Prop) a b l m : Forall2 P (a :: l) (b :: m) -> P a b.
Proof. intros H. inversion H; subst. assumption. Qed.
Lemma plain_refuted : ~ forall final header ps Z0, Forall other_ok header -> Forall paragraph_ok ps -> ending_ok final header ps -> ordered_Z ps ->
  NoDup (map isotope_name (of_Z Z0 ps)) -> exists ab iso, read_nist_element_data (nist_file final header ps) Z0 = Ok (ab, iso) /\
    Forall2 (fun p e => fst e = isotope_name p /\ abundance_spelled (p_composition p) (snd e)) (of_Z Z0 ps) ab.
Proof.
  intros H. destruct (H false supplied_header supplied_paragraphs 4%Z supplied_header_ok supplied_paragraphs_ok supplied_ending supplied_ordered (supplied_names _)) as (ab & iso & R & F).
  clear H. rewrite supplied_nist, be_read in R. injection R as <- _. rewrite be_paragraph in F. apply Forall2_inv in F. destruct F as [_ (y & Q1 & Q2)]. injection Q2 as <-. discriminate Q1.
Qed.
Lemma supplied_plain : map isotope_name (filter (fun p => match p_composition p with VPlain _ => true | _ => false end) supplied_paragraphs) =
  ["9Be"; "19F"; "23Na"; "27Al"; "31P"; "45Sc"; "55Mn"; "59Co"; "75As"; "89Y"; "93Nb"; "103Rh"; "127I"; "133Cs"; "141Pr"; "159Tb"; "165Ho"; "169Tm"; "197Au"; "209Bi"; "232Th"; "231Pa"]
  /\ filter (fun p => match p_mass p with VUncertain _ _ => false | _ => true end) supplied_paragraphs = [].
Proof. split; vm_compute; reflexivity. Qed.
Definition is_plain (v : value) : bool := match v with VPlain _ => true | _ => false end.
Definition is_uncertain (v : value) : bool := match v with VUncertain _ _ => true | _ => false end.
Lemma no_plain_gen ps Z0 : filter (fun p => negb (is_uncertain (p_mass p))) ps = [] ->
  ~ In Z0 (map (fun p => spelled (p_Z p)) (filter (fun p => is_plain (p_composition p)) ps)) ->
  Forall (fun p => with_uncertainty (p_mass p) /\ with_uncertainty (p_composition p)) (of_Z Z0 ps).
Proof.
  intros H N. apply Forall_forall. intros p Hp. unfold of_Z in Hp. apply filter_In in Hp. destruct Hp as [Hp E]. apply Z.eqb_eq in E. split.
  - destruct (p_mass p) eqn:M; try exact I. exfalso. apply (in_nil (a := p)). rewrite <- H. apply filter_In. rewrite M. now split.
  - destruct (p_composition p) eqn:M; try exact I. exfalso. apply N. rewrite <- E. apply in_map_iff. exists p. split; [reflexivity|]. apply filter_In. rewrite M. now split.
Qed.
Lemma no_plain_in Z0 : ~ In Z0 (map (fun p => spelled (p_Z p)) (filter (fun p => is_plain (p_composition p)) supplied_paragraphs)) ->
  Forall (fun p => with_uncertainty (p_mass p) /\ with_uncertainty (p_composition p)) (of_Z Z0 supplied_paragraphs).
Proof. apply no_plain_gen. vm_compute. reflexivity. Qed.
