(** Rounding: widths, branching ratios, masses of elements. *)
From Coq Require Import Reals List ZArith Lra Lia Psatz Permutation String.
From Flocq Require Import Core.
From Verif Require Import Py Spec M_Num M_Grid M_CrossSection M_Constituents M_Resonance M_Float S_Float L_Constituents L_Float L_Float2 L_Float3.
Import ListNotations.
Open Scope R_scope.
Open Scope list_scope.

Lemma fstate_total J tJ p E pw : dict_ok pw ->
  exists s, fState J tJ p E pw = Ok s /\ partial_widths s = Ok pw /\ width s = Ok (fsum (dvalues pw)) /\
            st_J_pi s = J /\ st_two_J s = tJ /\ st_parity s = p /\ st_excitation_energy s = E.
Proof. intros OK. unfold fState. rewrite keys_values by assumption. cbn [bind]. eexists; split; [reflexivity|]. cbn. auto 10. Qed.
Lemma fstate_inv J tJ p E pw s : dict_ok pw -> fState J tJ p E pw = Ok s ->
  partial_widths s = Ok pw /\ width s = Ok (fsum (dvalues pw)).
Proof. intros OK H. destruct (fstate_total J tJ p E pw OK) as (s' & H' & R1 & R2 & _). rewrite H in H'. injection H' as <-. auto. Qed.

Lemma total_magnitude_nonneg l : Forall (Rle 0) l -> total_magnitude l = Rsum l.
Proof. intros F. unfold total_magnitude. f_equal. rewrite <- (map_id l) at 2. apply map_ext_in. intros x I. rewrite Forall_forall in F. apply Rabs_pos_eq. auto. Qed.
Lemma width_error J tJ p E pw s s0 w w0 : dict_ok pw -> Forall double (dvalues pw) ->
  fState J tJ p E pw = Ok s -> State J tJ p E pw = Ok s0 -> width s = Ok w -> width s0 = Ok w0 ->
  Rabs (w - w0) <= ((1 + unit_roundoff) ^ Nat.pred (List.length pw) - 1) * total_magnitude (dvalues pw).
Proof.
  intros OK D H H0 W W0. destruct (fstate_inv _ _ _ _ _ _ OK H) as [_ W']. destruct (state_inv _ _ _ _ _ _ OK H0) as (_ & W0' & _).
  rewrite W in W'. rewrite W0 in W0'. injection W' as ->. injection W0' as ->.
  replace (List.length pw) with (List.length (dvalues pw)) by apply map_length. now apply fsum_error.
Qed.
Lemma fwidth_bounds J tJ p E pw s w : dict_ok pw -> Forall double (dvalues pw) -> Forall (Rle 0) (dvalues pw) ->
  fState J tJ p E pw = Ok s -> width s = Ok w ->
  double w /\ (forall j g, In (j, g) pw -> 0 <= g <= w) /\ (w = 0 <-> Forall (eq 0) (dvalues pw)).
Proof.
  intros OK D F H W. destruct (fstate_inv _ _ _ _ _ _ OK H) as [_ W']. rewrite W in W'. injection W' as ->.
  assert (G : forall x, In x (dvalues pw) -> 0 <= x <= fsum (dvalues pw)).
  { intros x I. split; [rewrite Forall_forall in F; auto|now apply fsum_ge]. }
  split; [apply fold_double, double_0|]. split; [intros j g I; apply G; change g with (snd (j, g)); now apply in_map|]. split; intros Z.
  - apply Forall_forall. intros x I. specialize (G x I). lra.
  - clear -Z. unfold fsum. induction Z as [|x l <- Z IH]; [reflexivity|]. cbn [fold_left]. unfold fadd at 2. now rewrite Rplus_0_r, rnd_0.
Qed.

Lemma fbranching_ok s pw w f g : partial_widths s = Ok pw -> width s = Ok w -> w <> 0 -> dget pw (st_J_pi f) = Some g ->
  fget_final_state_branching_ratio s (Some f) = Ok (fquo g w).
Proof.
  intros P W N D. unfold fget_final_state_branching_ratio. rewrite P. cbn [bind]. unfold dgetE. rewrite D. cbn [bind]. rewrite W. cbn [bind]. destruct (Req_EM_T w 0); [contradiction|reflexivity].
Qed.
Lemma ratio_range g w : 0 <= g <= w -> w <> 0 -> 0 <= fquo g w <= 1.
Proof.
  intros H N. assert (P : 0 < w) by lra. pose proof (Rinv_0_lt_compat w P). unfold fquo. split; [apply rnd_nonneg; apply Rmult_le_pos; lra|].
  apply rnd_le_d; [apply double_1|]. apply (Rmult_le_reg_r w); [exact P|]. unfold Rdiv. rewrite Rmult_assoc, Rinv_l by lra. lra.
Qed.
Lemma fbranching_range J tJ p E pw s w f b : dict_ok pw -> Forall double (dvalues pw) -> Forall (Rle 0) (dvalues pw) ->
  fState J tJ p E pw = Ok s -> width s = Ok w -> fget_final_state_branching_ratio s (Some f) = Ok b -> 0 <= b <= 1 /\ double b.
Proof.
  intros OK D F H W B. destruct (fwidth_bounds _ _ _ _ _ _ _ OK D F H W) as (Dw & G & _). destruct (fstate_inv _ _ _ _ _ _ OK H) as [P _].
  unfold fget_final_state_branching_ratio in B. rewrite P, W in B. cbn [bind] in B. unfold dgetE in B. destruct (dget pw (st_J_pi f)) as [g|] eqn:E1; cbn [bind] in B; [|discriminate].
  destruct Req_EM_T as [Z|N]; [discriminate|]. injection B as <-. split; [|apply rnd_double]. apply ratio_range; [|exact N]. apply (G (st_J_pi f)). now apply dget_In.
Qed.
Lemma fbranching_positive J tJ p E pw s w f g : dict_ok pw -> Forall double (dvalues pw) -> Forall (Rle 0) (dvalues pw) ->
  fState J tJ p E pw = Ok s -> width s = Ok w -> In (st_J_pi f, g) pw -> 0 < g -> exists b, fget_final_state_branching_ratio s (Some f) = Ok b.
Proof.
  intros OK D F H W I Pg. destruct (fwidth_bounds _ _ _ _ _ _ _ OK D F H W) as (Dw & G & _). destruct (fstate_inv _ _ _ _ _ _ OK H) as [P _].
  eexists. apply (fbranching_ok s pw w f g P W); [|now apply In_dget]. specialize (G _ _ I). lra.
Qed.
(** A single decay channel. *)
Lemma fbranching_single J tJ p E j g s f : double g -> g <> 0 -> fState J tJ p E [(j, g)] = Ok s -> st_J_pi f = j ->
  fget_final_state_branching_ratio s (Some f) = Ok 1.
Proof.
  intros D N H <-. assert (OK : dict_ok [(st_J_pi f, g)]) by (repeat constructor; auto). destruct (fstate_inv _ _ _ _ _ _ OK H) as [P W].
  assert (Ew : fsum (dvalues [(st_J_pi f, g)]) = g) by (unfold fsum; cbn; now apply fadd_0_l). rewrite Ew in W.
  rewrite (fbranching_ok s _ g f g P W N (In_dget _ _ _ OK (or_introl eq_refl))). f_equal. unfold fquo, Rdiv. rewrite Rinv_r by exact N. apply rnd_id, double_1.
Qed.
(** The sum over all final states. *)
Lemma quo_error x y : Rabs (fquo x y - x / y) <= u * Rabs (x / y) + eta.
Proof.
  unfold fquo. destruct (rnd_error (x / y)) as (e & h & He & Hh & ->). replace (x / y * (1 + e) + h - x / y) with (e * (x / y) + h) by ring.
  eapply Rle_trans; [apply Rabs_triang|]. rewrite Rabs_mult. pose proof (Rabs_pos (x / y)). nra.
Qed.
Lemma Rsum_quo l w : Rsum (map (fun g => g / w) l) = Rsum l / w.
Proof. induction l as [|a l IH]; [cbn; lra|]. cbn [map]. rewrite !Rsum_cons', IH. lra. Qed.
Lemma quos_error w l : Forall2 (fun x X => Rabs (x - X) <= u * Rabs X + eta) (map (fun g => fquo g w) l) (map (fun g => g / w) l).
Proof. induction l; cbn; constructor; auto using quo_error. Qed.
Lemma ratios_sum l : Forall double l -> Forall (Rle 0) l -> fsum l <> 0 -> (1 + u) ^ Nat.pred (List.length l) <= 3 / 2 ->
  Rabs (Rsum (map (fun g => fquo g (fsum l)) l) - 1) <= 2 * ((1 + u) ^ S (Nat.pred (List.length l)) - 1) + INR (List.length l) * eta.
Proof.
  intros D F N Hp. set (w := fsum l) in *. set (q := (1 + u) ^ Nat.pred (List.length l)) in *. assert (Pw : 0 < w) by (pose proof (fsum_nonneg l F) as K; fold w in K; lra).
  pose proof (fsum_error l D) as E. change Rabs_sum with total_magnitude in E. rewrite (total_magnitude_nonneg l F) in E. fold w q in E.
  pose proof (perturbed (map (fun g => fquo g w) l) (map (fun g => g / w) l) u eta) as Q. pose proof u_pos as U. pose proof (pow_ge_1 (Nat.pred (List.length l))) as Hq. fold q in Hq.
  assert (F2 : Forall2 (fun x X => Rabs (x - X) <= u * Rabs X + eta) (map (fun g => fquo g w) l) (map (fun g => g / w) l)) by apply quos_error.
  specialize (Q F2). change Rabs_sum with total_magnitude in Q. pose proof (Rinv_0_lt_compat w Pw) as Iw.
  rewrite total_magnitude_nonneg in Q by (apply Forall_forall; intros x I; apply in_map_iff in I; destruct I as (g & <- & I); rewrite Forall_forall in F; apply Rmult_le_pos; [now apply F|lra]).
  rewrite Rsum_quo, map_length in Q. set (G := Rsum l) in *.
  assert (HG : 0 <= G) by (apply Rsum_nonneg; exact F).
  apply Rabs_le_inv in E.
  assert (T : Rabs (G / w - 1) <= 2 * (q - 1)).
  { replace (G / w - 1) with ((G - w) / w) by (field; lra). unfold Rdiv. rewrite Rabs_mult, (Rabs_pos_eq (/ w)) by lra. apply (Rmult_le_reg_r w); [exact Pw|].
    rewrite Rmult_assoc, Rinv_l, Rmult_1_r by lra. apply Rabs_le. nra. }
  replace (Rsum (map (fun g => fquo g w) l) - 1) with ((Rsum (map (fun g => fquo g w) l) - G / w) + (G / w - 1)) by ring.
  eapply Rle_trans; [apply Rabs_triang|]. change ((1 + u) ^ S (Nat.pred (List.length l))) with ((1 + u) * q).
  apply Rabs_le_inv in T. assert (T' : Rabs (G / w - 1) <= 2 * (q - 1)) by (apply Rabs_le; lra).
  assert (u * (G / w) <= u * (1 + 2 * (q - 1))) by (apply Rmult_le_compat_l; lra). nra.
Qed.
Lemma pow_small n : (n <= 2 ^ 51)%nat -> (1 + u) ^ n <= 3 / 2.
Proof.
  assert (X : forall n, 2 * INR n * u <= / 2 -> (1 + u) ^ n - 1 <= 2 * INR n * u).
  { clear n. intros n. pose proof u_pos. induction n as [|n IH]; intros H1; [cbn [pow INR]; lra|]. rewrite S_INR in *.
    rewrite <- tech_pow_Rmult. assert (K : 2 * INR n * u <= / 2) by nra. specialize (IH K). pose proof (pos_INR n). nra. }
  intros H. assert (B : 2 * INR n * u <= / 2).
  { unfold u. apply le_INR in H. rewrite pow_INR in H. change (INR 2) with 2 in H.
    replace (2 ^ 53) with (4 * 2 ^ 51) by (simpl; ring). pose proof (pow_lt 2 51). apply (Rmult_le_reg_r (4 * 2 ^ 51)); [lra|]. rewrite Rmult_assoc, Rinv_l by lra. lra. }
  specialize (X n B). lra.
Qed.
Lemma fbranching_sum J tJ p E pw s w fs : dict_ok pw -> Forall double (dvalues pw) -> Forall (Rle 0) (dvalues pw) -> (List.length pw <= 2 ^ 51)%nat ->
  fState J tJ p E pw = Ok s -> width s = Ok w -> w <> 0 -> Permutation (map st_J_pi fs) (dkeys pw) ->
  exists brs, traverse (fun f => fget_final_state_branching_ratio s (Some f)) fs = Ok brs /\
    Rabs (Rsum brs - 1) <= 2 * ((1 + unit_roundoff) ^ List.length pw - 1) + INR (List.length pw) * half_smallest.
Proof.
  intros OK D F Hn H W N Perm. destruct (fstate_inv _ _ _ _ _ _ OK H) as [P W']. rewrite W in W'. injection W' as ->.
  set (w := fsum (dvalues pw)) in *. set (g := fun j => match dget pw j with Some v => v | None => 0 end).
  assert (Lv : List.length (dvalues pw) = List.length pw) by apply map_length.
  exists (map (fun f => fquo (g (st_J_pi f)) w) fs). split.
  - apply traverse_ok. intros f Hf. assert (In (st_J_pi f) (dkeys pw)) as K by (eapply Permutation_in; [exact Perm|]; now apply in_map).
    unfold dkeys in K. apply in_map_iff in K. destruct K as [[k v] [E1 Hin]]. cbn in E1. subst k.
    rewrite (fbranching_ok s pw w f v P W N (In_dget _ _ _ OK Hin)). f_equal. unfold g. now rewrite (In_dget _ _ _ OK Hin).
  - rewrite <- (map_map st_J_pi (fun j => fquo (g j) w)). rewrite (Rsum_perm _ (map (fun j => fquo (g j) w) (dkeys pw))) by now apply Permutation_map.
    replace (map (fun j => fquo (g j) w) (dkeys pw)) with (map (fun g => fquo g w) (dvalues pw)).
    + rewrite <- Lv, <- eta_half. change unit_roundoff with u. pose proof (ratios_sum (dvalues pw) D F N) as R1. fold w in R1.
      destruct (dvalues pw) as [|v l] eqn:Ev; [now contradiction N|]. apply R1. apply pow_small. eapply Nat.le_trans; [|exact Hn]. rewrite <- Lv. apply Nat.le_pred_l.
    + unfold dkeys, dvalues. rewrite !map_map. apply map_ext_in. intros [k v] Hin. cbn. unfold g. now rewrite (In_dget _ _ _ OK Hin).
Qed.

(** ** Masses *)
Lemma map2_same {A B C D} (f : A -> B -> C) (g : D -> A) (h : D -> B) l : map (fun d => f (g d) (h d)) l = map2 f (map g l) (map h l).
Proof. induction l; cbn; auto. now rewrite IHl. Qed.
Lemma famu_ok t isotopes abundances ab : dict_ok isotopes -> dict_ok abundances ->
    (forall k, In k (dkeys isotopes) -> In k (dkeys abundances)) -> (forall k a, In (k, a) abundances -> ab k = a) ->
    famu t abundances isotopes = Ok (np_sum t (map2 fmul (map (fun ki => iso_mass (snd ki)) isotopes) (map (fun ki => ab (fst ki)) isotopes))).
Proof.
  intros OKi OKa H Hab. unfold famu, amu_from_isotopic_composition.
  set (g := fun k => match dget isotopes k with Some i => fmul (iso_mass i) (ab k) | None => 0 end).
  rewrite (traverse_ok _ g).
  - cbn [bind]. f_equal. f_equal. unfold dkeys. rewrite map_map. rewrite <- (map2_same fmul). apply map_ext_in. intros [k i] Hin. unfold g; cbn. now rewrite (In_dget _ _ _ OKi Hin).
  - intros k Hk. pose proof (H k Hk) as Hk'. unfold g, dgetE.
    unfold dkeys in Hk, Hk'. apply in_map_iff in Hk. destruct Hk as [[k1 i] [E Hin]]. cbn in E; subst k1.
    apply in_map_iff in Hk'. destruct Hk' as [[k1 a] [E Hin']]. cbn in E; subst k1.
    rewrite (In_dget _ _ _ OKi Hin). rewrite (In_dget _ _ _ OKa Hin'). cbn. now rewrite (Hab _ _ Hin').
Qed.
Lemma famu_error t isotopes abundances m : dict_ok isotopes -> dict_ok abundances ->
  Forall (fun ki => 0 <= iso_mass (snd ki)) isotopes -> Forall (Rle 0) (dvalues abundances) -> order_of (List.length isotopes) t ->
  amu_from_isotopic_composition (fun m a => Ok (m * a)) py_sum_R abundances isotopes = Ok m ->
  exists m', famu t abundances isotopes = Ok m' /\ 0 <= m' /\
    Rabs (m' - m) <= ((1 + unit_roundoff) ^ S (depth_of t) - 1) * m + INR (List.length isotopes) * ((1 + unit_roundoff) ^ depth_of t * half_smallest).
Proof.
  intros OKi OKa Fm Fa O E.
  assert (K : forall k, In k (dkeys isotopes) -> In k (dkeys abundances)).
  { intros k Hk. destruct (in_dec string_dec k (dkeys abundances)) as [|N]; [assumption|]. rewrite amu_missing in E; [discriminate|exact OKi|eauto]. }
  set (ab := fun k => match dget abundances k with Some a => a | None => 0 end).
  assert (Hab : forall k a, In (k, a) abundances -> ab k = a) by (intros k a I; unfold ab; now rewrite (In_dget _ _ _ OKa I)).
  rewrite (amu_ok isotopes abundances OKi OKa K ab Hab) in E. injection E as <-. rewrite (famu_ok t isotopes abundances ab OKi OKa K Hab). eexists. split; [reflexivity|].
  set (ms := map (fun ki => iso_mass (snd ki)) isotopes). set (bs := map (fun ki => ab (fst ki)) isotopes).
  replace (map (fun ki => iso_mass (snd ki) * ab (fst ki)) isotopes) with (map2 Rmult ms bs) by (symmetry; apply (map2_same Rmult)).
  assert (L : List.length (map2 fmul ms bs) = List.length isotopes) by (rewrite L_Float2.map2_length; unfold ms, bs; rewrite !map_length; apply Nat.min_id).
  assert (L' : List.length (map2 Rmult ms bs) = List.length isotopes) by (rewrite L_Float2.map2_length; unfold ms, bs; rewrite !map_length; apply Nat.min_id).
  assert (P : forall ki, In ki isotopes -> 0 <= iso_mass (snd ki) * ab (fst ki)).
  { intros ki I. rewrite Forall_forall in Fm, Fa. apply Rmult_le_pos; [now apply Fm|]. unfold ab. destruct (dget abundances (fst ki)) as [a|] eqn:Ea; [|lra].
    apply Fa. apply dget_In in Ea. change a with (snd (fst ki, a)). now apply in_map. }
  split.
  - apply np_sum_nonneg. unfold ms, bs. rewrite <- (map2_same fmul). apply Forall_forall. intros x I. apply in_map_iff in I. destruct I as (ki & <- & I). apply rnd_nonneg. now apply P.
  - pose proof (np_dot_error t ms bs) as B. rewrite L, L' in B. specialize (B O). change Rabs_sum with total_magnitude in B. rewrite total_magnitude_nonneg in B.
    + rewrite <- eta_half. exact B.
    + unfold ms, bs. rewrite <- (map2_same Rmult). apply Forall_forall. intros x I. apply in_map_iff in I. destruct I as (ki & <- & I). now apply P.
Qed.

(** *** Counterexamples to exactness *)
Open Scope string_scope.
Lemma width_depends_on_order : exists J tJ p E pw pw' s s' w w', dict_ok pw /\ Permutation pw pw' /\ Forall double (dvalues pw) /\ Forall (Rle 0) (dvalues pw) /\
  fState J tJ p E pw = Ok s /\ fState J tJ p E pw' = Ok s' /\ width s = Ok w /\ width s' = Ok w' /\ w <> w'.
Proof.
  exists "1^+_1", 2%Z, 1%Z, 1, [("a", 18014398509481984); ("b", 3 / 2); ("c", 3 / 2)], [("b", 3 / 2); ("c", 3 / 2); ("a", 18014398509481984)].
  do 2 eexists. exists 18014398509481984, 18014398509481988. pose proof double_big as D1. pose proof double_15 as D2.
  assert (OK : dict_ok [("a", 18014398509481984); ("b", 3 / 2); ("c", 3 / 2)]) by (repeat constructor; cbn; intuition discriminate).
  assert (P : Permutation [("a", 18014398509481984); ("b", 3 / 2); ("c", 3 / 2)] [("b", 3 / 2); ("c", 3 / 2); ("a", 18014398509481984)]) by (apply (Permutation_app_comm [("a", 18014398509481984)])).
  split; [exact OK|]. split; [exact P|]. split; [repeat constructor; assumption|]. split; [repeat constructor; cbn; lra|].
  unfold fState. rewrite !keys_values; [|eapply dict_ok_perm; eassumption|exact OK]. cbn [bind]. split; [reflexivity|]. split; [reflexivity|].
  unfold width. cbn [st_decays dvalues map snd]. unfold fsum. cbn [fold_left]. rewrite (fadd_0_l _ D1), (fadd_0_l _ D2), !big_plus, three_halves, (fadd_comm 3), big_plus3. split; [reflexivity|]. split; [reflexivity|]. lra.
Qed.
Lemma ratios_not_one : exists J tJ p E pw s w fs brs, dict_ok pw /\ Forall double (dvalues pw) /\ Forall (Rle 0) (dvalues pw) /\
  fState J tJ p E pw = Ok s /\ width s = Ok w /\ w <> 0 /\ Permutation (map st_J_pi fs) (dkeys pw) /\
  traverse (fun f => fget_final_state_branching_ratio s (Some f)) fs = Ok brs /\ Rsum brs <> 1.
Proof.
  set (pw := [("a", 18014398509481984); ("b", 3 / 2); ("c", 3 / 2)]). pose proof double_big as D1. pose proof double_15 as D2.
  assert (OK : dict_ok pw) by (repeat constructor; cbn; intuition discriminate). destruct (fstate_total "1^+_1" 2 1 1 pw OK) as (s & H & P & W & _).
  exists "1^+_1", 2%Z, 1%Z, 1, pw, s, 18014398509481984, [GroundState "a" 0 1; GroundState "b" 0 1; GroundState "c" 0 1], [1; 3 / 36028797018963968; 3 / 36028797018963968].
  assert (Ew : fsum (dvalues pw) = 18014398509481984) by (unfold fsum; cbn [pw dvalues map snd fold_left]; now rewrite (fadd_0_l _ D1), !big_plus). rewrite Ew in W.
  split; [exact OK|]. split; [repeat constructor; assumption|]. split; [repeat constructor; cbn; lra|]. split; [exact H|]. split; [exact W|]. split; [lra|]. split; [apply Permutation_refl|].
  split; [|rewrite !Rsum_cons'; change (Rsum []) with 0; lra].
  assert (Q1 : fquo 18014398509481984 18014398509481984 = 1) by (unfold fquo; replace (18014398509481984 / 18014398509481984) with 1 by lra; apply rnd_id, double_1).
  assert (Q2 : fquo (3 / 2) 18014398509481984 = 3 / 36028797018963968).
  { unfold fquo. replace (3 / 2 / 18014398509481984) with (3 * / 36028797018963968) by lra. apply rnd_id. apply (double_scaled 3 (-55)); [reflexivity|lia|lia]. }
  assert (N0 : 18014398509481984 <> 0) by lra. cbn [traverse map sequence].
  unfold traverse. cbn [map sequence].
  rewrite (fbranching_ok s pw _ (GroundState "a" 0 1) _ P W N0 eq_refl), (fbranching_ok s pw _ (GroundState "b" 0 1) _ P W N0 eq_refl), (fbranching_ok s pw _ (GroundState "c" 0 1) _ P W N0 eq_refl).
  cbn [bind]. now rewrite Q1, Q2.
Qed.
