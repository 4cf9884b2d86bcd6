(** Construction of resonances and properties of the Breit-Wigner, Gaussian and box-shaped models. *)
From Coq Require Import Reals List ZArith Lra Lia Sorted String Permutation.
From Coquelicot Require Import Coquelicot.
From Verif Require Import Py Spec M_Num M_Grid M_Constituents M_Thermal M_Dist M_Resonance S_Resonance
  L_RInt L_Grid L_Constituents L_Thermal L_Dist L_Resonance.
Import ListNotations.
Open Scope R_scope.

Lemma NoRecoil_eq E : NoRecoil E = Ok E.
Proof. reflexivity. Qed.

Lemma fdiv_nz a b : b <> 0 -> fdiv a b = Ok (a / b).
Proof. intros H. unfold fdiv. destruct (Req_EM_T b 0); [contradiction|reflexivity]. Qed.
Lemma fdiv_z a : fdiv a 0 = Raise ZeroDivisionError.
Proof. unfold fdiv. destruct (Req_EM_T 0 0); [reflexivity|contradiction]. Qed.

Lemma two_J_nz s : (0 <= st_two_J s)%Z -> IZR (st_two_J s) + 1 <> 0.
Proof. intros H. apply IZR_le in H. lra. Qed.

Lemma bind_Ok_raise {A B} (x : out A) (h : A -> B) e : bind x (fun y => Ok (h y)) = Raise e -> x = Raise e.
Proof. destruct x; cbn; congruence. Qed.

(** Outcome of the branching ratio. *)
Lemma branching_inv s f b : get_final_state_branching_ratio s f = Ok b ->
  match f with
  | None => b = 1
  | Some f => exists pw w g, st_decays s = Some (pw, w) /\ dget pw (st_J_pi f) = Some g /\ w <> 0 /\ b = g / w
  end.
Proof.
  unfold get_final_state_branching_ratio. destruct f as [f|]; [|congruence].
  unfold partial_widths, width. destruct (st_decays s) as [[pw w]|]; cbn [bind]; [|discriminate].
  unfold dgetE. destruct (dget pw (st_J_pi f)) as [g|] eqn:E; cbn [bind]; [|discriminate].
  unfold fdiv. destruct (Req_EM_T w 0); [discriminate|]. intros [= <-]. exists pw, w, g. auto.
Qed.

Lemma resonance_inv k i m fin rec r : Resonance k i m fin rec = Ok r ->
  exists E_r pw w g0 br,
    rec (st_excitation_energy m - st_excitation_energy i) = Ok E_r /\ E_r <> 0 /\
    IZR (st_two_J i) + 1 <> 0 /\
    st_decays m = Some (pw, w) /\ dget pw (st_J_pi i) = Some g0 /\
    get_final_state_branching_ratio m fin = Ok br /\
    r_initial r = i /\ r_intermediate r = m /\ r_final r = fin /\
    r_energy r = E_r /\ r_constant r = (PI * k_hbarc k) ^ 2 /\
    r_statistical_factor r = (IZR (st_two_J m) + 1) / (IZR (st_two_J i) + 1) /\
    r_branching r = br /\
    r_integrated r = (PI * k_hbarc k) ^ 2 / E_r ^ 2 * ((IZR (st_two_J m) + 1) / (IZR (st_two_J i) + 1)) * g0 * br /\
    r_dist r = uniform /\ r_params r = [E_r - 1 / 2; 1].
Proof.
  unfold Resonance. destruct (rec _) as [E_r| |]; cbn [bind]; try discriminate.
  unfold get_statistical_factor, fdiv at 1. destruct (Req_EM_T _ 0) as [|Nj]; cbn [bind]; try discriminate.
  destruct (get_final_state_branching_ratio m fin) as [br| |]; cbn [bind]; try discriminate.
  unfold get_energy_integrated_cross_section, fdiv. destruct (Req_EM_T (E_r ^ 2) 0) as [|NE]; cbn [bind]; try discriminate.
  unfold partial_widths, dgetE. destruct (st_decays m) as [[pw w]|]; cbn [bind]; try discriminate.
  destruct (dget pw (st_J_pi i)) as [g0|] eqn:G; cbn [bind]; try discriminate.
  intros [= <-]. exists E_r, pw, w, g0, br. cbn [r_initial r_intermediate r_final r_energy r_constant
    r_statistical_factor r_branching r_integrated r_dist r_params].
  assert (E_r <> 0) by (intros ->; apply NE; ring).
  repeat (split; [first [reflexivity|assumption]|]). reflexivity.
Qed.

Lemma resonance_raises_iff k i m fin rec E_r : (0 <= st_two_J i)%Z ->
  rec (st_excitation_energy m - st_excitation_energy i) = Ok E_r ->
  ((exists e, Resonance k i m fin rec = Raise e) <-> incomplete E_r i m fin) /\
  (forall r, Resonance k i m fin rec = Ok r -> ~ incomplete E_r i m fin) /\
  Resonance k i m fin rec <> NaN.
Proof.
  intros HJ HE. apply two_J_nz in HJ. unfold Resonance. rewrite HE. cbn [bind].
  unfold get_statistical_factor. rewrite fdiv_nz by assumption. cbn [bind].
  unfold get_final_state_branching_ratio, get_energy_integrated_cross_section, partial_widths, width, incomplete.
  destruct (Req_dec E_r 0) as [Z|NZ].
  - subst E_r. split; [split|split].
    + auto.
    + intros _. replace (0 ^ 2) with 0 by ring. destruct fin as [f|].
      * destruct (st_decays m) as [[pw w]|]; cbn [bind]; [|eexists; reflexivity].
        unfold dgetE. destruct (dget pw (st_J_pi f)); cbn [bind]; [|eexists; reflexivity].
        destruct (Req_dec w 0) as [->|Nw].
        -- rewrite fdiv_z. eexists; reflexivity.
        -- rewrite (fdiv_nz _ w) by assumption. cbn [bind]. rewrite fdiv_z. eexists; reflexivity.
      * cbn [bind]. rewrite fdiv_z. eexists; reflexivity.
    + intros r Hr. exfalso. revert Hr. replace (0 ^ 2) with 0 by ring. rewrite fdiv_z.
      destruct fin as [f|]; [|discriminate]. destruct (st_decays m) as [[pw w]|]; cbn [bind]; [|discriminate].
      destruct (dgetE pw (st_J_pi f)); cbn [bind]; try discriminate.
      destruct (fdiv a w); discriminate.
    + replace (0 ^ 2) with 0 by ring. rewrite fdiv_z.
      destruct fin as [f|]; [|discriminate]. destruct (st_decays m) as [[pw w]|]; cbn [bind]; [|discriminate].
      unfold dgetE. destruct (dget pw (st_J_pi f)); cbn [bind]; try discriminate.
      unfold fdiv. destruct (Req_EM_T w 0); discriminate.
  - assert (N2 : E_r ^ 2 <> 0) by nra. rewrite !(fdiv_nz _ (E_r ^ 2)) by assumption. cbn [bind].
    destruct (st_decays m) as [[pw w]|] eqn:Em.
    2: { cbn [bind]. destruct fin; cbn [bind]; (split; [split; [tauto|intros _; eexists; reflexivity]|split; [intros; discriminate|discriminate]]). }
    cbn [bind]. unfold dgetE.
    pose proof (dget_None pw (st_J_pi i)) as Ki.
    destruct fin as [f|]; cbn [bind].
    + pose proof (dget_None pw (st_J_pi f)) as Kf.
      destruct (dget pw (st_J_pi f)) as [gf|] eqn:Gf; cbn [bind].
      * destruct (Req_dec w 0) as [Zw|Nw].
        -- subst w. rewrite fdiv_z. cbn [bind].
           split; [split; [intros _|intros _; eexists; reflexivity]|split; [intros; discriminate|discriminate]].
           right; right. exists pw, 0. split; [reflexivity|]. right. exists f. auto.
        -- rewrite (fdiv_nz _ w) by assumption. cbn [bind].
           destruct (dget pw (st_J_pi i)) as [g0|] eqn:G0; cbn [bind].
           ++ assert (NI : ~ (E_r = 0 \/ Some (pw, w) = None \/
                exists (pw0 : dict R) (w0 : R), Some (pw, w) = Some (pw0, w0) /\
                (~ In (st_J_pi i) (dkeys pw0) \/
                 exists f0 : state, Some f = Some f0 /\ (~ In (st_J_pi f0) (dkeys pw0) \/ w0 = 0)))).
              { intros [?|[?|(pw' & w' & [= <- <-] & [N|(f' & [= <-] & [N|N])])]]; try congruence.
                - apply Ki in N. discriminate.
                - apply Kf in N. discriminate. }
              split; [split; [intros [e He]; discriminate|intros C; contradiction]|split; [intros; exact NI|discriminate]].
           ++ split; [split; [intros _|intros _; eexists; reflexivity]|split; [intros; discriminate|discriminate]].
              right; right. exists pw, w. split; [reflexivity|]. left. now apply Ki.
      * split; [split; [intros _|intros _; eexists; reflexivity]|split; [intros; discriminate|discriminate]].
        right; right. exists pw, w. split; [reflexivity|]. right. exists f. split; [reflexivity|]. left. now apply Kf.
    + destruct (dget pw (st_J_pi i)) as [g0|] eqn:G0; cbn [bind].
      * assert (NI : ~ (E_r = 0 \/ Some (pw, w) = None \/
                exists (pw0 : dict R) (w0 : R), Some (pw, w) = Some (pw0, w0) /\
                (~ In (st_J_pi i) (dkeys pw0) \/
                 exists f0 : state, None = Some f0 /\ (~ In (st_J_pi f0) (dkeys pw0) \/ w0 = 0)))).
        { intros [?|[?|(pw' & w' & [= <- <-] & [N|(f' & ? & _)])]]; try congruence.
          apply Ki in N. discriminate. }
        split; [split; [intros [e He]; discriminate|intros C; contradiction]|split; [intros; exact NI|discriminate]].
      * split; [split; [intros _|intros _; eexists; reflexivity]|split; [intros; discriminate|discriminate]].
        right; right. exists pw, w. split; [reflexivity|]. left. now apply Ki.
Qed.

Lemma resonance_exceptions k i m fin rec E_r e : (0 <= st_two_J i)%Z ->
  rec (st_excitation_energy m - st_excitation_energy i) = Ok E_r ->
  Resonance k i m fin rec = Raise e ->
  match e with
  | ZeroDivisionError => E_r = 0 \/ (fin <> None /\ width m = Ok 0)
  | AttributeError => st_decays m = None
  | KeyError => exists pw, partial_widths m = Ok pw /\
      (~ In (st_J_pi i) (dkeys pw) \/ exists f, fin = Some f /\ ~ In (st_J_pi f) (dkeys pw))
  | _ => False
  end.
Proof.
  intros HJ HE. apply two_J_nz in HJ. unfold Resonance. rewrite HE. cbn [bind].
  unfold get_statistical_factor. rewrite fdiv_nz by assumption. cbn [bind].
  unfold get_final_state_branching_ratio, get_energy_integrated_cross_section, partial_widths, width.
  assert (Z : forall x : R, E_r ^ 2 = 0 -> E_r = 0) by (intros; nra).
  assert (Tail : forall b, (let! x := fdiv ((PI * k_hbarc k) ^ 2) (E_r ^ 2) in
     let! d := match st_decays m with Some (d, _) => Ok d | None => Raise AttributeError end in
     let! w := dgetE d (st_J_pi i) in Ok (x * ((IZR (st_two_J m) + 1) / (IZR (st_two_J i) + 1)) * w * b)) = Raise e ->
    match e with
    | ZeroDivisionError => E_r = 0
    | AttributeError => st_decays m = None
    | KeyError => exists pw w, st_decays m = Some (pw, w) /\ ~ In (st_J_pi i) (dkeys pw)
    | _ => False
    end).
  { intros b. unfold fdiv. destruct (Req_EM_T (E_r ^ 2) 0) as [Z2|]; cbn [bind].
    - intros [= <-]. now apply (Z 0).
    - destruct (st_decays m) as [[pw w]|]; cbn [bind].
      + unfold dgetE. pose proof (dget_None pw (st_J_pi i)) as K.
        destruct (dget pw (st_J_pi i)); cbn [bind]; [discriminate|]. intros [= <-]. exists pw, w. split; [reflexivity|]. now apply K.
      + intros [= <-]. reflexivity. }
  destruct fin as [f|]; cbn [bind].
  - destruct (st_decays m) as [[pw w]|] eqn:Em; cbn [bind].
    + unfold dgetE at 1. pose proof (dget_None pw (st_J_pi f)) as K.
      destruct (dget pw (st_J_pi f)) as [g|]; cbn [bind].
      * destruct (Req_dec w 0) as [->|Nw].
        -- rewrite fdiv_z. cbn [bind]. intros [= <-]. right. split; [discriminate|reflexivity].
        -- rewrite (fdiv_nz _ w) by assumption. cbn [bind]. intros H.
           apply bind_Ok_raise in H. pose proof (Tail (g / w) H) as T. destruct e; try tauto; try discriminate.
           destruct T as (pw' & w' & [= <- <-] & N). exists pw. auto.
      * intros [= <-]. exists pw. split; [reflexivity|]. right. exists f. split; [reflexivity|now apply K].
    + intros [= <-]. reflexivity.
  - intros H. apply bind_Ok_raise in H. pose proof (Tail 1 H) as T. destruct e; try tauto.
    destruct T as (pw' & w' & -> & N). exists pw'. auto.
Qed.
