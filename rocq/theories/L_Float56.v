(** The layered target with rounding. *)
From Coq Require Import Reals List ZArith Lra Lia Psatz.
From Flocq Require Import Core.
From Verif Require Import Py M_Num M_Notebook M_Float S_Float M_Float13 S_Float15 M_Float14 S_Float16 L_Float L_Float2 L_Float22 L_Float7 L_Float55.
Open Scope R_scope.

Section Flux.
  Variable ex : R -> R.
  Hypothesis EX : exp_rising ex.
  Let phi (s r : R) : R := ex (fmul (- s) r).
  Lemma opp_double x y : double (fmul (- x) y). Proof. apply rnd_double. Qed.
  Lemma phi_01 s r : 0 <= s -> 0 <= r -> 0 <= phi s r <= 1.
  Proof using EX.
    destruct EX as (X0 & X1 & X2). intros Hs Hr. unfold phi. split; [apply X1, rnd_double|]. rewrite <- X0. apply X2; [apply rnd_double|exact double_0|]. rewrite opp_mul. pose proof (rnd_nonneg (s * r) (Rmult_le_pos _ _ Hs Hr)). unfold fmul. lra.
  Qed.
  Lemma phi_falls s r r' : 0 <= s -> 0 <= r <= r' -> phi s r' <= phi s r.
  Proof using EX.
    destruct EX as (X0 & X1 & X2). intros Hs Hr. unfold phi. apply X2; try apply rnd_double. rewrite !opp_mul. apply Ropp_le_contravar, fmul_le; lra.
  Qed.
  Lemma fmul_below x a : 0 <= x <= 1 -> 0 <= a -> double a -> 0 <= fmul x a <= a.
  Proof. intros Hx Ha D. split; [apply rnd_nonneg, Rmult_le_pos; lra|]. apply rnd_le_d; [exact D|]. nra. Qed.
  Lemma fmul_01 x y : 0 <= x <= 1 -> 0 <= y <= 1 -> 0 <= fmul x y <= 1.
  Proof. intros Hx Hy. split; [apply rnd_nonneg, Rmult_le_pos; lra|]. apply rnd_le_d; [apply (double_IZR 1); simpl; lia|]. nra. Qed.

  Variables (t : ftarget) (E n p q : R).
  Hypothesis T : target_at t E n p q.
  Let s116 := fadd n (fmul (f_enrichment_116 t) p).
  Let s112 := fadd n (fmul (f_enrichment_112 t) q).
  Let c116 := fmul (f_enrichment_116 t) p.
  Let c112 := fmul (f_enrichment_112 t) q.
  Lemma signs : 0 <= s116 /\ 0 <= s112 /\ 0 <= c116 /\ 0 <= c112.
  Proof using T.
    destruct T as (_ & _ & _ & Hn & Hp & Hq & H6 & H2 & _). assert (0 <= c116) by (apply rnd_nonneg; now apply Rmult_le_pos). assert (0 <= c112) by (apply rnd_nonneg; now apply Rmult_le_pos).
    repeat split; auto; apply rnd_nonneg; fold c116 c112; lra.
  Qed.
  Lemma boundaries : frho_I t = f_I t /\ 0 <= frho_I t <= frho_II t /\ frho_II t <= frho_III t /\ frho_III t <= frho_IV t.
  Proof using T.
    destruct T as (_ & _ & _ & _ & _ & _ & _ & _ & D1 & D2 & D3 & D4 & P1 & P2 & P3 & P4).
    assert (E1 : frho_I t = f_I t) by (unfold frho_I, frho_0, fadd; rewrite Rplus_0_l; now apply rnd_id).
    assert (G : forall a b, double a -> 0 <= b -> a <= fadd a b) by (intros a b Da Hb; apply rnd_ge; [exact Da|lra]).
    split; [exact E1|]. split; [split; [lra|apply G; [rewrite E1; exact D1|exact P2]]|]. split; apply G; auto; apply rnd_double.
  Qed.
  Lemma sub_nonneg a b : a <= b -> 0 <= fsub b a. Proof. intros H. apply rnd_nonneg. lra. Qed.
  Lemma sub_mono a b b' : b <= b' -> fsub b a <= fsub b' a. Proof. intros H. apply rnd_le. lra. Qed.
  Let P r := fPhi ex E r (f_nr t) (f_116 t) (f_enrichment_116 t).
  Lemma phi116 r : fPhi ex E r (f_nr t) (f_116 t) (f_enrichment_116 t) = Ok (phi s116 r).
  Proof using T. destruct T as (A & B & C & _). unfold fPhi. rewrite A, B. reflexivity. Qed.
  Lemma phi112 r : fPhi ex E r (f_nr t) (f_112 t) (f_enrichment_112 t) = Ok (phi s112 r).
  Proof using T. destruct T as (A & B & C & _). unfold fPhi. rewrite A, C. reflexivity. Qed.
  Lemma alpha116 r : falpha ex E r (f_nr t) (f_116 t) (f_enrichment_116 t) = Ok (fmul c116 (phi s116 r)).
  Proof using T. unfold falpha. rewrite phi116. destruct T as (A & B & C & _). rewrite B. reflexivity. Qed.
  Lemma alpha112 r : falpha ex E r (f_nr t) (f_112 t) (f_enrichment_112 t) = Ok (fmul c112 (phi s112 r)).
  Proof using T. unfold falpha. rewrite phi112. destruct T as (A & B & C & _). rewrite C. reflexivity. Qed.
  (** The factor that depends on the depth. *)
  Lemma step c s d r r' : 0 <= c -> double c -> 0 <= s -> 0 <= d -> d <= r <= r' -> 0 <= fmul c (phi s (fsub r' d)) <= fmul c (phi s (fsub r d)) /\ fmul c (phi s (fsub r d)) <= c.
  Proof using EX.
    intros Hc Dc Hs Hd Hr. pose proof (phi_01 s (fsub r' d) Hs (sub_nonneg d r' ltac:(lra))) as A. pose proof (phi_01 s (fsub r d) Hs (sub_nonneg d r ltac:(lra))) as B.
    pose proof (phi_falls s (fsub r d) (fsub r' d) Hs (conj (sub_nonneg d r ltac:(lra)) (sub_mono d r r' ltac:(lra)))) as M.
    split; [split; [apply rnd_nonneg, Rmult_le_pos; lra|apply fmul_le; lra]|]. apply rnd_le_d; [exact Dc|]. nra.
  Qed.
  Lemma prefix x c a a' : 0 <= x <= 1 -> 0 <= a' <= a -> double a -> a <= c -> falls_below c (Ok (fmul x a)) (Ok (fmul x a')).
  Proof.
    intros Hx Ha Da Hc. exists (fmul x a), (fmul x a'). split; [reflexivity|]. split; [reflexivity|]. pose proof (fmul_below x a Hx ltac:(lra) Da). split; [split; [apply rnd_nonneg, Rmult_le_pos; lra|apply fmul_le; lra]|lra].
  Qed.
  Lemma layers_fall r r' : r <= r' ->
    (frho_0 <= r -> falls_below c116 (fdN_dE_drho_I ex t E r) (fdN_dE_drho_I ex t E r')) /\
    (frho_I t <= r -> falls_below c112 (fdN_dE_drho_II ex t E r) (fdN_dE_drho_II ex t E r')) /\
    (frho_II t <= r -> falls_below c116 (fdN_dE_drho_III ex t E r) (fdN_dE_drho_III ex t E r')) /\
    (frho_III t <= r -> falls_below c112 (fdN_dE_drho_IV ex t E r) (fdN_dE_drho_IV ex t E r')).
  Proof using EX T.
    intros Hr. destruct signs as (S6 & S2 & C6 & C2). destruct boundaries as (_ & B1 & B2 & B3). assert (Z : 0 <= frho_0) by (unfold frho_0; lra).
    pose proof (phi_01 s116 (fsub (frho_I t) frho_0) S6 (sub_nonneg frho_0 (frho_I t) ltac:(unfold frho_0; lra))) as F1.
    pose proof (phi_01 s112 (fsub (frho_II t) (frho_I t)) S2 (sub_nonneg (frho_I t) (frho_II t) ltac:(lra))) as F2.
    pose proof (phi_01 s116 (fsub (frho_III t) (frho_II t)) S6 (sub_nonneg (frho_II t) (frho_III t) ltac:(lra))) as F3.
    assert (D6 : double c116) by apply rnd_double. assert (D2 : double c112) by apply rnd_double.
    unfold fdN_dE_drho_I, fdN_dE_drho_II, fdN_dE_drho_III, fdN_dE_drho_IV. rewrite !phi116, !phi112, !alpha116, !alpha112. cbn [bind].
    split; [|split; [|split]]; intros H.
    - destruct (step c116 s116 frho_0 r r' C6 D6 S6 Z (conj H Hr)) as [A B]. do 2 eexists. split; [reflexivity|]. split; [reflexivity|]. auto.
    - destruct (step c112 s112 (frho_I t) r r' C2 D2 S2 ltac:(lra) (conj H Hr)) as [A B]. apply prefix; auto. apply rnd_double.
    - destruct (step c116 s116 (frho_II t) r r' C6 D6 S6 ltac:(lra) (conj H Hr)) as [A B]. apply prefix; auto; [now apply fmul_01|apply rnd_double].
    - destruct (step c112 s112 (frho_III t) r r' C2 D2 S2 ltac:(lra) (conj H Hr)) as [A B]. apply prefix; auto; [apply fmul_01; [now apply fmul_01|exact F3]|apply rnd_double].
  Qed.
  Lemma layers_shadow r r' : (forall x, double x -> double (ex x)) -> double r -> 0 <= r <= frho_I t -> frho_II t <= r' -> falls_below c116 (fdN_dE_drho_I ex t E r) (fdN_dE_drho_III ex t E r').
  Proof using EX T.
    intros XD Dr Hr Hr'. destruct signs as (S6 & S2 & C6 & C2). destruct boundaries as (E1 & B1 & B2 & B3).
    pose proof (phi_01 s116 (fsub (frho_I t) frho_0) S6 (sub_nonneg frho_0 (frho_I t) ltac:(unfold frho_0; lra))) as F1.
    pose proof (phi_01 s112 (fsub (frho_II t) (frho_I t)) S2 (sub_nonneg (frho_I t) (frho_II t) ltac:(lra))) as F2.
    assert (D6 : double c116) by apply rnd_double.
    unfold fdN_dE_drho_I, fdN_dE_drho_III. rewrite !phi116, !phi112, !alpha116. cbn [bind]. do 2 eexists. split; [reflexivity|]. split; [reflexivity|].
    destruct (step c116 s116 frho_0 r r C6 D6 S6 ltac:(unfold frho_0; lra) ltac:(unfold frho_0; lra)) as [A0 A1]. destruct (step c116 s116 (frho_II t) r' r' C6 D6 S6 ltac:(lra) ltac:(lra)) as [A2 A3].
    split; [|exact A1]. set (a := fmul c116 (phi s116 (fsub r' (frho_II t)))) in *. set (p1 := phi s116 (fsub (frho_I t) frho_0)) in *. set (q1 := phi s112 _) in *.
    assert (PQ : 0 <= fmul p1 q1 <= p1). { split; [apply rnd_nonneg, Rmult_le_pos; lra|]. apply rnd_le_d; [apply XD, rnd_double|]. nra. }
    split; [apply rnd_nonneg, Rmult_le_pos; lra|]. apply Rle_trans with (fmul c116 p1).
    - replace (fmul c116 p1) with (fmul p1 c116) by (unfold fmul; f_equal; ring). apply fmul_le; lra.
    - apply fmul_le; try lra. apply phi_falls; [exact S6|]. split; [apply sub_nonneg; unfold frho_0; lra|]. apply sub_mono. lra.
  Qed.
End Flux.

(** The boundaries of the layers. *)
Lemma fadd_units a b : double a -> double b -> 0 <= a -> 0 <= b -> Rabs (fadd a b - (a + b)) <= u * (a + b).
Proof. intros Da Db Ha Hb. destruct (fadd_error a b Da Db) as (e & He & ->). replace ((a + b) * (1 + e) - (a + b)) with (e * (a + b)) by ring. rewrite Rabs_mult, (Rabs_pos_eq (a + b)) by lra. apply Rmult_le_compat_r; lra. Qed.
Lemma fsub_units a b : double a -> double b -> b <= a -> Rabs (fsub a b - (a - b)) <= u * (a - b).
Proof. intros Da Db H. destruct (fsub_error a b Da Db) as (e & He & ->). replace ((a - b) * (1 + e) - (a - b)) with (e * (a - b)) by ring. rewrite Rabs_mult, (Rabs_pos_eq (a - b)) by lra. apply Rmult_le_compat_r; lra. Qed.
Lemma boundaries_close t E n p q : target_at t E n p q ->
  frho_I t = f_I t /\ 0 <= frho_I t <= frho_II t /\ frho_II t <= frho_III t /\ frho_III t <= frho_IV t /\
  within_units 1 (frho_II t) (f_I t + f_II t) (f_I t + f_II t) /\ within_units 3 (frho_III t) (f_I t + f_II t + f_III t) (f_I t + f_II t + f_III t) /\
  within_units 4 (frho_IV t) (f_I t + f_II t + f_III t + f_IV t) (f_I t + f_II t + f_III t + f_IV t) /\
  fsub (frho_I t) frho_0 = f_I t /\ within_units 3 (fsub (frho_II t) (frho_I t)) (f_II t) (f_I t + f_II t) /\ within_units 3 (fsub (frho_III t) (frho_II t)) (f_III t) (f_I t + f_II t + f_III t).
Proof.
  intros T. destruct (boundaries t E n p q T) as (E1 & B1 & B2 & B3). destruct T as (_ & _ & _ & _ & _ & _ & _ & _ & D1 & D2 & D3 & D4 & P1 & P2 & P3 & P4).
  split; [exact E1|]. split; [exact B1|]. split; [exact B2|]. split; [exact B3|]. unfold within_units. rewrite u_unit. pose proof u_pos as U. pose proof u_tiny as U1.
  pose proof (fadd_units (frho_I t) (f_II t) ltac:(rewrite E1; exact D1) D2 ltac:(lra) P2) as A2. fold (frho_II t) in A2. rewrite E1 in A2.
  pose proof (fadd_units (frho_II t) (f_III t) ltac:(apply rnd_double) D3 ltac:(lra) P3) as A3. fold (frho_III t) in A3.
  pose proof (fadd_units (frho_III t) (f_IV t) ltac:(apply rnd_double) D4 ltac:(lra) P4) as A4. fold (frho_IV t) in A4.
  pose proof (fsub_units (frho_II t) (frho_I t) ltac:(apply rnd_double) ltac:(rewrite E1; exact D1) ltac:(lra)) as G2. pose proof (fsub_units (frho_III t) (frho_II t) ltac:(apply rnd_double) ltac:(apply rnd_double) ltac:(lra)) as G3.
  assert (G1 : fsub (frho_I t) frho_0 = f_I t) by (unfold fsub, frho_0; rewrite Rminus_0_r, E1; now apply rnd_id). rewrite E1 in *. set (x := frho_II t) in *. set (y := frho_III t) in *. set (z := frho_IV t) in *. set (g := fsub x (f_I t)) in *. set (h := fsub y x) in *. clearbody x y z g h.
  set (a := f_I t) in *. set (b := f_II t) in *. set (c := f_III t) in *. set (d := f_IV t) in *. clearbody a b c d. apply Rabs_le_inv in A2, A3, A4, G2, G3.
  assert (V1 : 0 <= u * (a + b) <= / 1024 * (a + b)) by (split; [apply Rmult_le_pos; lra|apply Rmult_le_compat_r; lra]).
  assert (UC : 0 <= u * c) by (apply Rmult_le_pos; lra). assert (UD : 0 <= u * d) by (apply Rmult_le_pos; lra). assert (UU : u * (u * (a + b)) <= / 1024 * (u * (a + b))) by (apply Rmult_le_compat_r; lra).
  assert (W1 : u * x <= u * (a + b) + u * (u * (a + b))) by (rewrite <- Rmult_plus_distr_l; apply Rmult_le_compat_l; lra).
  assert (UY : u * y <= u * (x + c + u * (x + c))) by (apply Rmult_le_compat_l; lra). assert (X0 : 0 <= u * x) by (apply Rmult_le_pos; lra). assert (UXC : u * (u * (x + c)) <= / 1024 * (u * (x + c))) by (apply Rmult_le_compat_r; [apply Rmult_le_pos; lra|lra]).
  assert (UCC : u * c <= / 1024 * c) by (apply Rmult_le_compat_r; lra). 
  assert (Gg : u * (x - a) <= u * (b + u * (a + b))) by (apply Rmult_le_compat_l; lra). assert (Gh : u * (y - x) <= u * (c + u * (x + c))) by (apply Rmult_le_compat_l; lra). assert (0 <= u * a) by (apply Rmult_le_pos; lra). assert (0 <= u * b) by (apply Rmult_le_pos; lra).
  repeat split; try exact G1; apply Rabs_le; lra.
Qed.
