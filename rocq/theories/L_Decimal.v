(** Comparison and arithmetic of decimals agree with real numbers. *)
From Coq Require Import Reals ZArith List Lia Lra Bool.
From Verif Require Import Py PyNum M_Readers M_Constituents S_Decimal.
Import ListNotations.
Open Scope R_scope.

Lemma powerRZ_10_pos e : 0 < powerRZ 10 e. Proof. apply powerRZ_lt. lra. Qed.
Lemma align m e f : (f <= e)%Z -> IZR m * powerRZ 10 e = IZR (m * 10 ^ (e - f)) * powerRZ 10 f.
Proof.
  intros H. replace e with ((e - f) + f)%Z at 1 by lia. rewrite powerRZ_add by lra. rewrite mult_IZR.
  assert (E : IZR (10 ^ (e - f)) = powerRZ 10 (e - f)).
  { rewrite <- (Z2Nat.id (e - f)) by lia. rewrite <- pow_powerRZ. rewrite <- pow_IZR. reflexivity. }
  rewrite E. ring.
Qed.
Lemma num_le_worth a b x y : worth a x -> worth b y -> num_le a b = true <-> x <= y.
Proof.
  destruct a as [m e| | |]; destruct b as [m' e'| | |]; cbn; try contradiction. intros -> ->.
  rewrite (align m e (Z.min e e')), (align m' e' (Z.min e e')) by lia. pose proof (powerRZ_10_pos (Z.min e e')) as P. rewrite Z.leb_le. split; intros H.
  - apply Rmult_le_compat_r; [lra|]. now apply IZR_le.
  - apply le_IZR. apply (Rmult_le_reg_r (powerRZ 10 (Z.min e e'))); assumption.
Qed.
Lemma num_lt_worth a b x y : worth a x -> worth b y -> num_lt a b = true <-> x < y.
Proof.
  destruct a as [m e| | |]; destruct b as [m' e'| | |]; cbn; try contradiction. intros -> ->.
  rewrite (align m e (Z.min e e')), (align m' e' (Z.min e e')) by lia. pose proof (powerRZ_10_pos (Z.min e e')) as P. rewrite Z.ltb_lt. split; intros H.
  - apply Rmult_lt_compat_r; [lra|]. now apply IZR_lt.
  - apply lt_IZR. apply (Rmult_lt_reg_r (powerRZ 10 (Z.min e e'))); assumption.
Qed.
Lemma num_mul_worth a b x y : worth a x -> worth b y -> worth (num_mul a b) (x * y).
Proof. destruct a as [m e| | |]; destruct b as [m' e'| | |]; cbn; try contradiction. intros -> ->. rewrite mult_IZR, powerRZ_add by lra. ring. Qed.
Lemma num_add_worth a b x y : worth a x -> worth b y -> worth (num_add a b) (x + y).
Proof.
  destruct a as [m e| | |]; destruct b as [m' e'| | |]; cbn; try contradiction. intros -> ->.
  rewrite (align m e (Z.min e e')), (align m' e' (Z.min e e')) by lia. rewrite plus_IZR. ring.
Qed.
Lemma worth_zero e : worth (Fin 0 e) 0. Proof. cbn. ring. Qed.
Lemma worth_fun a x y : worth a x -> worth a y -> x = y.
Proof. destruct a; cbn; try contradiction. now intros -> ->. Qed.
Lemma num_sum_worth_gen l xs a x : worth a x -> Forall2 worth l xs -> worth (fold_left num_add l a) (fold_left Rplus xs x).
Proof. intros H F. revert a x H. induction F as [|b y l xs Hb F IH]; intros a x H; [exact H|]. cbn. apply IH. now apply num_add_worth. Qed.
Lemma num_sum_worth l xs : Forall2 worth l xs -> worth (num_sum l) (fold_left Rplus xs 0).
Proof. apply num_sum_worth_gen, worth_zero. Qed.
Lemma worth_ex a : (exists x, worth a x) <-> exists m e, a = Fin m e.
Proof. split; [intros [x H]; destruct a; cbn in H; try contradiction; eauto|]. intros (m & e & ->). eexists. reflexivity. Qed.
