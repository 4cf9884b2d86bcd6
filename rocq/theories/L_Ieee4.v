(** The float nearest to pi. *)
From Coq Require Import Reals ZArith Lia Lra Machin.
From Flocq Require Import Core.
From Verif Require Import M_Float M_Float2.
Open Scope R_scope.

Lemma PI_bounds : 884279719003555 / 281474976710656 < PI < 884279719003555 / 281474976710656 + / 5000000000000000.
Proof.
  destruct (PI_2_3_7_ineq 9) as [L U]. unfold sum_f_R0, tg_alt, PI_2_3_7_tg, Ratan_seq in L, U. cbn [Nat.mul Nat.add pow INR] in L, U.
  split; lra.
Qed.
Lemma np_pi_value : np_pi = 884279719003555 / 281474976710656.
Proof.
  destruct PI_bounds as [L U]. unfold np_pi, rnd, round, F2R, scaled_mantissa. cbn [Fnum Fexp].
  assert (M : mag radix2 PI = 2%Z :> Z).
  { apply mag_unique. rewrite Rabs_pos_eq by lra. change (bpow radix2 (2 - 1)) with 2. change (bpow radix2 2) with 4. lra. }
  assert (C : cexp radix2 fexp64 PI = (-51)%Z) by (unfold cexp; rewrite M; reflexivity).
  rewrite C. change (bpow radix2 (- -51)) with 2251799813685248. change (bpow radix2 (-51)) with (/ 2251799813685248).
  rewrite (Znearest_imp _ _ 7074237752028440).
  - lra.
  - apply Rabs_def1; lra.
Qed.
