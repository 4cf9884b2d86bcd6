(** C88, C89: IEEE 754 binary64 numbers with infinities and nan. *)
From Coq Require Import Reals List ZArith String Bool.
From Flocq Require Import Core BinarySingleNaN.
From Verif Require Import Py M_Num M_CrossSection M_Constituents M_Thermal M_Float S_Float M_Float4 S_Float4 M_Float8 S_Float8
  L_Float10 L_Float11 L_Float12 L_Float32 M_Ieee M_Ieee2 S_Ieee L_Ieee L_Ieee2 L_Ieee3 L_Ieee4 L_Ieee5 L_Ieee6 L_Ieee7 L_Ieee8 L_Ieee9 L_Ieee14.
Import ListNotations.
Open Scope R_scope.

(** ** C88: sums, integrals and grids *)
(** A value of a nested sum that is neither infinite nor nan is the value without any limit of numbers, whatever
    the members and factors are; exceptions are the same. *)
Theorem C88_call : forall v v' E, finite E -> same_object v v' -> reads (bcall v E) (fcall v' (B2R E)).
Proof. intros v v' E. exact (call_reads E v v'). Qed.

(** A finite error estimate vouches for both Darboux sums: no value, no point and no partial result overflowed. *)
Theorem C88_darboux : forall t fx x, List.length fx = List.length x -> order_of (List.length x - 1) t ->
  finite (snd (bdarboux t fx x)) ->
  rep (fst (bdarboux t fx x)) (fst (fdarboux t (map B2R fx) (map B2R x))) /\
  rep (snd (bdarboux t fx x)) (snd (fdarboux t (map B2R fx) (map B2R x))) /\
  ((2 <= List.length x)%nat -> Forall finite fx /\ Forall finite x).
Proof. exact darboux_finite. Qed.
(** It is finite for values up to [2 ^ e] and points up to [2 ^ e'], [h] additions deep. *)
Theorem C88_darboux_finite : forall t fx x e e', (-1074 <= e' < 1023)%Z -> (-1074 <= e + e' + 1)%Z ->
  (e + e' + 2 + Z.of_nat (depth_of t) < 1024)%Z ->
  Forall (at_most e) fx -> Forall (at_most e') x -> finite (fst (bdarboux t fx x)) /\ finite (snd (bdarboux t fx x)).
Proof. exact darboux_moderate. Qed.
(** Not for all numbers. *)
Theorem C88_darboux_refuted : exists fx x, Forall finite fx /\ Forall finite x /\
  bdarboux (Some (Index 0)) fx x = (B754_infinity false, B754_nan).
Proof. exact darboux_nan. Qed.
(** A finite lower sum already excludes nan among the values, and infinite points. *)
Theorem C88_darboux_lower : forall t fx x, List.length fx = List.length x -> order_of (List.length x - 1) t -> (2 <= List.length x)%nat ->
  finite (fst (bdarboux t fx x)) -> Forall (fun y => bnanb y = false) fx /\ Forall finite x.
Proof. exact lower_number. Qed.
Example C88_darboux_lower_case : let fx := [of_Z 1; of_Z 2; of_Z 5] in let x := [of_Z 0; of_Z 1; of_Z 3] in
  List.length fx = List.length x /\ order_of (List.length x - 1) (Some (Plus (Index 0) (Index 1))) /\ (2 <= List.length x)%nat /\
  finite (fst (bdarboux (Some (Plus (Index 0) (Index 1))) fx x)).
Proof. exact lower_example. Qed.

(** The same points of [linspace], up to [2 ^ 1020]. *)
Theorem C88_linspace : forall a b n, (0 <= n <= 2 ^ 53)%Z -> at_most 1020 a -> at_most 1020 b ->
  exists g g', blinspace a b n = Ok g /\ flinspace (B2R a) (B2R b) n = Ok g' /\ Forall2 rep g g'.
Proof. exact linspace_moderate. Qed.
(** Beyond, a grid of numbers between numbers may start with nan. *)
Theorem C88_linspace_refuted : exists a b, finite a /\ finite b /\ blinspace a b 3 = Ok [B754_nan; B754_infinity false; b].
Proof. exact linspace_nan. Qed.

(** [np.pi] *)
Theorem C88_pi : rep bpi (rnd PI).
Proof. exact (win_rep _ _ _ _ win_pi). Qed.

(** ** C89: resonances *)
(** Breit-Wigner, Gauss and pseudo-Voigt cross sections of moderate states: no overflow. *)
Theorem C89_breit_wigner : forall L c B k bi i bm m bfin fin E x absolute,
  same_clib L c -> clib_ok c -> same_constants B k -> floats k i m fin ->
  same_state bi i -> same_state bm m -> same_final bfin fin -> rep E x -> Rabs x <= 2 ^ 400 ->
  reads_number (bBreitWigner_call L B bi bm bfin E absolute) (fBreitWigner_call c k i m fin x absolute).
Proof. intros. eapply breit_wigner_agree; eauto. now apply (pow_bnd _ _ 400). Qed.
Theorem C89_gauss : forall L c B k bi i bm m bfin fin bamu amu bT T E x absolute,
  same_clib L c -> clib_ok c -> falling_exp c -> same_constants B k -> floats k i m fin -> thermal k amu T -> rep bamu amu -> rep bT T ->
  same_state bi i -> same_state bm m -> same_final bfin fin -> rep E x -> Rabs x <= 2 ^ 300 ->
  reads_number (bGauss_call L B bi bm bamu bT bfin E absolute) (fGauss_call c k i m amu T fin x absolute).
Proof. intros. eapply gauss_agree; eauto. now apply (pow_bnd _ _ 300). Qed.
Theorem C89_pseudo_voigt : forall L V B k bi i bm m bfin fin bamu amu bT T w E x absolute,
  pvlib_ok V -> same_pvlib L V -> same_constants B k -> floats k i m fin -> width m = Ok w ->
  pv_floats k (fsub (st_excitation_energy m) (st_excitation_energy i)) w amu T -> rep bamu amu -> rep bT T ->
  same_state bi i -> same_state bm m -> same_final bfin fin -> rep E x -> Rabs x <= 2 ^ 400 ->
  reads_number (bPseudoVoigt_call L B bi bm bamu bT bfin E absolute) (fPseudoVoigt_call V k i m amu T fin x absolute).
Proof. intros. eapply pseudo_voigt_agree; eauto. now apply (pow_bnd _ _ 400). Qed.
Theorem C89_recoil : forall B k bamu amu D x, rep (b_u_MeV B) (k_u_MeV k) -> plausible (k_u_MeV k) -> plausible amu -> plausible x ->
  rep bamu amu -> rep D x -> reads_number (bFreeNucleusRecoil B bamu D) (fFreeNucleusRecoil k amu x).
Proof. exact recoil_agree. Qed.

(** At all energies, infinite ones included, their values are numbers. *)
Theorem C89_breit_wigner_finite : forall L c B k bi i bm m bfin fin E absolute,
  same_clib L c -> clib_ok c -> same_constants B k -> floats k i m fin ->
  same_state bi i -> same_state bm m -> same_final bfin fin -> E <> B754_nan ->
  exists v, bBreitWigner_call L B bi bm bfin E absolute = Ok v /\ finite v /\ 0 <= B2R v.
Proof. intros. eapply breit_wigner_total; eauto. destruct E; auto; congruence. Qed.
Theorem C89_breit_wigner_nan : forall L c B k bi i bm m bfin fin absolute,
  same_clib L c -> clib_ok c -> same_constants B k -> floats k i m fin ->
  same_state bi i -> same_state bm m -> same_final bfin fin -> bBreitWigner_call L B bi bm bfin B754_nan absolute = Ok B754_nan.
Proof. exact breit_wigner_nan. Qed.
Theorem C89_gauss_finite : forall L c B k bi i bm m bfin fin bamu amu bT T E absolute,
  same_clib L c -> clib_ok c -> falling_exp c -> same_constants B k -> floats k i m fin -> thermal k amu T -> rep bamu amu -> rep bT T ->
  same_state bi i -> same_state bm m -> same_final bfin fin -> E <> B754_nan ->
  exists v, bGauss_call L B bi bm bamu bT bfin E absolute = Ok v /\ finite v /\ 0 <= B2R v.
Proof. intros. eapply gauss_total; eauto. destruct E; auto; congruence. Qed.
Theorem C89_pseudo_voigt_finite : forall L V B k bi i bm m bfin fin bamu amu bT T w E absolute,
  pvlib_ok V -> same_pvlib L V -> same_constants B k -> floats k i m fin -> width m = Ok w ->
  pv_floats k (fsub (st_excitation_energy m) (st_excitation_energy i)) w amu T -> rep bamu amu -> rep bT T ->
  same_state bi i -> same_state bm m -> same_final bfin fin -> E <> B754_nan ->
  exists v, bPseudoVoigt_call L B bi bm bamu bT bfin E absolute = Ok v /\ finite v.
Proof. intros. eapply pseudo_voigt_total; eauto. destruct E; auto; congruence. Qed.

(** The hypotheses can be met. *)
Example C88_ex_sum : same_object (BSum [BConst (of_Z 3); BSum [BConst (of_Z 1)] [of_Z 2]] [of_Z 1; of_Z 2])
  (VSum [VConst 3; VSum [VConst 1] [2]] [1; 2]).
Proof.
  assert (Z : forall z, (z = 1 \/ z = 2 \/ z = 3)%Z -> rep (of_Z z) (IZR z)) by (intros z [-> |[-> | ->]]; apply Z_rep; now vm_compute).
  repeat (constructor; auto 6).
Qed.
Example C88_ex_darboux : order_of (3 - 1) (Some (Plus (Index 0) (Index 1))) /\
  Forall (at_most 10) [of_Z 1; of_Z 5; of_Z 1000] /\ (10 + 10 + 2 + Z.of_nat (depth_of (Some (Plus (Index 0) (Index 1)))) < 1024)%Z.
Proof.
  split; [apply Permutation.Permutation_refl|]. split; [|reflexivity].
  assert (Z : forall z, (0 <= z <= 1024)%Z -> at_most 10 (of_Z z)).
  { intros z H. destruct (Z_rep z) as [F E]. { change (2 ^ 53)%Z with (1024 * 2 ^ 43)%Z. Lia.lia. } split; [exact F|]. rewrite E, <- abs_IZR. apply (IZR_le (Z.abs z) 1024). Lia.lia. }
  do 3 (apply Forall_cons; [apply Z; Lia.lia|]); apply Forall_nil.
Qed.
Example C89_ex : clib_ok correct_clib /\ falling_exp correct_clib /\ same_clib correct_blib correct_clib /\
  same_constants (of_constants ieee_k) ieee_k /\ floats ieee_k lost_i lost_m None /\ thermal ieee_k 1000 1 /\
  same_state (of_state lost_i) lost_i /\ same_state (of_state lost_m) lost_m.
Proof. exact (conj correct_ok (conj correct_falls (conj correct_same (conj ieee_constants (conj ieee_floats (conj ieee_thermal (conj ieee_i ieee_m))))))). Qed.
Example C89_ex_pv : pvlib_ok correct_pvlib /\ same_pvlib correct_blib correct_pvlib /\ width lost_m = Ok (/ 2 ^ 60) /\
  pv_floats ieee_k (fsub (st_excitation_energy lost_m) (st_excitation_energy lost_i)) (/ 2 ^ 60) 1000 0.
Proof. exact (conj correct_pvlib_ok (conj correct_pv_same ieee_pv)). Qed.
Print Assumptions C88_call.
Print Assumptions C88_darboux.
Print Assumptions C88_darboux_finite.
Print Assumptions C88_darboux_refuted.
Print Assumptions C88_linspace.
Print Assumptions C88_linspace_refuted.
Print Assumptions C88_pi.
Print Assumptions C89_breit_wigner.
Print Assumptions C89_gauss.
Print Assumptions C89_pseudo_voigt.
Print Assumptions C89_recoil.
Print Assumptions C89_breit_wigner_finite.
Print Assumptions C89_breit_wigner_nan.
Print Assumptions C89_gauss_finite.
Print Assumptions C89_pseudo_voigt_finite.
Print Assumptions C88_darboux_lower.
