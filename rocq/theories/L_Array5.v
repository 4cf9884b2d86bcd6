(** Proofs about resonances, Doppler widths and effective temperatures of arrays, lists and floats. *)
From Coq Require Import List ZArith Bool Arith Lia.
From Flocq Require Import Core BinarySingleNaN.
From Verif Require Import Py M_Num M_CrossSection M_Ieee M_Ieee2 M_Ieee3 M_Array M_Array2 S_Array S_Array2 L_Array L_Array2 L_Array3 L_Array4.
Import ListNotations.
Open Scope py_scope.

(** *** Resonances *)
Lemma array_value a : value true (Ok (Nd a)) (Some (shape (Nd a))) (el (Nd a)).
Proof. apply v_array. eexists. reflexivity. Qed.
Lemma apdf_value d x s g : value true (Ok x) (Some s) g -> value true (apdf d x) (Some s) (fun i => density d (g i)).
Proof.
  intros A. destruct d as [pdf|eta n c|p E_r]; unfold apdf.
  - exact (v_ufunc _ pdf _ _ _ A).
  - assert (N : value true (Ok (Nd (nd0 eta))) (Some []) (fun _ => eta)). { split; [|intros _; exact I]. exists (Nd (nd0 eta)). cbn. auto. }
    pose proof (v_plus _ _ _ _ _ _ _ _ (v_times _ _ _ _ _ _ _ _ (v_minus _ _ _ _ _ _ _ _ (v_int 1) N) (v_ufunc _ n _ _ _ A)) (v_times _ _ _ _ _ _ _ _ N (v_ufunc _ c _ _ _ A))) as H.
    revert H. shapes. exact (fun H => H).
  - pose proof (v_ufunc _ p _ _ _ (v_minus _ _ _ _ _ _ _ _ A (v_float E_r))) as H. revert H. shapes. exact (fun H => H).
Qed.
Lemma ares_value d E_r Ir x s g abs : value true (Ok x) (Some s) g ->
  value true (ares_call d E_r Ir x abs) (Some s) (fun i => bres_call (density d) E_r Ir (g i) abs).
Proof.
  intros A. unfold ares_call. destruct abs; cbn [bind].
  - pose proof (v_times _ _ _ _ _ _ _ _ (v_float Ir) (apdf_value d x s g A)) as H. revert H. shapes. exact (fun H => H).
  - pose proof (v_plus _ _ _ _ _ _ _ _ A (v_float E_r)) as P. revert P. shapes. intros P.
    eapply v_bind; [exact P| |discriminate]. intros y t E Y. injection E as <-.
    pose proof (v_times _ _ _ _ _ _ _ _ (v_float Ir) (apdf_value d y s _ Y)) as H. revert H. shapes. exact (fun H => H).
Qed.
Lemma ares_array d E_r Ir a abs f : (forall x, f x = Ok (bres_call (density d) E_r Ir x abs)) -> elementwise (fn1 f) [Nd a] (ares_call d E_r Ir (Nd a) abs).
Proof.
  intros F. eapply v_elementwise.
  - eapply v_shape; [apply ares_value, array_value|reflexivity|]. cbn [map joins]. shapes. reflexivity.
  - intros i. cbn [map fn1]. apply F.
Qed.
Lemma ares_float d E_r Ir e abs : ares_call d E_r Ir (Float e) abs = numpy_float (Ok (bres_call (density d) E_r Ir e abs)).
Proof. destruct d, abs; reflexivity. Qed.
Lemma ares_list pdf E_r Ir a : ares_call (Scipy pdf) E_r Ir (Seq a) true = ares_call (Scipy pdf) E_r Ir (Nd a) true /\ ares_call (Scipy pdf) E_r Ir (Seq a) false = Raise TypeError.
Proof. split; reflexivity. Qed.
Lemma out_raise {A} (o : out A) : (exists x, o = Ok x) \/ o = NaN \/ exists e, o = Raise e.
Proof. destruct o; eauto. Qed.

(** What holds for a line: [A] its cross section for arrays, [B] for numbers. *)
Definition like (A : arg -> bool -> out arg) (B : b64 -> bool -> out b64) : Prop :=
  (forall a abs, elementwise_or_raise (fun x => B x abs) a (A (Nd a) abs)) /\
  (forall e abs, A (Float e) abs = numpy_float (B e abs)) /\
  (forall a, A (Seq a) true = A (Nd a) true) /\
  (forall a, A (Seq a) false = Raise TypeError \/ exists ex, A (Seq a) false = Raise ex /\ forall x, B x false = Raise ex).
Lemma like_line d E_r Ir : (forall a, ares_call d E_r Ir (Seq a) true = ares_call d E_r Ir (Nd a) true) ->
  like (ares_call d E_r Ir) (fun x abs => Ok (bres_call (density d) E_r Ir x abs)).
Proof.
  intros S. repeat split.
  - intros a abs. right. apply ares_array. reflexivity.
  - intros e abs. apply ares_float.
  - exact S.
  - intros a. left. reflexivity.
Qed.
Lemma like_bind {T} (o : out T) A B : o <> NaN -> (forall x, o = Ok x -> like (A x) (B x)) ->
  like (fun E abs => let! x := o in A x E abs) (fun E abs => let! x := o in B x E abs).
Proof.
  intros N H. destruct o as [x| |ex]; cbn [bind]; [exact (H x eq_refl)|contradiction|]. repeat split.
  - intros a abs. left. eauto.
  - intros a. right. eauto.
Qed.
Lemma bdivide_number t x y : bdivide t x y <> NaN. Proof. unfold bdivide. destruct t; [destruct (bzero y)|]; discriminate. Qed.
Lemma bind_number {A B} (o : out A) (f : A -> out B) : o <> NaN -> (forall x, f x <> NaN) -> bind o f <> NaN.
Proof. destruct o; cbn; auto. discriminate. Qed.
Lemma width_number s : bwidth s <> NaN.
Proof. unfold bwidth. destruct s; cbn. repeat match goal with |- context [match ?x with _ => _ end] => destruct x end; discriminate. Qed.
Lemma partial_number s : bpartial_widths s <> NaN.
Proof. unfold bpartial_widths. destruct s; cbn. repeat match goal with |- context [match ?x with _ => _ end] => destruct x end; discriminate. Qed.
Lemma key_number {V} (d : dict V) k : dgetE d k <> NaN. Proof. unfold dgetE. destruct (dget d k); discriminate. Qed.
Lemma doppler_number k amu T E : bget_doppler_width k amu T E <> NaN. Proof. unfold bget_doppler_width. destruct (bzero _); discriminate. Qed.
Lemma resonance_number L k i m f : bResonance L k i m f <> NaN.
Proof.
  unfold bResonance, bget_statistical_factor, bget_final_state_branching_ratio, bget_energy_integrated_cross_section.
  repeat (apply bind_number; [|intros ?]); try discriminate.
  - destruct (bzero _); discriminate.
  - destruct f; [|discriminate]. repeat (apply bind_number; [try apply partial_number; try apply key_number; try apply width_number|intros ?]). destruct (bzero _); discriminate.
  - destruct (bzero _); [discriminate|]. repeat (apply bind_number; [try apply partial_number; try apply key_number|intros ?]). discriminate.
Qed.
Lemma breit_wigner_like L k i m f : like (aBreitWigner_call L k i m f) (bBreitWigner_call L k i m f).
Proof.
  unfold aBreitWigner_call, bBreitWigner_call. apply like_bind; [apply resonance_number|]. intros [E_r Ir] _. apply like_bind; [apply width_number|]. intros w _.
  apply (like_line (Scipy _)). reflexivity.
Qed.
Lemma gauss_like L k i m amu T f : like (aGauss_call L k i m amu T f) (bGauss_call L k i m amu T f).
Proof.
  unfold aGauss_call, bGauss_call. apply like_bind; [apply resonance_number|]. intros [E_r Ir] _. apply like_bind; [apply doppler_number|]. intros w _.
  apply (like_line (Scipy _)). reflexivity.
Qed.
Lemma pseudo_voigt_like L k i m amu T f : like (aPseudoVoigt_call L k i m amu T f) (bPseudoVoigt_call L k i m amu T f).
Proof.
  unfold aPseudoVoigt_call, bPseudoVoigt_call. apply like_bind; [apply resonance_number|]. intros [E_r Ir] _. apply like_bind; [apply width_number|]. intros w _.
  apply like_bind; [unfold bPseudoVoigtDistribution; apply bind_number; [apply doppler_number|discriminate]|]. intros p _.
  apply (like_line (Pseudo _ _ _)). reflexivity.
Qed.

(** *** Doppler widths *)
Lemma doppler_array k amu T a : elementwise_or_raise (bget_doppler_width k amu T) a (aget_doppler_width k amu T (Nd a)).
Proof.
  unfold elementwise_or_raise, bget_doppler_width, aget_doppler_width. destruct (bzero _); [left; eauto|right]. set (q := bsqrt _).
  assert (N : value true (Ok (Nd (nd0 q))) (Some []) (fun _ => q)). { split; [|intros _; exact I]. exists (Nd (nd0 q)). cbn. auto. }
  eapply v_elementwise.
  - eapply v_shape; [eapply v_times; [apply array_value|exact N]|reflexivity|]. cbn [map joins]. shapes. reflexivity.
  - reflexivity.
Qed.
Lemma doppler_float k amu T e : aget_doppler_width k amu T (Float e) = numpy_float (bget_doppler_width k amu T e).
Proof. unfold bget_doppler_width, aget_doppler_width. destruct (bzero _); reflexivity. Qed.
Lemma doppler_list k amu T a : aget_doppler_width k amu T (Seq a) = Raise TypeError \/ aget_doppler_width k amu T (Seq a) = Raise ZeroDivisionError.
Proof. unfold aget_doppler_width. destruct (bzero _); auto. Qed.
Lemma temperature_array k w amu E : ~ is_list w -> ~ is_list E -> is_array w \/ is_array E ->
  elementwise (fn2 (fun w E => bget_effective_temperature NumpyFloat k w amu E)) [w; E] (aget_effective_temperature k w amu E).
Proof.
  intros NW NE A.
  assert (W : exists n, value n (Ok w) (Some (shape w)) (el w) /\ (is_array w -> n = true)).
  { destruct w as [b|a|a]; [exists false|exists true|exfalso; apply NW; eexists; reflexivity]; split; try reflexivity; try (apply v_arg, NW); try (apply v_array; eexists; reflexivity).
    intros [? ?]. discriminate. }
  assert (V : exists n, value n (Ok E) (Some (shape E)) (el E) /\ (is_array E -> n = true)).
  { destruct E as [b|a|a]; [exists false|exists true|exfalso; apply NE; eexists; reflexivity]; split; try reflexivity; try (apply v_arg, NE); try (apply v_array; eexists; reflexivity).
    intros [? ?]. discriminate. }
  destruct W as (n & W & Wn), V as (m & V & Vn). eapply v_elementwise.
  - unfold aget_effective_temperature. eapply v_shape.
    + eapply v_over.
      * eapply v_times; [eapply v_times; [eapply v_times; exact W|apply v_float]|apply v_float].
      * eapply v_times; [eapply v_times; [eapply v_times; [eapply v_times; exact V|apply v_int]|apply v_float]|apply v_float].
      * destruct A as [A|A]; [rewrite (Wn A)|rewrite (Vn A)]; [reflexivity|]. cbn. now rewrite orb_true_r.
    + destruct A as [A|A]; [rewrite (Wn A)|rewrite (Vn A)]; [reflexivity|]. cbn. now rewrite orb_true_r.
    + cbn [map joins]. shapes. reflexivity.
  - reflexivity.
Qed.
Lemma temperature_float k w amu E : aget_effective_temperature k (Float w) amu (Float E) = python_float (bget_effective_temperature PythonFloat k w amu E).
Proof. reflexivity. Qed.
Lemma temperature_list k w amu E : is_list w \/ is_list E -> aget_effective_temperature k w amu E = Raise TypeError.
Proof.
  intros [(a & ->)|(a & ->)]; [reflexivity|]. destruct w as [b|b|b]; [reflexivity| |reflexivity].
  pose proof (v_times _ _ _ _ _ _ _ _ (array_value b) (array_value b)) as H. pose proof (v_times _ _ _ _ _ _ _ _ (v_times _ _ _ _ _ _ _ _ H (v_float amu)) (v_float (b_u_MeV k))) as V.
  revert V. shapes. intros [(x & X & _) _]. unfold aget_effective_temperature. unfold over, operator at 1. rewrite X. reflexivity.
Qed.
