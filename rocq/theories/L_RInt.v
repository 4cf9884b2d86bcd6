(** Integration lemmas specialised to real functions. *)
From Coq Require Import Reals List Lia Lra.
From Coquelicot Require Import Coquelicot.
Open Scope R_scope.

Lemma ex_RInt_left (f : R -> R) a b c : a <= b <= c -> ex_RInt f a c -> ex_RInt f a b.
Proof. intros; now apply (ex_RInt_Chasles_1 (V := R_CompleteNormedModule) f a b c). Qed.
Lemma ex_RInt_right (f : R -> R) a b c : a <= b <= c -> ex_RInt f a c -> ex_RInt f b c.
Proof. intros; now apply (ex_RInt_Chasles_2 (V := R_CompleteNormedModule) f a b c). Qed.
Lemma ex_RInt_join (f : R -> R) a b c : ex_RInt f a b -> ex_RInt f b c -> ex_RInt f a c.
Proof. intros; now apply (ex_RInt_Chasles (V := R_NormedModule) f a b c). Qed.
Lemma RInt_join (f : R -> R) a b c : ex_RInt f a b -> ex_RInt f b c ->
  RInt f a b + RInt f b c = RInt f a c.
Proof. intros; now apply (RInt_Chasles (V := R_CompleteNormedModule) f a b c). Qed.
Lemma RInt_const_R (c a b : R) : RInt (fun _ => c) a b = c * (b - a).
Proof. rewrite RInt_const. unfold scal; simpl. unfold mult; simpl. ring. Qed.
Lemma RInt_point_R (f : R -> R) a : RInt f a a = 0.
Proof. apply (RInt_point (V := R_CompleteNormedModule)). Qed.
Lemma ex_RInt_cont (f : R -> R) a b : (forall x, continuous f x) -> ex_RInt f a b.
Proof. intros; apply (ex_RInt_continuous (V := R_CompleteNormedModule)); auto. Qed.
Lemma RInt_deriv (F f : R -> R) a b :
  (forall x, Rmin a b <= x <= Rmax a b -> is_derive F x (f x)) ->
  (forall x, Rmin a b <= x <= Rmax a b -> continuous f x) ->
  is_RInt f a b (F b - F a).
Proof. intros. now apply (is_RInt_derive (V := R_CompleteNormedModule) F f a b). Qed.
Lemma RInt_val (f : R -> R) a b I : is_RInt f a b I -> RInt f a b = I.
Proof. apply (is_RInt_unique (V := R_CompleteNormedModule)). Qed.
Lemma RInt_scal_R (f : R -> R) c a b : ex_RInt f a b -> RInt (fun x => c * f x) a b = c * RInt f a b.
Proof. intros. now apply (RInt_scal (V := R_CompleteNormedModule)). Qed.
Lemma RInt_plus_R (f g : R -> R) a b : ex_RInt f a b -> ex_RInt g a b ->
  RInt (fun x => f x + g x) a b = RInt f a b + RInt g a b.
Proof. intros. now apply (RInt_plus (V := R_CompleteNormedModule)). Qed.
Lemma RInt_minus_R (f g : R -> R) a b : ex_RInt f a b -> ex_RInt g a b ->
  RInt (fun x => f x - g x) a b = RInt f a b - RInt g a b.
Proof. intros. now apply (RInt_minus (V := R_CompleteNormedModule)). Qed.
Lemma is_derive_cont (f : R -> R) x l : is_derive f x l -> continuous f x.
Proof. intros. apply (ex_derive_continuous (V := R_NormedModule)). eexists; eauto. Qed.
Lemma RInt_comp_lin_R (f : R -> R) u v a b : ex_RInt f (u * a + v) (u * b + v) ->
  RInt (fun y => u * f (u * y + v)) a b = RInt f (u * a + v) (u * b + v).
Proof. intros. now apply (RInt_comp_lin (V := R_CompleteNormedModule) f u v a b). Qed.
Lemma RInt_ext_R (f g : R -> R) a b : (forall x, Rmin a b < x < Rmax a b -> f x = g x) -> RInt f a b = RInt g a b.
Proof. apply (RInt_ext (V := R_CompleteNormedModule)). Qed.
