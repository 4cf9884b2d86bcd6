(** Vocabulary for binary64 numbers with infinities and nan. *)
From Coq Require Import Reals List ZArith.
From Flocq Require Import Core BinarySingleNaN.
From Verif Require Import Py M_Num M_CrossSection M_Constituents M_Float M_Float4 M_Float8 M_Ieee M_Ieee2.
Import ListNotations.
Open Scope R_scope.

(** The float [b] is the number [x], neither infinite nor nan. *)
Definition rep (b : b64) (x : R) : Prop := is_finite b = true /\ B2R b = x.
Definition finite (b : b64) : Prop := is_finite b = true.
(** An outcome with infinities and nan against one without an upper limit of numbers: the same exceptions, and
    the same number unless it is infinite or nan. *)
Definition reads (o : out b64) (o' : out R) : Prop :=
  match o with
  | Ok b => if is_finite b then o' = Ok (B2R b) else forall e, o' <> Raise e
  | NaN => False
  | Raise e => o' = Raise e
  end.
(** The same with a number. *)
Definition reads_number (o : out b64) (o' : out R) : Prop := exists b x, o = Ok b /\ o' = Ok x /\ rep b x.

(** The same cross sections in both arithmetics. *)
Inductive same_object : bvalue -> value -> Prop :=
  | same_leaf f c : (forall E, finite E -> reads (f E) (l_call c (B2R E))) -> same_object (BLeaf f) (VLeaf c)
  | same_const b r : rep b r -> same_object (BConst b) (VConst r)
  | same_num b r : same_object (BNum b) (VNum r)
  | same_sum rs rs' ss ss' : same_objects rs rs' -> Forall2 rep ss ss' -> same_object (BSum rs ss) (VSum rs' ss')
with same_objects : list bvalue -> list value -> Prop :=
  | same_nil : same_objects [] []
  | same_cons v v' rs rs' : same_object v v' -> same_objects rs rs' -> same_objects (v :: rs) (v' :: rs').

(** At most a power of two. *)
Definition at_most (e : Z) (b : b64) : Prop := finite b /\ Rabs (B2R b) <= bpow radix2 e.

(** The same states and constants in both arithmetics. *)
Definition same_widths (d : dict b64) (d' : dict R) : Prop := Forall2 (fun p p' => fst p = fst p' /\ rep (snd p) (snd p')) d d'.
Definition same_state (b : bstate) (s : state) : Prop :=
  b_J_pi b = st_J_pi s /\ b_two_J b = st_two_J s /\ rep (b_excitation_energy b) (st_excitation_energy s) /\
  match b_decays b, st_decays s with
  | Some (d, w), Some (d', w') => same_widths d d' /\ rep w w'
  | None, None => True
  | _, _ => False
  end.
Definition same_final (b : option bstate) (s : option state) : Prop :=
  match b, s with Some b, Some s => same_state b s | None, None => True | _, _ => False end.
Definition same_constants (b : bconstants) (k : constants) : Prop :=
  rep (b_hbarc b) (k_hbarc k) /\ rep (b_u_MeV b) (k_u_MeV k) /\ rep (b_kB_eV b) (k_kB_eV k).
(** Library functions of both arithmetics give the same numbers: squares up to [2 ^ 1000], the exponential function
    of numbers up to 0, of which the limit at minus infinity is 0. *)
Definition same_clib (L : blib) (c : clib) : Prop :=
  (forall b x, rep b x -> Rabs (c_square c x) <= 2 ^ 1000 -> rep (b_square L b) (c_square c x)) /\
  (forall b x, rep b x -> x <= 0 -> rep (b_exp L b) (c_exp c x)) /\
  b_exp L (B754_infinity true) = of_Z 0.
(** For the pseudo-Voigt distribution: powers of numbers with moderate exponents, and the logarithm of 2. *)
Definition same_pvlib (L : blib) (V : pvlib) : Prop :=
  same_clib L (v_c V) /\ rep (b_log L (of_Z 2)) (v_log V 2) /\
  (forall b x b' y, rep b x -> rep b' y -> / 2 ^ 400 <= x <= 2 ^ 400 -> 0 < y < 1 -> rep (b_pow L b b') (v_pow V x y)).

(** The float nearest to a number, and library functions that round correctly. *)
Definition of_R (x : R) : b64 :=
  binary_normalize 53 1024 prec_53 emax_1024 mode_NE (Ztrunc (scaled_mantissa radix2 fexp64 (rnd x))) (cexp radix2 fexp64 (rnd x)) false.
Definition correct_blib : blib :=
  {| b_square := fun x => bmul x x;
     b_exp := fun x => match x with B754_infinity true => of_Z 0 | _ => of_R (exp (B2R x)) end;
     b_log := fun x => of_R (ln (B2R x));
     b_pow := fun x y => of_R (Rpower (B2R x) (B2R y)) |}.
Definition of_state (s : state) : bstate :=
  {| b_J_pi := st_J_pi s; b_two_J := st_two_J s; b_excitation_energy := of_R (st_excitation_energy s);
     b_decays := option_map (fun p => (map (fun g => (fst g, of_R (snd g))) (fst p), of_R (snd p))) (st_decays s) |}.
Definition of_constants (k : constants) : bconstants :=
  {| b_hbarc := of_R (k_hbarc k); b_u_MeV := of_R (k_u_MeV k); b_kB_eV := of_R (k_kB_eV k) |}.
