(** Calls of objects that have been read, and the supplied files. *)
From Coq Require Import Reals Ascii String List ZArith Lra Lia Psatz Bool.
From Flocq Require Import Core.
From Verif Require Import Py PyNum Spec M_Num M_Readers M_Constituents M_Xrmac M_XrmacTables M_Float S_Float M_Float7 M_Float9 S_Decimal S_Natural S_Readers S_Elements S_XrmacTables S_Float7 S_Float9
  L_Decimal L_Natural L_NistData L_NatData L_Xrmac L_XrmacTables L_XrmacData L_XrmacSupplied L_Float L_Float2 L_Float34 L_Float35 L_Float38 D_Xrmac D_Elements D_Densities.
Import ListNotations.
Open Scope R_scope.
Open Scope py_scope.

Lemma object_calls l minval k M S o' o E : llib_ok l -> 1 <= k <= 1000 -> 1 <= M <= 99 -> 0 <= S -> (1 + S) * M <= 2 ^ 29 -> read_object l minval k o' o -> decimal_table M S (map fst (xo_data o)) -> xo_data o <> [] ->
  (minval <= List.length (xo_data o))%nat -> E = 0 \/ S_Float7.digits 100 E -> not_below_edge (map fst (xo_data o)) E ->
  exists v V, xrmac_object_call o E = Ok V /\ fxrmac_object_call l o' E = Ok v /\ 0 < V /\ Rabs (v - V) <= (1 + S) * (104 * M + 4 * k) * unit_roundoff * V.
Proof.
  intros K Hk HM HS HB (F & I1 & I2) D N L HE NB. assert (RT : read_table k (map fst (fo_data o')) (map fst (xo_data o))) by (clear - F; induction F as [|a b la lb (H1 & H2 & _) F IH]; constructor; [split; assumption|exact IH]).
  destruct (read_call l k M S minval _ _ E K Hk HM HS HB RT D) as (i & i' & v & V & E1 & E2 & C1 & C2 & P & B); try assumption; [destruct (xo_data o); [congruence|discriminate]|now rewrite map_length|].
  exists v, V. unfold xrmac_object_call, fxrmac_object_call. rewrite I1, I2, E2. unfold XRMAC in E1. rewrite E1. cbn [bind]. now repeat split.
Qed.

(** ** Tables times a factor *)
Lemma log10_mul x y : 0 < x -> 0 < y -> log10 (x * y) = log10 x + log10 y.
Proof. intros X Y. unfold log10. rewrite ln_mult by assumption. field. assert (0 < ln 10) by (rewrite <- ln_1; apply ln_increasing; lra). lra. Qed.
Lemma scaled_table M N S c data data2 : 0 < c -> Rabs (log10 c) <= N -> 0 <= N -> Forall2 (scaled c) data data2 -> decimal_table M S (map fst data) -> decimal_table (M + N) S (map fst data2).
Proof.
  intros Pc Lc HN F (D1 & D2). split.
  - clear D2. induction F as [|a b l l' (E1 & E2 & _) F IH]; [constructor|]. cbn [map] in D1 |- *. apply List.Forall_cons_iff in D1. destruct D1 as [(P1 & L1 & P2 & L2) D1]. constructor; [|now apply IH].
    rewrite E1, E2. rewrite log10_mul by assumption. split; [exact P1|]. split; [lra|]. split; [now apply Rmult_lt_0_compat|]. eapply Rle_trans; [apply Rabs_triang|]. lra.
  - induction F as [|a b l l' (E1 & E2 & _) F IH]; [exact I|]. cbn [map] in D1, D2. apply List.Forall_cons_iff in D1. destruct D1 as [(P1 & _ & P2 & _) D1].
    destruct F as [|a' b' l l' (E1' & E2' & _) F]; [exact I|]. cbn [map] in D1, D2, IH |- *. destruct D2 as [C D2]. split; [|exact (IH D1 D2)]. apply List.Forall_cons_iff in D1. destruct D1 as [(P1' & _ & P2' & _) _].
    unfold decimal_lines in *. rewrite E1, E1', E2, E2'. rewrite !log10_mul by assumption. replace (log10 (snd (fst a')) + log10 c - (log10 (snd (fst a)) + log10 c)) with (log10 (snd (fst a')) - log10 (snd (fst a))) by ring. exact C.
Qed.

(** ** Checking the files *)
Fixpoint num_pow (v : num) (n : nat) : num := match n with O => Fin 1 0 | Datatypes.S n => num_mul v (num_pow v n) end.
Lemma num_pow_worth v x n : worth v x -> worth (num_pow v n) (x ^ n).
Proof. intros W. induction n as [|n IH]; [cbn; lra|]. cbn [num_pow pow]. now apply num_mul_worth. Qed.
Definition slope (n : nat) (e0 c0 e1 c1 : num) : bool :=
  (num_le (num_mul c1 (num_pow e0 n)) (num_mul c0 (num_pow e1 n)) && num_le (num_mul c0 (num_pow e0 n)) (num_mul c1 (num_pow e1 n)))%bool.
(** The ratio of the coefficients is at most the first three terms of the power 82 of the ratio of the energies. *)
Definition steep (e0 c0 e1 c1 : num) : bool :=
  num_le (num_add (num_mul c0 (num_mul e0 e0)) (num_mul (Fin 6560 0) (num_mul c1 (num_mul e0 e1)))) (num_mul c1 (num_add (num_mul (Fin 3240 0) (num_mul e0 e0)) (num_mul (Fin 3321 0) (num_mul e1 e1)))).
Definition lines_check (p q : num * num * num) : bool :=
  let e0 := fst (fst p) in let e1 := fst (fst q) in let c0 := snd (fst p) in let c1 := snd (fst q) in
  if num_eqb e0 e1 then true
  else if num_le (num_mul e0 (Fin 100000001 (-8))) e1 then if slope 4 e0 c0 e1 c1 then true else if steep e0 c0 e1 c1 then steep e0 c1 e1 c0 else false
  else false.
Fixpoint lines_checks (rows : list (num * num * num)) : bool := match rows with p :: ((q :: _) as r) => (lines_check p q && lines_checks r)%bool | _ => true end.
Definition between (v : num) : bool := (num_le (Fin 1 (-5)) v && num_le v (Fin 1 5))%bool.
Definition ordb (v : num) : bool := match v with Fin m e => ((m =? 0)%Z || ((0 <? m)%Z && (m <=? 10 ^ 49)%Z && (-99 <=? e)%Z && (e <=? 50)%Z))%bool | _ => false end.
Definition decimal_check (file : string) : bool :=
  match read_nist_xrmac Ok Ok file with
  | Ok rows => (lines_checks rows && forallb (fun r => between (fst (fst r)) && between (snd (fst r)) && ordb (fst (fst r)) && ordb (snd (fst r)) && ordb (snd r)) rows)%bool
  | _ => false
  end.
Lemma decimal_checked : forallb decimal_check xrmac_files = true.
Proof. vm_compute. reflexivity. Qed.

(** ** Checking the elements: only the paragraphs of the file are computed with *)
Definition paragraphs_okb (ps : list paragraph) (zX : Z * string) : bool :=
  let q := of_Z (fst zX) ps in
  ((1 <=? List.length q)%nat && (List.length q <=? 10)%nat && forallb (fun p => ordb (mass_num p) && ordb (count_num p)) q &&
   match amu_num q with Fin m x => ((m =? 0)%Z || (num_le (Fin 1 0) (Fin m x) && num_le (Fin m x) (Fin 3 2))) | _ => false end)%bool.
Definition all_okb (ps : list paragraph) (l : list (Z * string)) : bool := forallb (paragraphs_okb ps) l.
Lemma elements_checked : all_okb supplied_paragraphs elements = true.
Proof. vm_compute. reflexivity. Qed.
