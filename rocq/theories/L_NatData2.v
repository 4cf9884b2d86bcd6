(** The supplied Debye temperatures. *)
From Coq Require Import Reals Ascii String List ZArith Bool Lia Lra.
From Verif Require Import Py PyStr PyNum M_Readers M_Constituents S_Readers S_Elements S_Decimal S_Natural L_Decimal L_Density L_Density2 L_DensityData L_Nist L_Nist3 L_NistData L_Nist4 L_Natural L_NatData D_Elements D_Densities D_Debye.
Import ListNotations.
Open Scope string_scope.

(** ** Debye temperatures (C22) *)
Definition in_symbols (X : string) : bool := existsb (String.eqb X) symbols.
Lemma in_symbols_iff X : in_symbols X = true <-> In X symbols.
Proof.
  unfold in_symbols. generalize symbols. intros l. rewrite existsb_exists. split; [intros (y & I & E); apply String.eqb_eq in E; now subst|].
  intros I. exists X. split; [exact I|apply String.eqb_refl].
Qed.
Definition debye_strange : list string := map fst (filter (fun kv => negb (in_symbols (fst kv))) room_temperature_T_D).
Lemma debye_strange_eq : debye_strange = ["Ma"; "Va"].
Proof. vm_compute. reflexivity. Qed.
Lemma debye_gen (l : list (string * option Z)) X : In X (map fst l) -> (~ In X symbols <-> In X (map fst (filter (fun kv => negb (in_symbols (fst kv))) l))).
Proof.
  intros I. rewrite <- in_symbols_iff. generalize dependent in_symbols. intros f. apply in_map_iff in I. destruct I as ([k v] & E & I). cbn in E. subst k. split.
  - intros N. apply in_map_iff. exists (X, v). split; [reflexivity|]. apply filter_In. split; [exact I|]. cbn. destruct (f X); [now exfalso; apply N|reflexivity].
  - intros H N. apply in_map_iff in H. destruct H as ([k w] & E & H). cbn in E. subst k. apply filter_In in H. destruct H as [_ H]. cbn in H. rewrite N in H. discriminate.
Qed.
Lemma debye_keys X : In X (map fst room_temperature_T_D) -> (~ In X symbols <-> In X ["Ma"; "Va"]).
Proof. rewrite <- debye_strange_eq. apply debye_gen. Qed.
Lemma debye_values_gen (l : list (string * option Z)) : forallb (fun kv => match snd kv with Some t => (0 <? t)%Z | None => true end) l = true ->
  forall X t, In (X, Some t) l -> (0 < t)%Z.
Proof. intros H X t I. rewrite forallb_forall in H. specialize (H _ I). now apply Z.ltb_lt. Qed.
Lemma debye_values X t : In (X, Some t) room_temperature_T_D -> (0 < t)%Z.
Proof. apply debye_values_gen. vm_compute. reflexivity. Qed.
Lemma debye_refuted : ~ forall X, In X (map fst room_temperature_T_D) -> In X symbols.
Proof.
  intros H. assert (I : In "Ma" (map fst room_temperature_T_D)).
  { apply (nth_error_In _ 39). vm_compute. reflexivity. }
  apply (debye_keys "Ma" I); [now left|]. now apply H.
Qed.
