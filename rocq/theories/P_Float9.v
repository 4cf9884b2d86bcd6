(** C98: attenuation coefficients that are read from files into floats. *)
From Coq Require Import Reals String List ZArith Lra Lia.
From Verif Require Import Py PyNum M_Num M_Readers M_Constituents M_Xrmac M_XrmacTables M_Float M_Float7 M_Float9 S_Float S_Float7 S_Float9 S_Decimal S_Natural S_Readers S_Elements S_XrmacTables
  L_XrmacData L_XrmacSupplied L_Float26 L_Float35 L_Float38 L_Float39 L_Float40 D_Elements D_Densities.
Import ListNotations.
Open Scope string_scope.
Open Scope R_scope.

(** Numbers with up to 15 digits keep their order when they are read. *)
Theorem C98_order : forall a b x y, significant 15 a -> significant 15 b -> ordinary a -> ordinary b -> worth a x -> worth b y -> x < y ->
  exists x' y', fnum a = Ok x' /\ fnum b = Ok y' /\ x' < y'.
Proof. exact order_kept. Qed.
(** Numbers with 17 digits need not: two energies become an absorption edge. *)
Theorem C98_order_refuted : exists a b x y v, significant 17 a /\ significant 17 b /\ ordinary a /\ ordinary b /\ worth a x /\ worth b y /\ x < y /\
  fnum a = Ok v /\ fnum b = Ok v.
Proof. exact order_refuted. Qed.

(** Reading a table changes the interpolated coefficients by a small relative error. *)
Theorem C98_reading : forall g k M S minval data' data E, llib_ok g -> 1 <= k <= 1000 -> 1 <= M <= 99 -> 0 <= S -> (1 + S) * M <= 2 ^ 29 ->
  read_table k data' data -> decimal_table M S data -> data <> [] -> (minval <= List.length data)%nat ->
  E = 0 \/ S_Float7.digits 100 E -> not_below_edge data E ->
  exists o o' v V, XRMAC minval data = Ok o /\ finterpolate_log_log g minval data' = Ok o' /\ xrmac_call o E = Ok V /\ fxrmac_call g o' E = Ok v /\
    0 < V /\ Rabs (v - V) <= (1 + S) * (104 * M + 4 * k) * unit_roundoff * V.
Proof. exact read_call. Qed.

(** Atomic masses, from the masses and abundances of the isotopes. *)
Theorem C98_mass : forall n t e m, (n <= 100)%nat -> ordinary_element n e -> orders t -> has_mass e m ->
  exists m', fmass t e = Ok m' /\ roundings (INR n + 4) m' m.
Proof. exact (fun n t e m Hn He Ht Hm => let (m', H) := mass_read n t e m Hn He Ht Hm in ex_intro _ m' (conj (proj1 H) (proj1 (proj2 H)))). Qed.

(** The loop that creates both dictionaries: same keys, same lines, rounded numbers; it does not raise an exception. *)
Theorem C98_module : forall l minval n t sq amc file X els g cm2 fm2, (n <= 100)%nat -> orders t -> conversion_factors sq amc ->
  (forall x e, dget els x = Some e -> ordinary_element n e) ->
  (forall z, In z xrmac_Z -> forall rows, read_nist_xrmac Ok Ok (file z) = Ok rows -> List.Forall ordinary_row rows) ->
  xrmac_module minval amc file X els = Ok (g, cm2, fm2) ->
  exists fcm2 ffm2, fxrmac_module l minval t sq amc file X els = Ok (g, fcm2, ffm2) /\ dkeys fcm2 = dkeys cm2 /\ dkeys ffm2 = dkeys fm2 /\
    (forall x o, dget cm2 x = Some o -> exists o', dget fcm2 x = Some o' /\ read_object l minval 1 o' o) /\
    (forall x o, dget fm2 x = Some o -> exists o', dget ffm2 x = Some o' /\ read_object l minval (INR n + 15) o' o).
Proof. exact module_read. Qed.
(** Calls of such objects. *)
Theorem C98_calls : forall l minval k M S o' o E, llib_ok l -> 1 <= k <= 1000 -> 1 <= M <= 99 -> 0 <= S -> (1 + S) * M <= 2 ^ 29 ->
  read_object l minval k o' o -> decimal_table M S (map fst (xo_data o)) -> xo_data o <> [] -> (minval <= List.length (xo_data o))%nat ->
  E = 0 \/ S_Float7.digits 100 E -> not_below_edge (map fst (xo_data o)) E ->
  exists v V, xrmac_object_call o E = Ok V /\ fxrmac_object_call l o' E = Ok v /\ 0 < V /\
    Rabs (v - V) <= (1 + S) * (104 * M + 4 * k) * unit_roundoff * V.
Proof. exact object_calls. Qed.

(** The supplied files: all coefficients are accurate to eleven digits. *)
Theorem C98_supplied : forall l minval t sq amc X els, llib_ok l -> (minval <= 10)%nat -> orders t -> conversion_factors sq amc ->
  read_nist_element_symbols elements_txt = Ok X -> make_natural_elements elements_txt element_densities_txt = Ok els ->
  exists g cm2 fm2 fcm2 ffm2, xrmac_module minval amc supplied_xrmac X els = Ok (g, cm2, fm2) /\
    fxrmac_module l minval t sq amc supplied_xrmac X els = Ok (g, fcm2, ffm2) /\
    (forall x, In x xrmac_symbols -> exists o o', dget cm2 x = Some o /\ dget fcm2 x = Some o' /\
       forall E, E = 0 \/ S_Float7.digits 100 E -> not_below_edge (map fst (xo_data o)) E ->
       exists v V, xrmac_object_call o E = Ok V /\ fxrmac_object_call l o' E = Ok v /\ 0 < V /\ Rabs (v - V) <= 5 / 10 ^ 12 * V) /\
    (forall x, In x xrmac_symbols -> ~ In x massless -> exists o o', dget fm2 x = Some o /\ dget ffm2 x = Some o' /\
       forall E, E = 0 \/ S_Float7.digits 100 E -> not_below_edge (map fst (xo_data o)) E ->
       exists v V, xrmac_object_call o E = Ok V /\ fxrmac_object_call l o' E = Ok v /\ 0 < V /\ Rabs (v - V) <= 11 / 10 ^ 12 * V).
Proof. exact supplied_read. Qed.

(** *** Non-vacuity *)
Example C98_ex_order : significant 15 (Fin 13059 (-7)) /\ significant 15 (Fin 15 (-4)) /\ ordinary (Fin 13059 (-7)) /\ ordinary (Fin 15 (-4)).
Proof. exact (conj eq_refl (conj eq_refl (conj (ordb_ok (Fin 13059 (-7)) eq_refl) (ordb_ok (Fin 15 (-4)) eq_refl)))). Qed.
(** Addition from left to right, and the constants of CODATA 2018. *)
Example C98_ex_factors : llib_ok correct_llib /\ orders from_left /\ conversion_factors (M_Float.rnd (10 ^ 26)) (M_Float.rnd (166053906660 / 10 ^ 38)).
Proof. exact (conj correct_llib_ok (conj from_left_orders factors_ex)). Qed.
(** The supplied elements and files meet all hypotheses. *)
Example C98_ex_elements : forall els, make_natural_elements elements_txt element_densities_txt = Ok els ->
  forall x e, dget els x = Some e -> ordinary_element 10 e /\ forall m, has_mass e m -> m = 0 \/ 1 <= m <= 300.
Proof. exact supplied_elements. Qed.
Example C98_ex_files : forall z, In z xrmac_Z -> forall rows data, read_nist_xrmac Ok Ok (supplied_xrmac z) = Ok rows -> Forall2 row_worth rows data ->
  List.Forall ordinary_row rows /\ decimal_table 5 82 (map fst data).
Proof. exact supplied_decimal. Qed.
(** Energies above all edges are allowed. *)
Example C98_ex_energies : forall data E, List.Forall (fun p : R * R => fst p <= E) data -> not_below_edge data E.
Proof. exact above_all. Qed.
Print Assumptions C98_order.
Print Assumptions C98_order_refuted.
Print Assumptions C98_reading.
Print Assumptions C98_mass.
Print Assumptions C98_module.
Print Assumptions C98_calls.
Print Assumptions C98_supplied.
