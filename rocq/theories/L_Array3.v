(** Proofs about Klein-Nishina cross sections of arrays, lists and floats. *)
From Coq Require Import List ZArith Bool Arith Lia.
From Flocq Require Import Core BinarySingleNaN.
From Verif Require Import Py M_Num M_Ieee M_Ieee2 M_Ieee3 M_Array S_Ieee S_Ieee3 S_Array L_Array L_Array2 L_Ieee10 L_Ieee12.
Import ListNotations.

Ltac build :=
  match goal with
  | H : value _ ?v _ _ |- value _ ?v _ _ => exact H
  | |- value _ (plus _ _) _ _ => eapply v_plus; build
  | |- value _ (minus _ _) _ _ => eapply v_minus; build
  | |- value _ (times _ _) _ _ => eapply v_times; build
  | H : bzero ?m = false |- value _ (over _ (float ?m)) _ _ => eapply v_over_float; [build|exact H]
  | |- value _ (over _ _) _ _ => eapply v_over; [build|build|reflexivity]
  | |- value _ (squared _ _) _ _ => eapply v_squared; [build|reflexivity]
  | |- value _ (cubed_m _ _) _ _ => eapply v_cubed_m; [build|reflexivity]
  | |- value _ (ufunc _ (Ok _)) _ _ => eapply v_ufunc_arg
  | |- value _ (ufunc _ _) _ _ => eapply v_ufunc; build
  | |- value _ (float _) _ _ => apply v_float
  | |- value _ (int _) _ _ => apply v_int
  end.
Ltac shapes := rewrite ?ojoin_nil_l, ?ojoin_nil_r, ?ojoin_assoc, ?ojoin_idem, ?ojoin_idem_l.

(** *** Elementwise *)
Lemma total_elementwise L c a : elementwise (fn1 (bkn_cs_total NumpyFloat L c)) [Nd a] (akn_cs_total L c (Nd a)).
Proof.
  assert (A : value true (Ok (Nd a)) (Some (shape (Nd a))) (el (Nd a))) by (apply v_array; eexists; reflexivity).
  unfold akn_cs_total. eapply v_elementwise.
  - eapply v_bind.
    + eapply v_over; [exact A|build|reflexivity].
    + intros x s Hs X. cbv beta zeta. eapply v_shape; [build|reflexivity|]. rewrite ojoin_nil_r in Hs. injection Hs as <-. cbn [map joins]. shapes. reflexivity.
    + rewrite ojoin_nil_r. discriminate.
  - intros i. cbn [map]. reflexivity.
Qed.
Definition ratio_at (L : klib) (me e x : b64) : b64 := bquo (of_Z 1) (badd (of_Z 1) (bmul (bquo e me) (bsub (of_Z 1) (k_cos L x)))).
Section Mass.
Variable (L : klib) (me : b64) (c : bkn).
Hypothesis Z : bzero me = false.
Lemma ratio_value E T : ~ is_list E -> value true (akn_Ep_over_E L me E T) (ojoin (Some (shape E)) (Some (shape T))) (fun i => ratio_at L me (el E i) (el T i)).
Proof.
  intros N. pose proof (v_arg E N) as A. unfold akn_Ep_over_E. eapply v_shape; [build|reflexivity|]. shapes. reflexivity.
Qed.
Lemma ratio_elementwise E T : ~ is_list E ->
  elementwise (fn2 (bkn_Ep_over_E NumpyFloat L me)) [E; T] (akn_Ep_over_E L me E T).
Proof.
  intros N. eapply v_elementwise; [eapply v_shape; [apply ratio_value, N|reflexivity|]|].
  - cbn [map joins]. shapes. reflexivity.
  - intros i. reflexivity.
Qed.
Lemma edge_elementwise E : ~ is_list E ->
  elementwise (fn1 (bkn_compton_edge NumpyFloat L me)) [E] (akn_compton_edge L me E).
Proof.
  intros N. pose proof (v_arg E N) as A. pose proof (ratio_value E (Float bpi) N) as R. unfold akn_compton_edge. eapply v_elementwise.
  - eapply v_shape; [eapply v_times; [exact R|exact A]|reflexivity|]. cbn [map joins]. change (shape (Float bpi)) with (@nil nat). shapes. reflexivity.
  - intros i. reflexivity.
Qed.
Definition polarized_at e x p := let r := ratio_at L me e x in
  bmul (bmul (bmul (bmul (literal 1 2) (bk_scale_factor c)) r) r)
       (bsub (badd r (bquo (of_Z 1) r)) (bmul (bmul (of_Z 2) (k_square L (k_sin L x))) (k_square L (k_cos L p)))).
Lemma polarized_value E T P : ~ is_list E ->
  value true (akn_cs_diff_dOmega L me c E T P) (joins [shape E; shape T; shape P]) (fun i => polarized_at (el E i) (el T i) (el P i)).
Proof.
  intros N. unfold akn_cs_diff_dOmega. eapply v_bind; [apply ratio_value, N| |].
  - intros r s Hs R. cbv beta zeta. eapply v_shape; [build|reflexivity|]. rewrite <- Hs. cbn [joins]. shapes. 
    rewrite ?(ojoin_left_comm (Some (shape T)) (Some (shape E))). shapes. reflexivity.
  - intros H. cbn [joins]. rewrite <- ojoin_assoc, H. reflexivity.
Qed.
Lemma polarized_elementwise E T P : ~ is_list E ->
  elementwise (fn3 (bkn_cs_diff_dOmega NumpyFloat L me c)) [E; T; P] (akn_cs_diff_dOmega L me c E T P).
Proof. intros N. eapply v_elementwise; [apply polarized_value, N|]. intros i. reflexivity. Qed.
Definition unpolarized_at e x := let r := ratio_at L me e x in
  bmul (bmul (bmul (bmul bpi (bk_scale_factor c)) r) r) (bsub (badd r (bquo (of_Z 1) r)) (k_square L (k_sin L x))).
Lemma unpolarized_value E T : ~ is_list E ->
  value true (akn_cs_diff_dOmega_unpolarized L me c E T) (joins [shape E; shape T]) (fun i => unpolarized_at (el E i) (el T i)).
Proof.
  intros N. unfold akn_cs_diff_dOmega_unpolarized. eapply v_bind; [apply ratio_value, N| |].
  - intros r s Hs R. cbv beta zeta. eapply v_shape; [build|reflexivity|]. rewrite <- Hs. cbn [joins]. shapes.
    rewrite ?(ojoin_left_comm (Some (shape T)) (Some (shape E))). shapes. reflexivity.
  - intros H. cbn [joins]. rewrite <- ojoin_assoc, H. reflexivity.
Qed.
Lemma unpolarized_elementwise E T : ~ is_list E ->
  elementwise (fn2 (bkn_cs_diff_dOmega_unpolarized NumpyFloat L me c)) [E; T] (akn_cs_diff_dOmega_unpolarized L me c E T).
Proof. intros N. eapply v_elementwise; [apply unpolarized_value, N|]. intros i. reflexivity. Qed.
Lemma dtheta_elementwise E T : ~ is_list E ->
  elementwise (fn2 (bkn_cs_diff_dtheta NumpyFloat L me c)) [E; T] (akn_cs_diff_dtheta L me c E T).
Proof.
  intros N. pose proof (unpolarized_value E T N) as U. unfold akn_cs_diff_dtheta. eapply v_elementwise.
  - eapply v_shape; [build|reflexivity|]. cbn [map joins]. shapes. rewrite ?(ojoin_left_comm (Some (shape T)) (Some (shape E))). shapes. reflexivity.
  - intros i. reflexivity.
Qed.

(** *** Scattering angles and energy-differential cross sections: at least one array *)
Definition theta_at e ep := k_acos L (bsub (of_Z 1) (bquo (bmul (bsub (bquo e ep) (of_Z 1)) me) e)).
Lemma mixed_over E Ep : ~ (is_list E /\ ~ is_array Ep) -> ~ (is_list Ep /\ ~ is_array E) -> is_array E \/ is_array Ep ->
  value true (over (Ok E) (Ok Ep)) (ojoin (Some (shape E)) (Some (shape Ep))) (fun i => bquo (el E i) (el Ep i)).
Proof.
  intros N1 N2 H.
  assert (A : forall E Ep : arg, is_array E \/ is_array Ep -> 
    over (Ok E) (Ok Ep) = (let! q := nd_map2 bquo (asarray E) (asarray Ep) in Ok (Nd q))%py).
  { intros X Y [[a ->]|[a ->]]; [reflexivity|]. destruct X; reflexivity. }
  rewrite A by exact H. unfold nd_map2. fold (shape E) (shape Ep). cbn [ojoin]. destruct (join_shape (shape E) (shape Ep)) as [u|] eqn:J.
  - cbn [bind]. split; [|intros _; exact I]. eexists. split; [reflexivity|]. split; [reflexivity|]. intros i. cbn [nd_at].
    rewrite (stretch_below (shape E) u) by exact (join_below_l _ _ _ J). rewrite (stretch_below (shape Ep) u) by exact (join_below_r _ _ _ J). reflexivity.
  - split; [reflexivity|intros _; exact I].
Qed.
Lemma over_any v S g E : value true v S g -> value true (over v (Ok E)) (ojoin S (Some (shape E))) (fun i => bquo (g i) (el E i)).
Proof.
  intros [V N]. specialize (N eq_refl). destruct S as [s|].
  - destruct V as (x & -> & X). destruct x as [b|a|a]; try contradiction N. destruct X as [X X'].
    pose proof (mixed_over (Nd a) E) as M.
    assert (AA : is_array (Nd a)) by (eexists; reflexivity).
    specialize (M ltac:(intros [[? ?] _]; discriminate) ltac:(intros [_ MM]; apply MM, AA) (or_introl AA)).
    change (shape (Nd a)) with (nd_shape a) in M. rewrite X in M. destruct M as [M1 M2]. split; [|exact M2].
    eapply holds_ext; [exact M1|]. intros i. cbn beta. f_equal. rewrite X'. unfold el. change (shape (Nd a)) with (nd_shape a). rewrite X. reflexivity.
  - cbn in V. subst v. split; [reflexivity|intros _; exact I].
Qed.
Lemma theta_value E Ep : is_array E \/ is_array Ep ->
  value true (akn_theta L me E Ep) (joins [shape E; shape Ep]) (fun i => theta_at (el E i) (el Ep i)).
Proof.
  intros H. unfold akn_theta.
  assert (M : value true (over (Ok E) (Ok Ep)) (ojoin (Some (shape E)) (Some (shape Ep))) (fun i => bquo (el E i) (el Ep i))).
  { apply mixed_over; [| |exact H]; intros [[a ->] K]; apply K; destruct H as [[b H]|[b H]]; try discriminate H; eexists; exact H. }
  assert (Q : value true (times (minus (over (Ok E) (Ok Ep)) (int 1)) (float me)) (ojoin (Some (shape E)) (Some (shape Ep)))
    (fun i => bmul (bsub (bquo (el E i) (el Ep i)) (of_Z 1)) me)).
  { eapply v_shape; [build|reflexivity|]. shapes. reflexivity. }
  apply (over_any _ _ _ E) in Q. eapply v_shape; [build|reflexivity|]. cbn [joins]. shapes. rewrite ?(ojoin_left_comm (Some (shape Ep)) (Some (shape E))), ?(ojoin_comm (Some (shape Ep)) (Some (shape E))).
  shapes. reflexivity.
Qed.
Lemma theta_elementwise E Ep : is_array E \/ is_array Ep ->
  elementwise (fn2 (bkn_theta NumpyFloat L me)) [E; Ep] (akn_theta L me E Ep).
Proof. intros H. eapply v_elementwise; [apply theta_value, H|]. intros i. reflexivity. Qed.
Lemma over_squared n v S g Ep : value n v S g -> n = true -> ~ is_list Ep ->
  value true (over v (times (Ok Ep) (Ok Ep))) (ojoin S (Some (shape Ep))) (fun i => bquo (g i) (bmul (el Ep i) (el Ep i))).
Proof.
  intros V -> N. pose proof (v_arg Ep N) as A. eapply v_shape; [eapply v_over; [exact V| |reflexivity]; eapply v_times; exact A|reflexivity|]. shapes. reflexivity.
Qed.
Lemma theta_found v S g (k : arg -> out arg) T (h : list nat -> b64 -> b64) : value true v S g ->
  (forall a, value true (k a) (ojoin T (Some (shape a))) (fun i => h i (el a i))) ->
  value true (bind v k) (ojoin T S) (fun i => h i (g i)).
Proof.
  intros V K. eapply v_bind; [exact V| |].
  - intros a s -> A. destruct A as [(y & Y & W) N]. injection Y as <-. specialize (N eq_refl). destruct a as [b|a|a]; try contradiction N. destruct W as [W W'].
    specialize (K (Nd a)). change (shape (Nd a)) with (nd_shape a) in K. rewrite W in K. destruct K as [K1 K2]. split; [|exact K2].
    eapply holds_ext; [exact K1|]. intros i. cbn beta. f_equal. unfold el. change (shape (Nd a)) with (nd_shape a). rewrite W. symmetry. apply W'.
  - intros ->. destruct T; reflexivity.
Qed.
Lemma dEp_value E Ep : ~ is_list E -> ~ is_list Ep -> is_array E \/ is_array Ep ->
  value true (akn_cs_diff_dEp L me c E Ep) (joins [shape E; shape Ep])
    (fun i => bquo (bmul (unpolarized_at (el E i) (theta_at (el E i) (el Ep i))) me) (bmul (el Ep i) (el Ep i))).
Proof.
  intros N1 N2 H. unfold akn_cs_diff_dEp.
  assert (B : value true (bind (akn_theta L me E Ep) (fun a => akn_cs_diff_dOmega_unpolarized L me c E a)) (ojoin (Some (shape E)) (joins [shape E; shape Ep]))
    (fun i => unpolarized_at (el E i) (theta_at (el E i) (el Ep i)))).
  { refine (theta_found _ _ _ _ _ (fun i t => unpolarized_at (el E i) t) (theta_value E Ep H) _). intros a. eapply v_shape; [apply unpolarized_value, N1|reflexivity|]. cbn [joins]. shapes. reflexivity. }
  eapply v_shape; [eapply over_squared; [build|reflexivity|exact N2]|reflexivity|]. cbn [joins]. shapes. reflexivity.
Qed.
Lemma dEp_elementwise E Ep : ~ is_list E -> ~ is_list Ep -> is_array E \/ is_array Ep ->
  elementwise (fn2 (bkn_cs_diff_dEp NumpyFloat L me c)) [E; Ep] (akn_cs_diff_dEp L me c E Ep).
Proof. intros N1 N2 H. eapply v_elementwise; [apply dEp_value; assumption|]. intros i. reflexivity. Qed.
Lemma dEp_dphi_value E Ep P : ~ is_list E -> ~ is_list Ep -> is_array E \/ is_array Ep ->
  value true (akn_cs_diff_dEp_dphi L me c E Ep P) (joins [shape E; shape Ep; shape P])
    (fun i => bquo (bmul (polarized_at (el E i) (theta_at (el E i) (el Ep i)) (el P i)) me) (bmul (el Ep i) (el Ep i))).
Proof.
  intros N1 N2 H. unfold akn_cs_diff_dEp_dphi.
  assert (B : value true (bind (akn_theta L me E Ep) (fun a => akn_cs_diff_dOmega L me c E a P)) (ojoin (ojoin (Some (shape E)) (Some (shape P))) (joins [shape E; shape Ep]))
    (fun i => polarized_at (el E i) (theta_at (el E i) (el Ep i)) (el P i))).
  { refine (theta_found _ _ _ _ _ (fun i t => polarized_at (el E i) t (el P i)) (theta_value E Ep H) _). intros a. eapply v_shape; [apply polarized_value, N1|reflexivity|]. cbn [joins]. shapes.
    now rewrite (ojoin_comm (Some (shape a))). }
  eapply v_shape; [eapply over_squared; [build|reflexivity|exact N2]|reflexivity|]. cbn [joins]. shapes.
  rewrite ?(ojoin_left_comm (Some (shape P)) (Some (shape E))), ?(ojoin_left_comm (Some (shape P)) (Some (shape Ep))). shapes.
  rewrite ?(ojoin_comm (Some (shape P))). shapes. reflexivity.
Qed.
Lemma dEp_dphi_elementwise E Ep P : ~ is_list E -> ~ is_list Ep -> is_array E \/ is_array Ep ->
  elementwise (fn3 (bkn_cs_diff_dEp_dphi NumpyFloat L me c)) [E; Ep; P] (akn_cs_diff_dEp_dphi L me c E Ep P).
Proof. intros N1 N2 H. eapply v_elementwise; [apply dEp_dphi_value; assumption|]. intros i. reflexivity. Qed.
End Mass.

(** *** Floats *)
Lemma total_float L c e : akn_cs_total L c (Float e) = numpy_float (bkn_cs_total PythonFloat L c e).
Proof.
  unfold akn_cs_total, bkn_cs_total, numpy_float, over, operator, cubed_m, squared, raised, plus, minus, times, float, int, ufunc. cbn [bind].
  destruct (bdivide PythonFloat e (bk_mc2 c)) as [x| |]; cbn [bind]; try reflexivity.
  destruct (bpower_m PythonFloat (k_pow_m3 L) x) as [p| |]; cbn [bind]; try reflexivity.
  cbn [operator bind]. destruct (bpower PythonFloat (k_square L) _) as [s| |]; cbn [bind]; try reflexivity.
  destruct (bdivide PythonFloat _ s) as [q| |]; cbn [bind]; reflexivity.
Qed.
Lemma theta_float L me e ep : akn_theta L me (Float e) (Float ep) = numpy_float (bkn_theta PythonFloat L me e ep).
Proof.
  unfold akn_theta, bkn_theta, numpy_float, over, operator, minus, times, float, int, ufunc. cbn [bind].
  destruct (bdivide PythonFloat e ep) as [x| |]; cbn [bind]; try reflexivity.
  cbn [operator bind]. destruct (bdivide PythonFloat _ e) as [s| |]; cbn [bind]; reflexivity.
Qed.

(** *** Lists *)
Lemma total_list L c a : akn_cs_total L c (Seq a) = Raise TypeError. Proof. reflexivity. Qed.
Lemma ratio_list L me a T : akn_Ep_over_E L me (Seq a) T = Raise TypeError. Proof. reflexivity. Qed.
Lemma energy_lists L me c a T P :
  akn_cs_total L c (Seq a) = Raise TypeError /\ akn_compton_edge L me (Seq a) = Raise TypeError /\
  akn_Ep_over_E L me (Seq a) T = Raise TypeError /\ akn_cs_diff_dOmega L me c (Seq a) T P = Raise TypeError /\
  akn_cs_diff_dOmega_unpolarized L me c (Seq a) T = Raise TypeError /\ akn_cs_diff_dtheta L me c (Seq a) T = Raise TypeError.
Proof. repeat split; reflexivity. Qed.
Lemma asarray_theta L me c E a P : 
  akn_Ep_over_E L me E (Seq a) = akn_Ep_over_E L me E (Nd a) /\
  akn_cs_diff_dOmega L me c E (Seq a) P = akn_cs_diff_dOmega L me c E (Nd a) P /\
  akn_cs_diff_dOmega_unpolarized L me c E (Seq a) = akn_cs_diff_dOmega_unpolarized L me c E (Nd a) /\
  akn_cs_diff_dtheta L me c E (Seq a) = akn_cs_diff_dtheta L me c E (Nd a).
Proof. repeat split; reflexivity. Qed.
(** Scattered energies: a list needs an array as its partner in [theta], and is not accepted in the cross sections. *)
Lemma theta_lists L me E Ep : is_list E \/ is_list Ep -> ~ is_array E -> ~ is_array Ep -> akn_theta L me E Ep = Raise TypeError.
Proof.
  intros H NE NP. destruct E as [e|a|a]; [|exfalso; apply NE; eexists; reflexivity|]; (destruct Ep as [f|b|b]; [|exfalso; apply NP; eexists; reflexivity|]); try reflexivity.
  destruct H as [[? H]|[? H]]; discriminate.
Qed.
Lemma refused_left f g v w : refused v -> refused (operator f g v w). Proof. intros [->| ->]; [left|right]; reflexivity. Qed.
Lemma theta_cases L me E Ep : is_list E \/ is_list Ep -> refused (akn_theta L me E Ep) \/ exists a, akn_theta L me E Ep = Ok (Nd a).
Proof.
  intros H. assert (D : is_array E \/ is_array Ep \/ (~ is_array E /\ ~ is_array Ep)).
  { destruct E; [|left; eexists; reflexivity|]; (destruct Ep; [|right; left; eexists; reflexivity|]); right; right; split; intros [? ?]; discriminate. }
  destruct D as [D|[D|[D1 D2]]]; [| |left; left; now apply theta_lists].
  all: destruct (theta_value L me E Ep ltac:(tauto)) as [V N]; specialize (N eq_refl); destruct (joins _); [destruct V as (x & V & _); rewrite V in N |- *; destruct x; try contradiction N; right; eexists; reflexivity|].
  all: left; right; exact V.
Qed.
Lemma scattered_lists L me c E Ep P : bzero me = false -> is_list E \/ is_list Ep ->
  refused (akn_cs_diff_dEp L me c E Ep) /\ refused (akn_cs_diff_dEp_dphi L me c E Ep P).
Proof.
  intros Z H. unfold akn_cs_diff_dEp, akn_cs_diff_dEp_dphi. destruct (theta_cases L me E Ep H) as [[R|R]|(a & R)]; rewrite R; cbn [bind].
  - split; left; reflexivity.
  - split; right; reflexivity.
  - assert (D : is_list E \/ ~ is_list E). { destruct E; [right|right|left; eexists; reflexivity]; intros [? ?]; discriminate. }
    destruct D as [[e ->]|D]; [split; left; reflexivity|]. destruct H as [H|[p ->]]; [contradiction|]. split.
    1: destruct (unpolarized_value L me c Z E (Nd a) D) as [V _].
    2: destruct (polarized_value L me c Z E (Nd a) P D) as [V _].
    all: match type of V with holds _ ?S _ => destruct S end; [destruct V as (x & -> & X)|cbn in V; rewrite V; right; reflexivity].
    all: destruct x; [| |contradiction X].
    all: try (left; reflexivity).
    all: unfold times at 1, operator at 1, float, nd_map2; cbn [bind]; rewrite join_nil_r; left; reflexivity.
Qed.

(** *** Elements and Python floats *)
Lemma elementwise_by f g xs o : elementwise f xs o -> (forall es v, f es = Ok v -> instead_of_raising (g es) (f es)) -> elementwise_python g xs o.
Proof.
  intros [H|(a & H1 & H2 & H3)] G; [now left|]. right. exists a. split; [exact H1|]. split; [exact H2|]. intros i I. specialize (H3 i I). pose proof (G _ _ H3) as K. now rewrite H3 in K.
Qed.
Lemma total_python L c a : klib_special L -> elementwise_python (fn1 (bkn_cs_total PythonFloat L c)) [Nd a] (akn_cs_total L c (Nd a)).
Proof.
  intros S. eapply elementwise_by; [apply total_elementwise|]. intros es v H. destruct es as [|e [|? ?]]; try discriminate. exact (total_kinds L c e S).
Qed.
Lemma scattered_python L me c E Ep P : klib_special L -> bzero me = false -> ~ is_list E -> ~ is_list Ep -> is_array E \/ is_array Ep ->
  elementwise_python (fn2 (bkn_theta PythonFloat L me)) [E; Ep] (akn_theta L me E Ep) /\
  elementwise_python (fn2 (bkn_cs_diff_dEp PythonFloat L me c)) [E; Ep] (akn_cs_diff_dEp L me c E Ep) /\
  elementwise_python (fn3 (bkn_cs_diff_dEp_dphi PythonFloat L me c)) [E; Ep; P] (akn_cs_diff_dEp_dphi L me c E Ep P).
Proof.
  intros S Z N1 N2 H. split; [|split].
  - eapply elementwise_by; [apply theta_elementwise, H|]. intros es v K. destruct es as [|e [|x [|? ?]]]; try discriminate. cbn [fn2].
    pose proof (theta_kinds L me e x S) as T'. unfold instead_of_raising. destruct (bkn_theta PythonFloat L me e x); auto. destruct T' as [_ ->]. exists B754_nan. split; [reflexivity|discriminate].
  - eapply elementwise_by; [apply dEp_elementwise; assumption|]. intros es v K. destruct es as [|e [|x [|? ?]]]; try discriminate. exact (dEp_kinds L me c e x S Z).
  - eapply elementwise_by; [apply dEp_dphi_elementwise; assumption|]. intros es v K. destruct es as [|e [|x [|p [|? ?]]]]; try discriminate. exact (dEp_dphi_kinds L me c e x p S Z).
Qed.
Lemma angles_elementwise L me c E T P : bzero me = false -> ~ is_list E ->
  elementwise (fn1 (bkn_compton_edge NumpyFloat L me)) [E] (akn_compton_edge L me E) /\
  elementwise (fn2 (bkn_Ep_over_E NumpyFloat L me)) [E; T] (akn_Ep_over_E L me E T) /\
  elementwise (fn3 (bkn_cs_diff_dOmega NumpyFloat L me c)) [E; T; P] (akn_cs_diff_dOmega L me c E T P) /\
  elementwise (fn2 (bkn_cs_diff_dOmega_unpolarized NumpyFloat L me c)) [E; T] (akn_cs_diff_dOmega_unpolarized L me c E T) /\
  elementwise (fn2 (bkn_cs_diff_dtheta NumpyFloat L me c)) [E; T] (akn_cs_diff_dtheta L me c E T).
Proof.
  intros Z N. split; [now apply edge_elementwise|]. split; [now apply ratio_elementwise|]. split; [now apply polarized_elementwise|].
  split; [now apply unpolarized_elementwise|now apply dtheta_elementwise].
Qed.
Lemma energies_elementwise L me c E Ep P : bzero me = false -> ~ is_list E -> ~ is_list Ep -> is_array E \/ is_array Ep ->
  elementwise (fn2 (bkn_cs_diff_dEp NumpyFloat L me c)) [E; Ep] (akn_cs_diff_dEp L me c E Ep) /\
  elementwise (fn3 (bkn_cs_diff_dEp_dphi NumpyFloat L me c)) [E; Ep; P] (akn_cs_diff_dEp_dphi L me c E Ep P).
Proof. intros Z N1 N2 H. split; [now apply dEp_elementwise|now apply dEp_dphi_elementwise]. Qed.
Lemma floats L me c e ep p :
  akn_cs_total L c (Float e) = numpy_float (bkn_cs_total PythonFloat L c e) /\
  akn_theta L me (Float e) (Float ep) = numpy_float (bkn_theta PythonFloat L me e ep) /\
  akn_cs_diff_dEp L me c (Float e) (Float ep) = numpy_float (bkn_cs_diff_dEp PythonFloat L me c e ep) /\
  akn_cs_diff_dEp_dphi L me c (Float e) (Float ep) (Float p) = numpy_float (bkn_cs_diff_dEp_dphi PythonFloat L me c e ep p).
Proof.
  split; [apply total_float|]. split; [apply theta_float|].
  assert (D : forall x, bdivide PythonFloat x me = Ok (bquo x me) \/ bdivide PythonFloat x me = Raise ZeroDivisionError).
  { intros x. unfold bdivide. destruct (bzero me); auto. }
  split.
  - unfold akn_cs_diff_dEp, bkn_cs_diff_dEp. rewrite theta_float. destruct (bkn_theta PythonFloat L me e ep) as [a| |]; try reflexivity. cbn [numpy_float bind].
    unfold akn_cs_diff_dOmega_unpolarized, bkn_cs_diff_dOmega_unpolarized, akn_Ep_over_E, bkn_Ep_over_E, over at 3, operator, float, int, times, plus, minus, ufunc, squared, raised. cbn [bind].
    destruct (D e) as [-> | ->]; reflexivity.
  - unfold akn_cs_diff_dEp_dphi, bkn_cs_diff_dEp_dphi. rewrite theta_float. destruct (bkn_theta PythonFloat L me e ep) as [a| |]; try reflexivity. cbn [numpy_float bind].
    unfold akn_cs_diff_dOmega, bkn_cs_diff_dOmega, akn_Ep_over_E, bkn_Ep_over_E, over, operator, float, int, times, plus, minus, ufunc, squared, raised. cbn [bind].
    destruct (D e) as [-> | ->]; reflexivity.
Qed.

(** *** Examples *)
Lemma vector_column : clash [[2%nat]; [3%nat]] /\ broadcast [[2%nat]; [1%nat; 3%nat]] [2%nat; 3%nat].
Proof.
  split.
  - exists [2%nat], [3%nat], 0%nat. repeat split; cbn; auto; discriminate.
  - apply joins_some. reflexivity.
Qed.
Lemma broadcast_unique ss u : broadcast ss u -> ~ clash ss /\ forall v, broadcast ss v -> v = u.
Proof.
  intros (B1 & B2 & B3 & B4). split.
  - intros (s & t & n & S & T & N1 & N2 & N3). destruct (B1 s n S), (B1 t n T); congruence.
  - intros v (C1 & C2 & C3 & C4).
    assert (L : length v = length u).
    { apply Nat.le_antisymm.
      - destruct C4 as [->|(s & S & <-)]; [cbn; lia|now apply B3].
      - destruct B4 as [->|(s & S & <-)]; [cbn; lia|now apply C3]. }
    apply nth_ext with (d := 1%nat) (d' := 1%nat); [exact L|]. intros n _. change (size v n = size u n).
    destruct (C2 n) as [E|(s & S & E)]; [|destruct (B1 s n S) as [F|F]].
    + destruct (B2 n) as [F|(t & T & F)]; [congruence|]. destruct (C1 t n T) as [G|G]; congruence.
    + destruct (B2 n) as [G|(t & T & G)]; [congruence|]. destruct (C1 t n T) as [K|K]; congruence.
    + congruence.
Qed.
Lemma table_elements e f a b c i : index_of [2; 3]%nat i ->
  element (Nd (vector [e; f])) i = nth (nth 0 i 0%nat) [e; f] (of_Z 0) /\ element (Nd (column [a; b; c])) i = nth (nth 1 i 0%nat) [a; b; c] (of_Z 0).
Proof. intros _. split; reflexivity. Qed.
Lemma table_mass : bzero (of_Z 1) = false /\ ~ is_list (Nd (vector [of_Z 1; of_Z 2])) /\ is_array (Nd (vector [of_Z 1; of_Z 2])).
Proof. split; [vm_compute; reflexivity|]. split; [intros [? ?]; discriminate|eexists; reflexivity]. Qed.
