(** * Property theorems: parameters, constraints, priors, gradient driver
      (C27, C28, C46-C51, C73, C74, C75) *)
From Coq Require Import List Arith Bool ZArith Reals Lra Lia Permutation Sorting.Sorted.
From Coquelicot Require Import Coquelicot.
From Verif Require Import M_Prep S_Prep P_Prep M_ParamVal S_ParamVal P_ParamVal M_Prior S_Params P_Prior P_SetFree M_TheoryDefaults P_Grad M_GradNum P_GradNum P_GradX P_GradCover.
Import ListNotations.
Local Open Scope R_scope.

(** ** C73: prepare_params *)
(** For every acyclic set of constraints the elimination loop terminates, and afterwards the
    dependencies of every parameter are exactly the unconstrained parameters it depends on,
    directly or through other constraints, without repetition. *)
Theorem C73_terminates_with_exact_dependencies :
  forall names expr, NoDup names -> acyclic names expr ->
  exists f0 ps, (forall f, (f0 <= f)%nat -> prepare names expr f = Some ps) /\
    (forall n u, In u (deps ps n) <-> depends names expr n u /\ expr u = None) /\
    (forall n, NoDup (deps ps n)).
Proof.
  intros names expr Hn [rank Hr]. destruct (prepare_spec names expr Hn rank Hr) as [f0 [ps [A [B [C _]]]]].
  exists f0, ps. split; [exact A|]. split; [|exact C]. intros n u. rewrite B, con_None. reflexivity.
Qed.
(** The children of an unconstrained parameter are only its direct mentions. *)
Theorem C73_children_are_direct_mentions :
  forall names expr f ps, NoDup names -> acyclic names expr -> prepare names expr f = Some ps ->
  forall c n, kids ps c n = true <-> edge names expr n c /\ expr c = None.
Proof.
  intros names expr f ps Hn Ha Hp c n. destruct (prep_kids names expr Hn Ha f ps Hp) as [A B].
  destruct (expr c) as [l|] eqn:E.
  - rewrite B by (unfold constrained; now rewrite E). split; [discriminate|intros [_ H]; discriminate].
  - rewrite A by (unfold constrained; now rewrite E). tauto.
Qed.
Print Assumptions C73_terminates_with_exact_dependencies.
Example C73_galaxy : exists ps, prepare gal_names gal_expr 20 = Some ps /\
  deps ps 9 = [23; 11; 24; 4; 27; 28]%nat  (* b1: fs, b1_cA, fsB, Nsat_mult, gamma_b1sA, gamma_b1sB *).
Proof. eexists. split; [vm_compute; reflexivity|]. reflexivity. Qed.

(** ** C48: constrained parameters reflect current values *)
(** Any history of assignments and reads, from a freshly prepared set; any constraint functions. *)
Theorem C48_up_to_two_levels_partial :
  forall V names expr, NoDup names -> acyclic names expr ->
  (forall n l, expr n = Some l -> In n names /\ incl l names) ->
  forall f ps, prepare names expr f = Some ps ->
  forall vary (fexp : nat -> list V -> V) clamp fuel ops base0 s n v s' D,
  (forall u, expr u = None -> vary u = true -> clamp u (base0 u) = base0 u) ->
  List.Forall (proper expr vary clamp) ops ->
  vrun expr vary fexp clamp (kids ps) fuel (mkV base0 (fun _ => None)) ops = Some s ->
  getval expr vary fexp clamp (kids ps) fuel s n = Some (v, s') ->
  solves expr fexp clamp (fold_left assigned ops base0) D ->
  two_levels expr n -> v = D n.
Proof. intros V names expr H1 H2 H3 f ps H4 vary fexp clamp fuel ops base0 s n v s' D. exact (@prep_read_fresh names expr H1 H2 H3 f ps H4 V vary fexp clamp fuel ops base0 s n v s' D). Qed.
(** At any depth if the parameters are read in dependency order. *)
Theorem C48_read_in_dependency_order :
  forall V names expr, NoDup names -> acyclic names expr ->
  (forall n l, expr n = Some l -> In n names /\ incl l names) ->
  forall f ps, prepare names expr f = Some ps ->
  forall vary (fexp : nat -> list V -> V) clamp fuel ops base0 s ns vs D,
  (forall u, expr u = None -> vary u = true -> clamp u (base0 u) = base0 u) ->
  List.Forall (proper expr vary clamp) ops ->
  vrun expr vary fexp clamp (kids ps) fuel (mkV base0 (fun _ => None)) ops = Some s ->
  reads expr vary fexp clamp (kids ps) fuel s ns = Some vs ->
  solves expr fexp clamp (fold_left assigned ops base0) D ->
  ordered expr [] ns -> vs = map D ns.
Proof. intros V names expr H1 H2 H3 f ps H4 vary fexp clamp fuel ops base0 s ns vs D. exact (@prep_reads_fresh names expr H1 H2 H3 f ps H4 V vary fexp clamp fuel ops base0 s ns vs D). Qed.
(** In the default galaxy theory (also with the example file's sigma_sB constraint) every model
    parameter, and in the quasar theory every parameter, is covered. *)
Theorem C48_default_theories :
  (forall k, In k gal_model -> two_levels gal_expr k) /\
  (forall k, In k gal_model -> two_levels galx_expr k) /\
  (forall k, In k qso_names -> two_levels qso_expr k).
Proof. exact (conj gal_model_two (conj galx_model_two qso_all_two)). Qed.
(** REFUTED for the derived bias b1 of the galaxy theory: b1 mentions b1_c, which depends on fs
    only through fcB, so assigning fs leaves the old b1_c in the symbol table. *)
Definition zsum (n : nat) (l : list Z) : Z := fold_right Z.add 0%Z l.
Theorem C48_derived_bias_refuted :
  exists ps base ops s v s' D,
    prepare gal_names gal_expr 20 = Some ps /\
    List.Forall (proper gal_expr (fun k => mem k gal_free) (fun _ (v : Z) => v)) ops /\
    vrun gal_expr (fun k => mem k gal_free) zsum (fun _ v => v) (kids ps) 10 (mkV base (fun _ => None)) ops = Some s /\
    getval gal_expr (fun k => mem k gal_free) zsum (fun _ v => v) (kids ps) 10 s 9 = Some (v, s') /\
    solves gal_expr zsum (fun _ v => v) (fold_left assigned ops base) D /\ v <> D 9%nat.
Proof.
  eexists. exists (fun _ => 1%Z), [VGet 9; VSet 23 5%Z]. eexists. eexists. eexists.
  exists (fun n => nth n [2; 1; 14; 15; 1; 2; 1; 1; 1; 24; 14; 1; 6; 5; 2; 2; 25; 2; 1; 1; 1; 1; 7; 5; 1; 2; 1; 1; 1; 1; 1; 1; 1; 1; 1]%Z 1%Z).
  split; [vm_compute; reflexivity|]. split; [repeat constructor|].
  split; [vm_compute; reflexivity|]. split; [vm_compute; reflexivity|]. split; [|vm_compute; discriminate].
  intro n. do 35 (destruct n as [|n]; [vm_compute; reflexivity|]). destruct n; reflexivity.
Qed.
Print Assumptions C48_up_to_two_levels_partial.
Print Assumptions C48_derived_bias_refuted.
Example C48_nonvacuous : exists ps s v s', prepare gal_names gal_expr 20 = Some ps /\
  vrun gal_expr (fun k => mem k gal_free) zsum (fun _ v => v) (kids ps) 10 (mkV (fun _ => 1%Z) (fun _ => None)) [VGet 2; VSet 23 5%Z] = Some s /\
  getval gal_expr (fun k => mem k gal_free) zsum (fun _ v => v) (kids ps) 10 s 2 = Some (v, s') /\ v = 14%Z.
Proof. eexists. eexists. eexists. eexists. split; [vm_compute; reflexivity|]. split; [vm_compute; reflexivity|]. split; vm_compute; reflexivity. Qed.

(** ** C46: within_bounds is finiteness of the prior *)
Theorem C46_within_bounds_iff_finite :
  forall s x, pana s = false -> prior_ok s -> (within_bounds s x = true <-> lnprior s x <> None).
Proof. intros s x H1 H2. symmetry. exact (lnprior_fin s x H1 H2). Qed.
Theorem C46_within_bounds_is_membership :
  forall s x, within_bounds s x = true <-> in_bounds s x /\ in_prior s x.
Proof. exact within_iff. Qed.
Theorem C46_prior_value :
  forall s x, pana s = false -> prior_ok s -> in_bounds s x -> in_prior s x ->
  lnprior s x = Some (match pprior s with NoPrior => 0 | Unif l u => - ln (u - l)
                      | Norm mu sg => - / 2 * ln (2 * PI * sg ^ 2) - / 2 * ((x - mu) / sg) ^ 2 end).
Proof. intros s x H1 H2 H3 H4. apply lnprior_value; auto. apply within_iff; auto. Qed.
(** REFUTED in analytic mode: the smoothed prior is finite everywhere. *)
Theorem C46_analytic_mode_refuted :
  exists s x, prior_ok s /\ within_bounds s x = false /\ lnprior s x <> None.
Proof.
  exists (mkS (Some 0) (Some 1) (Unif 0 1) true), 2. split; [intros l u [= <- <-]; lra|]. split; [|cbn; discriminate].
  destruct (within_bounds _ 2) eqn:E; [|reflexivity]. apply within_iff in E. destruct E as [[_ E] _]. specialize (E 1 eq_refl). lra.
Qed.
Print Assumptions C46_within_bounds_iff_finite.
Example C46_nonvacuous :
  within_bounds (mkS (Some 0) None (Unif (-1) 3) false) 2 = true /\ lnprior (mkS (Some 0) None (Unif (-1) 3) false) (-1/2) = None.
Proof.
  split.
  - apply within_iff. split; [split; intros b [= <-]; lra|intros l u [= <- <-]; lra].
  - destruct (lnprior _ _) eqn:E; [|reflexivity]. exfalso.
    assert (K : within_bounds (mkS (Some 0) None (Unif (-1) 3) false) (-1/2) = true).
    { apply lnprior_fin; [reflexivity|intros l u [= <- <-]; lra|rewrite E; discriminate]. }
    apply within_iff in K. destruct K as [[K _] _]. specialize (K 0 eq_refl). lra.
Qed.

(** ** C47: clipping *)
Theorem C47_value_read_respects_bounds :
  forall s v, bounds_ok s ->
  in_bounds s (read_value s true v) /\
  (in_bounds s v -> read_value s true v = v) /\
  (forall b, pmax s = Some b -> b < v -> read_value s true v = b) /\
  (forall a, pmin s = Some a -> v < a -> read_value s true v = a).
Proof. exact clamp_spec. Qed.
(** The same for the whole reading procedure, in any state and any parameter set: the value read
    from a varied or constrained parameter lies in its bounds. *)
Theorem C47_any_read :
  forall expr vary fexp spec kids fuel st n v st',
  (forall m, bounds_ok (spec m)) -> vary n = true \/ expr n <> None ->
  getval expr vary fexp (fun m => clampR (spec m)) kids fuel st n = Some (v, st') ->
  in_bounds (spec n) v /\ (expr n = None -> in_bounds (spec n) (val st n) -> v = val st n).
Proof.
  intros expr vary fexp spec kids fuel st n v st' Hb Hn. destruct fuel as [|fuel]; [discriminate|]. cbn [getval].
  destruct (expr n) as [l|] eqn:E.
  - destruct (lookups _ st l) as [[vs s1]|]; [|discriminate]. cbn. intros [= <- _]. split; [apply (clamp_spec _ _ (Hb n))|discriminate].
  - destruct Hn as [-> |Hn]; [|tauto]. cbn. intros [= <- _]. destruct (clamp_spec (spec n) (val st n) (Hb n)) as [A [B _]]. split; [exact A|intros _; exact B].
Qed.
(** C48, REFUTED for out-of-range values: after an out-of-range assignment a constrained parameter
    is evaluated at the raw value, until the free parameter itself is read. *)
Theorem C48_constraint_sees_unclipped_value_refuted :
  exists (clamp : nat -> Z -> Z) (ps : pst) s v s',
    prepare [0; 1]%nat (fun n => match n with 1%nat => Some [0%nat] | _ => None end) 5 = Some ps /\
    vrun (fun n => match n with 1%nat => Some [0%nat] | _ => None end) (fun n => Nat.eqb n 0) zsum clamp (kids ps) 5 (mkV (fun _ => 1%Z) (fun _ => None)) [VSet 0 9%Z] = Some s /\
    getval (fun n => match n with 1%nat => Some [0%nat] | _ => None end) (fun n => Nat.eqb n 0) zsum clamp (kids ps) 5 s 1 = Some (v, s') /\
    clamp 0%nat 9%Z = 2%Z /\ v = 9%Z.
Proof.
  exists (fun n v => match n with 0%nat => Z.min v 2 | _ => v end). eexists. eexists. eexists. eexists.
  split; [vm_compute; reflexivity|]. split; [vm_compute; reflexivity|]. split; [vm_compute; reflexivity|]. split; reflexivity.
Qed.
Example C47_nonvacuous : read_value (mkS (Some 0) (Some 1) NoPrior false) true 3 = 1.
Proof.
  destruct (C47_value_read_respects_bounds (mkS (Some 0) (Some 1) NoPrior false) 3 ltac:(intros a b [= <-] [= <-]; lra)) as [_ [_ [H _]]]. apply (H 1 eq_refl). lra.
Qed.

(** ** C49: names *)
Theorem C49_free_names :
  forall names vary con, NoDup names ->
  StronglySorted lt (free_names names vary con) /\
  forall k, In k (free_names names vary con) <-> In k names /\ vary k = true /\ con k = false.
Proof. intros names vary con H. destruct (free_spec names vary con H) as [_ [A B]]. auto. Qed.
Theorem C49_disjoint :
  forall names vary con k, NoDup names -> In k (free_names names vary con) -> In k (constrained_names names con) -> False.
Proof. intros names vary con k H H1 H2. apply (free_spec names vary con H) in H1. apply filter_In in H2. destruct H1 as [_ [_ H1]], H2 as [_ H2]. congruence. Qed.
Theorem C49_independent_of_insertion_order :
  forall names names' vary con, Permutation names names' -> free_names names vary con = free_names names' vary con.
Proof. exact free_order. Qed.
(** Not a partition: a fixed unconstrained parameter is in neither list; and constrained_names
    follows insertion order. *)
Theorem C49_fixed_parameters_in_neither_list :
  exists names vary con k, NoDup names /\ In k names /\ ~ In k (free_names names vary con) /\ ~ In k (constrained_names names con).
Proof. exists [0%nat], (fun _ => false), (fun _ => false), 0%nat. split; [repeat constructor; tauto|]. split; [left; reflexivity|]. split; intros []. Qed.
Theorem C49_constrained_names_follow_insertion_order :
  exists names names' con, Permutation names names' /\ constrained_names names con <> constrained_names names' con.
Proof. exists [0; 1]%nat, [1; 0]%nat, (fun _ => true). split; [apply perm_swap|discriminate]. Qed.
Example C49_nonvacuous : free_names [3; 1; 2; 0]%nat (fun k => negb (Nat.eqb k 2)) (fun k => Nat.eqb k 1) = [0; 3]%nat.
Proof. reflexivity. Qed.

(** ** C50: set_free_parameters *)
(** After any history: either some component is outside its bounds or uniform prior, and then the
    answer is False and nothing changed; or all are inside, and then the answer is True, every free
    parameter holds its component, no other unconstrained parameter changed, and the model holds,
    for every model parameter up to two constraint levels, the value that solves all constraints. *)
Theorem C50_all_or_nothing :
  forall names expr, NoDup names -> acyclic names expr ->
  (forall n l, expr n = Some l -> In n names /\ incl l names) ->
  forall f ps, prepare names expr f = Some ps ->
  forall vary fexp spec fuel ops base0 s free mps m th D r,
  (forall n, bounds_ok (spec n)) ->
  (forall u, expr u = None -> vary u = true -> in_bounds (spec u) (base0 u)) ->
  List.Forall (proper expr vary (fun n => clampR (spec n))) ops ->
  vrun expr vary fexp (fun n => clampR (spec n)) (kids ps) fuel (mkV base0 (fun _ => None)) ops = Some s ->
  NoDup free -> length th = length free -> (forall k, In k free -> expr k = None) ->
  solves expr fexp (fun n => clampR (spec n)) (assign_all (fold_left assigned ops base0) (combine free th)) D ->
  set_free expr vary fexp spec (kids ps) fuel free mps s m th = Some r ->
  ((exists k v, In (k, v) (combine free th) /\ ~ (in_bounds (spec k) v /\ in_prior (spec k) v)) /\ r = (false, s, m)) \/
  ((forall k v, In (k, v) (combine free th) -> in_bounds (spec k) v /\ in_prior (spec k) v) /\
   exists s' m', r = (true, s', m') /\
     (forall k v, In (k, v) (combine free th) -> val s' k = v) /\
     (forall k, expr k = None -> ~ In k free -> val s' k = val s k) /\
     (forall k, ~ In k mps -> m' k = m k) /\
     (forall k, In k mps -> two_levels expr k -> m' k = Some (D k))).
Proof. exact prep_set_free. Qed.
(** It always returns when every model parameter is within two levels (3 nested evaluations suffice). *)
Theorem C50_returns :
  forall expr vary fexp spec kids fuel free mps st m th,
  length th = length free -> (forall k, In k free -> expr k = None) -> (forall k, In k mps -> two_levels expr k) ->
  exists r, set_free expr vary fexp spec kids (S (S (S fuel))) free mps st m th = Some r.
Proof.
  intros expr vary fexp spec kids fuel free mps st m th H1 H2 H3. apply set_free_total; auto.
  - intros k Hk. apply con_None. auto.
  - intros k Hk. apply two_levels_shallow. auto.
Qed.
(** Galaxy theory: every model parameter in the model is right, whatever is varied. *)
Theorem C50_galaxy :
  forall f ps, prepare gal_names galx_expr f = Some ps ->
  forall vary fexp spec fuel ops base0 s free m th D r,
  (forall n, bounds_ok (spec n)) ->
  (forall u, galx_expr u = None -> vary u = true -> in_bounds (spec u) (base0 u)) ->
  List.Forall (proper galx_expr vary (fun n => clampR (spec n))) ops ->
  vrun galx_expr vary fexp (fun n => clampR (spec n)) (kids ps) fuel (mkV base0 (fun _ => None)) ops = Some s ->
  NoDup free -> length th = length free -> (forall k, In k free -> galx_expr k = None) ->
  solves galx_expr fexp (fun n => clampR (spec n)) (assign_all (fold_left assigned ops base0) (combine free th)) D ->
  set_free galx_expr vary fexp spec (kids ps) fuel free gal_model s m th = Some r ->
  (exists k v, In (k, v) (combine free th) /\ ~ (in_bounds (spec k) v /\ in_prior (spec k) v)) \/
  (exists s' m', r = (true, s', m') /\ forall k, In k gal_model -> m' k = Some (D k)).
Proof.
  intros f ps Hp vary fexp spec fuel ops base0 s free m th D r H1 H2 H3 H4 H5 H6 H7 H8 H9.
  destruct (prep_set_free gal_names galx_expr (seq_NoDup _ _) (wf_acyclic _ _ _ galx_wf) (wf_syms _ _ _ galx_wf galx_out) f ps Hp
     vary fexp spec fuel ops base0 s free gal_model m th D r H1 H2 H3 H4 H5 H6 H7 H8 H9) as [[A _]|[_ [s' [m' [E [_ [_ [_ B]]]]]]]].
  - left. exact A.
  - right. exists s', m'. split; [exact E|]. intros k Hk. apply B; [exact Hk|]. apply galx_model_two, Hk.
Qed.
Print Assumptions C50_all_or_nothing.
(** Non-vacuity: one free parameter 0 in [0,1], parameter 1 = f(parameter 0). *)
Example C50_nonvacuous :
  let expr := fun n => match n with 1%nat => Some [0%nat] | _ => None end in
  let spec := fun _ : nat => mkS (Some 0) (Some 1) NoPrior false in
  let kids := fun c n => (Nat.eqb c 0 && Nat.eqb n 1)%bool in
  exists r, set_free expr (fun n => Nat.eqb n 0) (fun _ l => fold_right Rplus 0 l) spec kids 3 [0%nat] [0%nat; 1%nat] (mkV (fun _ => 1) (fun _ => None)) (fun _ => None) [1/2] = Some r.
Proof.
  cbn zeta. apply C50_returns; [reflexivity| |].
  - intros k [<-|[]]. reflexivity.
  - intros k Hk d d' [l [E Hd]] [l' [E' Hd']]. destruct Hk as [<-|[<-|[]]]; [discriminate|]. injection E as <-. destruct Hd as [<-|[]]. discriminate.
Qed.

(** ** C51: scaling *)
Theorem C51_inverse_of_scale :
  forall ss th, scale_ok ss -> length th = length ss ->
  exists s, scale_theta ss th = Some s /\ length s = length ss /\ inverse_scale ss s = Some th.
Proof. exact scale_inverse. Qed.
Theorem C51_scale_of_inverse :
  forall ss th, scale_ok ss -> length th = length ss ->
  exists x, inverse_scale ss th = Some x /\ length x = length ss /\ scale_theta ss x = Some th.
Proof. exact inverse_scale_scale. Qed.
(** A non-empty uniform or normal prior on every free parameter is enough. *)
Theorem C51_scale_defined :
  forall s, (exists l u, pprior s = Unif l u /\ l < u) \/ (exists m sg, pprior s = Norm m sg /\ 0 < sg) -> exists c, pscale s = Some c /\ c <> 0.
Proof. exact scale_ok_of. Qed.
(** If g is the gradient of F at inverse_scale(theta), scale_gradient(g) is the gradient, at theta,
    of F seen as a function of the scaled parameters. *)
Theorem C51_scaled_gradient :
  forall ss (F : list R -> R) th g i gi x0,
  scale_ok ss -> length th = length ss -> length g = length ss -> inverse_scale ss th = Some x0 ->
  nth_error g i = Some gi -> (forall xi, nth_error x0 i = Some xi -> is_derive (fun v => F (setnth x0 i v)) xi gi) ->
  exists G Gi, scale_gradient ss g = Some G /\ nth_error G i = Some Gi /\
    forall ti, nth_error th i = Some ti ->
    is_derive (fun v => match inverse_scale ss (setnth th i v) with Some x => F x | None => 0 end) ti Gi.
Proof. exact scale_gradient_ok. Qed.
Print Assumptions C51_scaled_gradient.
(** Scaling is the one documented: a uniform prior's range becomes [-1, 1], a normal prior's
    mean becomes 0 and two standard deviations become 1. *)
Theorem C51_prior_maps_to_unit_range :
  forall s x, (forall l u, pprior s = Unif l u -> l < u -> exists t, scale_theta [s] [x] = Some [t] /\ (l <= x <= u <-> -1 <= t <= 1) /\ (x = l <-> t = -1) /\ (x = u <-> t = 1)) /\
    (forall m sg, pprior s = Norm m sg -> 0 < sg -> exists t, scale_theta [s] [x] = Some [t] /\ x = m + 2 * sg * t).
Proof.
  intros s x. split.
  - intros l u E H. unfold scale_theta, locs, scales. cbn. unfold ploc, pscale. rewrite E. eexists. split; [reflexivity|].
    set (t := (x - / 2 * (u + l)) / (/ 2 * (u - l))). assert (T : x = / 2 * (u + l) + t * (/ 2 * (u - l))) by (unfold t; field; lra).
    rewrite T. repeat split; intros; nra.
  - intros m sg E H. unfold scale_theta, locs, scales. cbn. unfold ploc, pscale. rewrite E. eexists. split; [reflexivity|]. field. lra.
Qed.
Example C51_nonvacuous : scale_theta [mkS None None (Unif 1 3) false; mkS None None (Norm 5 2) false] [3; 9] = Some [1; 1].
Proof. cbn. repeat f_equal; field. Qed.

(** ** C75: dlnprior is the derivative of lnprior *)
Theorem C75_analytic_mode :
  forall s x, pana s = true -> prior_ok s -> (forall m sg, pprior s = Norm m sg -> sg <> 0) ->
  (forall t, lnprior s t <> None) /\ is_derive (fun t => lnval (lnprior s t)) x (dlnprior s x).
Proof. exact dlnprior_ok. Qed.
(** REFUTED in the default, non-analytic mode: strictly inside the bounds the prior is constant but
    the returned derivative is not zero. *)
Theorem C93_default_mode_refuted :
  exists s, pana s = false /\ prior_ok s /\ lnprior s (1/2) = Some 0 /\
    (forall t, 0 < t -> lnprior s t = Some 0) /\ dlnprior s (1/2) <> 0.
Proof.
  exists (mkS (Some 0) None NoPrior false). split; [reflexivity|]. split; [intros l u [=]|].
  assert (E : forall t, 0 < t -> lnprior (mkS (Some 0) None NoPrior false) t = Some 0).
  { intros t Ht. rewrite lnprior_value; [reflexivity|reflexivity|intros l u [=]|]. apply within_iff. split; [split; intros b [= <-]; lra|intros l u [=]]. }
  split; [apply E; lra|]. split; [exact E|]. cbn. rewrite Rplus_0_r. intro H.
  pose proof (exp_pos (- 2 * 1000 * (1 * (1/2 - 0)) - logaddexp0 (- 2 * 1000 * (1 * (1/2 - 0))))). nra.
Qed.
Print Assumptions C75_analytic_mode.
Example C75_nonvacuous : dlnprior (mkS None None (Norm 1 2) true) 5 = -1.
Proof. cbn. field. Qed.

(** ** C27: chain rule in the gradient *)
(** [compute] for a free parameter n0 is the total derivative provided every constrained model
    parameter that depends on n0 mentions it directly.  P: the power as a function of all
    parameter values, p its partial derivatives, W t: all parameter values when n0 = t. *)
Theorem C27_direct_dependents_partial :
  forall names expr f ps, NoDup names -> acyclic names expr ->
  (forall n l, expr n = Some l -> In n names /\ incl l names) -> prepare names expr f = Some ps ->
  forall valid mp, (forall c, expr c <> None -> valid c = mp c) ->
  forall reg cd P p n0 W W' t0 fexp fuel r,
  In n0 names -> expr n0 = None -> valid n0 = true ->
  differentiable_at (filter mp names) P (W t0) p -> (mp n0 = false -> p n0 = 0) ->
  (forall c d, reg c = Some d -> d = p c) ->
  (forall t, W t n0 = t) -> (forall t u, expr u = None -> u <> n0 -> W t u = W t0 u) ->
  (forall t n l, expr n = Some l -> W t n = fexp n (map (W t) l)) ->
  (forall c, expr c <> None -> mp c = true -> is_derive (fun t => W t c) t0 (W' c)) ->
  (forall c, expr c <> None -> mp c = true -> cd c n0 = W' c) ->
  (forall c, mp c = true -> depends names expr c n0 -> edge names expr c n0) ->
  compute names (kids ps) valid reg cd (S (S fuel)) n0 = Some r ->
  is_derive (fun t => P (W t)) t0 r.
Proof.
  intros names expr f ps Hn Ha Hs Hp valid mp Hv reg cd P p n0 W W' t0 fexp fuel r H1 H2 H3 H4 H5 H6 H7 H8 H9 H10 H11 H12 H13.
  destruct (prep_kids names expr Hn Ha f ps Hp) as [K1 K2]. destruct Ha as [rank Hr].
  assert (CC : forall c, constrained expr c = true -> expr c <> None) by (intros c Hc E; unfold constrained in Hc; rewrite E in Hc; discriminate).
  refine (total_direct names expr (kids ps) Hn K1 K2 valid mp (fun c Hc => Hv c (CC c Hc)) reg cd P p n0 W W' t0 H1 (proj2 (con_None _ _) H2) H4 H5 H6 H7
    (fun t u Hu => H8 t u (proj1 (con_None _ _) Hu)) (fun c Hc => H10 c (CC c Hc)) (fun c Hc => H11 c (CC c Hc)) rank Hr fexp H9 Hs fuel r H3 H13 (fun c Hm _ => H12 c Hm)).
Qed.
(** Galaxy theory (default and example-file constraints): whenever the analytic routine returns, it
    returns the total derivative -- the parameters it would get wrong have an unregistered child and
    fall back to finite differences. *)
Theorem C27_galaxy :
  forall f ps, prepare gal_names gal_expr f = Some ps ->
  forall free (regv : nat -> option R) cd P p n0 (W : R -> nat -> R) W' t0 fexp fuel r,
  (forall c, regv c <> None -> In c gal_registered) -> (forall c d, regv c = Some d -> d = p c) ->
  (forall k, In k free -> gal_expr k = None) -> In n0 free -> In n0 gal_names ->
  differentiable_at (filter (fun c => mem c gal_model) gal_names) P (W t0) p -> (mem n0 gal_model = false -> p n0 = 0) ->
  (forall t, W t n0 = t) -> (forall t u, gal_expr u = None -> u <> n0 -> W t u = W t0 u) ->
  (forall t k l, gal_expr k = Some l -> W t k = fexp k (map (W t) l)) ->
  (forall c, gal_expr c <> None -> In c gal_model -> is_derive (fun t => W t c) t0 (W' c)) ->
  (forall c, gal_expr c <> None -> In c gal_model -> cd c n0 = W' c) ->
  compute gal_names (kids ps) (fun c => mem c gal_model || mem c free)%bool regv cd (S (S fuel)) n0 = Some r ->
  is_derive (fun t => P (W t)) t0 r.
Proof. intros f ps. exact (default_total gal_n gal_expr gal_model gal_registered _ f ps gal_wf gal_out gal_rank gal_direct). Qed.
Theorem C27_galaxy_example_file :
  forall f ps, prepare gal_names galx_expr f = Some ps ->
  forall free (regv : nat -> option R) cd P p n0 (W : R -> nat -> R) W' t0 fexp fuel r,
  (forall c, regv c <> None -> In c gal_registered) -> (forall c d, regv c = Some d -> d = p c) ->
  (forall k, In k free -> galx_expr k = None) -> In n0 free -> In n0 gal_names ->
  differentiable_at (filter (fun c => mem c gal_model) gal_names) P (W t0) p -> (mem n0 gal_model = false -> p n0 = 0) ->
  (forall t, W t n0 = t) -> (forall t u, galx_expr u = None -> u <> n0 -> W t u = W t0 u) ->
  (forall t k l, galx_expr k = Some l -> W t k = fexp k (map (W t) l)) ->
  (forall c, galx_expr c <> None -> In c gal_model -> is_derive (fun t => W t c) t0 (W' c)) ->
  (forall c, galx_expr c <> None -> In c gal_model -> cd c n0 = W' c) ->
  compute gal_names (kids ps) (fun c => mem c gal_model || mem c free)%bool regv cd (S (S fuel)) n0 = Some r ->
  is_derive (fun t => P (W t)) t0 r.
Proof. intros f ps. exact (default_total gal_n galx_expr gal_model gal_registered _ f ps galx_wf galx_out galx_rank galx_direct). Qed.
(** REFUTED in general: a chain of constraints c = b, b = a with power = c.  The routine returns 0,
    the derivative is 1 (all derivatives registered, all model parameters). *)
Theorem C27_chain_refuted :
  exists ps (P : (nat -> R) -> R) (W : R -> nat -> R) reg cd r,
    prepare ch_names ch_expr 10 = Some ps /\
    (forall t, W t 0%nat = t) /\ (forall t n l, ch_expr n = Some l -> W t n = fold_right Rplus 0 (map (W t) l)) /\
    (forall c, cd c 0%nat = 1) /\ (forall c, reg c = Some (if Nat.eqb c 2 then 1 else 0)) /\ (forall x, P x = x 2%nat) /\
    compute ch_names (kids ps) (fun _ => true) reg cd 9 0 = Some r /\
    is_derive (fun t => P (W t)) 5 1 /\ r = 0.
Proof.
  destruct ch_run as [ps [Hp [Hk _]]].
  exists ps, (fun x => x 2%nat), (fun t _ => t), (fun c => Some (if Nat.eqb c 2 then 1 else 0)), (fun _ _ => 1), 0.
  split; [exact Hp|]. split; [reflexivity|]. split.
  { intros t n l H. destruct n as [|[|[|n]]]; cbn in H; try discriminate; injection H as <-; cbn; ring. }
  split; [reflexivity|]. split; [reflexivity|]. split; [reflexivity|]. split; [|split; [|reflexivity]].
  - assert (Ac : acyclic ch_names ch_expr).
    { exists (fun n => n). intros n c [_ [_ [l [E Hc]]]]. destruct n as [|[|[|n]]]; cbn in E; try discriminate; injection E as <-; destruct Hc as [<-|[]]; lia. }
    destruct (prep_kids ch_names ch_expr ltac:(repeat constructor; cbn; intuition lia) Ac 10 ps Hp) as [_ K2].
    assert (E0 : filter (kids ps 0) ch_names = [1%nat]).
    { unfold ch_names. cbn [filter]. rewrite !Hk by (cbn; tauto). reflexivity. }
    assert (E1 : filter (kids ps 1) ch_names = []).
    { unfold ch_names. cbn [filter]. rewrite !(K2 1%nat) by reflexivity. reflexivity. }
    cbn [compute negb]. rewrite E0. cbn [compute negb]. rewrite E1. cbn. destruct (Req_EM_T 0 0); [reflexivity|lra].
  - apply @is_derive_id.
Qed.
(** With every derivative that is registered available, the default free parameters whose gradient is analytic are
    exactly: galaxies alpha_par, alpha_perp, f1h_sBsB, fs, sigma_c (with the constraint of the example file on
    sigma_sB the same); quasars all of them.  For the others finite differences are taken. *)
Theorem C27_default_coverage :
  (forall f ps free (regv : nat -> option R) cd n0 fuel, prepare gal_names gal_expr f = Some ps ->
     (forall c, regv c <> None <-> In c gal_registered) -> (forall k, In k free <-> In k gal_free) -> In n0 free ->
     (compute gal_names (kids ps) (fun c => mem c gal_model || mem c free)%bool regv cd (S (S fuel)) n0 <> None <-> In n0 [7; 8; 20; 23; 31]%nat)) /\
  (forall f ps free (regv : nat -> option R) cd n0 fuel, prepare qso_names qso_expr f = Some ps ->
     (forall c, regv c <> None <-> In c qso_registered) -> (forall k, In k free <-> In k qso_free) -> In n0 free ->
     (compute qso_names (kids ps) (fun c => mem c qso_model || mem c free)%bool regv cd (S (S fuel)) n0 <> None)).
Proof.
  split; intros f ps free regv cd n0 fuel P R F N.
  - assert (FE : forall k, In k free -> gal_expr k = None) by (intros k K; apply F in K; cbn in K; repeat (destruct K as [<- | K]; [reflexivity|]); contradiction).
    assert (NN : In n0 gal_names) by (apply F in N; apply mem_In; cbn in N; repeat (destruct N as [<- | N]; [reflexivity|]); contradiction).
    unfold gal_names in *. rewrite (covered_iff gal_n gal_expr gal_model gal_registered _ f ps gal_wf P free regv cd n0 fuel R FE N NN).
    apply F in N. rewrite <- mem_In. cbn in N. repeat (destruct N as [<- | N]; [vm_compute; tauto|]). contradiction.
  - assert (FE : forall k, In k free -> qso_expr k = None) by (intros k K; apply F in K; cbn in K; repeat (destruct K as [<- | K]; [reflexivity|]); contradiction).
    assert (NN : In n0 qso_names) by (apply F in N; apply mem_In; cbn in N; repeat (destruct N as [<- | N]; [reflexivity|]); contradiction).
    unfold qso_names in *. rewrite (covered_iff qso_n qso_expr qso_model qso_registered _ f ps qso_wf P free regv cd n0 fuel R FE N NN).
    apply F in N. cbn in N. repeat (destruct N as [<- | N]; [vm_compute; reflexivity|]). contradiction.
Qed.
Print Assumptions C27_default_coverage.
Print Assumptions C27_galaxy.
Print Assumptions C27_chain_refuted.
(** Non-vacuity of the positive theorem: P = a + 2 b, b = 3 a: the routine returns 7. *)
Example C27_nonvacuous :
  compute [0; 1]%nat (fun c n => (Nat.eqb c 0 && Nat.eqb n 1)%bool) (fun _ => true) (fun c => Some (match c with 0%nat => 1 | _ => 2 end)) (fun _ _ => 3) 2 0 = Some 7.
Proof. cbn. destruct (Req_EM_T 2 0); [lra|]. f_equal; ring. Qed.

(** ** C28: finite differences *)
(** Row i of the returned matrix is, for a parameter without analytic derivative, the difference
    quotient of the power at theta +- eps_i e_i (components clipped to the parameter bounds), for
    the others the analytic derivative at the state the model was in; the state is theta afterwards. *)
Theorem C28_rows :
  forall bounds power ana nk m th eps num M m', NoDup num ->
  gcall bounds power ana nk m th eps num = (Ret M, m') ->
  m' = clip bounds th /\ length M = length th /\
  forall i, (i < length th)%nat ->
    exists r, nth_error M i = Some r /\
    (~ In i num -> ana i m = Some r) /\
    (In i num -> exists a b, power (clip bounds (bump th i (eps_at eps i))) = Some a /\
                            power (clip bounds (bump th i (- eps_at eps i))) = Some b /\
                            r = diff_row (eps_at eps i) a b).
Proof. exact gcall_rows. Qed.
(** [bump th i e] is theta + e e_i. *)
Theorem C28_step_is_along_one_axis :
  forall th i e v, nth_error th i = Some v ->
  nth_error (bump th i e) i = Some (v + e) /\ forall j, j <> i -> nth_error (bump th i e) j = nth_error th j.
Proof. intros th i e v H. split; [exact (bump_nth th i e v H)|intros j Hj; apply bump_other; exact Hj]. Qed.
(** Away from the bounds the quotient is exact for powers quadratic in the parameter. *)
Theorem C28_exact_for_quadratics :
  forall bounds power ana nk m th eps num M m' i q0 q1 q2, NoDup num ->
  gcall bounds power ana nk m th eps num = (Ret M, m') -> (i < length th)%nat -> In i num -> eps_at eps i <> 0 ->
  inside bounds (bump th i (eps_at eps i)) -> inside bounds (bump th i (- eps_at eps i)) ->
  length q1 = length q0 -> length q2 = length q0 ->
  (forall e, power (bump th i e) = Some (map (fun q => fst q + fst (snd q) * e + snd (snd q) * (e * e)) (combine q0 (combine q1 q2)))) ->
  nth_error M i = Some q1.
Proof.
  intros bounds power ana nk m th eps num M m' i q0 q1 q2 Hn H Hi Hin He Hp Hm L1 L2 Hq.
  destruct (gcall_rows bounds power ana nk m th eps num M m' Hn H) as [_ [_ HR]].
  destruct (HR i Hi) as [r [Hr [_ K]]]. destruct (K Hin) as [a [b [Ha [Hb Hd]]]].
  rewrite (clip_inside _ _ Hp), Hq in Ha. rewrite (clip_inside _ _ Hm), Hq in Hb. injection Ha as <-. injection Hb as <-.
  rewrite Hr, Hd. f_equal. apply quad_row; assumption.
Qed.
(** A raising finite-difference evaluation leaves the state at theta; only a raising analytic
    derivative leaves it where it was. *)
Theorem C28_state_after_exception :
  forall bounds power ana nk m th eps num m', gcall bounds power ana nk m th eps num = (Raise, m') ->
  m' = clip bounds th \/ (m' = m /\ exists i, (i < length th)%nat /\ ~ In i num /\ ana i m = None).
Proof.
  intros bounds power ana nk m th eps num m' H. destruct (gcall_raise _ _ _ _ _ _ _ _ _ H) as [A|[A [i [B [C D]]]]]; [left; exact A|right].
  split; [exact A|]. exists i. split; [exact B|]. split; [|exact D]. intro K. apply mem_In in K. congruence.
Qed.
(** REFUTED near a bound: theta = max: the forward point is clipped, so the quotient of the
    identity function is 1/2 instead of 1. *)
Theorem C28_near_bound_refuted :
  exists bounds th eps M m', inside bounds th /\ eps_at eps 0 = 1 /\
    gcall bounds (fun x => Some x) (fun _ _ => None) 1 th th eps [0%nat] = (Ret M, m') /\ nth_error M 0 = Some [1/2].
Proof.
  exists [(0, 5)], [5], [1]. eexists. eexists. split.
  { intros [|i] b v Hb Hv; cbn in *; [injection Hb as <-; injection Hv as <-; cbn; lra|destruct i; discriminate]. }
  split; [reflexivity|]. split; [reflexivity|]. unfold clip, clip1, bump, eps_at, diff_row. cbn.
  destruct (Rlt_dec 5 (5 + 1)); [|lra]. destruct (Rlt_dec 5 (5 + - (1))); [lra|]. destruct (Rlt_dec 5 0); [lra|]. destruct (Rlt_dec (5 + - (1)) 0); [lra|].
  apply (f_equal (fun z => Some [z])). lra.
Qed.
(** REFUTED for exceptions of analytic derivatives: the state is not theta. *)
Theorem C28_analytic_exception_refuted :
  exists m th m', gcall [] (fun x => Some x) (fun _ _ => None) 1 m th [] [] = (Raise, m') /\ m' <> th /\ m' = m.
Proof. exists [1], [2], [1]. split; [reflexivity|]. split; [intros [= H]; lra|reflexivity]. Qed.
Print Assumptions C28_exact_for_quadratics.

(** ** C74: gradient at the requested theta *)
(** If the model is already at theta (clipped), every row is the derivative at theta. *)
Theorem C74_if_model_is_at_theta_partial :
  forall bounds power ana nk th eps num M m' i r, NoDup num ->
  gcall bounds power ana nk (clip bounds th) th eps num = (Ret M, m') -> nth_error M i = Some r -> ~ In i num ->
  ana i (clip bounds th) = Some r.
Proof.
  intros bounds power ana nk th eps num M m' i r Hn H Hr Hi. destruct (gcall_rows _ _ _ _ _ _ _ _ _ _ Hn H) as [_ [HL HR]].
  assert (Hlt : (i < length th)%nat) by (rewrite <- HL; apply nth_error_Some; congruence).
  destruct (HR i Hlt) as [r' [E [A _]]]. rewrite Hr in E. injection E as <-. exact (A Hi).
Qed.
(** REFUTED: the analytic rows are those of the state before the call, not of theta. *)
Theorem C74_stale_analytic_rows_refuted :
  exists m th M m', gcall [] (fun x => Some x) (fun i x => Some [nth i x 0]) 1 m th [] [] = (Ret M, m') /\
    nth_error M 0 = Some [1] /\ nth 0 th 0 = 2.
Proof. exists [1], [2]. eexists. eexists. split; [reflexivity|]. split; reflexivity. Qed.
(** REFUTED for scalar k, mu: only the first parameter's derivative comes back. *)
Theorem C74_scalar_call_refuted :
  exists m th r m', length th = 2%nat /\ gcall_scalar [] (fun x => Some x) (fun i x => Some [nth i x 0]) m th [] [] = (Ret r, m') /\ length r = 1%nat.
Proof. exists [1; 2], [1; 2], [1]. eexists. split; [reflexivity|]. split; reflexivity. Qed.
Print Assumptions C74_if_model_is_at_theta_partial.
