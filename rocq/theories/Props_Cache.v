(** * Property theorems: attribute cache, preserve, simulation loading (C01-C05, C11-C13, C69) *)
From Coq Require Import List String Bool Arith QArith.
From Verif Require Import M_Cache S_Cache P_Cache M_Preserve P_Preserve X_Cache P_CacheX M_Schema S_Schema P_Schema.
Import ListNotations.
Open Scope string_scope.
Open Scope list_scope.

(** C01: whatever the history of assignments, reads and deletions of computed
    attributes, a read gives what evaluating the attribute from scratch at the
    parameter values the object now holds gives. *)
Theorem C01_cache_never_stale :
  forall V (sch : schema V) body validate obj_eq extra frozen ifuel,
  disciplined sch body frozen ifuel ->
  forall fuel fuel' ps history a x,
  forallb (plain sch frozen) history = true ->
  let st := run_ops sch body validate obj_eq extra fuel' ifuel history (init ps) in
  fresh sch body validate fuel (vals st) a = Some x ->
  fst (get sch body validate fuel a st) = Some x.
Proof. intros V sch body validate obj_eq extra frozen ifuel Hd; intros; eapply cache_never_stale; eauto. Qed.
Print Assumptions C01_cache_never_stale.

(** ... and if equality of values is exact, those parameter values are the last
    accepted assignments. *)
Theorem C01_cache_never_stale_history :
  forall V (sch : schema V) body validate obj_eq extra frozen ifuel,
  disciplined sch body frozen ifuel ->
  (forall u w, obj_eq u w = true -> u = w) ->
  forall fuel fuel' ps history a x,
  forallb (plain sch frozen) history = true ->
  fresh sch body validate fuel (params_after sch validate ps history) a = Some x ->
  fst (get sch body validate fuel a (run_ops sch body validate obj_eq extra fuel' ifuel history (init ps))) = Some x.
Proof. intros V sch body validate obj_eq extra frozen ifuel Hd Hx; intros; eapply cache_never_stale_exact; eauto. Qed.
Print Assumptions C01_cache_never_stale_history.

Example C01_nonvacuous :
  disciplined ex_sch ex_body [] depth /\
  let h := [OGet "P02"; OSet "sigma8_z" (VNum 1); OGet "P02"; OSet "z" (VNum 3); ODel "sigma_lin"] in
  forallb (plain ex_sch []) h = true /\
  let st := run_ops ex_sch ex_body ok_any py_obj_eq no_extra 10 depth h (start [("z", 0%Q); ("sigma8_z", 2%Q)]) in
  fresh ex_sch ex_body ok_any 10 (vals st) "P02" = Some (Ok (VNum 39)) /\
  fst (get ex_sch ex_body ok_any 10 "P02" st) = Some (Ok (VNum 39)).
Proof. split; [exact ex_disciplined|]. vm_compute. auto. Qed.

(** C02: after a successful read, any history that neither changes a declared
    ancestor, nor deletes the attribute or an ancestor, leaves the value in place:
    the next read returns it and evaluates no body at all (state unchanged), and
    during the history the attribute's body is not evaluated. *)
Theorem C02_no_recompute :
  forall V (sch : schema V) body validate obj_eq extra ifuel fuel fuel' a it ps v history st st1,
  sch a = KProp it ps -> ovr st a = None ->
  get sch body validate (S fuel) a st = (Some (Ok v), st1) ->
  quiet_run sch body validate obj_eq extra ifuel fuel' a history st1 ->
  let st2 := run_ops sch body validate obj_eq extra fuel' ifuel history st1 in
  ovr st2 a = None -> get sch body validate (S fuel) a st2 = (Some (Ok v), st2).
Proof. exact (@lazy_reread). Qed.
Print Assumptions C02_no_recompute.

Theorem C02_body_not_reevaluated :
  forall V (sch : schema V) body validate obj_eq extra ifuel fuel a v history st,
  cache st a = Some v -> quiet_run sch body validate obj_eq extra ifuel fuel a history st ->
  let st' := run_ops sch body validate obj_eq extra fuel ifuel history st in
  cache st' a = Some v /\ exists evaluated, log st' = evaluated ++ log st /\ ~ In a evaluated.
Proof. exact (@lazy_read). Qed.
Print Assumptions C02_body_not_reevaluated.

Theorem C02_equal_assignment_does_nothing :
  forall V (sch : schema V) validate (obj_eq : V -> V -> bool) extra ifuel p w u old d st,
  sch p = KParam d -> validate p w = Ok u -> vals st p = Some old -> obj_eq u old = true ->
  set_param sch validate obj_eq extra ifuel p w st = (Ok tt, st).
Proof. exact (@equal_set_noop). Qed.
Print Assumptions C02_equal_assignment_does_nothing.

Example C02_nonvacuous :
  let st := start [("z", 0%Q); ("sigma8_z", 2%Q)] in
  let st1 := snd (get ex_sch ex_body ok_any 10 "P02" st) in
  quiet_run ex_sch ex_body ok_any py_obj_eq no_extra depth 10 "P02"
    [OSet "z" (VNum 0); OSet "alpha_drag" (VNum 3); OGet "rs"; ODel "rs"] st1
  /\ log (run_ops ex_sch ex_body ok_any py_obj_eq no_extra 10 depth
    [OSet "z" (VNum 0); OSet "alpha_drag" (VNum 3); OGet "rs"; ODel "rs"] st1) = ["rs"; "P02"; "sigma_lin"].
Proof.
  cbv zeta. split; [|vm_compute; reflexivity].
  repeat split.
  - right. left. do 2 eexists. vm_compute. auto.
  - left. split; [|reflexivity]. intros H. apply (declared_is_dep _ depth) in H; vm_compute in H |- *; discriminate.
  - discriminate.
  - intros H. apply (declared_is_dep _ depth) in H; vm_compute in H |- *; discriminate.
Qed.

(** C03 is false: after [del obj.param] a dependent attribute still shows the value
    computed with the deleted setting. *)
Theorem C03_delete_param_refuted :
  exists (sch : schema pyval) body validate history ps a v w,
  disciplined sch body [] depth /\
  (exists p, history = [OSet p v; OGet a; ODel p]) /\
  let st := run_ops sch body validate py_obj_eq no_extra 10 depth history (init ps) in
  fresh sch body validate 10 (vals st) a = Some (Ok w) /\
  exists w', fst (get sch body validate 10 a st) = Some (Ok w') /\ w' <> w.
Proof.
  exists ex_sch, ex_body, ok_any, [OSet "alpha_drag" (VNum 2); OGet "rs"; ODel "alpha_drag"], (fun _ => None), "rs",
    (VNum 2), (VNum 150).
  split; [exact ex_disciplined|]. split; [eauto|]. cbv zeta. split; [vm_compute; reflexivity|].
  exists (VNum 300). split; [vm_compute; reflexivity|discriminate].
Qed.
Print Assumptions C03_delete_param_refuted.

(** What does hold: deleting a computed attribute invalidates it and everything
    that declares it. *)
Theorem C03_delete_property_partial :
  forall V (sch : schema V) extra ifuel a b st,
  (b = a \/ creatable sch ifuel b /\ declared sch b a) ->
  cache (snd (del_prop sch extra ifuel a st)) b = None.
Proof. intros; now apply del_prop_clears. Qed.
Print Assumptions C03_delete_property_partial.

(** C04 for scalars. *)
Theorem C04_scalar_readback_partial :
  forall sch body validate extra ifuel n p v w st d,
  sch p = KParam d -> validate p v = Ok w -> scalar w = true ->
  (forall old, vals st p = Some old -> scalar old = true) ->
  exists u, fst (get sch body validate (S n) p (snd (set_param sch validate py_obj_eq extra ifuel p v st))) = Some (Ok u)
         /\ py_eq u w.
Proof. exact scalar_readback. Qed.
Print Assumptions C04_scalar_readback_partial.

(** C04 is false for arrays: an assignment within numpy.allclose tolerance is
    silently dropped (so repeated small steps go nowhere). *)
Theorem C04_array_readback_refuted :
  exists (sch : schema pyval) body p old new,
  let st := init (fun x => if String.eqb x p then Some (VArr old) else None) in
  old <> new /\
  fst (get sch body ok_any 5 p (snd (set_param sch ok_any py_obj_eq no_extra 5 p (VArr new) st))) = Some (Ok (VArr old)).
Proof.
  exists ex_sch, ex_body, "z", [1; 2]%Q, [1 + (1 # 200000); 2]%Q. cbv zeta. split; [discriminate|vm_compute; reflexivity].
Qed.
Print Assumptions C04_array_readback_refuted.

(** C05: every cached attribute of the 24 real classes (tables extracted from the
    source) depends only on parameters it declares, except for the listed gaps; so
    for any bodies that read at most what the tables say, reads are never stale as
    long as the gap parameters are not reassigned. *)
Theorem C05_real_classes_never_stale_partial :
  forall name t gaps, In (name, (t, gaps)) class_tables ->
  forall V (sch : schema V) body validate obj_eq extra, conforms t sch body ->
  forall fuel fuel' ps history a x,
  forallb (plain sch gaps) history = true ->
  let st := run_ops sch body validate obj_eq extra fuel' depth history (init ps) in
  fresh sch body validate fuel (vals st) a = Some x ->
  fst (get sch body validate fuel a st) = Some x.
Proof.
  intros name t gaps Hin V sch body validate obj_eq extra Hc; intros.
  eapply cache_never_stale; eauto. eapply real_schemas_disciplined; eauto.
Qed.
Print Assumptions C05_real_classes_never_stale_partial.

(** The classes without gaps: full guarantee. *)
Theorem C05_gap_free_classes :
  map fst (filter (fun c => match snd (snd c) with [] => true | _ => false end) class_tables) =
  ["HaloZeldovichP00"; "HaloZeldovichP01"; "HaloZeldovichP11"; "HaloZeldovichPhm"; "HaloZeldovichCFhm";
   "SimulationP11"; "SimulationPdv"; "ExtrapolatedPowerSpectrum"; "GriddedWedgeTransfer"; "WedgeTransfer";
   "PkmuCovarianceMatrix"; "PoleCovarianceMatrix"; "PowerMeasurement"; "FittingDriver"; "Parameter"].
Proof. exact gap_free. Qed.
Print Assumptions C05_gap_free_classes.

(** The gaps are real declarations missing from the source ... *)
Theorem C05_undeclared_refuted :
  undeclared tbl_QuasarSpectrum "btot" "z" = true /\
  undeclared tbl_QuasarSpectrum "P_mu0" "z" = true /\
  undeclared tbl_QuasarSpectrum "P_mu2" "z" = true /\
  undeclared tbl_QuasarSpectrum "alpha_png" "sigma8_z" = true /\
  undeclared tbl_GalaxySpectrum "Phm" "use_tidal_bias" = true /\
  undeclared tbl_GalaxySpectrum "P02_ss" "use_tidal_bias" = true /\
  undeclared tbl_GalaxySpectrum "P22_ss" "kmax" = true /\
  undeclared tbl_GalaxySpectrum "b2_00_b" "b2_00_a__0" = true /\
  undeclared tbl_GalaxySpectrum "bias_to_sigma_relation" "params" = true /\
  undeclared tbl_GalaxySpectrum "P00" "interpolate" = true /\
  undeclared tbl_GriddedMultipoleTransfer "k_mean" "mu_bounds" = true /\
  undeclared tbl_PowerData "global_kmax" "window_file" = true /\
  undeclared tbl_BiasToSigmaRelation "interpolation_table" "cosmo" = true /\
  undeclared tbl_GeorgeSimulationData "gp" "theta" = true.
Proof. exact gaps_real. Qed.
Print Assumptions C05_undeclared_refuted.

(** ... and they produce stale reads: in the quasar fragment (declared parents as in
    the source) changing z leaves the scale-dependent bias at its old value. *)
Theorem C05_quasar_stale_refuted :
  exists z', let st0 := start [("z", 0%Q); ("b1", 2%Q); ("p", 1%Q); ("f_nl", 10%Q)] in
  let st := run_ops qso_sch qso_body ok_any py_obj_eq no_extra 10 depth [OGet "btot"; OSet "z" z'] st0 in
  fst (get qso_sch qso_body ok_any 10 "btot" st) <> fresh qso_sch qso_body ok_any 10 (vals st) "btot".
Proof. exists (VNum 1). vm_compute. discriminate. Qed.
Print Assumptions C05_quasar_stale_refuted.

Example C05_nonvacuous : conforms qso_table qso_sch qso_body /\ table_ok qso_table ["z"] = true.
Proof. split; [exact qso_conforms|vm_compute; reflexivity]. Qed.

(** C11: the first load (flag not yet set) is seen by the next evaluation ... *)
Theorem C11_first_load_partial :
  forall V (sch : schema V) body validate obj_eq extra fuel ifuel a it ps data flag tbl vtrue w d st,
  sch a = KProp it ps -> sch flag = KParam d -> validate flag vtrue = Ok w -> data <> flag ->
  (forall old, vals st flag = Some old -> obj_eq w old = false) ->
  creatable sch ifuel a -> declared sch a flag -> ovr st a = None ->
  let st' := load_sim sch validate obj_eq extra ifuel data flag tbl vtrue st in
  vals st' data = Some tbl /\ vals st' flag = Some w /\
  fst (get sch body validate (S fuel) a st') = fst (runc (get sch body validate fuel) (body a) st').
Proof. intros; eapply load_fresh; eauto. Qed.
Print Assumptions C11_first_load_partial.

(** ... a second load is not. *)
Theorem C11_second_load_refuted :
  let load d := load_sim sim_sch ok_any py_obj_eq no_extra 5 "_loaded_data" "P00_mu0_loaded" (VNum d) (VNum 1) in
  let read := get sim_sch sim_body ok_any 5 "P00" in
  let st0 := start [("P00_mu0_loaded", 0%Q)] in
  fst (read (load 20%Q (snd (read (load 10%Q st0))))) = Some (Ok (VNum 10)).
Proof. vm_compute. reflexivity. Qed.
Print Assumptions C11_second_load_refuted.

Example C11_nonvacuous :
  let load d := load_sim sim_sch ok_any py_obj_eq no_extra 5 "_loaded_data" "P00_mu0_loaded" (VNum d) (VNum 1) in
  let read := get sim_sch sim_body ok_any 5 "P00" in
  let st0 := start [("P00_mu0_loaded", 0%Q)] in
  fst (read (load 10%Q (snd (read st0)))) = Some (Ok (VNum 10)).
Proof. vm_compute. reflexivity. Qed.

(** C12: after a preserve block that ends normally all values are the entry values. *)
Theorem C12_preserve_restores_values :
  forall V (sch : schema V) body validate obj_eq extra fuel ifuel,
  (forall u w, obj_eq u w = true -> u = w) ->
  forall names allowable kwargs b st st',
  (forall p d, sch p = KParam d -> In p names) ->
  (forall k v, vals st k = Some v -> validate k v = Ok v) ->
  forallb (plain sch []) (ops b) = true -> raises b = None ->
  preserve sch body validate obj_eq extra fuel ifuel names allowable kwargs b st = (Ok tt, st') ->
  forall x, vals st' x = vals st x.
Proof. intros V sch body validate obj_eq extra fuel ifuel Hx; intros; eapply preserve_values; eauto. Qed.
Print Assumptions C12_preserve_restores_values.

(** ... and every read afterwards is fresh, provided the block (and the keywords)
    assigned only parameters that held a value on entry. *)
Theorem C83_preserve_reads_fresh_partial :
  forall V (sch : schema V) body validate obj_eq extra fuel ifuel,
  (forall u w, obj_eq u w = true -> u = w) ->
  disciplined sch body [] ifuel ->
  forall names allowable kwargs b ps history,
  forallb (plain sch []) history = true ->
  let st := run_ops sch body validate obj_eq extra fuel ifuel history (init ps) in
  forall st',
  (forall p d, sch p = KParam d -> In p names) ->
  (forall k v, vals st k = Some v -> validate k v = Ok v) ->
  forallb (plain sch []) (ops b) = true -> raises b = None ->
  (forall p v, In (OSet p v) (ops b) -> vals st p <> None) ->
  (forall p v, In (p, v) kwargs -> vals st p <> None) ->
  preserve sch body validate obj_eq extra fuel ifuel names allowable kwargs b st = (Ok tt, st') ->
  forall n a x, fresh sch body validate n (vals st) a = Some x ->
  fst (get sch body validate n a st') = Some x.
Proof. exact preserve_reads_fresh. Qed.
Print Assumptions C83_preserve_reads_fresh_partial.

(** The proviso is needed: a parameter left at its default on entry and set inside
    the block leaves a stale cached value behind. *)
Theorem C83_preserve_reads_fresh_refuted :
  let st := start [("z", 0%Q); ("sigma8_z", 2%Q)] in
  let names := ["z"; "sigma8_z"; "sigma_v"; "alpha_drag"] in
  let b := mkBlock [OSet "alpha_drag" (VNum 3); OGet "rs"] None in
  exists st', preserve ex_sch ex_body ok_any py_obj_eq no_extra 10 depth names ["z"] [] b st = (Ok tt, st') /\
  (forall x, vals st' x = vals st x) /\
  fst (get ex_sch ex_body ok_any 10 "rs" st') <> fresh ex_sch ex_body ok_any 10 (vals st') "rs".
Proof. exact preserve_stale. Qed.
Print Assumptions C83_preserve_reads_fresh_refuted.

Example C12_nonvacuous :
  let st := start [("z", 0%Q); ("sigma8_z", 2%Q)] in
  let names := ["z"; "sigma8_z"; "sigma_v"; "alpha_drag"] in
  let b := mkBlock [OGet "P02"; OSet "sigma8_z" (VNum 5); OGet "P02"; OSet "z" (VNum 9)] None in
  let r := preserve ex_sch ex_body ok_any py_obj_eq no_extra 10 depth names ["z"] [("z", VNum 4)] b st in
  fst r = Ok tt /\ vals (snd r) "z" = Some (VNum 0) /\ vals (snd r) "sigma8_z" = Some (VNum 2) /\
  fst (get ex_sch ex_body ok_any 10 "P02" (snd r)) = Some (Ok (VNum 144)).
Proof. vm_compute. auto. Qed.

(** C13 is false: an exception in the block leaves the changes in place. *)
Theorem C13_preserve_exception_refuted :
  let st := start [("z", 0%Q); ("sigma8_z", 2%Q)] in
  let b := mkBlock [OSet "sigma8_z" (VNum 5)] (Some "RuntimeError") in
  exists st', preserve ex_sch ex_body ok_any py_obj_eq no_extra 10 depth ["z"; "sigma8_z"] ["z"] [] b st = (Err "RuntimeError", st')
  /\ vals st' "sigma8_z" = Some (VNum 5) /\ vals st "sigma8_z" = Some (VNum 2).
Proof. eexists. vm_compute. auto. Qed.
Print Assumptions C13_preserve_exception_refuted.

(** In general: when the block raises, the state is exactly the state at the crash
    point -- nothing is restored. *)
Theorem C13_preserve_exception_partial :
  forall V (sch : schema V) body validate obj_eq extra fuel ifuel names allowable b e st saved st1,
  save_params sch body validate fuel allowable st = (Ok saved, st1) ->
  raises b = Some e ->
  preserve sch body validate obj_eq extra fuel ifuel names allowable [] b st =
  (Err e, run_ops sch body validate obj_eq extra fuel ifuel (ops b) st1).
Proof. exact @preserve_crash. Qed.
Print Assumptions C13_preserve_exception_partial.

(** C69: inside cache_override(a=v) reading [a] gives [v] ... *)
Theorem C69_override_read_partial :
  forall V (sch : schema V) body validate obj_eq extra fuel ifuel n a ps v st,
  sch a = KProp false ps ->
  fst (get sch body validate (S n) a (step sch body validate obj_eq extra fuel ifuel (OOverride a v) st)) = Some (Ok v).
Proof. intros; now apply override_read with (ps := ps). Qed.
Print Assumptions C69_override_read_partial.

(** ... but (1) attributes computed from it and already cached ignore the override,
    and (2) attributes computed inside keep the overridden value after the block. *)
Theorem C69_override_refuted :
  let st0 := start [("z", 0%Q); ("sigma8_z", 2%Q)] in
  let run l := run_ops ex_sch ex_body ok_any py_obj_eq no_extra 10 depth l st0 in
  let read a st := fst (get ex_sch ex_body ok_any 10 a st) in
  read "P02" (run [OGet "P02"; OOverride "sigma_lin" (VNum 1)]) = Some (Ok (VNum 144)) /\
  read "P02" (run [OOverride "sigma_lin" (VNum 1)]) = Some (Ok (VNum 1)) /\
  read "P02" (run [OOverride "sigma_lin" (VNum 1); OGet "P02"; OClear]) = Some (Ok (VNum 1)) /\
  fresh ex_sch ex_body ok_any 10 (vals st0) "P02" = Some (Ok (VNum 144)).
Proof. vm_compute. auto. Qed.
Print Assumptions C69_override_refuted.
