(** * Facts about the concrete schemas *)
From Coq Require Import List String Bool Arith QArith.
From Verif Require Import M_Cache S_Cache P_Cache M_Preserve P_Preserve X_Cache M_Schema S_Schema P_Schema.
Import ListNotations.
Open Scope string_scope.
Open Scope list_scope.

Definition ex_table : table := [
  ("z", EParam None); ("sigma8_z", EParam None); ("sigma_v", EParam (Some "sigma_lin"));
  ("alpha_drag", EParam None);
  ("sigma_lin", EProp false ["sigma8_z"] ["sigma8_z"]);
  ("P02", EProp true ["z"; "sigma_v"; "sigma_lin"] ["z"; "sigma_v"]);
  ("rs", EProp false ["alpha_drag"] ["alpha_drag"])].

Lemma may_read_rd a f b : may_read (rd a f) b -> b = a \/ exists q, may_read (f q) b.
Proof.
  unfold rd. intros H. inversion H as [b' k|a' k v b' H']; subst; auto. right.
  destruct v as [|q|s|l]; cbn in H'; try (inversion H'; fail). eauto.
Qed.
Lemma may_read_ret q b : ~ may_read (ret q) b.
Proof. intros H. inversion H. Qed.

Ltac mr H := match type of H with
  | may_read (rd _ _) _ => apply may_read_rd in H; destruct H as [->|[? H]]; [cbn; tauto|cbn beta in H; mr H]
  | may_read (ret _) _ => exfalso; eapply may_read_ret; exact H
  | may_read (if ?b then _ else _) _ => destruct b; mr H
  | _ => idtac
  end.

Lemma ex_conforms : conforms ex_table ex_sch ex_body.
Proof.
  intros a. unfold ex_sch, ex_body. cbn [lookup ex_table].
  repeat match goal with |- context [String.eqb a ?s] =>
    let E := fresh "E" in destruct (String.eqb a s) eqn:E; [apply String.eqb_eq in E; subst a; cbn|clear E] end;
  try (eexists; split; [reflexivity|intros; discriminate]); try reflexivity;
  (split; [reflexivity|intros b H; mr H]).
Qed.

Lemma ex_disciplined : disciplined ex_sch ex_body [] depth.
Proof. apply table_ok_sound with ex_table; [apply ex_conforms|vm_compute; reflexivity]. Qed.

Definition qso_table : table := [
  ("z", EParam None); ("b1", EParam None); ("p", EParam None); ("f_nl", EParam None);
  ("D", EProp false ["z"] ["z"]);
  ("alpha_png", EProp true ["D"] ["D"]);
  ("delta_bias", EProp true ["b1"; "f_nl"; "p"] ["f_nl"; "b1"; "p"; "alpha_png"]);
  ("btot", EProp true ["b1"; "delta_bias"] ["b1"; "delta_bias"])].
Lemma qso_conforms : conforms qso_table qso_sch qso_body.
Proof.
  intros a. unfold qso_sch, qso_body. cbn [lookup qso_table].
  repeat match goal with |- context [String.eqb a ?s] =>
    let E := fresh "E" in destruct (String.eqb a s) eqn:E; [apply String.eqb_eq in E; subst a; cbn|clear E] end;
  try (eexists; split; [reflexivity|intros; discriminate]); try reflexivity;
  (split; [reflexivity|intros b H; mr H]).
Qed.
(** The full discipline fails for the fragment only because of [z]. *)
Lemma qso_disciplined_z : disciplined qso_sch qso_body ["z"] depth.
Proof. apply table_ok_sound with qso_table; [apply qso_conforms|vm_compute; reflexivity]. Qed.
Lemma qso_undisciplined n : ~ disciplined qso_sch qso_body [] n.
Proof.
  intros H. destruct (H "btot" true ["b1"; "delta_bias"] eq_refl) as [Hl HD].
  destruct (HD "z" DNone) as [X|[]]; auto.
  - apply D_trans with "delta_bias".
    { eapply D_read; [reflexivity|]. change (may_read (rd "b1" (fun b => rd "delta_bias" (fun d => ret (b + d)))) "delta_bias").
      eapply MR_later with (v := VNum 0). cbn. apply MR_here. }
    apply D_trans with "alpha_png".
    { eapply D_read; [reflexivity|]. unfold qso_body. cbn.
      eapply MR_later with (v := VNum 1). cbn. eapply MR_later with (v := VNum 1). cbn.
      eapply MR_later with (v := VNum 1). cbn. apply MR_here. }
    apply D_trans with "D".
    { eapply D_read; [reflexivity|]. apply MR_here. }
    { eapply D_read; [reflexivity|]. apply MR_here. }
  - apply (declared_is_dep qso_sch n) in X; auto. unfold is_dep, ancestors in X. cbn in X.
    destruct n as [|[|n]]; try discriminate X.
Qed.

(** ** Scalar assignments are read back exactly, arrays only up to tolerance *)
Definition scalar (v : pyval) : bool := match v with VArr _ => false | _ => true end.
(** Python's == on scalars *)
Definition py_eq (a b : pyval) : Prop :=
  match a, b with
  | VNum x, VNum y => x == y
  | VStr x, VStr y => x = y
  | VNone, VNone => True
  | _, _ => False
  end.

Lemma scalar_readback sch body validate extra F n p v w st d :
  sch p = KParam d -> validate p v = Ok w -> scalar w = true ->
  (forall old, vals st p = Some old -> scalar old = true) ->
  exists u, fst (get sch body validate (S n) p (snd (set_param sch validate py_obj_eq extra F p v st))) = Some (Ok u)
         /\ py_eq u w.
Proof.
  intros Ep Ew Hw Hold. cbn [get]. rewrite Ep. unfold set_param. rewrite Ep, Ew.
  assert (Href : py_eq w w) by (destruct w; cbn in *; auto; try discriminate; reflexivity).
  destruct (vals st p) as [old|] eqn:Eo.
  - destruct (py_obj_eq w old) eqn:Eq; cbn.
    + rewrite Eo. exists old. split; auto. specialize (Hold old eq_refl).
      destruct old as [|q|s|l], w as [|q'|s'|l']; cbn in *; try discriminate.
      * apply Qeq_bool_iff in Eq. now symmetry.
      * apply String.eqb_eq in Eq. auto.
    + unfold upd. rewrite String.eqb_refl. cbn. exists w. auto.
  - cbn. unfold upd. rewrite String.eqb_refl. cbn. exists w. auto.
Qed.

(** ... and in general what is read back is the assigned value or an old value
    that [obj_eq] does not tell apart from it. *)
Lemma readback_general {V} sch body validate (obj_eq : V -> V -> bool) extra F n p v w st d :
  sch p = KParam d -> validate p v = Ok w ->
  exists u, fst (get sch body validate (S n) p (snd (set_param sch validate obj_eq extra F p v st))) = Some (Ok u)
         /\ (u = w \/ (vals st p = Some u /\ obj_eq w u = true)).
Proof.
  intros Ep Ew. cbn [get]. rewrite Ep. unfold set_param. rewrite Ep, Ew.
  destruct (vals st p) as [old|] eqn:Eo.
  - destruct (obj_eq w old) eqn:Eq; cbn.
    + rewrite Eo. cbn. exists old. auto.
    + unfold upd. rewrite String.eqb_refl. cbn. exists w. auto.
  - cbn. unfold upd. rewrite String.eqb_refl. cbn. exists w. auto.
Qed.

(** ** First load of simulation data is seen *)
Lemma load_fresh {V} sch body validate (obj_eq : V -> V -> bool) extra fuel F a it ps data flag tbl vtrue w d st :
  sch a = KProp it ps -> sch flag = KParam d -> validate flag vtrue = Ok w -> data <> flag ->
  (forall old, vals st flag = Some old -> obj_eq w old = false) ->
  creatable sch F a -> declared sch a flag -> ovr st a = None ->
  let st' := load_sim sch validate obj_eq extra F data flag tbl vtrue st in
  vals st' data = Some tbl /\ vals st' flag = Some w /\
  fst (get sch body validate (S fuel) a st') =
  fst (runc (get sch body validate fuel) (body a) st').
Proof.
  intros Ea Ef Ew Hne Hold Hcr Hd Ho st'. apply (declared_is_dep sch F) in Hd; auto.
  assert (E : vals st' data = Some tbl /\ vals st' flag = Some w /\ cache st' a = None /\ ovr st' a = None).
  { unfold st', load_sim, set_param. rewrite Ef, Ew. cbn [vals]. rewrite upd_other by auto.
    assert (Hp : popped sch extra F flag a = true) by (unfold popped; now rewrite Hd).
    destruct (vals st flag) as [old|] eqn:Eo.
    - rewrite (Hold old eq_refl). cbn. rewrite upd_other, upd_same, upd_same, Hp by auto. auto.
    - cbn. rewrite upd_other, upd_same, upd_same, Hp by auto. auto. }
  destruct E as [E1 [E2 [E3 E4]]]. repeat split; auto.
  cbn [get]. rewrite Ea. assert (Hoa : (if it then None else ovr st' a) = None) by (destruct it; auto).
  rewrite Hoa, E3. destruct (runc (get sch body validate fuel) (body a) st') as [[[v|e]|] s1]; reflexivity.
Qed.

(** ** Override: what is read inside the block, and what is left behind *)
Lemma override_read {V} sch body validate n a ps (v : V) st :
  sch a = KProp false ps ->
  fst (get sch body validate (S n) a (mkState (vals st) (cache st) (upd (ovr st) a (Some v)) (log st))) = Some (Ok v).
Proof. intros Ea. cbn. rewrite Ea. cbn. now rewrite upd_same. Qed.

Lemma del_prop_clears {V} (sch : schema V) extra ifuel a b st :
  (b = a \/ creatable sch ifuel b /\ declared sch b a) ->
  cache (snd (del_prop sch extra ifuel a st)) b = None.
Proof.
  intros H. cbn. unfold popped. destruct H as [->|H].
  - destruct (is_dep ifuel sch a a || extra a a); auto. apply upd_same.
  - destruct H as [Hc H]. now rewrite (declared_is_dep sch ifuel _ _ Hc H).
Qed.

Lemma gap_free :
  map fst (filter (fun c => match snd (snd c) with [] => true | _ => false end) class_tables) =
  ["HaloZeldovichP00"; "HaloZeldovichP01"; "HaloZeldovichP11"; "HaloZeldovichPhm"; "HaloZeldovichCFhm";
   "SimulationP11"; "SimulationPdv"; "ExtrapolatedPowerSpectrum"; "GriddedWedgeTransfer"; "WedgeTransfer";
   "PkmuCovarianceMatrix"; "PoleCovarianceMatrix"; "PowerMeasurement"; "FittingDriver"; "Parameter"].
Proof. reflexivity. Qed.

Lemma gaps_real :
  undeclared tbl_QuasarSpectrum "btot" "z" = true /\
  undeclared tbl_QuasarSpectrum "P_mu0" "z" = true /\
  undeclared tbl_QuasarSpectrum "P_mu2" "z" = true /\
  undeclared tbl_QuasarSpectrum "alpha_png" "sigma8_z" = true /\
  undeclared tbl_GalaxySpectrum "Phm" "use_tidal_bias" = true /\
  undeclared tbl_GalaxySpectrum "P02_ss" "use_tidal_bias" = true /\
  undeclared tbl_GalaxySpectrum "P22_ss" "kmax" = true /\
  undeclared tbl_GalaxySpectrum "b2_00_b" "b2_00_a__0" = true /\
  undeclared tbl_GalaxySpectrum "bias_to_sigma_relation" "params" = true /\
  undeclared tbl_GalaxySpectrum "P00" "interpolate" = true /\
  undeclared tbl_GriddedMultipoleTransfer "k_mean" "mu_bounds" = true /\
  undeclared tbl_PowerData "global_kmax" "window_file" = true /\
  undeclared tbl_BiasToSigmaRelation "interpolation_table" "cosmo" = true /\
  undeclared tbl_GeorgeSimulationData "gp" "theta" = true.
Proof. repeat split; vm_compute; reflexivity. Qed.

Lemma preserve_reads_fresh V (sch : schema V) body validate obj_eq extra fuel ifuel :
  (forall u w, obj_eq u w = true -> u = w) ->
  disciplined sch body [] ifuel ->
  forall names allowable kwargs b ps history,
  forallb (plain sch []) history = true ->
  let st := run_ops sch body validate obj_eq extra fuel ifuel history (init ps) in
  forall st',
  (forall p d, sch p = KParam d -> In p names) ->
  (forall k v, vals st k = Some v -> validate k v = Ok v) ->
  forallb (plain sch []) (ops b) = true -> raises b = None ->
  (forall p v, In (OSet p v) (ops b) -> vals st p <> None) ->
  (forall p v, In (p, v) kwargs -> vals st p <> None) ->
  preserve sch body validate obj_eq extra fuel ifuel names allowable kwargs b st = (Ok tt, st') ->
  forall n a x, fresh sch body validate n (vals st) a = Some x ->
  fst (get sch body validate n a st') = Some x.
Proof.
  intros Hx Hd names allowable kwargs b ps history Hh st st' H1 H2 H3 H4 H5 H6 H7 n a x Hf.
  assert (Hc : coherent sch body validate st).
  { eapply run_coherent; eauto. apply init_coherent. }
  assert (Hc' : coherent sch body validate st') by (eapply preserve_coherent; eauto).
  assert (Hv : forall y, vals st' y = vals st y) by (eapply preserve_values; eauto).
  destruct (get_complete sch body validate n a st' x Hc') as [s E].
  - rewrite <- Hf. apply fresh_vals_ext. auto.
  - now rewrite E.
Qed.

Lemma preserve_stale :
  let st := start [("z", 0%Q); ("sigma8_z", 2%Q)] in
  let names := ["z"; "sigma8_z"; "sigma_v"; "alpha_drag"] in
  let b := mkBlock [OSet "alpha_drag" (VNum 3); OGet "rs"] None in
  exists st', preserve ex_sch ex_body ok_any py_obj_eq no_extra 10 depth names ["z"] [] b st = (Ok tt, st') /\
  (forall x, vals st' x = vals st x) /\
  fst (get ex_sch ex_body ok_any 10 "rs" st') <> fresh ex_sch ex_body ok_any 10 (vals st') "rs".
Proof.
  cbv zeta. eexists. split; [reflexivity|]. split.
  - intros x.
    destruct (String.string_dec x "z") as [->|E1]; [reflexivity|].
    destruct (String.string_dec x "sigma8_z") as [->|E2]; [reflexivity|].
    destruct (String.string_dec x "alpha_drag") as [->|E3]; [reflexivity|].
    destruct (String.string_dec x "sigma_v") as [->|E4]; [reflexivity|].
    apply String.eqb_neq in E1, E2, E3, E4.
    assert (Hn : vals (start [("z", 0%Q); ("sigma8_z", 2%Q)]) x = None).
    { unfold start, init. cbn [vals find fst]. rewrite String.eqb_sym, E1.
      rewrite (String.eqb_sym "sigma8_z" x), E2. reflexivity. }
    rewrite Hn. unfold restore_cache, del_unset. cbn [vals]. rewrite Hn.
    destruct (mem x _); [reflexivity|].
    assert (Hr : forall y, vals (run_ops ex_sch ex_body ok_any py_obj_eq no_extra 10 depth
             [OSet "alpha_drag" (VNum 3); OGet "rs"] (start [("z", 0%Q); ("sigma8_z", 2%Q)])) y =
             upd (vals (start [("z", 0%Q); ("sigma8_z", 2%Q)])) "alpha_drag" (Some (VNum 3)) y)
      by (intro y; reflexivity).
    cbn [ops]. rewrite Hr. unfold upd. rewrite E3. exact Hn.
  - vm_compute. discriminate.
Qed.

Lemma preserve_crash V (sch : schema V) body validate obj_eq extra fuel ifuel names allowable b e st saved st1 :
  save_params sch body validate fuel allowable st = (Ok saved, st1) ->
  raises b = Some e ->
  preserve sch body validate obj_eq extra fuel ifuel names allowable [] b st =
  (Err e, run_ops sch body validate obj_eq extra fuel ifuel (ops b) st1).
Proof. intros H1 H2. unfold preserve. rewrite H1. cbn [forallb set_all]. now rewrite H2. Qed.
