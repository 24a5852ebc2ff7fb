From Coq Require Import String QArith Qabs Bool List Lia Lqa.
From Verif Require Import M_Cosmo.
Import ListNotations.
Open Scope string_scope.
Open Scope list_scope.

(** ** Python dicts *)
Lemma dget_dset d k v x : dget (dset d k v) x = if String.eqb x k then Some v else dget d x.
Proof.
  induction d as [|[k' v'] d IH]; cbn.
  - destruct (String.eqb x k); auto.
  - destruct (String.eqb k k') eqn:E; cbn.
    + apply String.eqb_eq in E. subst k'. destruct (String.eqb x k); auto.
    + rewrite IH. destruct (String.eqb x k') eqn:E1; auto.
      destruct (String.eqb x k) eqn:E2; auto. apply String.eqb_eq in E1, E2. subst. rewrite String.eqb_refl in E. discriminate E.
Qed.
Lemma dget_None e k : dget e k = None <-> ~ In k (map fst e).
Proof.
  induction e as [|[k' v] e IH]; cbn; [split; auto; intros _ []|].
  destruct (String.eqb k k') eqn:E.
  - apply String.eqb_eq in E. subst. split; [discriminate|intros H; elim H; auto].
  - apply String.eqb_neq in E. rewrite IH. split; [intros H [X|X]; congruence || auto|auto].
Qed.
Lemma dget_dupdate e : NoDup (map fst e) -> forall d x,
  dget (dupdate d e) x = match dget e x with Some v => Some v | None => dget d x end.
Proof.
  induction e as [|[k v] e IH]; intros Hn d x; auto. inversion Hn as [|? ? Hk Hn']. subst.
  cbn [dupdate dget]. rewrite IH by auto. rewrite dget_dset.
  destruct (String.eqb x k) eqn:E; auto. apply String.eqb_eq in E. subst x.
  apply dget_None in Hk. now rewrite Hk.
Qed.
Lemma dget_filter p d k : dget (filter (fun kv => p (fst kv)) d) k = if p k then dget d k else None.
Proof.
  induction d as [|[k' v] d IH]; cbn; [destruct (p k); auto|].
  destruct (p k') eqn:Ep; cbn; destruct (String.eqb k k') eqn:E; auto; apply String.eqb_eq in E; subst k'; rewrite ?Ep in *; auto.
Qed.
Lemma filter_NoDup p (d : pdict) : NoDup (map fst d) -> NoDup (map fst (filter (fun kv => p (fst kv)) d)).
Proof.
  induction d as [|[k v] d IH]; cbn; intros H; auto. inversion H as [|? ? Hk Hn]. subst.
  destruct (p k); cbn; auto. constructor; auto.
  intros X. apply Hk. apply in_map_iff in X as [[k' v'] [<- X]]. apply filter_In in X as [X _].
  apply in_map_iff. exists (k', v'). auto.
Qed.
Lemma dset_keys d k v x : In x (map fst (dset d k v)) <-> x = k \/ In x (map fst d).
Proof.
  induction d as [|[k' v'] d IH]; cbn; [intuition|].
  destruct (String.eqb k k') eqn:E; cbn.
  - apply String.eqb_eq in E. subst. intuition.
  - rewrite IH. intuition.
Qed.
Lemma dset_NoDup d k v : NoDup (map fst d) -> NoDup (map fst (dset d k v)).
Proof.
  induction d as [|[k' v'] d IH]; cbn; intros H; [constructor; auto|].
  inversion H as [|? ? Hk Hn]. subst.
  destruct (String.eqb k k') eqn:E; cbn; [constructor; auto|].
  constructor; auto. rewrite dset_keys. intros [->|X]; auto. rewrite String.eqb_refl in E. discriminate E.
Qed.
Lemma dupdate_keys e : forall d x, In x (map fst (dupdate d e)) <-> In x (map fst e) \/ In x (map fst d).
Proof.
  induction e as [|[k v] e IH]; intros d x; cbn [dupdate map fst In]; [intuition|].
  rewrite IH, dset_keys. intuition.
Qed.
Lemma dupdate_NoDup e : forall d, NoDup (map fst d) -> NoDup (map fst (dupdate d e)).
Proof. induction e as [|[k v] e IH]; intros d H; auto. cbn. apply IH. now apply dset_NoDup. Qed.

Section P.
Variable rad : Q -> Q -> Q -> Q -> Q.
Notation construct := (construct rad).
Notation init := (init rad).

Lemma entries_nodup e w0 ns s8 : NoDup (map fst (entries e w0 ns s8)).
Proof.
  unfold entries. destruct (e_flat e); cbn;
  repeat (constructor; [cbn; intros X; repeat (destruct X as [X|X]; [discriminate X|]); exact X|]); constructor.
Qed.
Lemma dupdate_nil_entries e w0 ns s8 : dupdate [] (entries e w0 ns s8) = entries e w0 ns s8.
Proof. unfold entries. destruct (e_flat e); reflexivity. Qed.

(** Canonical form of every constructed cosmology. *)
Definition canon (c : cosmo) : Prop :=
  exists H0 Om0 Ob0 Ode0 w0 Tcmb0 Neff mnu ns s8 flat name,
  let e := build_engine rad H0 Om0 Ob0 Ode0 w0 Tcmb0 Neff mnu flat name in
  c = mkCosmo e (entries e w0 ns s8).

Lemma init_canon kw old c : init kw old = Some c ->
  exists H0 Om0 Ob0 Ode0 w0 Tcmb0 Neff mnu ns s8 flat name,
  let e := build_engine rad H0 Om0 Ob0 Ode0 w0 Tcmb0 Neff mnu flat name in
  c = mkCosmo e (dupdate old (entries e w0 ns s8)).
Proof.
  unfold M_Cosmo.init. destruct (negb _); [discriminate|].
  repeat match goal with |- context [match ?x with _ => _ end] =>
    lazymatch x with num_arg _ _ _ => destruct x; [|discriminate] | flag_arg _ _ _ => destruct x; [|discriminate] end end.
  intros H. injection H as <-. repeat eexists.
Qed.
Lemma construct_canon kw c : construct kw = Some c -> canon c.
Proof.
  intros H. apply init_canon in H as (H0&Om0&Ob0&Ode0&w0&Tc&Ne&mnu&ns&s8&fl&nm&E).
  exists H0, Om0, Ob0, Ode0, w0, Tc, Ne, mnu, ns, s8, fl, nm. cbv zeta in *. now rewrite dupdate_nil_entries in E.
Qed.

(** Running [__init__] on the stored dict rebuilds the same engine and entries. *)
Lemma init_items H0 Om0 Ob0 Ode0 w0 Tcmb0 Neff mnu ns s8 flat name old :
  let e := build_engine rad H0 Om0 Ob0 Ode0 w0 Tcmb0 Neff mnu flat name in
  init (entries e w0 ns s8) old = Some (mkCosmo e (dupdate old (entries e w0 ns s8))).
Proof. cbv zeta. destruct flat; reflexivity. Qed.

Theorem copy_same kw c : construct kw = Some c -> copy rad c = Some c.
Proof.
  intros H. apply construct_canon in H as (H0&Om0&Ob0&Ode0&w0&Tc&Ne&mnu&ns&s8&fl&nm&->).
  unfold copy, M_Cosmo.construct. cbn [items]. rewrite init_items, dupdate_nil_entries. reflexivity.
Qed.

Definition stored (c : cosmo) : bool := negb (e_flat (eng c)).

Theorem unpickle_same kw c : construct kw = Some c ->
  exists c', unpickle rad c = Some c' /\ eng c' = eng c /\
  (forall k, getattr c' k = getattr c k) /\
  (forall k, k <> "Ode0" \/ getattr c "flat" = Some (CFlag false) -> getitem c' k = getitem c k) /\
  (getattr c "flat" = Some (CFlag true) -> getitem c' "Ode0" = Some (CNum (69 # 100))).
Proof.
  intros H. apply construct_canon in H as (H0&Om0&Ob0&Ode0&w0&Tc&Ne&mnu&ns&s8&fl&nm&->).
  unfold unpickle. replace (construct []) with (Some (mkCosmo (build_engine rad (676 # 10) (31 # 100) (486 # 10000) (69 # 100) (-1) (27255 # 10000) (304 # 100) 0 false CNone)
     (entries (build_engine rad (676 # 10) (31 # 100) (486 # 10000) (69 # 100) (-1) (27255 # 10000) (304 # 100) 0 false CNone) (-1) (9667 # 10000) (8159 # 10000)))) by reflexivity.
  cbn [items]. rewrite init_items. eexists. split; [reflexivity|]. cbn [eng].
  set (e := build_engine rad H0 Om0 Ob0 Ode0 w0 Tc Ne mnu fl nm).
  set (e0 := build_engine _ _ _ _ _ _ _ _ _ _ _).
  assert (Hflat : M_Cosmo.getattr (mkCosmo e (entries e w0 ns s8)) "flat" = Some (CFlag fl)) by (destruct fl; reflexivity).
  assert (Hi : forall k, k <> "Ode0" \/ fl = false ->
     getitem (mkCosmo e (dupdate (entries e0 (-1) (9667 # 10000) (8159 # 10000)) (entries e w0 ns s8))) k = getitem (mkCosmo e (entries e w0 ns s8)) k).
  { intros k Hk. unfold getitem. cbn [items eng]. rewrite dget_dupdate by apply entries_nodup.
    destruct (dget (entries e w0 ns s8) k) eqn:E; auto.
    assert (dget (entries e0 (-1) (9667 # 10000) (8159 # 10000)) k = None) as ->; auto.
    apply dget_None. apply dget_None in E. intros X. apply E. clear E.
    unfold entries in *. destruct fl; cbn in *; [|exact X].
    destruct Hk as [Hk|Hk]; [|discriminate Hk].
    repeat (destruct X as [X|X]; [solve [auto 20]|]). try (destruct X as [X|X]; [elim Hk; symmetry; exact X|]); destruct X. }
  split; auto. split; [|split].
  - intros k. unfold getattr. cbn [eng]. destruct (eattr e k) eqn:E; auto. apply Hi. left. intros ->. discriminate E.
  - intros k [Hk|Hk]; apply Hi; auto. rewrite Hflat in Hk. injection Hk as ->. auto.
  - rewrite Hflat. intros X. injection X as ->. reflexivity.
Qed.

(** ** clone *)
Definition num_params : list string := ["H0"; "Om0"; "Ob0"; "w0"; "Tcmb0"; "Neff"; "m_nu"; "n_s"; "sigma8"].
Definition numeric (kw : pdict) : Prop := forall k v, In (k, v) kw ->
  (k = "name") \/ (exists q, v = CNum q /\ (In k num_params \/ k = "Ode0")).

Lemma dget_In d k v : dget d k = Some v -> In (k, v) d.
Proof.
  induction d as [|[k' v'] d IH]; cbn; [discriminate|].
  destruct (String.eqb k k') eqn:E; [intros H; injection H as <-; apply String.eqb_eq in E; subst; auto|auto].
Qed.

Lemma num_of kw k : numeric kw -> k <> "name" -> dget kw k = None \/ exists q, dget kw k = Some (CNum q).
Proof.
  intros H Hk. destruct (dget kw k) as [v|] eqn:E; auto. right. apply dget_In in E.
  destruct (H _ _ E) as [->|[q [-> _]]]; [congruence|]. eauto.
Qed.

Lemma numeric_no kw k : numeric kw -> k <> "name" -> k <> "Ode0" -> ~ In k num_params -> dget kw k = None.
Proof.
  intros H H1 H2 H3. destruct (dget kw k) as [v|] eqn:E; auto. apply dget_In in E.
  destruct (H _ _ E) as [->|[q [_ [X|X]]]]; congruence || contradiction.
Qed.

Definition pick (kw : pdict) (k : string) (d : Q) : Q :=
  match dget kw k with Some (CNum q) => q | _ => d end.

Lemma num_arg_pick kw k d : numeric kw -> k <> "name" -> num_arg kw k d = Some (pick kw k d).
Proof. intros H Hk. unfold num_arg, pick. destruct (num_of kw k H Hk) as [->|[q ->]]; auto. Qed.

Lemma pick_filter p kw k d : pick (filter (fun kv => p (fst kv)) kw) k d = if p k then pick kw k d else d.
Proof. unfold pick. rewrite dget_filter. destruct (p k); auto. Qed.

Lemma numeric_filter p kw : numeric kw -> numeric (filter (fun kv => p (fst kv)) kw).
Proof. intros H k v X. apply filter_In in X as [X _]. eauto. Qed.

Lemma forallb_names (d : pdict) : (forall x, In x (map fst d) -> In x arg_names) -> forallb (fun kv => inb (fst kv) arg_names) d = true.
Proof.
  intros H. apply forallb_forall. intros [k v] X. cbn [fst]. unfold inb. apply existsb_exists. exists k. split; [|apply String.eqb_refl].
  apply H. apply in_map_iff. exists (k, v). auto.
Qed.

Lemma clone_canon kw c : canon c -> NoDup (map fst kw) -> numeric kw ->
  (e_flat (eng c) = true -> dget kw "Ode0" = None) ->
  exists H0 Om0 Ob0 Ode0 w0 Tcmb0 Neff mnu ns s8 flat name,
  c = (let e := build_engine rad H0 Om0 Ob0 Ode0 w0 Tcmb0 Neff mnu flat name in mkCosmo e (entries e w0 ns s8)) /\
  let H0' := pick kw "H0" H0 in let Om0' := pick kw "Om0" Om0 in let Tc' := pick kw "Tcmb0" Tcmb0 in
  let Ne' := pick kw "Neff" Neff in let mnu' := pick kw "m_nu" mnu in let w0' := pick kw "w0" w0 in
  let Ode' := if flat then 1 - Om0' - rad H0' Tc' Ne' mnu' else pick kw "Ode0" Ode0 in
  let flat' := if flat then true else Qeq_bool (1 - Om0' - Ode' - rad H0' Tc' Ne' mnu') 0 in
  let e' := build_engine rad H0' Om0' (pick kw "Ob0" Ob0) Ode' w0' Tc' Ne' mnu' flat'
              (match dget kw "name" with Some n => n | None => name end) in
  clone rad c kw = Some (mkCosmo e' (entries e' w0' (pick kw "n_s" ns) (pick kw "sigma8" s8))).
Proof.
  intros (H0&Om0&Ob0&Ode0&w0&Tc&Ne&mnu&ns&s8&fl&nm&->) Hnd Hnum Hode.
  exists H0, Om0, Ob0, Ode0, w0, Tc, Ne, mnu, ns, s8, fl, nm. split; [reflexivity|]. cbv zeta in *.
  set (e := build_engine rad H0 Om0 Ob0 Ode0 w0 Tc Ne mnu fl nm) in *. cbn [eng] in Hode.
  unfold clone. cbn [eng items].
  set (is_eng := fun k => match eattr e k with Some _ => true | None => false end).
  change (filter (fun kv : string * cval => match eattr e (fst kv) with Some _ => true | None => false end) kw)
    with (filter (fun kv : string * cval => is_eng (fst kv)) kw).
  set (q := fun k => negb (is_eng k)).
  change (filter (fun kv : string * cval => negb match eattr e (fst kv) with Some _ => true | None => false end) kw)
    with (filter (fun kv : string * cval => q (fst kv)) kw).
  change (filter (fun kv : string * cval => negb match eattr e (fst kv) with Some _ => true | None => false end) (entries e w0 ns s8))
    with (filter (fun kv : string * cval => q (fst kv)) (entries e w0 ns s8)).
  set (kwe := filter (fun kv : string * cval => is_eng (fst kv)) kw).
  set (kwx := filter (fun kv : string * cval => q (fst kv)) kw).
  set (ex := filter (fun kv : string * cval => q (fst kv)) (entries e w0 ns s8)).
  assert (Hw : is_eng "w0" = negb (Qeq_bool w0 (-1))).
  { unfold is_eng, e. cbn. destruct (Qeq_bool w0 (-1)); reflexivity. }
  (* the engine clone *)
  assert (He : eclone rad e kwe = Some (mkEngine fl (negb (Qeq_bool w0 (-1))) (pick kw "H0" H0) (pick kw "Om0" Om0) (pick kw "Ob0" Ob0)
       (if fl then 1 - pick kw "Om0" Om0 - rad (pick kw "H0" H0) (pick kw "Tcmb0" Tc) (pick kw "Neff" Ne) (pick kw "m_nu" mnu) else pick kw "Ode0" Ode0)
       (if is_eng "w0" then pick kw "w0" w0 else w0) (pick kw "Tcmb0" Tc) (pick kw "Neff" Ne) (pick kw "m_nu" mnu)
       (match dget kw "name" with Some n => n | None => nm end))).
  { unfold eclone. change (e_flat e) with fl. change (e_wcdm e) with (negb (Qeq_bool w0 (-1))).
    assert (E1 : fl && match dget kwe "Ode0" with Some _ => true | None => false end = false).
    { destruct fl; auto. unfold kwe. rewrite dget_filter. rewrite (Hode eq_refl). destruct (is_eng "Ode0"); reflexivity. }
    rewrite E1.
    assert (E2 : negb (negb (Qeq_bool w0 (-1))) && match dget kwe "w0" with Some _ => true | None => false end = false).
    { unfold kwe. rewrite dget_filter, Hw. destruct (negb (Qeq_bool w0 (-1))); reflexivity. }
    rewrite E2.
    assert (Hn : numeric kwe) by now apply numeric_filter.
    rewrite !num_arg_pick by (auto || discriminate).
    unfold kwe. rewrite !pick_filter.
    change (is_eng "H0") with true. change (is_eng "Om0") with true. change (is_eng "Ob0") with true.
    change (is_eng "Ode0") with true. change (is_eng "Tcmb0") with true. change (is_eng "Neff") with true. change (is_eng "m_nu") with true.
    cbv iota. rewrite dget_filter. change (is_eng "name") with true. cbv iota.
    change (e_H0 e) with H0. change (e_Om0 e) with Om0. change (e_Ob0 e) with Ob0. change (e_Tcmb0 e) with Tc. change (e_Neff e) with Ne.
    change (e_mnu e) with mnu. change (e_name e) with nm. change (e_w0 e) with w0.
    change (e_Ode0 e) with (if fl then 1 - Om0 - rad H0 Tc Ne mnu else Ode0).
    destruct fl; reflexivity. }
  rewrite He.
  (* the keywords handed to the constructor *)
  set (e1 := mkEngine _ _ _ _ _ _ _ _ _ _ _).
  unfold from_astropy.
  set (ev := flat_map _ _).
  set (extras := dupdate ex kwx).
  set (kw1 := dset (dupdate extras ev) "flat" _).
  set (kw2 := match dget kw1 "name" with Some _ => kw1 | None => dset kw1 "name" (e_name e1) end).
  assert (Hev : NoDup (map fst ev)).
  { unfold ev. cbn. destruct (negb (Qeq_bool w0 (-1))); cbn;
    repeat (constructor; [cbn; intros X; repeat (destruct X as [X|X]; [discriminate X|]); exact X|]); constructor. }
  assert (Hkx : NoDup (map fst kwx)) by (now apply filter_NoDup).
  assert (Hget : forall k, dget kw1 k = if String.eqb k "flat" then Some (CFlag (Qeq_bool (e_Ok0 rad e1) 0)) else
             match dget ev k with Some v => Some v | None =>
             match dget kwx k with Some v => Some v | None => dget ex k end end).
  { intros k. unfold kw1, extras. rewrite dget_dset, !dget_dupdate by auto. reflexivity. }
  assert (Hexname : dget ex "name" = None) by (unfold ex; rewrite dget_filter; reflexivity).
  assert (Hkxname : dget kwx "name" = None) by (unfold kwx; rewrite dget_filter; reflexivity).
  assert (Hname1 : dget kw1 "name" = None).
  { rewrite Hget. cbn [String.eqb]. replace (dget ev "name") with (@None cval). 2:{ unfold ev; cbn; destruct (negb (Qeq_bool w0 (-1))); reflexivity. }
    rewrite Hkxname, Hexname. reflexivity. }
  assert (Hget2 : forall k, k <> "name" -> dget kw2 k = dget kw1 k).
  { intros k Hk. unfold kw2. rewrite Hname1, dget_dset. apply String.eqb_neq in Hk. now rewrite Hk. }
  assert (Hname2 : dget kw2 "name" = Some (e_name e1)).
  { unfold kw2. rewrite Hname1, dget_dset. reflexivity. }
  unfold M_Cosmo.construct, M_Cosmo.init.
  assert (Hall : forallb (fun kv => inb (fst kv) arg_names) kw2 = true).
  { apply forallb_names. intros x Hx. unfold kw2 in Hx. rewrite Hname1 in Hx. apply dset_keys in Hx as [->|Hx]; [cbn; tauto|].
    unfold kw1 in Hx. apply dset_keys in Hx as [->|Hx]; [cbn; tauto|].
    apply dupdate_keys in Hx as [Hx|Hx].
    - unfold ev in Hx. cbn in Hx. destruct (negb (Qeq_bool w0 (-1))); cbn in Hx; repeat (destruct Hx as [<-|Hx]; [cbn; tauto|]); destruct Hx.
    - unfold extras in Hx. apply dupdate_keys in Hx as [Hx|Hx].
      + apply in_map_iff in Hx as [[k v] [<- Hx]]. apply filter_In in Hx as [Hx _].
        destruct (Hnum _ _ Hx) as [->|[qq [_ [Y| -> ]]]]; cbn; [tauto| |tauto]. cbn in Y. tauto.
      + apply in_map_iff in Hx as [[k v] [<- Hx]]. apply filter_In in Hx as [Hx _]. cbn [fst].
        unfold entries in Hx. destruct fl; cbn in Hx; cbn;
        repeat (destruct Hx as [Hx|Hx]; [injection Hx as <- _; tauto|]); destruct Hx. }
  rewrite Hall. cbn [negb].
  assert (Gev : forall k, In k ["H0";"Om0";"Ob0";"Ode0";"Tcmb0";"Neff";"m_nu"] -> dget kw2 k = eattr e1 k).
  { intros k Hk. rewrite Hget2, Hget.
    - unfold ev. cbn in Hk |- *. destruct (negb (Qeq_bool w0 (-1))); cbn;
      repeat (destruct Hk as [<-|Hk]; [reflexivity|]); destruct Hk.
    - cbn in Hk. intros ->. repeat (destruct Hk as [X|Hk]; [discriminate X|]); exact Hk. }
  assert (GH : num_arg kw2 "H0" (676 # 10) = Some (pick kw "H0" H0)) by (unfold num_arg; rewrite Gev by (cbn; tauto); reflexivity).
  assert (GOm : num_arg kw2 "Om0" (31 # 100) = Some (pick kw "Om0" Om0)) by (unfold num_arg; rewrite Gev by (cbn; tauto); reflexivity).
  assert (GOb : num_arg kw2 "Ob0" (486 # 10000) = Some (pick kw "Ob0" Ob0)) by (unfold num_arg; rewrite Gev by (cbn; tauto); reflexivity).
  assert (GOde : num_arg kw2 "Ode0" (69 # 100) = Some (e_Ode0 e1)) by (unfold num_arg; rewrite Gev by (cbn; tauto); reflexivity).
  assert (GTc : num_arg kw2 "Tcmb0" (27255 # 10000) = Some (pick kw "Tcmb0" Tc)) by (unfold num_arg; rewrite Gev by (cbn; tauto); reflexivity).
  assert (GNe : num_arg kw2 "Neff" (304 # 100) = Some (pick kw "Neff" Ne)) by (unfold num_arg; rewrite Gev by (cbn; tauto); reflexivity).
  assert (Gmn : num_arg kw2 "m_nu" 0 = Some (pick kw "m_nu" mnu)) by (unfold num_arg; rewrite Gev by (cbn; tauto); reflexivity).
  assert (Gfl : flag_arg kw2 "flat" false = Some (Qeq_bool (e_Ok0 rad e1) 0)).
  { unfold flag_arg. rewrite Hget2, Hget by discriminate. reflexivity. }
  assert (Gx : forall k d0 d, In k ["n_s"; "sigma8"] -> dget (entries e w0 ns s8) k = Some (CNum d) -> num_arg kw2 k d0 = Some (pick kw k d)).
  { intros k d0 d Hk Hd. unfold num_arg, pick. rewrite Hget2, Hget.
    - assert (String.eqb k "flat" = false) as -> by (cbn in Hk; destruct Hk as [<-|[<-|[]]]; reflexivity).
      assert (dget ev k = None) as ->.
      { unfold ev. cbn in Hk |- *. destruct (negb (Qeq_bool w0 (-1))); cbn; destruct Hk as [<-|[<-|[]]]; reflexivity. }
      unfold kwx, ex. rewrite !dget_filter. assert (q k = true) as -> by (cbn in Hk; destruct Hk as [<-|[<-|[]]]; reflexivity).
      rewrite Hd. destruct (num_of kw k Hnum) as [->|[qq ->]]; auto. cbn in Hk. intros ->. destruct Hk as [X|[X|[]]]; discriminate X.
    - cbn in Hk. intros ->. destruct Hk as [X|[X|[]]]; discriminate X. }
  assert (Gns : num_arg kw2 "n_s" (9667 # 10000) = Some (pick kw "n_s" ns)).
  { apply Gx; [cbn; tauto|]. unfold entries. destruct fl; reflexivity. }
  assert (Gs8 : num_arg kw2 "sigma8" (8159 # 10000) = Some (pick kw "sigma8" s8)).
  { apply Gx; [cbn; tauto|]. unfold entries. destruct fl; reflexivity. }
  assert (Gw : num_arg kw2 "w0" (-1) = Some (pick kw "w0" w0)).
  { unfold num_arg, pick. rewrite Hget2, Hget by discriminate. change (String.eqb "w0" "flat") with false. cbv iota.
    unfold kwx, ex, ev. rewrite !dget_filter. unfold q at 1 2. rewrite Hw. cbn [flat_map].
    destruct (negb (Qeq_bool w0 (-1))) eqn:Ew; cbn.
    - rewrite Hw. reflexivity.
    - destruct (num_of kw "w0" Hnum) as [->|[qq ->]]; [discriminate| |reflexivity]. unfold entries. destruct fl; reflexivity. }
  rewrite GH, GOm, GOb, GOde, Gw, GTc, GNe, Gmn, Gns, Gs8, Gfl, Hname2.
  rewrite dupdate_nil_entries.
  assert (Hok : Qeq_bool (e_Ok0 rad e1) 0 = if fl then true else
     Qeq_bool (1 - pick kw "Om0" Om0 - pick kw "Ode0" Ode0 - rad (pick kw "H0" H0) (pick kw "Tcmb0" Tc) (pick kw "Neff" Ne) (pick kw "m_nu" mnu)) 0).
  { unfold e_Ok0, e1. cbn [e_flat e_Om0 e_Ode0 e_H0 e_Tcmb0 e_Neff e_mnu]. destruct fl; reflexivity. }
  rewrite Hok. unfold e1. cbn [e_name e_Ode0]. destruct fl; reflexivity.
Qed.

Definition reads (c : cosmo) (k : string) (q : Q) : Prop := exists q', getattr c k = Some (CNum q') /\ q' == q.

Theorem clone_changes kw0 c kw : construct kw0 = Some c -> NoDup (map fst kw) -> numeric kw ->
  (getattr c "flat" = Some (CFlag true) -> dget kw "Ode0" = None) ->
  exists c', clone rad c kw = Some c' /\
  (forall k q, In k num_params -> dget kw k = Some (CNum q) -> reads c' k q) /\
  (forall k q, In k num_params -> dget kw k = None -> reads c k q -> reads c' k q) /\
  (getattr c "flat" = Some (CFlag false) -> forall q,
     dget kw "Ode0" = Some (CNum q) \/ (dget kw "Ode0" = None /\ reads c "Ode0" q) -> reads c' "Ode0" q) /\
  (getattr c "flat" = Some (CFlag true) -> getattr c' "flat" = Some (CFlag true)).
Proof.
  intros Hc Hnd Hnum Hode.
  assert (Hfl : getattr c "flat" = Some (CFlag (e_flat (eng c)))).
  { destruct (construct_canon _ _ Hc) as (?&?&?&?&?&?&?&?&?&?&fl&?&->). destruct fl; reflexivity. }
  destruct (clone_canon kw c (construct_canon _ _ Hc) Hnd Hnum) as (H0&Om0&Ob0&Ode0&w0&Tc&Ne&mnu&ns&s8&fl&nm&Ec&Ecl).
  { intros E. apply Hode. now rewrite Hfl, E. }
  cbv zeta in *. eexists. split; [exact Ecl|].
  match type of Ecl with _ = Some (mkCosmo ?x _) => set (e' := x) in * end. clear Ecl. subst c.
  set (e := build_engine rad H0 Om0 Ob0 Ode0 w0 Tc Ne mnu fl nm) in *.
  assert (Hfl' : fl = e_flat e) by reflexivity.
  assert (R : forall k, In k num_params -> exists q, getattr (mkCosmo e (entries e w0 ns s8)) k = Some (CNum q) /\
              getattr (mkCosmo e' (entries e' (pick kw "w0" w0) (pick kw "n_s" ns) (pick kw "sigma8" s8))) k = Some (CNum (pick kw k q))).
  { intros k Hk. cbn in Hk.
    repeat (destruct Hk as [<-|Hk]; [
        first [solve [eexists; split; reflexivity] |
        solve [exists w0; unfold getattr, getitem; cbn [eng items]; split;
         [unfold eattr; cbn; destruct (Qeq_bool w0 (-1)); cbn; unfold entries; destruct (e_flat e); reflexivity
         |unfold eattr; cbn; destruct (Qeq_bool (pick kw "w0" w0) (-1)); cbn; unfold entries; destruct (e_flat e'); reflexivity]] |
        solve [exists ns; split; unfold getattr, getitem; cbn [eng items]; [unfold eattr; cbn; unfold entries; destruct (e_flat e); reflexivity|
         unfold eattr; cbn; unfold entries; destruct (e_flat e'); reflexivity]] |
        solve [exists s8; split; unfold getattr, getitem; cbn [eng items]; [unfold eattr; cbn; unfold entries; destruct (e_flat e); reflexivity|
         unfold eattr; cbn; unfold entries; destruct (e_flat e'); reflexivity]]] |]). destruct Hk. }
  split; [|split; [|split]].
  - intros k q Hk Hq. destruct (R k Hk) as [q0 [_ R2]]. unfold pick in R2. rewrite Hq in R2. exists q. split; auto. reflexivity.
  - intros k q Hk Hq [q1 [E1 E2]]. destruct (R k Hk) as [q0 [R1 R2]]. rewrite E1 in R1. injection R1 as <-.
    unfold pick in R2. rewrite Hq in R2. exists q1. auto.
  - rewrite Hfl. cbn [eng]. rewrite <- Hfl'. intros X. injection X as ->. intros q Hq.
    unfold reads, getattr, getitem. cbn [eng items]. unfold eattr. cbn. eexists. split; [reflexivity|].
    assert (Hp : pick kw "Ode0" Ode0 == q).
    { unfold pick. destruct Hq as [->|[-> [q1 [E1 E2]]]]; [reflexivity|].
      unfold getattr, getitem in E1. cbn [eng items] in E1. unfold eattr in E1. cbn in E1. injection E1 as <-. exact E2. }
    destruct (Qeq_bool _ 0) eqn:E; auto. apply Qeq_bool_eq in E. rewrite <- Hp. lra.
  - rewrite Hfl. cbn [eng]. rewrite <- Hfl'. intros X. injection X as ->. reflexivity.
Qed.

(** ** Mutation through the dict methods *)
Lemma mutate_eng l : forall c, eng (mutate_all c l) = eng c.
Proof. induction l as [|m l IH]; intros c; auto. cbn. rewrite IH. destruct m; reflexivity. Qed.
Theorem engine_fixed history kw c k : construct kw = Some c ->
  In k ["H0"; "Om0"; "Ob0"; "Ode0"; "Tcmb0"; "Neff"; "m_nu"; "name"] ->
  getattr (mutate_all c history) k = getattr c k.
Proof.
  intros _ Hk. unfold getattr. rewrite mutate_eng.
  cbn in Hk. repeat (destruct Hk as [<-|Hk]; [reflexivity|]). destruct Hk.
Qed.
Theorem setitem_fixed history : forall c, (forall m, In m history -> exists k v, m = MSet k v) -> mutate_all c history = c.
Proof.
  induction history as [|m l IH]; intros c H; auto. cbn. destruct (H m (or_introl eq_refl)) as [k [v ->]].
  cbn. apply IH. intros m Hm. apply H. now right.
Qed.
Lemma dget_drop d k : dget (drop d k) k = None.
Proof. unfold drop. rewrite (dget_filter (fun x => negb (String.eqb k x))). now rewrite String.eqb_refl. Qed.
Theorem update_items kw c q : construct kw = Some c ->
  getitem (mutate c (MUpdate [("H0", CNum q)])) "H0" = Some (CNum q) /\
  getattr (mutate c (MUpdate [("H0", CNum q)])) "H0" = getattr c "H0" /\
  getattr (mutate c (MUpdate [("sigma8", CNum q)])) "sigma8" = Some (CNum q) /\
  getattr (mutate c (MPop "sigma8")) "sigma8" = None.
Proof.
  intros _. unfold getattr, getitem, mutate, update. cbn [items eng dupdate]. rewrite !dget_dset, dget_drop. repeat split.
Qed.

(** ** Equality *)
Lemma isclose_refl a : isclose4 a a = true.
Proof.
  unfold isclose4. apply Qle_bool_iff. setoid_replace (a - a) with 0 by ring. cbn [Qabs Z.abs Qnum].
  pose proof (Qabs_nonneg a). change (Qabs 0) with 0. lra.
Qed.
Theorem eq_refl_copy kw c : construct kw = Some c -> exists d, copy rad c = Some d /\ cosmo_eq c d = true.
Proof.
  intros H. exists c. split; [now apply copy_same with kw|].
  apply construct_canon in H as (H0&Om0&Ob0&Ode0&w0&Tc&Ne&mnu&ns&s8&fl&nm&->). cbv zeta.
  unfold cosmo_eq, getattr, getitem. cbn [eng items].
  unfold eattr, entries, build_engine. cbn. destruct (Qeq_bool w0 (-1)); destruct fl; cbn; rewrite !isclose_refl; reflexivity.
Qed.
Lemma numeq_close x y : numeq x y = true -> exists a b, x = Some (CNum a) /\ y = Some (CNum b) /\
  Qabs (a - b) <= (1 # 100000000) + (1 # 10000) * Qabs b.
Proof.
  destruct x as [[a| | |]|]; try discriminate. destruct y as [[b| | |]|]; try discriminate.
  intros H. apply Qle_bool_iff in H. eauto.
Qed.
Theorem eq_means_close c d : cosmo_eq c d = true ->
  getattr c "flat" = getattr d "flat" /\
  forall k, In k ["H0"; "Om0"; "Ob0"; "Ode0"; "w0"; "Tcmb0"; "Neff"; "m_nu"; "n_s"; "sigma8"] ->
  exists a b, getattr c k = Some (CNum a) /\ getattr d k = Some (CNum b) /\ Qabs (a - b) <= (1 # 100000000) + (1 # 10000) * Qabs b.
Proof.
  unfold cosmo_eq. intros H. apply andb_true_iff in H as [H H3]. apply andb_true_iff in H as [H1 H2].
  split.
  - unfold flageq in H1. destruct (getattr c "flat") as [[|b| |]|]; try discriminate H1.
    destruct (getattr d "flat") as [[|b'| |]|]; try discriminate H1. apply eqb_prop in H1. now subst.
  - rewrite forallb_forall in H3. intros k Hk. apply numeq_close.
    destruct (string_dec k "m_nu") as [->|Hm]; auto. apply H3. cbn in Hk |- *. intuition congruence.
Qed.
End P.
