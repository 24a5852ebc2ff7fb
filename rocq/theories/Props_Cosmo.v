(** * C79-C82: the dict-like cosmology *)
From Coq Require Import String QArith Qabs Bool List.
From Verif Require Import M_Cosmo P_Cosmo.
Import ListNotations.
Open Scope string_scope.
Open Scope list_scope.

(** C79: [copy()] returns an equal object, for every constructible cosmology. *)
Theorem C79_copy_is_the_same : forall rad kw c, construct rad kw = Some c -> copy rad c = Some c.
Proof. exact copy_same. Qed.
Print Assumptions C79_copy_is_the_same.

(** Pickling keeps every attribute, and every item except possibly Ode0 of a flat
    cosmology, which comes back as the default 0.69. *)
Theorem C79_unpickled_attributes : forall rad kw c, construct rad kw = Some c ->
  exists c', unpickle rad c = Some c' /\
  (forall k, getattr c' k = getattr c k) /\
  (forall k, k <> "Ode0" \/ getattr c "flat" = Some (CFlag false) -> getitem c' k = getitem c k) /\
  (getattr c "flat" = Some (CFlag true) -> getitem c' "Ode0" = Some (CNum (69 # 100))).
Proof.
  intros rad kw c H. destruct (unpickle_same rad kw c H) as [c' [H1 [_ H2]]]. exists c'. auto.
Qed.
Print Assumptions C79_unpickled_attributes.

Theorem C79_unpickled_flat_refuted : exists rad kw c c',
  construct rad kw = Some c /\ unpickle rad c = Some c' /\ getitem c' "Ode0" <> getitem c "Ode0".
Proof.
  exists (fun _ _ _ _ => 0), [("Om0", CNum (1 # 2)); ("flat", CFlag true)]. do 2 eexists.
  split; [reflexivity|]. split; [reflexivity|]. discriminate.
Qed.
Print Assumptions C79_unpickled_flat_refuted.

(** With a definite (zero) radiation density: the round trip turns Ode0 = 1/2 into 0.69. *)
Example C79_nonvacuous :
  let rad := fun _ _ _ _ => 0 in
  exists c c', construct rad [("Om0", CNum (1 # 2)); ("flat", CFlag true); ("w0", CNum (-9 # 10))] = Some c /\
  unpickle rad c = Some c' /\ copy rad c = Some c /\
  (exists q, getitem c "Ode0" = Some (CNum q) /\ q == 1 # 2) /\ getitem c' "Ode0" = Some (CNum (69 # 100)) /\
  getattr c' "w0" = Some (CNum (-9 # 10)) /\ getattr c' "Ode0" = getattr c "Ode0".
Proof.
  cbv zeta. do 2 eexists. split; [reflexivity|]. split; [reflexivity|]. split; [reflexivity|].
  split; [eexists; split; [reflexivity|reflexivity]|]. repeat split; reflexivity.
Qed.

(** C80: [clone] changes what is asked and keeps the rest.  [kw] are keyword arguments
    (distinct names, numbers, or the name); Ode0 may only be asked of a non-flat cosmology. *)
Theorem C80_clone_changes_what_is_asked : forall rad kw0 c kw,
  construct rad kw0 = Some c -> NoDup (map fst kw) ->
  (forall k v, In (k, v) kw -> k = "name" \/ exists q, v = CNum q /\
     (In k ["H0"; "Om0"; "Ob0"; "w0"; "Tcmb0"; "Neff"; "m_nu"; "n_s"; "sigma8"] \/ k = "Ode0")) ->
  (getattr c "flat" = Some (CFlag true) -> dget kw "Ode0" = None) ->
  exists c', clone rad c kw = Some c' /\
  (forall k q, In k ["H0"; "Om0"; "Ob0"; "w0"; "Tcmb0"; "Neff"; "m_nu"; "n_s"; "sigma8"] ->
     dget kw k = Some (CNum q) -> exists q', getattr c' k = Some (CNum q') /\ q' == q) /\
  (forall k q, In k ["H0"; "Om0"; "Ob0"; "w0"; "Tcmb0"; "Neff"; "m_nu"; "n_s"; "sigma8"] ->
     dget kw k = None -> reads c k q -> reads c' k q) /\
  (getattr c "flat" = Some (CFlag false) -> forall q,
     dget kw "Ode0" = Some (CNum q) \/ (dget kw "Ode0" = None /\ reads c "Ode0" q) -> reads c' "Ode0" q) /\
  (getattr c "flat" = Some (CFlag true) -> getattr c' "flat" = Some (CFlag true)).
Proof. exact clone_changes. Qed.
Print Assumptions C80_clone_changes_what_is_asked.

(** Asking for flat=True is silently ignored (unless the densities already add up). *)
Theorem C80_flat_request_ignored_refuted : exists rad c c',
  construct rad [] = Some c /\ clone rad c [("Om0", CNum (1 # 2)); ("flat", CFlag true)] = Some c' /\
  getattr c' "flat" = Some (CFlag false).
Proof. exists (fun _ _ _ _ => 0). do 2 eexists. split; [reflexivity|]. split; [reflexivity|]. reflexivity. Qed.
Print Assumptions C80_flat_request_ignored_refuted.

Example C80_nonvacuous :
  let rad := fun _ _ _ _ => 0 in
  exists c c' q, construct rad [("flat", CFlag true)] = Some c /\
  clone rad c [("Om0", CNum (1 # 2)); ("sigma8", CNum 1); ("w0", CNum (-9 # 10)); ("name", CStr "test")] = Some c' /\
  getattr c' "Om0" = Some (CNum (1 # 2)) /\ getattr c' "sigma8" = Some (CNum 1) /\ getattr c' "w0" = Some (CNum (-9 # 10)) /\
  getattr c' "name" = Some (CStr "test") /\ getattr c' "n_s" = getattr c "n_s" /\
  getattr c' "Ode0" = Some (CNum q) /\ q == 1 # 2.
Proof.
  cbv zeta. do 3 eexists. split; [reflexivity|]. split; [reflexivity|].
  repeat (split; [reflexivity|]). reflexivity.
Qed.

(** C81: [==] is reflexive up to copies, and means agreement within tolerance ... *)
Theorem C81_copy_is_equal : forall rad kw c, construct rad kw = Some c ->
  exists d, copy rad c = Some d /\ cosmo_eq c d = true.
Proof. exact eq_refl_copy. Qed.
Theorem C81_equal_means_close : forall c d, cosmo_eq c d = true ->
  getattr c "flat" = getattr d "flat" /\
  forall k, In k ["H0"; "Om0"; "Ob0"; "Ode0"; "w0"; "Tcmb0"; "Neff"; "m_nu"; "n_s"; "sigma8"] ->
  exists a b, getattr c k = Some (CNum a) /\ getattr d k = Some (CNum b) /\ Qabs (a - b) <= (1 # 100000000) + (1 # 10000) * Qabs b.
Proof. exact eq_means_close. Qed.
(** ... but it is neither symmetric nor transitive. *)
Theorem C81_not_symmetric_refuted : exists rad c d,
  construct rad [("H0", CNum (700070001 # 10000000))] = Some c /\ construct rad [("H0", CNum 70)] = Some d /\
  cosmo_eq d c = true /\ cosmo_eq c d = false.
Proof. exists (fun _ _ _ _ => 0). do 2 eexists. repeat split; vm_compute; reflexivity. Qed.
Theorem C81_not_transitive_refuted : exists rad a b c,
  construct rad [("H0", CNum 70)] = Some a /\ construct rad [("H0", CNum (70005 # 1000))] = Some b /\
  construct rad [("H0", CNum (7001 # 100))] = Some c /\
  cosmo_eq a b = true /\ cosmo_eq b c = true /\ cosmo_eq a c = false.
Proof. exists (fun _ _ _ _ => 0). do 3 eexists. repeat split; vm_compute; reflexivity. Qed.
Print Assumptions C81_copy_is_equal.
Print Assumptions C81_equal_means_close.
Print Assumptions C81_not_symmetric_refuted.
Print Assumptions C81_not_transitive_refuted.

(** C82: the engine's parameters cannot be changed through the dict interface, and item
    assignment changes nothing at all ... *)
Theorem C82_engine_parameters_fixed : forall history rad kw c k, construct rad kw = Some c ->
  In k ["H0"; "Om0"; "Ob0"; "Ode0"; "Tcmb0"; "Neff"; "m_nu"; "name"] ->
  getattr (mutate_all c history) k = getattr c k.
Proof. intros history rad. exact (engine_fixed rad history). Qed.
Theorem C82_item_assignment_refused : forall history c,
  (forall m, In m history -> exists k v, m = MSet k v) -> mutate_all c history = c.
Proof. exact setitem_fixed. Qed.
(** ... but dict.update and dict.pop are not refused: afterwards the item and the attribute
    used in every computation disagree, and sigma8, n_s really change. *)
Theorem C82_update_changes_items_refuted : forall rad kw c q, construct rad kw = Some c ->
  getitem (mutate c (MUpdate [("H0", CNum q)])) "H0" = Some (CNum q) /\
  getattr (mutate c (MUpdate [("H0", CNum q)])) "H0" = getattr c "H0" /\
  getattr (mutate c (MUpdate [("sigma8", CNum q)])) "sigma8" = Some (CNum q) /\
  getattr (mutate c (MPop "sigma8")) "sigma8" = None.
Proof. exact update_items. Qed.
Print Assumptions C82_engine_parameters_fixed.
Print Assumptions C82_update_changes_items_refuted.
Example C82_nonvacuous : exists c, construct (fun _ _ _ _ => 0) [] = Some c /\ getattr (mutate_all c [MSet "H0" (CNum 70); MUpdate [("H0", CNum 70)]; MPop "n_s"]) "H0" = Some (CNum (676 # 10)).
Proof. eexists. split; reflexivity. Qed.

(** C104: a cosmology has exactly the parameters it was constructed with; the others have their documented defaults.
    For flat=True the dark-energy density is what makes the curvature zero. *)
Definition documented_defaults : list (string * Q) :=
  [("H0", 676 # 10); ("Om0", 31 # 100); ("Ob0", 486 # 10000); ("w0", -1); ("Tcmb0", 27255 # 10000); ("Neff", 304 # 100);
   ("m_nu", 0); ("n_s", 9667 # 10000); ("sigma8", 8159 # 10000)].
Definition asked (kw : pdict) (k : string) (default q : Q) : Prop :=
  dget kw k = Some (CNum q) \/ (dget kw k = None /\ q = default).
Lemma num_arg_asked kw k d q : num_arg kw k d = Some q -> asked kw k d q.
Proof. unfold num_arg, asked. destruct (dget kw k) as [[]|]; intros H; try discriminate H; injection H as <-; auto. Qed.
Lemma asked_unique kw k d q q' : asked kw k d q -> asked kw k d q' -> q = q'.
Proof. unfold asked. intros [A|[A ->]] [B|[B ->]]; congruence. Qed.
Theorem C104_constructed_as_asked : forall rad kw c, construct rad kw = Some c ->
  (forall k d q, In (k, d) documented_defaults -> asked kw k d q -> getattr c k = Some (CNum q) /\ getitem c k = Some (CNum q)) /\
  (forall q, (dget kw "flat" = None \/ dget kw "flat" = Some (CFlag false)) -> asked kw "Ode0" (69 # 100) q -> getattr c "Ode0" = Some (CNum q) /\ getitem c "Ode0" = Some (CNum q)) /\
  (dget kw "flat" = Some (CFlag true) -> exists Om Ode H0 T N m, getattr c "Om0" = Some (CNum Om) /\ getattr c "Ode0" = Some (CNum Ode) /\
     getattr c "H0" = Some (CNum H0) /\ getattr c "Tcmb0" = Some (CNum T) /\ getattr c "Neff" = Some (CNum N) /\ getattr c "m_nu" = Some (CNum m) /\
     Om + Ode + rad H0 T N m == 1) /\
  (getattr c "flat" = match dget kw "flat" with Some b => Some b | None => Some (CFlag false) end) /\
  (getattr c "name" = match dget kw "name" with Some n => Some n | None => Some CNone end).
Proof.
  intros rad kw c. unfold construct, init. destruct (negb _); [discriminate|].
  destruct (num_arg kw "H0" _) as [H0|] eqn:E1; [|discriminate]. destruct (num_arg kw "Om0" _) as [Om|] eqn:E2; [|discriminate].
  destruct (num_arg kw "Ob0" _) as [Ob|] eqn:E3; [|discriminate]. destruct (num_arg kw "Ode0" _) as [Ode|] eqn:E4; [|discriminate].
  destruct (num_arg kw "w0" _) as [w|] eqn:E5; [|discriminate]. destruct (num_arg kw "Tcmb0" _) as [T|] eqn:E6; [|discriminate].
  destruct (num_arg kw "Neff" _) as [N|] eqn:E7; [|discriminate]. destruct (num_arg kw "m_nu" _) as [m|] eqn:E8; [|discriminate].
  destruct (num_arg kw "n_s" _) as [ns|] eqn:E9; [|discriminate]. destruct (num_arg kw "sigma8" _) as [s8|] eqn:E10; [|discriminate].
  destruct (flag_arg kw "flat" _) as [fl|] eqn:E11; [|discriminate]. intros H. injection H as <-.
  apply num_arg_asked in E1, E2, E3, E4, E5, E6, E7, E8, E9, E10.
  split; [|split; [|split; [|split]]].
  - intros k d q Hk Ha. unfold documented_defaults in Hk. cbn [In] in Hk.
    repeat (destruct Hk as [Hk|Hk]; [injection Hk as <- <-|]); [..|contradiction].
    + rewrite (asked_unique _ _ _ _ _ Ha E1). split; destruct fl; reflexivity.
    + rewrite (asked_unique _ _ _ _ _ Ha E2). split; destruct fl; reflexivity.
    + rewrite (asked_unique _ _ _ _ _ Ha E3). split; destruct fl; reflexivity.
    + rewrite (asked_unique _ _ _ _ _ Ha E5). unfold getattr, getitem, eattr. cbn -[Qeq_bool entries]. destruct (Qeq_bool w (-1)); split; destruct fl; reflexivity.
    + rewrite (asked_unique _ _ _ _ _ Ha E6). split; destruct fl; reflexivity.
    + rewrite (asked_unique _ _ _ _ _ Ha E7). split; destruct fl; reflexivity.
    + rewrite (asked_unique _ _ _ _ _ Ha E8). split; destruct fl; reflexivity.
    + rewrite (asked_unique _ _ _ _ _ Ha E9). split; destruct fl; reflexivity.
    + rewrite (asked_unique _ _ _ _ _ Ha E10). split; destruct fl; reflexivity.
  - intros q Hf Ha. rewrite (asked_unique _ _ _ _ _ Ha E4). unfold flag_arg in E11. destruct Hf as [Hf|Hf]; rewrite Hf in E11; injection E11 as <-; split; reflexivity.
  - intros Hf. unfold flag_arg in E11. rewrite Hf in E11. injection E11 as <-. exists Om, (1 - Om - rad H0 T N m), H0, T, N, m. repeat (split; [reflexivity|]). ring.
  - unfold flag_arg in E11. destruct (dget kw "flat") as [[]|]; try discriminate E11; injection E11 as <-; try destruct b; reflexivity.
  - destruct (dget kw "name"); destruct fl; reflexivity.
Qed.
Print Assumptions C104_constructed_as_asked.
(** Unknown keywords are refused. *)
Theorem C104_unknown_keyword_refused : forall rad kw k v, In (k, v) kw ->
  ~ In k ["H0"; "Om0"; "Ob0"; "Ode0"; "w0"; "Tcmb0"; "Neff"; "m_nu"; "n_s"; "sigma8"; "flat"; "name"] -> construct rad kw = None.
Proof.
  intros rad kw k v Hi Hn. unfold construct, init. replace (negb _) with true; [reflexivity|]. symmetry. apply negb_true_iff. apply not_true_is_false. intros F.
  rewrite forallb_forall in F. specialize (F _ Hi). unfold inb in F. apply existsb_exists in F as (x & Hx & Ex). apply String.eqb_eq in Ex. cbn [fst] in Ex. subst x. auto.
Qed.
Print Assumptions C104_unknown_keyword_refused.
Example C104_nonvacuous : exists c, construct (fun _ _ _ _ => 1 # 1000) [("H0", CNum 70); ("w0", CNum (-9 # 10)); ("flat", CFlag true)] = Some c /\
  getattr c "H0" = Some (CNum 70) /\ getattr c "w0" = Some (CNum (-9 # 10)) /\ getattr c "sigma8" = Some (CNum (8159 # 10000)).
Proof. eexists. split; [reflexivity|]. repeat split. Qed.
