(** * Proofs about [preserve] and simulation loading *)
From Coq Require Import List String Bool Arith Lia.
From Verif Require Import M_Cache S_Cache P_Cache M_Preserve.
Import ListNotations.

Section Proofs.
Context {V : Type}.
Variable sch : schema V.
Variable body : string -> comp V.
Variable validate : string -> V -> result V.
Variable obj_eq : V -> V -> bool.
Variable extra : string -> string -> bool.
Variables fuel F : nat.
Hypothesis Hexact : forall u w, obj_eq u w = true -> u = w.

Notation setp := (set_param sch validate obj_eq extra F).
Notation set_all := (set_all sch validate obj_eq extra F).
Notation run := (run_ops sch body validate obj_eq extra fuel F).
Notation preserve := (preserve sch body validate obj_eq extra fuel F).
Notation coherent := (coherent sch body validate).

Lemma upd_same {A} (m : string -> option A) k v : upd m k v k = v.
Proof. unfold upd. now rewrite String.eqb_refl. Qed.
Lemma upd_other {A} (m : string -> option A) k v x : x <> k -> upd m k v x = m x.
Proof. unfold upd. intros H. apply String.eqb_neq in H. now rewrite H. Qed.

(** effect of one successful assignment on the values *)
Lemma setp_vals k v st st' : setp k v st = (Ok tt, st') ->
  exists w d, sch k = KParam d /\ validate k v = Ok w /\
  (forall x, vals st' x = upd (vals st) k (Some w) x).
Proof.
  intros H. pose proof (set_vals sch validate obj_eq extra F k v st Hexact) as Hv. rewrite H in Hv. cbn in Hv.
  unfold set_param in H. destruct (sch k) as [d|it l|]; try discriminate.
  destruct (validate k v) as [w|e]; try discriminate. eauto 6.
Qed.

Lemma unit_eta (u : unit) : u = tt. Proof. now destruct u. Qed.

Lemma set_all_vals l : forall st st', set_all l st = (Ok tt, st') ->
  (forall x, ~ In x (map fst l) -> vals st' x = vals st x) /\
  (forall k v, In (k, v) l -> exists d, sch k = KParam d) /\
  (forall x, In x (map fst l) -> exists v w, In (x, v) l /\ validate x v = Ok w /\ vals st' x = Some w).
Proof.
  induction l as [|[k v] l IH]; intros st st' H; cbn in H.
  - injection H as <-. repeat split; auto. intros k v []. intros x [].
  - destruct (setp k v st) as [[u|e] st1] eqn:E; [|discriminate]. rewrite (unit_eta u) in E.
    destruct (setp_vals _ _ _ _ E) as [w [d [E1 [E2 E3]]]].
    destruct (IH _ _ H) as [I1 [I2 I3]]. split; [|split].
    + intros x Hx. cbn in Hx. rewrite I1 by tauto. rewrite E3. apply upd_other. intros ->. tauto.
    + intros k' v' [X|X]; [injection X as <- <-; eauto|eauto].
    + intros x Hx. destruct (in_dec string_dec x (map fst l)) as [Hin|Hn].
      * destruct (I3 x Hin) as [v' [w' [X1 [X2 X3]]]]. exists v', w'. cbn. auto.
      * destruct Hx as [<-|Hx]; [|contradiction]. exists v, w. cbn. repeat split; auto.
        rewrite I1 by auto. rewrite E3. apply upd_same.
Qed.

Lemma In_set_params names (st : state V) k v : In (k, v) (set_params names st) <-> In k names /\ vals st k = Some v.
Proof.
  unfold set_params. rewrite in_flat_map. split.
  - intros [x [Hx H]]. destruct (vals st x) as [w|] eqn:E; [|destruct H].
    destruct H as [H|[]]. injection H as <- <-. auto.
  - intros [H1 H2]. exists k. rewrite H2. split; auto. now left.
Qed.

Lemma In_set_params_fst names (st : state V) k : In k (map fst (set_params names st)) <-> In k names /\ vals st k <> None.
Proof.
  rewrite in_map_iff. split.
  - intros [[k' v] [<- H]]. apply In_set_params in H as [H1 H2]. cbn. split; auto. congruence.
  - intros [H1 H2]. destruct (vals st k) as [v|] eqn:E; [|congruence].
    exists (k, v). split; auto. apply In_set_params. auto.
Qed.

Lemma save_vals names : forall st r st', save_params sch body validate fuel names st = (r, st') -> vals st' = vals st.
Proof.
  induction names as [|k ks IH]; intros st r st' H; cbn in H.
  - injection H as <- <-. auto.
  - pose proof (get_vals sch body validate fuel k st) as Hg.
    destruct (get sch body validate fuel k st) as [[[v|e]|] st1]; cbn in Hg.
    + destruct (save_params sch body validate fuel ks st1) as [[l|e] st2] eqn:E.
      * injection H as <- <-. rewrite (IH _ _ _ E). auto.
      * injection H as <- <-. rewrite (IH _ _ _ E). auto.
    + injection H as <- <-. auto.
    + injection H as <- <-. auto.
Qed.

Lemma save_names names : forall st l st', save_params sch body validate fuel names st = (Ok l, st') ->
  map fst l = names.
Proof.
  induction names as [|k ks IH]; intros st l st' H; cbn in H.
  - injection H as <- <-. auto.
  - destruct (get sch body validate fuel k st) as [[[v|e]|] st1]; try discriminate.
    destruct (save_params sch body validate fuel ks st1) as [[l'|e] st2] eqn:E; try discriminate.
    injection H as <- <-. cbn. f_equal. eapply IH; eauto.
Qed.

(** values only change at parameters *)
Lemma step_nonparam o st x : (forall d, sch x <> KParam d) -> plain sch [] o = true ->
  vals (step sch body validate obj_eq extra fuel F o st) x = vals st x.
Proof.
  intros Hx Hp. destruct o as [p v|a|a|a v|]; cbn in Hp |- *; try discriminate.
  - unfold set_param. destruct (sch p) as [d|it l|] eqn:Ep; auto. destruct (validate p v) as [w|e]; auto.
    assert (x <> p) by (intros ->; eapply Hx; eauto).
    destruct (vals st p) as [old|]; [destruct (obj_eq w old)|]; cbn; auto; now apply upd_other.
  - now rewrite get_vals.
  - unfold del_attr. destruct (sch a) as [d|it ps|]; [discriminate| |reflexivity]. destruct it; reflexivity.
Qed.

Lemma run_nonparam l x : (forall d, sch x <> KParam d) -> forallb (plain sch []) l = true ->
  forall st, vals (run l st) x = vals st x.
Proof.
  intros Hx. induction l as [|o l IH]; intros Hp st; cbn in *; auto.
  apply andb_true_iff in Hp as [H1 H2]. rewrite IH; auto. now apply step_nonparam.
Qed.

Lemma set_all_nonparam l x : (forall d, sch x <> KParam d) -> forall st r st', set_all l st = (r, st') ->
  vals st' x = vals st x.
Proof.
  intros Hx. induction l as [|[k v] l IH]; intros st r st' H; cbn in H.
  - injection H as <- <-. auto.
  - assert (Hs : vals (snd (setp k v st)) x = vals st x).
    { rewrite set_vals by auto. destruct (sch k) as [d|it ps|] eqn:Ek; auto. destruct (validate k v); auto.
      apply upd_other. intros ->. eapply Hx; eauto. }
    destruct (setp k v st) as [[u|e] st1]; cbn in Hs.
    + rewrite (IH _ _ _ H). auto.
    + injection H as <- <-. auto.
Qed.

(** ** C12: after a normal exit every value is the entry value *)
Theorem preserve_values names allowable kwargs b st st' :
  (forall p d, sch p = KParam d -> In p names) ->
  (forall k v, vals st k = Some v -> validate k v = Ok v) ->
  forallb (plain sch []) (ops b) = true -> raises b = None ->
  preserve names allowable kwargs b st = (Ok tt, st') ->
  forall x, vals st' x = vals st x.
Proof.
  intros Hnames Hval Hplain Hr H x. unfold M_Preserve.preserve in H.
  destruct (save_params sch body validate fuel allowable st) as [[saved|e] st1] eqn:Es; [|discriminate].
  destruct (forallb _ kwargs); [|discriminate].
  destruct (set_all kwargs st1) as [[u|e] st2] eqn:Ek; [|discriminate].
  rewrite Hr in H. set (st3 := run (ops b) st2) in *. unfold preserve_exit in H.
  destruct (set_all saved st3) as [[u1|e] st4] eqn:E1; [|discriminate]. rewrite (unit_eta u1) in E1.
  destruct (set_all (set_params names st) st4) as [[u2|e] st5] eqn:E2; [|discriminate]. rewrite (unit_eta u2) in E2.
  injection H as <-. cbn.
  destruct (set_all_vals _ _ _ E2) as [A1 [A2 A3]].
  destruct (vals st x) as [v|] eqn:Ex.
  - destruct (in_dec string_dec x names) as [Hin|Hn].
    + destruct (A3 x) as [v' [w [B1 [B2 B3]]]].
      { apply In_set_params_fst. split; auto. congruence. }
      apply In_set_params in B1 as [_ B1]. rewrite Ex in B1. injection B1 as <-.
      rewrite (Hval _ _ Ex) in B2. injection B2 as <-. auto.
    + assert (Hx : forall d, sch x <> KParam d) by (intros d Hd; apply Hn; eauto).
      rewrite A1. 2:{ rewrite In_set_params_fst. tauto. }
      rewrite (set_all_nonparam saved x Hx _ _ _ E1). unfold st3. rewrite run_nonparam by auto.
      rewrite (set_all_nonparam kwargs x Hx _ _ _ Ek). rewrite (save_vals _ _ _ _ Es). auto.
  - destruct (mem x names) eqn:Em; auto.
    assert (Hn : ~ In x names) by (intros Hin; apply mem_In in Hin; congruence).
    assert (Hx : forall d, sch x <> KParam d) by (intros d Hd; apply Hn; eauto).
    rewrite A1. 2:{ rewrite In_set_params_fst. tauto. }
    rewrite (set_all_nonparam saved x Hx _ _ _ E1). unfold st3. rewrite run_nonparam by auto.
    rewrite (set_all_nonparam kwargs x Hx _ _ _ Ek). rewrite (save_vals _ _ _ _ Es). auto.
Qed.

(** ** ... and every cached value is fresh *)
Section Coherence.
Hypothesis Hdisc : disciplined sch body [] F.

Lemma setp_coherent k v st : coherent st -> coherent (snd (setp k v st)).
Proof. intros. eapply set_coherent; eauto. Qed.

Lemma set_all_coherent l : forall st r st', coherent st -> set_all l st = (r, st') -> coherent st'.
Proof.
  induction l as [|[k v] l IH]; intros st r st' Hc H; cbn in H.
  - injection H as <- <-. auto.
  - pose proof (setp_coherent k v st Hc) as Hs. destruct (setp k v st) as [[u|e] st1]; cbn in Hs.
    + eauto.
    + injection H as <- <-. auto.
Qed.

Lemma save_coherent names : forall st r st', coherent st ->
  save_params sch body validate fuel names st = (r, st') -> coherent st'.
Proof.
  induction names as [|k ks IH]; intros st r st' Hc H; cbn in H.
  - injection H as <- <-. auto.
  - destruct (get sch body validate fuel k st) as [[[v|e]|] st1] eqn:Eg;
      destruct (get_sound _ _ _ _ _ _ _ _ Hc Eg) as [Hc1 _].
    + destruct (save_params sch body validate fuel ks st1) as [[l|e] st2] eqn:E; injection H as <- <-; eauto.
    + injection H as <- <-. auto.
    + injection H as <- <-. auto.
Qed.

(** setting an unset parameter leaves nothing cached that declares it *)
Definition clean (p : string) (st : state V) : Prop := forall a, is_dep F sch p a = true -> cache st a = None.

Lemma setp_clean k v p st st' : setp k v st = (Ok tt, st') -> clean p st \/ (k = p /\ vals st p = None) -> clean p st'.
Proof.
  intros H Hc a Ha. unfold set_param in H. destruct (sch k) as [d|it l|]; try discriminate.
  destruct (validate k v) as [w|e]; try discriminate. destruct Hc as [Hc|[-> Hn]].
  - destruct (vals st k) as [old|]; [destruct (obj_eq w old)|]; injection H as <-; cbn; auto;
      destruct (popped sch extra F k a); auto.
  - rewrite Hn in H. injection H as <-. cbn. unfold popped. now rewrite Ha.
Qed.

Lemma set_all_clean l p : forall st st', set_all l st = (Ok tt, st') ->
  clean p st \/ (In p (map fst l) /\ vals st p = None) -> clean p st'.
Proof.
  induction l as [|[k v] l IH]; intros st st' H Hc; cbn in H.
  - injection H as <-. destruct Hc as [Hc|[[] _]]; auto.
  - destruct (setp k v st) as [[u|e] st1] eqn:E; [|discriminate]. rewrite (unit_eta u) in E.
    destruct (setp_vals _ _ _ _ E) as [w [d [E1 [E2 E3]]]].
    apply (IH _ _ H). destruct Hc as [Hc|[[Hk|Hk] Hn]].
    + left. eapply setp_clean; eauto.
    + left. cbn in Hk. eapply setp_clean; eauto.
    + destruct (string_dec k p) as [->|Hne].
      * left. eapply setp_clean; eauto.
      * right. split; auto. rewrite E3. rewrite upd_other; auto.
Qed.

Lemma run_unset l p : (forall v, ~ In (OSet p v) l) -> forallb (plain sch []) l = true ->
  forall st, vals (run l st) p = vals st p.
Proof.
  induction l as [|o l IH]; intros Hn Hp st; cbn in *; auto.
  apply andb_true_iff in Hp as [H1 H2]. rewrite IH; auto.
  2:{ intros v Hv. apply (Hn v). auto. }
  destruct o as [q v|a|a|a v|]; cbn in H1 |- *; try discriminate.
  - rewrite set_vals by auto. destruct (sch q); auto. destruct (validate q v); auto.
    apply upd_other. intros ->. apply (Hn v). auto.
  - now rewrite get_vals.
  - unfold del_attr. destruct (sch a) as [d|it ps|]; [discriminate| |reflexivity]. destruct it; reflexivity.
Qed.

Theorem preserve_coherent names allowable kwargs b st st' :
  (forall p d, sch p = KParam d -> In p names) ->
  (forall k v, vals st k = Some v -> validate k v = Ok v) ->
  forallb (plain sch []) (ops b) = true -> raises b = None ->
  (forall p v, In (OSet p v) (ops b) -> vals st p <> None) ->
  (forall p v, In (p, v) kwargs -> vals st p <> None) ->
  coherent st ->
  preserve names allowable kwargs b st = (Ok tt, st') ->
  coherent st'.
Proof.
  intros Hnames Hval Hplain Hr Hops Hkw Hc H.
  pose proof (preserve_values _ _ _ _ _ _ Hnames Hval Hplain Hr H) as HV.
  unfold M_Preserve.preserve in H.
  destruct (save_params sch body validate fuel allowable st) as [[saved|e] st1] eqn:Es; [|discriminate].
  destruct (forallb _ kwargs); [|discriminate].
  destruct (set_all kwargs st1) as [[u|e] st2] eqn:Ek; [|discriminate]. rewrite (unit_eta u) in Ek.
  rewrite Hr in H. set (st3 := run (ops b) st2) in *. unfold preserve_exit in H.
  destruct (set_all saved st3) as [[u1|e] st4] eqn:E1; [|discriminate]. rewrite (unit_eta u1) in E1.
  destruct (set_all (set_params names st) st4) as [[u2|e] st5] eqn:E2; [|discriminate]. rewrite (unit_eta u2) in E2.
  injection H as <-.
  assert (Hc5 : coherent st5).
  { eapply set_all_coherent; [|exact E2]. eapply set_all_coherent; [|exact E1].
    eapply run_coherent; eauto. eapply set_all_coherent; [|exact Ek]. eapply save_coherent; eauto. }
  destruct Hc as [Ho0 [Hcv0 Hck0]]. destruct Hc5 as [Ho5 [Hcv5 Hck5]].
  set (st' := restore_cache (cache st) (del_unset names st st5)) in *.
  assert (Hkey : forall a v, cache st5 a = Some v -> exists n, S_Cache.fresh sch body validate n (vals st') a = Some (Ok v)).
  { intros a v Ha. destruct (Hcv5 a v Ha) as [n Hn]. exists n. rewrite <- Hn.
    apply fresh_ext. intros p Hp d Hd.
    destruct Hp as [->|Hp]; [destruct (Hck5 a v Ha) as [it [l El]]; congruence|].
    cbn. destruct (vals st p) as [v0|] eqn:Ep; auto.
    destruct (mem p names) eqn:Em; auto. symmetry.
    (* p unset on entry *)
    destruct (Hck5 a v Ha) as [it [l El]]. destruct (Hdisc a it l El) as [HL HD].
    assert (Hdep : is_dep F sch p a = true).
    { apply declared_is_dep; auto. destruct (HD p d Hp Hd) as [X|[]]; auto. }
    assert (H3 : vals st3 p = None).
    { unfold st3. rewrite run_unset; auto.
      - destruct (set_all_vals _ _ _ Ek) as [K1 _]. rewrite K1.
        + rewrite (save_vals _ _ _ _ Es). auto.
        + intros Hin. apply in_map_iff in Hin as [[p' v'] [<- Hin]]. cbn in Ep. apply (Hkw _ _ Hin). auto.
      - intros w Hw. apply (Hops _ _ Hw). auto. }
    assert (Hnp : ~ In p (map fst (set_params names st))).
    { rewrite In_set_params_fst. tauto. }
    destruct (set_all_vals _ _ _ E2) as [K2 _]. rewrite (K2 p Hnp).
    destruct (in_dec string_dec p (map fst saved)) as [Hin|Hn'].
    - exfalso. assert (Hcl : clean p st4) by (eapply set_all_clean; eauto).
      assert (Hcl5 : clean p st5) by (eapply set_all_clean; eauto).
      specialize (Hcl5 a Hdep). congruence.
    - destruct (set_all_vals _ _ _ E1) as [K1 _]. rewrite (K1 p Hn'). auto. }
  repeat split.
  - intros a. cbn. auto.
  - intros a v Ha. cbn [cache st' restore_cache] in Ha. destruct (cache st a) as [w|] eqn:Ea.
    + injection Ha as <-. destruct (Hcv0 a w Ea) as [n Hn]. exists n. rewrite <- Hn.
      apply fresh_vals_ext. auto.
    + apply Hkey. exact Ha.
  - intros a v Ha. cbn [cache st' restore_cache] in Ha. destruct (cache st a) as [w|] eqn:Ea.
    + eauto.
    + eauto.
Qed.
End Coherence.
End Proofs.
