(** * Proofs about the attribute cache *)
From Coq Require Import List String Bool Arith Lia.
From Verif Require Import M_Cache S_Cache.
Import ListNotations.

Section Proofs.
Context {V : Type}.
Variable sch : schema V.
Variable body : string -> comp V.
Variable validate : string -> V -> result V.
Variable obj_eq : V -> V -> bool.
Variable extra : string -> string -> bool.

Notation fresh := (fresh sch body validate).
Notation get := (get sch body validate).

Lemma mem_In x l : mem x l = true <-> In x l.
Proof.
  unfold mem. rewrite existsb_exists. split.
  - intros [y [Hy E]]. apply String.eqb_eq in E. now subst.
  - intros H. exists x. split; auto. apply String.eqb_refl.
Qed.

(** ** fresh evaluation *)
Lemma evalc_mono (g h : string -> option (result V)) c x :
  (forall a y, g a = Some y -> h a = Some y) -> evalc g c = Some x -> evalc h c = Some x.
Proof.
  intros Hm. induction c as [r|a k IH]; cbn; auto.
  destruct (g a) as [[v|e]|] eqn:E; try discriminate; rewrite (Hm _ _ E); auto.
Qed.

Lemma fresh_S n ps a x : fresh n ps a = Some x -> fresh (S n) ps a = Some x.
Proof.
  revert a x. induction n as [|n IH]; intros a x H; [discriminate|].
  cbn [S_Cache.fresh] in H |- *. destruct (sch a) as [d|it l|]; auto.
  - destruct (ps a); auto. destruct d; auto. apply IH in H. exact H.
  - eapply evalc_mono; [|exact H]. intros b y Hb. apply IH in Hb. exact Hb.
Qed.

Lemma fresh_le n m ps a x : n <= m -> fresh n ps a = Some x -> fresh m ps a = Some x.
Proof. induction 1; auto. intros. apply fresh_S. auto. Qed.

Lemma fresh_det n m ps a x y : fresh n ps a = Some x -> fresh m ps a = Some y -> x = y.
Proof.
  intros H1 H2. apply (fresh_le n (max n m)) in H1; [|lia]. apply (fresh_le m (max n m)) in H2; [|lia].
  congruence.
Qed.

Lemma evalc_ext (g h : string -> option (result V)) c :
  (forall a, may_read c a -> g a = h a) -> evalc g c = evalc h c.
Proof.
  induction c as [r|a k IH]; intros Hgh; cbn; auto.
  rewrite (Hgh a (MR_here a k)). destruct (h a) as [[v|e]|]; auto.
  apply IH. intros b Hb. apply Hgh. now apply MR_later with v.
Qed.

(** Fresh evaluation depends only on the parameters the attribute depends on. *)
Lemma fresh_ext ps ps' : forall n a,
  (forall b, b = a \/ depends sch body a b -> forall d, sch b = KParam d -> ps b = ps' b) ->
  fresh n ps a = fresh n ps' a.
Proof.
  induction n as [|n IH]; intros a H; auto. cbn [S_Cache.fresh].
  destruct (sch a) as [d|it l|] eqn:Ea; auto.
  - rewrite (H a (or_introl eq_refl) d Ea). destruct (ps' a); auto. destruct d as [|b|v]; auto.
    apply IH. intros c Hc d Hd. apply H with (d := d); auto. right.
    destruct Hc as [->|Hc]; [now apply D_alias|]. eapply D_trans; eauto. now apply D_alias.
  - apply evalc_ext. intros b Hb. apply IH. intros c Hc d Hd. apply H with (d := d); auto. right.
    destruct Hc as [->|Hc]; [now apply D_read with it l|]. eapply D_trans; eauto. now apply D_read with it l.
Qed.

(** ** The inverted cache map is the declared ancestry *)
Lemma invert_declared n : forall deps l, invert n sch deps = Some l ->
  forall p, In p l <-> exists b, In b deps /\ (p = b \/ declared sch b p).
Proof.
  induction n as [|n IH]; [discriminate|]. cbn [invert].
  induction deps as [|b deps IHd]; intros l H p.
  - injection H as <-. split; [intros []|intros [b [[] _]]].
  - assert (Hcons : forall (P : string -> Prop), (exists x, In x (b :: deps) /\ P x) <-> P b \/ (exists x, In x deps /\ P x)).
    { intros P. split.
      - intros [x [[<-|Hx] HP]]; eauto.
      - intros [HP|[x [Hx HP]]]; [exists b|exists x]; cbn; auto. }
    rewrite Hcons. clear Hcons.
    destruct (sch b) as [d|it ps|] eqn:Eb; [| |discriminate].
    + match goal with H : match ?g with _ => _ end = _ |- _ => destruct g as [r|] eqn:Eg; [|discriminate] end.
      injection H as <-. cbn [In]. rewrite (IHd r eq_refl p).
      split; intros [H|H]; auto.
      destruct H as [H|H]; auto. inversion H; congruence.
    + destruct (invert n sch ps) as [la|] eqn:Ei; [|discriminate].
      match goal with H : match ?g with _ => _ end = _ |- _ => destruct g as [r|] eqn:Eg; [|discriminate] end.
      injection H as <-. cbn [In]. rewrite in_app_iff, (IHd r eq_refl p), (IH ps la Ei p).
      split.
      * intros [H|[[c [Hc [->|H]]]|H]]; auto.
        -- left. right. eapply DC_parent; eauto.
        -- left. right. eapply DC_grand; eauto.
      * intros [[->|H]|H]; auto. right. left.
        inversion H as [? ? ps' ? E1 E2|? ? ps' c ? E1 E2 E3]; subst; rewrite Eb in E1; injection E1 as <- <-; eauto.
Qed.

Lemma ancestors_declared n a l p : ancestors n sch a = Some l -> (In p l <-> declared sch a p).
Proof.
  unfold ancestors. intros H. destruct (sch a) as [d|it ps|] eqn:Ea.
  - injection H as <-. split; [intros []|intros H; inversion H; congruence].
  - rewrite (invert_declared _ _ _ H). split.
    + intros [b [Hb [->|Hd]]]; [eapply DC_parent|eapply DC_grand]; eauto.
    + intros H'. inversion H' as [? ? ps' ? E1 E2|? ? ps' c ? E1 E2 E3]; subst; rewrite Ea in E1; injection E1 as <- <-; eauto.
  - injection H as <-. split; [intros []|intros H; inversion H; congruence].
Qed.

Lemma is_dep_declared n p a : is_dep n sch p a = true -> declared sch a p.
Proof.
  unfold is_dep. destruct (ancestors n sch a) as [l|] eqn:E; [|discriminate].
  intros H. apply mem_In in H. apply (ancestors_declared n a l p E). exact H.
Qed.

Lemma declared_is_dep n p a : creatable sch n a -> declared sch a p -> is_dep n sch p a = true.
Proof.
  unfold creatable, is_dep. destruct (ancestors n sch a) as [l|] eqn:E; [|congruence].
  intros _ H. apply mem_In. apply (ancestors_declared n a l p E). exact H.
Qed.

Lemma undeclared_is_dep n p a : ~ declared sch a p -> is_dep n sch p a = false.
Proof. intros H. destruct (is_dep n sch p a) eqn:E; auto. apply is_dep_declared in E. contradiction. Qed.

Section Disc.
Variable F : nat.
Variable frozen : list string.
Hypothesis Hdisc : disciplined sch body frozen F.

(** ** The invariant: every cached value is its fresh evaluation *)
Definition coherent (st : state V) : Prop :=
  (forall a, ovr st a = None) /\
  (forall a v, cache st a = Some v -> exists n, fresh n (vals st) a = Some (Ok v)) /\
  (forall a v, cache st a = Some v -> exists it l, sch a = KProp it l).

Lemma runc_sound (g : string -> state V -> option (result V) * state V) ps
  (Hg : forall a st r st', coherent st -> vals st = ps -> g a st = (r, st') ->
        coherent st' /\ vals st' = ps /\ (forall x, r = Some x -> exists m, fresh m ps a = Some x)) :
  forall c st r st', coherent st -> vals st = ps -> runc g c st = (r, st') ->
  coherent st' /\ vals st' = ps /\ (forall x, r = Some x -> exists m, evalc (fresh m ps) c = Some x).
Proof.
  induction c as [r0|a k IH]; intros st r st' Hc Hv H; cbn in H.
  - injection H as <- <-. repeat split; try apply Hc; auto.
    intros x Hx. exists 0. cbn. congruence.
  - destruct (g a st) as [ra st1] eqn:Eg.
    destruct (Hg a st ra st1 Hc Hv Eg) as [Hc1 [Hv1 Hx1]].
    destruct ra as [[v|e]|].
    + destruct (IH v st1 r st' Hc1 Hv1 H) as [Hc2 [Hv2 Hx2]]. repeat split; try apply Hc2; auto.
      intros x Hx. destruct (Hx1 _ eq_refl) as [m1 Hm1]. destruct (Hx2 x Hx) as [m2 Hm2].
      exists (max m1 m2). cbn. rewrite (fresh_le m1 (max m1 m2) _ _ _ ltac:(lia) Hm1).
      eapply evalc_mono; [|exact Hm2]. intros b y. apply fresh_le. lia.
    + injection H as <- <-. repeat split; try apply Hc1; auto.
      intros x Hx. injection Hx as <-. destruct (Hx1 _ eq_refl) as [m Hm]. exists m. cbn. now rewrite Hm.
    + injection H as <- <-. repeat split; try apply Hc1; auto. discriminate.
Qed.

Lemma get_sound n : forall a st r st', coherent st -> get n a st = (r, st') ->
  coherent st' /\ vals st' = vals st /\ (forall x, r = Some x -> exists m, fresh m (vals st) a = Some x).
Proof.
  induction n as [|n IH]; intros a st r st' Hc H; cbn [M_Cache.get] in H.
  - injection H as <- <-. repeat split; try apply Hc. discriminate.
  - destruct (sch a) as [d|it l|] eqn:Ea.
    + destruct (vals st a) as [v|] eqn:Ev.
      * injection H as <- <-. repeat split; try apply Hc. intros x Hx. injection Hx as <-.
        exists 1. cbn. now rewrite Ea, Ev.
      * destruct d as [|b|v].
        { injection H as <- <-. repeat split; try apply Hc. intros x Hx. injection Hx as <-.
          exists 1. cbn. now rewrite Ea, Ev. }
        { destruct (IH b st r st' Hc H) as [H1 [H2 H3]]. repeat split; try apply H1; auto.
          intros x Hx. destruct (H3 x Hx) as [m Hm]. exists (S m). cbn. rewrite Ea, Ev. exact Hm. }
        { injection H as <- <-. repeat split; try apply Hc. intros x Hx. injection Hx as <-.
          exists 1. cbn. now rewrite Ea, Ev. }
    + destruct Hc as [Ho [Hcv Hck]]. assert (Hoa : (if it then None else ovr st a) = None) by (destruct it; auto); rewrite Hoa in H.
      destruct (cache st a) as [v|] eqn:Ec.
      * injection H as <- <-. repeat split; auto. intros x Hx. injection Hx as <-. apply Hcv; auto.
      * assert (Hc : coherent st) by (repeat split; auto).
        destruct (runc (get n) (body a) st) as [rr st1] eqn:Er.
        destruct (runc_sound (get n) (vals st)) with (c := body a) (st := st) (r := rr) (st' := st1)
          as [Hc1 [Hv1 Hx1]]; auto.
        { intros b s r0 s' Hs Hvs Hg. destruct (IH b s r0 s' Hs Hg) as [X1 [X2 X3]].
          split; [auto|]. split; [congruence|]. intros x Hx. rewrite <- Hvs. auto. }
        assert (Hfr : forall x, rr = Some x -> exists m, fresh m (vals st) a = Some x).
        { intros x Hx. destruct (Hx1 x Hx) as [m Hm]. exists (S m). cbn. rewrite Ea. exact Hm. }
        destruct rr as [[v|e]|]; injection H as <- <-.
        { split; [|split].
          - destruct Hc1 as [Ho1 [Hcv1 Hck1]]. unfold set_cache. repeat split; cbn; auto.
            + intros b w Hb. unfold upd in Hb. destruct (String.eqb b a) eqn:E.
              * apply String.eqb_eq in E. subst b. injection Hb as <-. rewrite Hv1. apply Hfr; auto.
              * apply Hcv1; auto.
            + intros b w Hb. unfold upd in Hb. destruct (String.eqb b a) eqn:E.
              * apply String.eqb_eq in E. subst b. eauto.
              * eapply Hck1; eauto.
          - cbn. auto.
          - intros x Hx. apply Hfr. auto. }
        { repeat split; try apply Hc1; auto. }
        { repeat split; try apply Hc1; auto. }
    + injection H as <- <-. repeat split; try apply Hc. intros x Hx. injection Hx as <-.
      exists 1. cbn. now rewrite Ea.
Qed.

(** A read never exhausts the recursion depth needed by a fresh evaluation. *)
Lemma runc_complete (g : string -> state V -> option (result V) * state V) n ps
  (Hg : forall a st x, coherent st -> vals st = ps -> fresh n ps a = Some x ->
        exists st', g a st = (Some x, st') /\ coherent st' /\ vals st' = ps) :
  forall c st x, coherent st -> vals st = ps -> evalc (fresh n ps) c = Some x ->
  exists st', runc g c st = (Some x, st').
Proof.
  induction c as [r0|a k IH]; intros st x Hc Hv H; cbn in H |- *.
  - injection H as <-. eauto.
  - destruct (fresh n ps a) as [y|] eqn:Ef; [|discriminate].
    destruct (Hg a st y Hc Hv Ef) as [st1 [E1 [Hc1 Hv1]]]. rewrite E1.
    destruct y as [v|e].
    + apply IH; auto.
    + injection H as <-. eauto.
Qed.

Lemma get_complete n : forall a st x, coherent st -> fresh n (vals st) a = Some x ->
  exists st', get n a st = (Some x, st').
Proof.
  induction n as [|n IH]; intros a st x Hc H; [discriminate|].
  cbn [S_Cache.fresh] in H. cbn [M_Cache.get]. destruct (sch a) as [d|it l|] eqn:Ea.
  - destruct (vals st a) as [v|] eqn:Ev; [injection H as <-; eauto|].
    destruct d as [|b|v]; try (injection H as <-; eauto). apply IH; auto.
  - destruct Hc as [Ho [Hcv Hck]]. assert (Hoa : (if it then None else ovr st a) = None) by (destruct it; auto); rewrite Hoa. destruct (cache st a) as [v|] eqn:Ec.
    + destruct (Hcv a v Ec) as [m Hm].
      assert (Hx : fresh (S n) (vals st) a = Some x) by (cbn; rewrite Ea; exact H).
      rewrite (fresh_det _ _ _ _ _ _ Hx Hm). eauto.
    + assert (Hc : coherent st) by (repeat split; auto).
      destruct (runc_complete (get n) n (vals st)) with (c := body a) (st := st) (x := x)
        as [st1 E1]; auto.
      { intros b s y Hs Hvs Hf. rewrite <- Hvs in Hf.
        destruct (IH b s y Hs Hf) as [s' E]. exists s'. split; auto.
        destruct (get_sound _ _ _ _ _ Hs E) as [X1 [X2 _]]. split; [auto|congruence]. }
      rewrite E1. destruct x as [v|e]; eauto.
  - injection H as <-. eauto.
Qed.

(** ** Preservation by assignments and deletions *)
Lemma set_coherent p v st : mem p frozen = false -> coherent st ->
  coherent (snd (set_param sch validate obj_eq extra F p v st)).
Proof.
  intros Hfz [Ho [Hcv Hck]]. unfold set_param.
  destruct (sch p) as [d|it l|] eqn:Ep; cbn; try (repeat split; auto; fail).
  destruct (validate p v) as [w|e] eqn:Ew; cbn; [|repeat split; auto].
  assert (Hpop : coherent (pop_deps sch extra F p (mkState (upd (vals st) p (Some w)) (cache st) (ovr st) (log st)))).
  { repeat split; cbn; auto.
    - intros a u Hu. destruct (popped sch extra F p a) eqn:Ed; [discriminate|].
      destruct (Hcv a u Hu) as [n Hn]. destruct (Hck a u Hu) as [it [l Ea]].
      destruct (Hdisc a it l Ea) as [HL HD]. exists n.
      unfold popped in Ed. apply orb_false_iff in Ed as [Ed _].
      rewrite <- Hn. symmetry. apply fresh_ext. intros b Hb d' Hd'. unfold upd.
      destruct (String.eqb b p) eqn:E; auto. exfalso. apply String.eqb_eq in E. subst b.
      destruct Hb as [->|Hb]; [congruence|].
      destruct (HD p d' Hb Hd') as [X|X]; [apply (declared_is_dep F) in X; auto|apply mem_In in X]; congruence.
    - intros a u Hu. destruct (popped sch extra F p a); [discriminate|]. eauto. }
  destruct (vals st p) as [old|] eqn:Eo; [|exact Hpop].
  destruct (obj_eq w old) eqn:Eq; cbn; [repeat split; auto|exact Hpop].
Qed.

Lemma set_vals p v st : (forall u w, obj_eq u w = true -> u = w) ->
  forall x, vals (snd (set_param sch validate obj_eq extra F p v st)) x =
            (match sch p, validate p v with
             | KParam _, Ok w => upd (vals st) p (Some w)
             | _, _ => vals st end) x.
Proof.
  intros Heq x. unfold set_param.
  destruct (sch p) as [d|it l|] eqn:Ep; cbn; auto.
  destruct (validate p v) as [w|e] eqn:Ew; cbn; auto.
  destruct (vals st p) as [old|] eqn:Eo; auto.
  destruct (obj_eq w old) eqn:Eq; cbn; auto.
  unfold upd. destruct (String.eqb x p) eqn:E; auto.
  apply String.eqb_eq in E. subst x. rewrite Eo. f_equal. symmetry. auto.
Qed.

Lemma del_prop_coherent a st : coherent st -> coherent (snd (del_prop sch extra F a st)).
Proof.
  intros [Ho [Hcv Hck]]. repeat split; cbn; auto.
  - intros b u. destruct (popped sch extra F a b); [discriminate|]. unfold upd.
    destruct (String.eqb b a); [discriminate|]. auto.
  - intros b u. destruct (popped sch extra F a b); [discriminate|]. unfold upd.
    destruct (String.eqb b a); [discriminate|]. eauto.
Qed.

Lemma fresh_vals_ext n ps ps' a : (forall x, ps x = ps' x) -> fresh n ps a = fresh n ps' a.
Proof.
  intros H. revert a. induction n as [|n IH]; intros a; auto. cbn.
  destruct (sch a) as [d|it l|]; auto.
  - rewrite (H a). destruct (ps' a); auto. destruct d; auto.
  - clear -IH. induction (body a) as [r|b k IHc]; cbn; auto.
    rewrite (IH b). destruct (S_Cache.fresh sch body validate n ps' b) as [[v|e]|]; auto.
Qed.

Lemma params_after_ext l : forall ps ps', (forall x, ps x = ps' x) ->
  forall x, params_after sch validate ps l x = params_after sch validate ps' l x.
Proof.
  induction l as [|o l IH]; intros ps ps' H x; cbn; auto.
  destruct o; try (apply IH; auto; fail).
  destruct (sch p); [destruct (validate p v)| |]; apply IH; auto.
  intros y. unfold upd. destruct (String.eqb y p); auto.
Qed.

Lemma step_coherent fuel o st : coherent st -> plain sch frozen o = true ->
  coherent (step sch body validate obj_eq extra fuel F o st).
Proof.
  intros Hc Hp. destruct o as [p v|a|a|a v|]; cbn in Hp |- *; try discriminate.
  - apply set_coherent; auto. now apply negb_true_iff in Hp.
  - destruct (get fuel a st) as [r st1] eqn:Eg. apply (get_sound _ _ _ _ _ Hc Eg).
  - unfold del_attr. destruct (sch a) as [d|it ps|] eqn:Ea; [discriminate| |exact Hc].
    destruct it; [exact Hc|]. apply del_prop_coherent; auto.
Qed.

Lemma run_coherent fuel l : forall st, coherent st -> forallb (plain sch frozen) l = true ->
  coherent (run_ops sch body validate obj_eq extra fuel F l st).
Proof.
  induction l as [|o l IH]; intros st Hc Hp; cbn in *; [auto|].
  apply andb_true_iff in Hp as [Hp1 Hp2]. apply IH; auto. apply step_coherent; auto.
Qed.

Lemma get_vals n : forall a st, vals (snd (get n a st)) = vals st.
Proof.
  induction n as [|n IH]; intros a st; cbn [M_Cache.get]; auto.
  destruct (sch a) as [d|it l|]; auto.
  - destruct (vals st a); auto. destruct d; auto.
  - destruct (if it then None else ovr st a); auto. destruct (cache st a); auto.
    assert (H : forall c s, vals (snd (runc (get n) c s)) = vals s).
    { induction c as [r|b k IHc]; intros s; cbn; auto.
      specialize (IH b s). destruct (get n b s) as [[[v|e]|] s1]; cbn in *; auto.
      rewrite IHc. auto. }
    specialize (H (body a) st). destruct (runc (get n) (body a) st) as [[[v|e]|] s1]; cbn in *; auto.
Qed.

Lemma run_vals fuel l : (forall u w, obj_eq u w = true -> u = w) ->
  forall st, forallb (plain sch frozen) l = true ->
  forall x, vals (run_ops sch body validate obj_eq extra fuel F l st) x = params_after sch validate (vals st) l x.
Proof.
  intros Heq. induction l as [|o l IH]; intros st Hp x; cbn in *; [auto|].
  apply andb_true_iff in Hp as [Hp1 Hp2]. rewrite (IH _ Hp2).
  destruct o as [p v|a|a|a v|]; cbn in Hp1 |- *; try discriminate.
  - pose proof (set_vals p v st Heq) as Hv.
    destruct (sch p) eqn:Ep; [destruct (validate p v) eqn:Ew| |]; apply params_after_ext; auto.
  - now rewrite get_vals.
  - unfold del_attr. destruct (sch a) as [d|it ps|] eqn:Ea; [discriminate| |reflexivity].
    destruct it; reflexivity.
Qed.

Lemma init_coherent ps : coherent (init ps).
Proof. repeat split; cbn; auto; discriminate. Qed.

Theorem cache_never_stale fuel fuel' ps l a x :
  forallb (plain sch frozen) l = true ->
  let st := run_ops sch body validate obj_eq extra fuel' F l (init ps) in
  fresh fuel (vals st) a = Some x ->
  fst (get fuel a st) = Some x.
Proof.
  intros Hp st Hf. assert (Hc : coherent st) by (apply run_coherent; auto using init_coherent).
  destruct (get_complete _ _ _ _ Hc Hf) as [st' E]. rewrite E. reflexivity.
Qed.

Theorem cache_never_stale_exact fuel fuel' ps l a x :
  (forall u w, obj_eq u w = true -> u = w) ->
  forallb (plain sch frozen) l = true ->
  fresh fuel (params_after sch validate ps l) a = Some x ->
  fst (get fuel a (run_ops sch body validate obj_eq extra fuel' F l (init ps))) = Some x.
Proof.
  intros Heq Hp Hf. apply cache_never_stale; auto.
  rewrite <- Hf. apply fresh_vals_ext. intros y. apply (run_vals fuel' l Heq (init ps) Hp).
Qed.

(** ** C02: laziness *)
Lemma get_keeps_cached n : forall a st r st' b v, get n a st = (r, st') -> cache st b = Some v ->
  cache st' b = Some v /\ exists t, log st' = t ++ log st /\ ~ In b t.
Proof.
  induction n as [|n IH]; intros a st r st' b v H Hb; cbn [M_Cache.get] in H.
  - injection H as <- <-. split; auto. exists []. cbn. auto.
  - assert (Hid : forall (z : state V), z = st -> cache z b = Some v /\ exists t, log z = t ++ log st /\ ~ In b t).
    { intros z ->. split; auto. exists []. cbn. auto. }
    destruct (sch a) as [d|it l|].
    + destruct (vals st a); [injection H as <- <-; auto|].
      destruct d; try (injection H as <- <-; auto). eapply IH; eauto.
    + destruct (if it then None else ovr st a); [injection H as <- <-; auto|].
      destruct (cache st a) as [w|] eqn:Ea; [injection H as <- <-; auto|].
      assert (Hne : a <> b) by congruence.
      destruct (runc (get n) (body a) st) as [rr st1] eqn:Er.
      assert (Hr : cache st1 b = Some v /\ exists t, log st1 = t ++ log st /\ ~ In b t).
      { clear H Ea Hne. revert st rr st1 Er Hb Hid. induction (body a) as [r0|c k IHc]; intros st rr st1 Er Hb Hid; cbn in Er.
        - injection Er as <- <-. apply Hid; auto.
        - destruct (get n c st) as [rc st2] eqn:Ec. destruct (IH _ _ _ _ _ _ Ec Hb) as [K1 [t1 [K2 K3]]].
          destruct rc as [[u|e]|].
          + destruct (IHc u _ _ _ Er K1) as [K4 [t2 [K5 K6]]].
            { intros z ->. split; auto. exists []. cbn. auto. }
            split; auto. exists (t2 ++ t1). rewrite K5, K2, app_assoc. split; auto.
            rewrite in_app_iff. tauto.
          + injection Er as <- <-. split; eauto.
          + injection Er as <- <-. split; eauto. }
      destruct Hr as [K1 [t [K2 K3]]].
      destruct rr as [[u|e]|]; injection H as <- <-; cbn.
      * split.
        { unfold upd. destruct (String.eqb b a) eqn:E; auto. apply String.eqb_eq in E. congruence. }
        { exists (a :: t). rewrite K2. split; auto. intros [X|X]; auto. }
      * split; eauto.
      * split; eauto.
    + injection H as <- <-. auto.
Qed.

Notation quiet := (quiet sch validate obj_eq extra).
Notation quiet_run := (quiet_run sch body validate obj_eq extra F).

Lemma quiet_step fuel a v o st : cache st a = Some v -> quiet a o st ->
  let st' := step sch body validate obj_eq extra fuel F o st in
  cache st' a = Some v /\ exists t, log st' = t ++ log st /\ ~ In a t.
Proof.
  intros Hc Hq. destruct o as [p w|b|b|b w|]; cbn in *; try contradiction.
  - assert (Hid : cache st a = Some v /\ exists t, log st = t ++ log st /\ ~ In a t).
    { split; auto. exists []. cbn. auto. }
    unfold set_param. destruct (sch p) as [d|it l|] eqn:Ep; auto.
    destruct (validate p w) as [u|e] eqn:Ew; auto.
    destruct (vals st p) as [old|] eqn:Eo.
    + destruct (obj_eq u old) eqn:Eq; auto. cbn.
      destruct Hq as [[Hq He]|[[w' [old' [X1 [X2 X3]]]]|[[e X]|X]]].
      * unfold popped. rewrite (undeclared_is_dep F _ _ Hq), He. cbn. split; auto. exists []. cbn. auto.
      * congruence.
      * congruence.
      * exfalso. eapply X; reflexivity.
    + cbn. destruct Hq as [[Hq He]|[[w' [old' [X1 [X2 X3]]]]|[[e X]|X]]].
      * unfold popped. rewrite (undeclared_is_dep F _ _ Hq), He. cbn. split; auto. exists []. cbn. auto.
      * congruence.
      * congruence.
      * exfalso. eapply X; reflexivity.
  - destruct (get fuel b st) as [r st1] eqn:Eg. cbn. eapply get_keeps_cached; eauto.
  - unfold del_attr, del_param. destruct (sch b) as [d|it l|] eqn:Eb.
    + destruct (vals st b); cbn; (split; auto; exists []; cbn; auto).
    + destruct it; [cbn; split; auto; exists []; cbn; auto|].
      destruct Hq as [Hne [Hd He]]. cbn. unfold popped. rewrite (undeclared_is_dep F _ _ Hd), He. cbn. unfold upd.
      destruct (String.eqb a b) eqn:E; [apply String.eqb_eq in E; congruence|].
      split; auto. exists []. cbn. auto.
    + cbn. split; auto. exists []. cbn. auto.
Qed.

Theorem lazy_read fuel a v l : forall st, cache st a = Some v -> quiet_run fuel a l st ->
  let st' := run_ops sch body validate obj_eq extra fuel F l st in
  cache st' a = Some v /\ exists t, log st' = t ++ log st /\ ~ In a t.
Proof.
  induction l as [|o l IH]; intros st Hc Hq; cbn in *.
  - split; auto. exists []. cbn. auto.
  - destruct Hq as [Hq1 Hq2]. destruct (quiet_step fuel a v o st Hc Hq1) as [K1 [t1 [K2 K3]]].
    destruct (IH _ K1 Hq2) as [K4 [t2 [K5 K6]]]. split; auto.
    exists (t2 ++ t1). rewrite K5, K2, app_assoc. split; auto. rewrite in_app_iff. tauto.
Qed.

Theorem lazy_reread fuel fuel' a it ps v l st st1 : sch a = KProp it ps ->
  ovr st a = None ->
  get (S fuel) a st = (Some (Ok v), st1) -> quiet_run fuel' a l st1 -> 
  let st2 := run_ops sch body validate obj_eq extra fuel' F l st1 in
  ovr st2 a = None -> get (S fuel) a st2 = (Some (Ok v), st2).
Proof.
  intros Ea Ho Hg Hq st2 Ho2.
  assert (Hc : cache st1 a = Some v).
  { cbn [M_Cache.get] in Hg. rewrite Ea in Hg.
    assert (Hoa : (if it then None else ovr st a) = None) by (destruct it; auto). rewrite Hoa in Hg.
    destruct (cache st a) as [w|] eqn:Ec; [congruence|].
    destruct (runc (get fuel) (body a) st) as [[[w|e]|] s1]; try discriminate.
    injection Hg as <- <-. cbn. unfold upd. now rewrite String.eqb_refl. }
  destruct (lazy_read fuel' a v l st1 Hc Hq) as [K _]. fold st2 in K.
  cbn [M_Cache.get]. rewrite Ea.
  assert (Hoa : (if it then None else ovr st2 a) = None) by (destruct it; auto). now rewrite Hoa, K.
Qed.

(** Conversely a genuine change of an ancestor, or a deletion, discards the value. *)
Lemma loud_set a p w u st d : sch p = KParam d -> validate p w = Ok u ->
  (forall old, vals st p = Some old -> obj_eq u old = false) ->
  popped sch extra F p a = true -> cache (snd (set_param sch validate obj_eq extra F p w st)) a = None.
Proof.
  intros Ep Ew Hne Hd. unfold set_param. rewrite Ep, Ew. destruct (vals st p) as [old|] eqn:Eo.
  - rewrite (Hne old eq_refl). cbn. now rewrite Hd.
  - cbn. now rewrite Hd.
Qed.

Lemma equal_set_noop p w u old d st : sch p = KParam d -> validate p w = Ok u -> vals st p = Some old ->
  obj_eq u old = true -> set_param sch validate obj_eq extra F p w st = (Ok tt, st).
Proof. intros Ep Ew Eo Eq. unfold set_param. now rewrite Ep, Ew, Eo, Eq. Qed.

End Disc.
End Proofs.
