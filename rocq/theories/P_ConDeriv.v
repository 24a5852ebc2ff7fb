(** The updates in any order give the values determined by the free parameters *)
From Coq Require Import List Arith Bool Lia.
From Verif Require Import M_Prep S_Prep P_Prep M_ParamVal M_ConDeriv S_ConDeriv.
Import ListNotations.

Section P.
Context {V : Type}.
Variable expr : nat -> option (list nat).
Variable vary : nat -> bool.
Variable fexp : nat -> list V -> V.
Variable clamp : nat -> V -> V.
Variable kids : nat -> nat -> bool.
Hypothesis K2 : forall c n, expr c <> None -> kids c n = false.
Hypothesis clamp_idem : forall n v, clamp n (clamp n v) = clamp n v.
Variable free : list nat.
Hypothesis fixed : forall u, expr u = None -> ~ In u free -> vary u = false.
Hypothesis free_un : forall u, In u free -> expr u = None.
Variable W : nat -> V.
Hypothesis HW : forall n l, expr n = Some l -> W n = clamp n (fexp n (map W l)).
Notation get := (getval expr vary fexp clamp kids).

Definition Inv (pend : nat -> bool) (st : vst V) : Prop :=
  (forall u, In u free -> sym st u = Some (W u)) /\
  (forall u, expr u = None -> ~ In u free -> val st u = W u /\ forall x, sym st u = Some x -> x = W u) /\
  (forall c, expr c <> None -> pend c = false -> sym st c = Some (W c)).

Lemma lookups_ok pend st k : Inv pend st -> forall l vs st', (forall d, In d l -> expr d <> None -> pend d = false) ->
  lookups (get k) st l = Some (vs, st') -> vs = map W l /\ st' = st.
Proof.
  intros (A & B & C). induction l as [|d l IH]; intros vs st' H; cbn [lookups]; [intros [= <- <-]; auto|].
  assert (H' : forall d, In d l -> expr d <> None -> pend d = false) by (intros x X; apply H; now right).
  assert (D : forall x s, (match sym st d with Some x => Some (x, st) | None => get k st d end) = Some (x, s) -> x = W d /\ s = st).
  { intros x s. destruct (in_dec Nat.eq_dec d free) as [F|F]; [rewrite (A d F); intros [= <- <-]; auto|].
    destruct (expr d) as [ld|] eqn:E.
    - assert (Nd : expr d <> None) by congruence. rewrite (C d Nd (H d (or_introl eq_refl) Nd)). intros [= <- <-]. auto.
    - destruct (B d E F) as [B1 B2]. destruct (sym st d) as [y|] eqn:Y; [intros [= <- <-]; auto|]. destruct k as [|k]; cbn [getval]; [discriminate|].
      rewrite E, (fixed d E F). intros [= <- <-]. auto. }
  destruct (match sym st d with Some x => Some (x, st) | None => get k st d end) as [[x s]|]; [|discriminate]. destruct (D x s eq_refl) as [-> ->].
  destruct (lookups (get k) st l) as [[xs s]|] eqn:L; [|discriminate]. destruct (IH xs s H' eq_refl) as [-> ->]. intros [= <- <-]. auto.
Qed.
Lemma put_inv pend pend' st n : Inv pend st -> expr n <> None -> (forall m, pend' m = false -> m = n \/ pend m = false) ->
  forall st', (forall u, sym st' u = upd (sym st) n (Some (W n)) u) -> (forall u, u <> n -> val st' u = val st u) -> Inv pend' st'.
Proof.
  intros (A & B & C) N P st' S1 S2. assert (X : forall u, expr u = None -> u <> n) by (intros u E ->; contradiction). split; [|split].
  - intros u F. rewrite S1. assert (u <> n) by (intros ->; apply free_un in F; contradiction). rewrite upd_other by congruence. now apply A.
  - intros u E F. rewrite S1, S2 by auto. rewrite upd_other by (specialize (X u E); congruence). auto.
  - intros c E Q. rewrite S1. destruct (Nat.eq_dec c n) as [-> | D]; [now rewrite upd_same|]. rewrite upd_other by congruence. apply C; [exact E|]. destruct (P c Q); congruence.
Qed.
Lemma getval_ok pend pend' st k n l v st' : Inv pend st -> expr n = Some l -> (forall d, In d l -> expr d <> None -> pend d = false) ->
  get k st n = Some (v, st') -> (forall m, pend' m = false -> m = n \/ pend m = false) -> v = W n /\ Inv pend' st'.
Proof.
  intros Hi E H G P. destruct k as [|k]; cbn [getval] in G; [discriminate|]. rewrite E in G.
  destruct (lookups (get k) st l) as [[vs s]|] eqn:L; [|discriminate]. destruct (lookups_ok pend st k Hi l vs s H L) as [-> ->].
  cbv zeta in G. set (s1 := setv kids st n (fexp n (map W l))) in *.
  assert (Ev : clamp n (val s1 n) = W n) by (rewrite (HW n l E); unfold s1; cbn; now rewrite upd_same). rewrite Ev in G.
  assert (Gv : v = W n /\ st' = setv kids s1 n (W n)) by (split; congruence). destruct Gv as [-> ->]. split; [reflexivity|]. apply (put_inv pend pend' st n Hi); [congruence|exact P| |].
  - intro u. cbn. rewrite K2 by congruence. unfold upd. destruct (Nat.eqb u n); [reflexivity|]. now rewrite K2 by congruence.
  - intros u D. cbn. rewrite !upd_other by congruence. reflexivity.
Qed.
Definition cons_only (pend : nat -> bool) : Prop := forall n, pend n = true -> expr n <> None.
Lemma update_ok : forall fuel ps n ps', cons_only (fst ps) -> Inv (fst ps) (snd ps) -> update_param expr vary fexp clamp kids fuel ps n = Some ps' ->
  cons_only (fst ps') /\ Inv (fst ps') (snd ps') /\ (expr n <> None -> fst ps' n = false) /\ (forall m, fst ps m = false -> fst ps' m = false).
Proof.
  induction fuel as [|fuel IH]; intros ps n ps' Ho Hi; cbn [update_param]; [discriminate|].
  destruct (fst ps n) eqn:Pn; cbn [negb]; [|intros [= <-]; auto].
  assert (G : forall l ps ps', cons_only (fst ps) -> Inv (fst ps) (snd ps) ->
    (fix deps (ps : (nat -> bool) * vst V) (l : list nat) : option ((nat -> bool) * vst V) :=
       match l with [] => Some ps | d :: l => match update_param expr vary fexp clamp kids fuel ps d with None => None | Some ps => deps ps l end end) ps l = Some ps' ->
    cons_only (fst ps') /\ Inv (fst ps') (snd ps') /\ (forall d, In d l -> expr d <> None -> fst ps' d = false) /\ (forall m, fst ps m = false -> fst ps' m = false)).
  { clear ps ps' Ho Hi Pn n. induction l as [|d l IHl]; intros ps ps' Ho Hi H; [injection H as <-; split; [exact Ho|split; [exact Hi|split; [intros d []|auto]]]|].
    destruct (update_param expr vary fexp clamp kids fuel ps d) as [p|] eqn:U; [|discriminate]. destruct (IH ps d p Ho Hi U) as (I0 & I1 & I2 & I3).
    destruct (IHl p ps' I0 I1 H) as (J0 & J1 & J2 & J3). split; [exact J0|]. split; [exact J1|]. split; [|auto]. intros x [<- | X] N; auto. }
  destruct ((fix deps (ps : (nat -> bool) * vst V) (l : list nat) : option ((nat -> bool) * vst V) :=
       match l with [] => Some ps | d :: l => match update_param expr vary fexp clamp kids fuel ps d with None => None | Some ps => deps ps l end end)
       ps (match expr n with Some l => l | None => [] end)) as [[pend st]|] eqn:Dp; [|discriminate].
  destruct (G _ _ _ Ho Hi Dp) as (I0 & I1 & I2 & I3). cbn [fst snd] in *.
  destruct (get fuel st n) as [[v s]|] eqn:Gv; [|discriminate]. intros [= <-]. cbn [fst snd].
  pose proof (Ho n Pn) as Hn. destruct (expr n) as [l|] eqn:E; [|contradiction].
  set (pend' := fun m => if Nat.eqb m n then false else pend m).
  assert (P' : forall m, pend' m = false -> m = n \/ pend m = false) by (intro m; unfold pend'; destruct (Nat.eqb_spec m n); auto).
  destruct (getval_ok pend pend' st fuel n l v s I1 E (I2 : forall d, In d l -> expr d <> None -> pend d = false) Gv P') as [-> Hs]. split; [|split; [|split]].
  - intros m. unfold pend'. destruct (Nat.eqb_spec m n) as [->|]; [discriminate|]. apply I0.
  - apply (put_inv pend' pend' s n Hs); [congruence|auto|reflexivity|reflexivity].
  - intros _. now rewrite Nat.eqb_refl.
  - intros m M. destruct (Nat.eqb m n); [reflexivity|auto].
Qed.
Lemma each_ok fuel : forall ns ps ps', cons_only (fst ps) -> Inv (fst ps) (snd ps) -> update_each expr vary fexp clamp kids fuel ps ns = Some ps' ->
  Inv (fst ps') (snd ps') /\ (forall n, In n ns -> expr n <> None -> fst ps' n = false) /\ (forall m, fst ps m = false -> fst ps' m = false).
Proof.
  induction ns as [|n ns IH]; intros ps ps' Ho Hi; cbn [update_each]; [intros [= <-]; split; [exact Hi|split; [intros ? []|auto]]|].
  destruct (update_param expr vary fexp clamp kids fuel ps n) as [p|] eqn:U; [|discriminate]. intro H.
  destruct (update_ok fuel ps n p Ho Hi U) as (I0 & I1 & I2 & I3). destruct (IH p ps' I0 I1 H) as (J1 & J2 & J3).
  split; [exact J1|]. split; [|auto]. intros x [<- | X] N; auto.
Qed.
Lemma put_all_val : forall ns vs (st : vst V), val (put_all st ns vs) = val st.
Proof. induction ns as [|n ns IH]; intros [|v vs] st; cbn; auto. rewrite IH. reflexivity. Qed.
Lemma put_all_out : forall ns vs (st : vst V) u, ~ In u ns -> sym (put_all st ns vs) u = sym st u.
Proof.
  induction ns as [|n ns IH]; intros [|v vs] st u H; cbn; auto. rewrite IH by (cbn in H; tauto). cbn. apply upd_other. intros ->; apply H; now left.
Qed.
Lemma put_all_in : forall ns vs (st : vst V) i u v, NoDup ns -> nth_error ns i = Some u -> nth_error vs i = Some v -> sym (put_all st ns vs) u = Some v.
Proof.
  induction ns as [|n ns IH]; intros [|x vs] st [|i] u v N; cbn; try discriminate; inversion N; subst.
  - intros [= <-] [= <-]. rewrite put_all_out by assumption. cbn. apply upd_same.
  - apply IH. assumption.
Qed.
End P.

Lemma obj_value {V} expr vary (fexp : nat -> list V -> V) clamp kids free (st : vst V) theta W :
  (forall c n, expr c <> None -> kids c n = false) -> (forall n v, clamp n (clamp n v) = clamp n v) ->
  (forall u, expr u = None -> ~ In u free -> vary u = false) -> (forall u, In u free -> expr u = None) -> NoDup free ->
  sound expr free st -> length theta = length free -> determined expr fexp clamp free st theta W ->
  forall order fuel name v st', (forall n, expr n <> None -> In n order) -> expr name <> None ->
  obj expr vary fexp clamp kids fuel free order name st theta = Some (v, st') -> v = W name.
Proof.
  intros K2 Ci Fx Fu Nd So Ln (W1 & W2 & W3) order fuel name v st' Ho Hn H. unfold obj in H.
  set (pend := fun n => match expr n with Some _ => true | None => false end) in *.
  destruct (update_each expr vary fexp clamp kids fuel (pend, put_all st free theta) order) as [[p s]|] eqn:U; [|discriminate].
  assert (I : Inv expr free W pend (put_all st free theta)).
  { split; [|split].
    - intros u F. apply In_nth_error in F. destruct F as [i F]. destruct (nth_error theta i) as [x|] eqn:T.
      + rewrite (put_all_in free theta st i u x Nd F T). f_equal. symmetry. eauto.
      + exfalso. apply nth_error_None in T. assert (i < length free) by (apply nth_error_Some; congruence). lia.
    - intros u E F. rewrite put_all_val, put_all_out by exact F. split; [symmetry; auto|]. intros x X. rewrite (W2 u E F). apply (So u x E F X).
    - intros c E. unfold pend. destruct (expr c); [discriminate|contradiction]. }
  assert (O : cons_only expr pend) by (intros n; unfold pend; destruct (expr n); congruence).
  destruct (each_ok expr vary fexp clamp kids K2 free Fx Fu W W3 fuel order (pend, put_all st free theta) (p, s) O I U) as (J & Jp & _). cbn [fst snd] in *.
  destruct (expr name) as [l|] eqn:E; [|contradiction].
  assert (Dp : forall d, In d l -> expr d <> None -> p d = false) by (intros d _ D; apply Jp; auto).
  destruct (getval_ok expr vary fexp clamp kids K2 free Fx Fu W W3 p p s fuel name l v st' J E Dp H) as [Q _]; auto.
Qed.

(** ** Whether the expressions can be evaluated does not depend on the values *)
Section Dom.
Context {V : Type}.
Variable expr : nat -> option (list nat).
Variable vary : nat -> bool.
Variable fexp : nat -> list V -> V.
Variable clamp : nat -> V -> V.
Variable kids : nat -> nat -> bool.
Notation get := (getval expr vary fexp clamp kids).
Definition sim (s t : vst V) : Prop := forall n, sym s n = None <-> sym t n = None.
Lemma sim_sym s t n : sim s t -> (exists x y, sym s n = Some x /\ sym t n = Some y) \/ (sym s n = None /\ sym t n = None).
Proof. intros H. specialize (H n). destruct (sym s n), (sym t n); [left; eauto| | |right; auto]; exfalso; destruct H as [A B]; [discriminate B|discriminate A]; reflexivity. Qed.
Lemma sim_setv s t n v w : sim s t -> sim (setv kids s n v) (setv kids t n w).
Proof. intros H m. cbn. destruct (kids n m); [tauto|]. unfold upd. destruct (Nat.eqb m n); [split; discriminate|apply H]. Qed.
Lemma sim_put s t n v w : sim s t -> sim (put s n v) (put t n w).
Proof. intros H m. cbn. unfold upd. destruct (Nat.eqb m n); [split; discriminate|apply H]. Qed.
Lemma sim_put_all : forall ns vs ws s t, length vs = length ws -> sim s t -> sim (put_all s ns vs) (put_all t ns ws).
Proof. induction ns as [|n ns IH]; intros [|v vs] [|w ws] s t L H; try discriminate L; cbn; auto. apply IH; [now injection L|]. now apply sim_put. Qed.
Definition both {A} (R : A -> A -> Prop) (x y : option A) : Prop := match x, y with Some a, Some b => R a b | None, None => True | _, _ => False end.
Lemma sim_lookups (g : vst V -> nat -> option (V * vst V)) :
  (forall s t n, sim s t -> both (fun a b => sim (snd a) (snd b)) (g s n) (g t n)) ->
  forall l s t, sim s t -> both (fun a b => sim (snd a) (snd b)) (lookups g s l) (lookups g t l).
Proof.
  intros Hg. induction l as [|d l IH]; intros s t H; cbn [lookups]; [exact H|].
  assert (K : both (fun a b => sim (snd a) (snd b)) (match sym s d with Some x => Some (x, s) | None => g s d end) (match sym t d with Some x => Some (x, t) | None => g t d end)).
  { destruct (sim_sym s t d H) as [(x & y & -> & ->) | [-> ->]]; [exact H|now apply Hg]. }
  destruct (match sym s d with Some x => Some (x, s) | None => g s d end) as [[x s1]|], (match sym t d with Some x => Some (x, t) | None => g t d end) as [[y t1]|];
    cbn in K; try contradiction; [|exact I]. specialize (IH s1 t1 K).
  destruct (lookups g s1 l) as [[xs s2]|], (lookups g t1 l) as [[ys t2]|]; cbn in IH |- *; auto.
Qed.
Lemma sim_get : forall k s t n, sim s t -> both (fun a b => sim (snd a) (snd b)) (get k s n) (get k t n).
Proof.
  induction k as [|k IH]; intros s t n H; cbn [getval]; [exact I|]. destruct (expr n) as [l|].
  - pose proof (sim_lookups (get k) IH l s t H) as L.
    destruct (lookups (get k) s l) as [[xs s2]|], (lookups (get k) t l) as [[ys t2]|]; cbn in L |- *; try contradiction; [|exact I]. cbn in L.
    exact (sim_setv _ _ _ _ _ (sim_setv s2 t2 n _ _ L)).
  - destruct (vary n); cbn; [exact (sim_setv s t n _ _ H)|exact H].
Qed.
Definition sim2 (a b : (nat -> bool) * vst V) : Prop := (forall m, fst a m = fst b m) /\ sim (snd a) (snd b).
Lemma sim_update : forall k a b n, sim2 a b -> both sim2 (update_param expr vary fexp clamp kids k a n) (update_param expr vary fexp clamp kids k b n).
Proof.
  induction k as [|k IH]; intros a b n H; cbn [update_param]; [exact I|]. destruct H as [H1 H2]. rewrite (H1 n). destruct (fst b n); cbn [negb]; [|split; assumption].
  assert (G : forall l a b, sim2 a b -> both sim2
    ((fix deps (ps : (nat -> bool) * vst V) (l : list nat) : option ((nat -> bool) * vst V) :=
       match l with [] => Some ps | d :: l => match update_param expr vary fexp clamp kids k ps d with None => None | Some ps => deps ps l end end) a l)
    ((fix deps (ps : (nat -> bool) * vst V) (l : list nat) : option ((nat -> bool) * vst V) :=
       match l with [] => Some ps | d :: l => match update_param expr vary fexp clamp kids k ps d with None => None | Some ps => deps ps l end end) b l)).
  { clear a b H1 H2. induction l as [|d l IHl]; intros a b H; [exact H|]. specialize (IH a b d H).
    destruct (update_param expr vary fexp clamp kids k a d), (update_param expr vary fexp clamp kids k b d); cbn in IH; try contradiction; [now apply IHl|exact I]. }
  specialize (G (match expr n with Some l => l | None => [] end) a b (conj H1 H2)).
  match type of G with both _ ?x ?y => destruct x as [[pa sa]|], y as [[pb sb]|]; cbn in G; try contradiction; [|exact I] end.
  destruct G as [G1 G2]. cbn in G1, G2. pose proof (sim_get k sa sb n G2) as Q.
  destruct (get k sa n) as [[v s]|], (get k sb n) as [[w t]|]; cbn in Q |- *; try contradiction; [|exact I].
  split; cbn; [intro m; destruct (Nat.eqb m n); auto|now apply sim_put].
Qed.
Lemma sim_each k : forall ns a b, sim2 a b -> both sim2 (update_each expr vary fexp clamp kids k a ns) (update_each expr vary fexp clamp kids k b ns).
Proof.
  induction ns as [|n ns IH]; intros a b H; cbn [update_each]; [exact H|]. pose proof (sim_update k a b n H) as U.
  destruct (update_param expr vary fexp clamp kids k a n), (update_param expr vary fexp clamp kids k b n); cbn in U; try contradiction; [now apply IH|exact I].
Qed.
Lemma obj_defined k free order name st args args' : length args = length args' ->
  obj expr vary fexp clamp kids k free order name st args <> None -> obj expr vary fexp clamp kids k free order name st args' <> None.
Proof.
  intros L H. unfold obj in *. set (p := fun n : nat => match expr n with Some _ => true | None => false end) in *.
  assert (S0 : sim2 (p, put_all st free args) (p, put_all st free args')) by (split; [reflexivity|apply sim_put_all; [exact L|intro; tauto]]).
  pose proof (sim_each k order _ _ S0) as E.
  destruct (update_each expr vary fexp clamp kids k (p, put_all st free args) order) as [[a s]|]; [|contradiction].
  destruct (update_each expr vary fexp clamp kids k (p, put_all st free args') order) as [[b t]|]; [|contradiction].
  destruct E as [_ E]. cbn in E. pose proof (sim_get k s t name E) as Q.
  destruct (get k s name) as [[v s']|]; [|contradiction]. destruct (get k t name) as [[w t']|]; [discriminate|contradiction].
Qed.
End Dom.

(** ** The values of free parameters, and restoring them *)
Section Free.
Context {V : Type}.
Variable expr : nat -> option (list nat).
Variable vary : nat -> bool.
Variable fexp : nat -> list V -> V.
Variable clamp : nat -> V -> V.
Variable kids : nat -> nat -> bool.
Hypothesis clamp_idem : forall n v, clamp n (clamp n v) = clamp n v.
Notation get := (getval expr vary fexp clamp kids).
Lemma values_ok k : forall ns st vs st', NoDup ns -> (forall u, In u ns -> expr u = None /\ vary u = true) ->
  values expr vary fexp clamp kids k st ns = Some (vs, st') ->
  vs = map (fun n => clamp n (val st n)) ns /\
  (forall u, ~ In u ns -> val st' u = val st u /\ (sym st' u = None \/ sym st' u = sym st u)).
Proof.
  induction ns as [|n ns IH]; intros st vs st' N F; cbn [values]; [intros [= <- <-]; auto|]. inversion N; subst.
  destruct k as [|k]; [discriminate|]. destruct (get (S k) st n) as [[v s]|] eqn:G; [|discriminate].
  cbn [getval] in G. destruct (F n (or_introl eq_refl)) as [F1 F2]. rewrite F1, F2 in G. cbv zeta in G.
  assert (Ev : v = clamp n (val st n) /\ s = setv kids st n v) by (split; congruence). destruct Ev as [Ev ->].
  destruct (values expr vary fexp clamp kids (S k) (setv kids st n v) ns) as [[xs t]|] eqn:R; [|discriminate]. intros [= <- <-].
  destruct (IH _ _ _ H2 (fun u X => F u (or_intror X)) R) as [A B]. split.
  - cbn. rewrite <- Ev. f_equal. rewrite A. apply map_ext_in. intros u X. cbn. rewrite upd_other by (intros ->; contradiction). reflexivity.
  - intros u X. destruct (B u) as [B1 B2]; [intro; apply X; now right|]. assert (u <> n) by (intros ->; apply X; now left).
    split; [rewrite B1; cbn; now rewrite upd_other by congruence|]. destruct B2 as [B2|B2]; [now left|]. rewrite B2. cbn.
    destruct (kids n u); [now left|right; now rewrite upd_other by congruence].
Qed.
Lemma restore_in : forall ns vs (st : vst V) i u v, NoDup ns -> nth_error ns i = Some u -> nth_error vs i = Some v -> val (restore kids st ns vs) u = v.
Proof.
  assert (O : forall ns vs (st : vst V) u, ~ In u ns -> val (restore kids st ns vs) u = val st u).
  { induction ns as [|n ns IH]; intros [|v vs] st u H; cbn; auto. rewrite IH by (cbn in H; tauto). cbn. apply upd_other. intros ->; apply H; now left. }
  induction ns as [|n ns IH]; intros [|x vs] st [|i] u v N; cbn; try discriminate; inversion N; subst.
  - intros [= <-] [= <-]. rewrite O by assumption. cbn. apply upd_same.
  - apply IH. assumption.
Qed.
Lemma restore_out : forall ns vs (st : vst V) u, ~ In u ns -> val (restore kids st ns vs) u = val st u.
Proof.
  induction ns as [|n ns IH]; intros [|v vs] st u H; cbn; auto. rewrite IH by (cbn in H; tauto). cbn. apply upd_other. intros ->; apply H; now left.
Qed.
(** fixed parameters are never written *)
Lemma lookups_fixed (g : vst V -> nat -> option (V * vst V)) u :
  (forall s n x t, g s n = Some (x, t) -> val t u = val s u) -> forall l s xs t, lookups g s l = Some (xs, t) -> val t u = val s u.
Proof.
  intros Hg. induction l as [|d l IH]; intros s xs t; cbn [lookups]; [now intros [= _ <-]|].
  destruct (sym s d) as [y|].
  - destruct (lookups g s l) as [[ys s2]|] eqn:L; [|discriminate]. intros [= _ <-]. eauto.
  - destruct (g s d) as [[y s1]|] eqn:G; [|discriminate]. destruct (lookups g s1 l) as [[ys s2]|] eqn:L; [|discriminate]. intros [= _ <-].
    rewrite (IH _ _ _ L). eauto.
Qed.
Lemma get_fixed u : expr u = None -> vary u = false -> forall k s n x t, get k s n = Some (x, t) -> val t u = val s u.
Proof.
  intros E F. induction k as [|k IH]; intros s n x t; cbn [getval]; [discriminate|]. destruct (expr n) as [l|] eqn:En.
  - destruct (lookups (get k) s l) as [[xs s2]|] eqn:L; [|discriminate]. cbv zeta. intros [= _ <-]. cbn.
    assert (u <> n) by congruence. rewrite !upd_other by congruence. exact (lookups_fixed (get k) u IH l _ _ _ L).
  - destruct (vary n) eqn:Vn; [|now intros [= _ <-]]. cbv zeta. intros [= _ <-]. cbn. assert (u <> n) by congruence. now rewrite upd_other by congruence.
Qed.
Lemma update_fixed u : expr u = None -> vary u = false -> forall k a n b, update_param expr vary fexp clamp kids k a n = Some b -> val (snd b) u = val (snd a) u.
Proof.
  intros E F. induction k as [|k IH]; intros a n b; cbn [update_param]; [discriminate|]. destruct (fst a n); cbn [negb]; [|now intros [= <-]].
  assert (G : forall l a b, 
    ((fix deps (ps : (nat -> bool) * vst V) (l : list nat) : option ((nat -> bool) * vst V) :=
       match l with [] => Some ps | d :: l => match update_param expr vary fexp clamp kids k ps d with None => None | Some ps => deps ps l end end) a l) = Some b -> val (snd b) u = val (snd a) u).
  { clear a b n. induction l as [|d l IHl]; intros a b H; [now injection H as <-|].
    destruct (update_param expr vary fexp clamp kids k a d) as [c|] eqn:U; [|discriminate]. rewrite (IHl c b H). eauto. }
  specialize (G (match expr n with Some l => l | None => [] end) a).
  match type of G with forall b, ?x = _ -> _ => destruct x as [[pa sa]|]; [|discriminate] end. specialize (G _ eq_refl). cbn in G.
  destruct (get k sa n) as [[v s]|] eqn:Gv; [|discriminate]. intros [= <-]. cbn. rewrite <- G. exact (get_fixed u E F k sa n v s Gv).
Qed.
Lemma obj_fixed u : expr u = None -> vary u = false -> forall k free order name st args v st',
  obj expr vary fexp clamp kids k free order name st args = Some (v, st') -> val st' u = val st u.
Proof.
  intros E F k free order name st args v st'. unfold obj. set (p := fun n : nat => match expr n with Some _ => true | None => false end).
  assert (G : forall ns a b, update_each expr vary fexp clamp kids k a ns = Some b -> val (snd b) u = val (snd a) u).
  { induction ns as [|n ns IH]; intros a b; cbn [update_each]; [now intros [= <-]|].
    destruct (update_param expr vary fexp clamp kids k a n) as [c|] eqn:U; [|discriminate]. intros H. rewrite (IH _ _ H). exact (update_fixed u E F k a n c U). }
  destruct (update_each expr vary fexp clamp kids k (p, put_all st free args) order) as [[q s]|] eqn:U; [|discriminate]. intros H.
  rewrite (get_fixed u E F k s name v st' H). specialize (G _ _ _ U). cbn in G. now rewrite G, put_all_val.
Qed.
End Free.
