From Coq Require Import List Arith Bool Lia.
From Verif Require Import M_Prep S_Prep P_Prep M_ParamVal S_ParamVal P_ParamVal P_SetFree M_Fiducial S_Fiducial.
Import ListNotations.

Section Fiducial.
Context {V : Type}.
Variable names : list nat.
Variable expr : nat -> option (list nat).
Hypothesis nodup : NoDup names.
Hypothesis acyc : acyclic names expr.
Hypothesis syms_in : forall n l, expr n = Some l -> In n names /\ incl l names.
Variables (f : nat) (ps : pst).
Hypothesis prep : prepare names expr f = Some ps.
Variable vary : nat -> bool.
Variable fexp : nat -> list V -> V.
Variable clamp : nat -> V -> V.
Hypothesis clamp_idem : forall n v, clamp n (clamp n v) = clamp n v.
Variable inf : V.
Variable finite : V -> bool.
Notation con := (constrained expr).
Notation kid := (kids ps).
Notation get := (getval expr vary fexp clamp kid).
Notation set := (setv kid).

Lemma K1 c n : con c = false -> kid c n = true <-> edge names expr n c.
Proof. destruct (prep_kids names expr nodup acyc f ps prep) as [A _]. apply A. Qed.
Lemma K2 c n : con c = true -> kid c n = false.
Proof. destruct (prep_kids names expr nodup acyc f ps prep) as [_ A]. apply A. Qed.

(** reading leaves what a parameter without expression shows *)
Definition sh (st : vst V) (u : nat) : V := if vary u then clamp u (val st u) else val st u.
Lemma get_sh fuel : forall st n v st', get fuel st n = Some (v, st') -> (forall u, con u = false -> sh st' u = sh st u) /\ (con n = false -> v = sh st n).
Proof.
  induction fuel as [|fuel IH]; intros st n v st'; cbn [getval]; [discriminate|].
  destruct (expr n) as [l|] eqn:Ee.
  - assert (L : forall l st vs st', lookups (get fuel) st l = Some (vs, st') -> forall u, con u = false -> sh st' u = sh st u).
    { clear - IH. induction l as [|d l IHl]; intros st vs st'; cbn [lookups]; [intros [= <- <-]; auto|].
      destruct (sym st d) as [x|].
      - destruct (lookups (get fuel) st l) as [[xs s]|] eqn:E; [|discriminate]. intros [= <- <-]. exact (IHl _ _ _ E).
      - destruct (get fuel st d) as [[x s0]|] eqn:G; [|discriminate]. destruct (lookups (get fuel) s0 l) as [[xs s]|] eqn:E; [|discriminate].
        intros [= <- <-] u Hu. rewrite (IHl _ _ _ E u Hu). now apply (IH _ _ _ _ G). }
    destruct (lookups (get fuel) st l) as [[vs s]|] eqn:E; [|discriminate]. intros [= <- <-].
    assert (C : con n = true) by (unfold constrained; now rewrite Ee).
    split; [|congruence]. intros u Hu. rewrite <- (L _ _ _ _ E u Hu). unfold sh. cbn [val setv]. rewrite !upd_other by congruence. reflexivity.
  - destruct (vary n) eqn:Ev; intros [= <- <-].
    + split; [|intros _; unfold sh; now rewrite Ev]. intros u Hu. unfold sh. cbn [val setv]. unfold upd. destruct (Nat.eqb_spec u n); [subst; rewrite Ev; apply clamp_idem|reflexivity].
    + split; [auto|]. intros _. unfold sh. now rewrite Ev.
Qed.
Lemma read_sh fuel : forall ns st vs st', read_all expr vary fexp clamp kid fuel st ns = Some (vs, st') ->
  (forall u, con u = false -> sh st' u = sh st u) /\ map fst vs = ns /\ (forall u v, In (u, v) vs -> con u = false -> v = sh st u).
Proof.
  induction ns as [|n ns IH]; intros st vs st'; cbn [read_all].
  - intros [= <- <-]. repeat split; auto. intros u v [].
  - destruct (get fuel st n) as [[v s]|] eqn:G; [|discriminate]. destruct (read_all expr vary fexp clamp kid fuel s ns) as [[vs1 s1]|] eqn:E; [|discriminate].
    intros [= <- <-]. destruct (IH _ _ _ E) as (A & B & C). destruct (get_sh _ _ _ _ _ G) as (A' & C'). split; [|split].
    + intros u Hu. rewrite A by exact Hu. now apply A'.
    + cbn. now rewrite B.
    + intros u w [[= <- <-]|I'] Hu; [exact (C' Hu)|]. rewrite (C u w I' Hu). now apply A'.
Qed.

(** after all parameters without expression are assigned *)
Notation asg := (@assign_unconstrained V expr kid).
Lemma asg_spec : forall l st, NoDup (map fst l) ->
  (forall u v, In (u, v) l -> con u = false -> val (asg st l) u = v /\ sym (asg st l) u = Some v) /\
  (forall u, con u = false -> ~ In u (map fst l) -> val (asg st l) u = val st u /\ sym (asg st l) u = sym st u) /\
  (forall c, con c = true -> (sym st c = None \/ exists u v, In (u, v) l /\ con u = false /\ kid u c = true) -> sym (asg st l) c = None).
Proof.
  induction l as [|[n w] l IH]; intros st N; cbn [assign_unconstrained map fst].
  - split; [intros u v []|]. split; [auto|]. intros c _ [H|(u & v & [] & _)]. exact H.
  - cbn [map fst] in N. inversion N as [|? ? N1 N2]; subst. set (st1 := match expr n with None => set st n w | Some _ => st end).
    destruct (IH st1 N2) as (A & B & C). 
    assert (NC : con n = false -> st1 = set st n w) by (unfold st1, constrained; destruct (expr n); [discriminate|reflexivity]).
    assert (YC : con n = true -> st1 = st) by (unfold st1, constrained; destruct (expr n); [reflexivity|discriminate]).
    assert (KU : forall m, con n = false -> con m = false -> kid n m = false).
    { intros m Hn Hm. destruct (kid n m) eqn:E; [|reflexivity]. apply K1 in E; [|exact Hn]. destruct E as (_ & _ & l' & El & _). unfold constrained in Hm. rewrite El in Hm. discriminate. }
    split; [|split].
    + intros u v [[= <- <-]|I'] Hu; [|now apply A]. destruct (B n Hu N1) as (B1 & B2). rewrite B1, B2, (NC Hu). cbn [val sym setv]. rewrite (KU n Hu Hu), !upd_same. auto.
    + intros u Hu NI. destruct (B u Hu) as (B1 & B2); [intro; apply NI; right; auto|]. rewrite B1, B2. destruct (con n) eqn:Hn; [rewrite (YC eq_refl); auto|].
      rewrite (NC eq_refl). cbn [val sym setv]. rewrite (KU u eq_refl Hu), !upd_other by (intros ->; apply NI; left; reflexivity). auto.
    + intros c Hc H. apply C; [exact Hc|]. destruct H as [H|(u & v & [[= <- <-]|I'] & Hu & Hk)].
      * left. destruct (con n) eqn:Hn; [rewrite (YC eq_refl); exact H|]. rewrite (NC eq_refl). cbn [sym setv]. destruct (kid n c); [reflexivity|]. rewrite upd_other; [exact H|congruence].
      * left. rewrite (NC Hu). cbn [sym setv]. now rewrite Hk.
      * right. exists u, v. auto.
Qed.
Hypothesis anch : anchored expr.
Lemma asg_JF st l base D : NoDup (map fst l) -> (forall n, In n names -> In n (map fst l)) -> solves expr fexp clamp base D ->
  (forall u, con u = false -> ~ In u names -> val st u = base u /\ (forall x, sym st u = Some x -> x = base u)) ->
  (forall u v, In (u, v) l -> con u = false -> v = base u) -> (forall u, con u = false -> vary u = true -> clamp u (base u) = base u) ->
  (forall u, In u (map fst l) -> In u names) ->
  JF expr vary clamp base D (fun _ => True) (asg st l).
Proof.
  intros N Cov HD Out L Cl Sub. destruct (asg_spec l st N) as (A & B & C).
  assert (DU : forall u, con u = false -> D u = base u) by (intros u Hu; rewrite (HD u); unfold constrained in Hu; destruct (expr u); [discriminate|reflexivity]).
  assert (Dec : forall u, {In u (map fst l)} + {~ In u (map fst l)}) by (intros; apply in_dec, Nat.eq_dec).
  constructor.
  - intros u Hu. destruct (Dec u) as [I'|NI].
    + apply in_map_iff in I'. destruct I' as ([u' v] & <- & I'). cbn in *. destruct (A u' v I' Hu) as [-> _]. now apply L.
    + destruct (B u Hu NI) as [B1 _]. rewrite B1. destruct (Out u Hu (fun q => NI (Cov u q))) as [O1 _]. exact O1.
  - intros u x Hu. rewrite (DU u Hu). destruct (Dec u) as [I'|NI].
    + apply in_map_iff in I'. destruct I' as ([u' v] & <- & I'). cbn in *. destruct (A u' v I' Hu) as [_ ->]. intros [= <-]. now apply L.
    + destruct (B u Hu NI) as [_ B2]. rewrite B2. destruct (Out u Hu (fun q => NI (Cov u q))) as [_ O2]. exact (O2 x).
  - intros c x _ Hc Hx. exfalso. assert (E : sym (asg st l) c = None); [|congruence]. apply C; [exact Hc|]. right.
    unfold constrained in Hc. destruct (expr c) as [lc|] eqn:Ec; [|discriminate]. destruct (anch c lc Ec) as (u & Hu & Eu). destruct (syms_in c lc Ec) as [Hcn Hin].
    assert (I' : In u (map fst l)) by (apply Cov, Hin, Hu). apply in_map_iff in I'. destruct I' as ([u' v] & E & I'). cbn in E. subst u'.
    exists u, v. split; [exact I'|]. assert (CU : con u = false) by (unfold constrained; now rewrite Eu). split; [exact CU|]. apply K1; [exact CU|].
    split; [exact Hcn|]. split; [apply Hin, Hu|]. exists lc. auto.
  - exact Cl.
Qed.
Lemma closed_all : closed expr (fun _ => True). Proof. intros c l d _ _ _ _. constructor. Qed.
Lemma get_all base D fuel st n v st' : solves expr fexp clamp base D -> JF expr vary clamp base D (fun _ => True) st -> get fuel st n = Some (v, st') ->
  JF expr vary clamp base D (fun _ => True) st' /\ v = D n.
Proof.
  intros HD HJ G. destruct (getval_JF expr vary fexp clamp kid K2 base D HD (fun _ => True) closed_all fuel st n v st' HJ) as (A & B & _); auto.
  intros l d _ _. right. constructor.
Qed.
Lemma store_spec base D fuel : solves expr fexp clamp base D -> forall ns fid st fid' st', JF expr vary clamp base D (fun _ => True) st ->
  store_fiducials expr vary fexp clamp kid finite fuel fid st ns = Some (fid', st') -> NoDup ns ->
  JF expr vary clamp base D (fun _ => True) st' /\
  (forall n, con n = false \/ ~ In n ns -> fid' n = fid n) /\ (forall n, In n ns -> con n = true -> fid' n = if finite (D n) then Some (D n) else None).
Proof.
  intros HD. induction ns as [|n ns IH]; intros fid st fid' st' HJ; cbn [store_fiducials].
  - intros [= <- <-] _. split; [exact HJ|]. split; [auto|intros n []].
  - destruct (expr n) as [l|] eqn:En.
    + destruct (get fuel st n) as [[v s]|] eqn:G; [|discriminate]. intros E N. inversion N as [|? ? N1 N2]; subst.
      destruct (get_all _ _ _ _ _ _ _ HD HJ G) as (HJ' & ->). destruct (IH _ _ _ _ HJ' E N2) as (A & B & C). split; [exact A|]. split.
      * intros m Hm. rewrite B by (destruct Hm as [Hm|Hm]; [left; exact Hm|right; intro; apply Hm; right; assumption]).
        apply upd_other. intros ->. destruct Hm as [Hm|Hm]; [unfold constrained in Hm; rewrite En in Hm; discriminate|apply Hm; left; reflexivity].
      * intros m [<-|Hm] Hc; [|now apply C]. rewrite B by (right; exact N1). now rewrite upd_same.
    + intros E N. inversion N as [|? ? N1 N2]; subst. destruct (IH _ _ _ _ HJ E N2) as (A & B & C). split; [exact A|]. split.
      * intros m Hm. apply B. destruct Hm as [Hm|Hm]; [left; exact Hm|right; intro; apply Hm; right; assumption].
      * intros m [<-|Hm] Hc; [unfold constrained in Hc; rewrite En in Hc; discriminate|now apply C].
Qed.
(** names outside the set are not touched *)
Definition same_out (st st' : vst V) : Prop := forall u, ~ In u names -> val st' u = val st u /\ sym st' u = sym st u.
Lemma out_refl st : same_out st st. Proof. intros u _. auto. Qed.
Lemma out_trans a b c : same_out a b -> same_out b c -> same_out a c.
Proof. intros H1 H2 u Hu. destruct (H1 u Hu) as [<- <-]. now apply H2. Qed.
Lemma kid_in c n : kid c n = true -> In n names.
Proof. intro H. destruct (con c) eqn:E; [rewrite K2 in H by exact E; discriminate|]. apply K1 in H; [apply H|exact E]. Qed.
Lemma out_set st n v : In n names -> same_out st (set st n v).
Proof.
  intros Hn u Hu. cbn [val sym setv]. rewrite !upd_other by (intros ->; contradiction). destruct (kid n u) eqn:E; [|auto]. apply kid_in in E. contradiction.
Qed.
Lemma get_out fuel : forall st n v st', In n names -> get fuel st n = Some (v, st') -> same_out st st'.
Proof.
  induction fuel as [|fuel IH]; intros st n v st' Hn; cbn [getval]; [discriminate|].
  destruct (expr n) as [l|] eqn:Ee.
  - destruct (syms_in _ _ Ee) as [_ Hl].
    assert (L : forall l st vs st', incl l names -> lookups (get fuel) st l = Some (vs, st') -> same_out st st').
    { clear - IH. induction l as [|d l IHl]; intros st vs st' Hl; cbn [lookups]; [intros [= <- <-]; apply out_refl|].
      assert (Hl' : incl l names) by (intros x Hx; apply Hl; right; exact Hx).
      destruct (sym st d) as [x|].
      - destruct (lookups (get fuel) st l) as [[xs s]|] eqn:E; [|discriminate]. intros [= <- <-]. exact (IHl _ _ _ Hl' E).
      - destruct (get fuel st d) as [[x s0]|] eqn:G; [|discriminate]. destruct (lookups (get fuel) s0 l) as [[xs s]|] eqn:E; [|discriminate].
        intros [= <- <-]. eapply out_trans; [eapply IH; [apply Hl; left; reflexivity|exact G]|exact (IHl _ _ _ Hl' E)]. }
    destruct (lookups (get fuel) st l) as [[vs s]|] eqn:E; [|discriminate]. intros [= <- <-].
    eapply out_trans; [exact (L _ _ _ _ Hl E)|]. eapply out_trans; apply out_set; exact Hn.
  - destruct (vary n); intros [= <- <-]; [apply out_set; exact Hn|apply out_refl].
Qed.
Lemma read_out fuel : forall ns st vs st', incl ns names -> read_all expr vary fexp clamp kid fuel st ns = Some (vs, st') -> same_out st st'.
Proof.
  induction ns as [|n ns IH]; intros st vs st' Hi; cbn [read_all]; [intros [= <- <-]; apply out_refl|].
  destruct (get fuel st n) as [[v s]|] eqn:G; [|discriminate]. destruct (read_all expr vary fexp clamp kid fuel s ns) as [[vs1 s1]|] eqn:E; [|discriminate].
  intros [= <- <-]. eapply out_trans; [eapply get_out; [apply Hi; left; reflexivity|exact G]|]. eapply IH; [|exact E]. intros x Hx. apply Hi. right. exact Hx.
Qed.
Lemma asg_out : forall l st, (forall n, In n (map fst l) -> In n names) -> same_out st (asg st l).
Proof.
  induction l as [|[n w] l IH]; intros st Hi; cbn [assign_unconstrained]; [apply out_refl|].
  eapply out_trans; [|apply IH; intros m Hm; apply Hi; right; exact Hm]. destruct (expr n); [apply out_refl|apply out_set, Hi; left; reflexivity].
Qed.
Lemma store_out fuel : forall ns fid st fid' st', incl ns names -> store_fiducials expr vary fexp clamp kid finite fuel fid st ns = Some (fid', st') -> same_out st st'.
Proof.
  induction ns as [|n ns IH]; intros fid st fid' st' Hi; cbn [store_fiducials]; [intros [= <- <-]; apply out_refl|].
  assert (Hi' : incl ns names) by (intros x Hx; apply Hi; right; exact Hx).
  destruct (expr n); [|apply IH; exact Hi']. destruct (get fuel st n) as [[v s]|] eqn:G; [|discriminate]. intro E.
  eapply out_trans; [eapply get_out; [apply Hi; left; reflexivity|exact G]|]. eapply IH; [exact Hi'|exact E].
Qed.

(** the values at the names, extended *)
Definition inb (n : nat) : bool := if in_dec Nat.eq_dec n names then true else false.
Lemma inb_iff n : inb n = true <-> In n names. Proof. unfold inb. destruct (in_dec Nat.eq_dec n names); split; auto; discriminate. Qed.
Definition ext (D : nat -> V) (st : vst V) (n : nat) : V := if inb n then D n else val st n.
Lemma ext_in D st n : In n names -> ext D st n = D n. Proof. unfold ext. intro H. apply inb_iff in H. now rewrite H. Qed.
Lemma ext_out D st n : ~ In n names -> ext D st n = val st n. Proof. unfold ext. intro H. destruct (inb n) eqn:E; [apply inb_iff in E; contradiction|reflexivity]. Qed.
Definition consistent (D : nat -> V) : Prop := forall n l, expr n = Some l -> D n = clamp n (fexp n (map D l)).
Lemma ext_solves D st : consistent D -> solves expr fexp clamp (ext D st) (ext D st).
Proof.
  intros H n. destruct (expr n) as [l|] eqn:E; [|reflexivity]. destruct (syms_in _ _ E) as [A B]. rewrite ext_in by exact A. rewrite (H n l E). f_equal. f_equal.
  apply map_ext_in. intros d Hd. symmetry. apply ext_in, B, Hd.
Qed.
Lemma con_out u : ~ In u names -> con u = false.
Proof. intro H. unfold constrained. destruct (expr u) as [l|] eqn:E; [|reflexivity]. destruct (syms_in _ _ E). contradiction. Qed.
Lemma asg_ready st0 st l D : same_out st0 st -> (forall u, ~ In u names -> sym st0 u = None /\ vary u = false) -> consistent D -> map fst l = names ->
  (forall u v, In (u, v) l -> con u = false -> v = D u /\ (vary u = true -> clamp u v = v)) ->
  JF expr vary clamp (ext D st0) (ext D st0) (fun _ => True) (asg st l).
Proof.
  intros SO O HD M L. apply asg_JF.
  - now rewrite M.
  - now rewrite M.
  - now apply ext_solves.
  - intros u Hu NI. destruct (SO u NI) as [-> ->]. rewrite ext_out by exact NI. destruct (O u NI) as [-> _]. split; [reflexivity|discriminate].
  - intros u v I' Hu. assert (In u names) by (rewrite <- M; apply in_map_iff; exists (u, v); auto). rewrite ext_in by assumption. apply (L u v I' Hu).
  - intros u Hu Hv. destruct (in_dec Nat.eq_dec u names) as [I'|NI]; [|destruct (O u NI); congruence]. rewrite ext_in by exact I'.
    rewrite <- M in I'. apply in_map_iff in I'. destruct I' as ([u' v] & E & I'). cbn in E. subst u'. destruct (L u v I' Hu) as [<- H]. auto.
  - rewrite M. auto.
Qed.

Lemma update_spec fuel fid st fid' st' : update_fiducial names expr vary fexp clamp kid inf finite fuel fid st = Some (fid', st') ->
  (forall u, ~ In u names -> sym st u = None /\ vary u = false) ->
  (forall D, (forall u, In u names -> expr u = None -> D u = start_value inf fid u /\ (vary u = true -> clamp u (D u) = D u)) -> consistent D ->
     forall n, In n names -> fid' n = match expr n with None => fid n | Some _ => if finite (D n) then Some (D n) else None end) /\
  (forall D, (forall u, In u names -> expr u = None -> D u = sh st u) -> consistent D ->
     (forall u, In u names -> expr u = None -> val st' u = D u) /\
     (forall fuel' n v st'', In n names -> get fuel' st' n = Some (v, st'') -> v = D n)).
Proof.
  unfold update_fiducial. destruct (read_all expr vary fexp clamp kid fuel st names) as [[vs s1]|] eqn:R; [|discriminate].
  set (s2 := asg s1 _). destruct (store_fiducials expr vary fexp clamp kid finite fuel fid s2 names) as [[fd s3]|] eqn:S; [|discriminate].
  intros [= <- <-] O. destruct (read_sh _ _ _ _ _ R) as (R1 & R2 & R3).
  assert (O1 : same_out st s1) by (eapply read_out; [apply incl_refl|exact R]).
  assert (M2 : map fst (map (fun n => (n, start_value inf fid n)) names) = names) by (rewrite map_map; cbn [fst]; apply map_id).
  assert (O2 : same_out st s2) by (eapply out_trans; [exact O1|]; apply asg_out; rewrite M2; auto).
  assert (O3 : same_out st s3) by (eapply out_trans; [exact O2|]; eapply store_out; [apply incl_refl|exact S]).
  split.
  - intros D Fd HD n Hn.
    assert (J2 : JF expr vary clamp (ext D st) (ext D st) (fun _ => True) s2).
    { apply asg_ready; auto. intros u v I' Hu. apply in_map_iff in I'. destruct I' as (u' & [= <- <-] & I'). apply con_None in Hu.
      destruct (Fd u' I' Hu) as [E C']. rewrite <- E. split; [reflexivity|exact C']. }
    destruct (store_spec _ _ _ (ext_solves D st HD) _ _ _ _ _ J2 S nodup) as (_ & B & C).
    destruct (expr n) as [l|] eqn:E; [|apply B; left; now apply con_None].
    rewrite C by (auto; eapply con_expr; eauto). rewrite ext_in by exact Hn. reflexivity.
  - intros D Dv HD.
    assert (J4 : JF expr vary clamp (ext D st) (ext D st) (fun _ => True) (asg s3 vs)).
    { apply asg_ready; auto. intros u v I' Hu. rewrite (R3 u v I' Hu). assert (Hn : In u names) by (rewrite <- R2; apply in_map_iff; exists (u, v); auto).
      apply con_None in Hu. rewrite (Dv u Hn Hu). split; [reflexivity|]. intro Hv. unfold sh. rewrite Hv. apply clamp_idem. }
    split.
    + intros u Hn Hu. apply con_None in Hu. rewrite (F1 _ _ _ _ _ _ _ J4 u Hu). now apply ext_in.
    + intros fuel' n v st'' Hn G. destruct (get_all _ _ _ _ _ _ _ (ext_solves D st HD) J4 G) as (_ & ->). now apply ext_in.
Qed.
End Fiducial.
