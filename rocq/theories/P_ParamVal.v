From Coq Require Import List Arith Bool Lia.
From Verif Require Import M_Prep S_Prep P_Prep M_ParamVal S_ParamVal.
Import ListNotations.

Section Val.
Context {V : Type}.
Variable names : list nat.
Variable expr : nat -> option (list nat).
Variable vary : nat -> bool.
Variable fexp : nat -> list V -> V.
Variable clamp : nat -> V -> V.
Variable kids : nat -> nat -> bool.
Notation con := (constrained expr).
Hypothesis Hkids1 : forall c n, con c = false -> kids c n = true <-> edge names expr n c.
Hypothesis Hkids2 : forall c n, con c = true -> kids c n = false.
Hypothesis syms_in : forall n l, expr n = Some l -> In n names /\ incl l names.
Notation setv := (setv kids).
Notation getval := (getval expr vary fexp clamp kids).

(** level 1: a constrained parameter all of whose symbols are unconstrained *)
Definition level1 (c : nat) (l : list nat) : Prop := expr c = Some l /\ forall d, In d l -> con d = false.

Record J (base : nat -> V) (st : vst V) : Prop := {
  J1 : forall u, con u = false -> val st u = base u;
  J2 : forall u x, con u = false -> sym st u = Some x -> x = base u;
  J3 : forall c l x, level1 c l -> sym st c = Some x -> x = clamp c (fexp c (map base l));
  J4 : forall u, con u = false -> vary u = true -> clamp u (base u) = base u }.
Hypothesis clamp_idem : forall n v, clamp n (clamp n v) = clamp n v.

Lemma con_expr n l : expr n = Some l -> con n = true.
Proof. unfold constrained. now intros ->. Qed.
Lemma set_unc base st u v : J base st -> con u = false -> (vary u = true -> clamp u v = v) -> J (upd base u v) (setv st u v).
Proof.
  intros [A1 A2 A3 A4] Hu Hv. constructor; cbn.
  - intros u' Hu'. unfold upd. destruct (Nat.eqb u' u); auto.
  - intros u' x Hu'. assert (K : kids u u' = false).
    { destruct (kids u u') eqn:E; [|reflexivity]. apply Hkids1 in E; [|exact Hu]. destruct E as [_ [_ [l [El _]]]]. apply con_expr in El. congruence. }
    rewrite K. unfold upd. destruct (Nat.eqb u' u); [now intros [= ->]|auto].
  - intros c l x [El Hl]. pose proof (con_expr _ _ El) as Hc. destruct (kids u c) eqn:K; [discriminate|].
    rewrite upd_other by congruence. intro Hs. rewrite (A3 c l x (conj El Hl) Hs). f_equal. f_equal. apply map_ext_in. intros d Hd.
    rewrite upd_other; [reflexivity|]. intros ->. assert (kids u c = true); [|congruence]. apply Hkids1; [exact Hu|].
    destruct (syms_in _ _ El) as [X1 X2]. split; [exact X1|split; [apply X2, Hd|exists l; auto]].
  - intros u' Hu' Hv'. unfold upd. destruct (Nat.eqb_spec u' u); [subst; auto|auto].
Qed.
Lemma set_same base st u : J base st -> con u = false -> J base (setv st u (base u)).
Proof.
  intros HJ Hu. destruct (set_unc base st u (base u) HJ Hu (J4 _ _ HJ u Hu)) as [A1 A2 A3 A4].
  assert (E : forall m, upd base u (base u) m = base m) by (intro m; unfold upd; destruct (Nat.eqb_spec m u); congruence).
  constructor.
  - intros m Hm. rewrite A1 by exact Hm. apply E.
  - intros m x Hm Hx. rewrite (A2 m x Hm Hx). apply E.
  - intros c l x Hc Hx. rewrite (A3 c l x Hc Hx). f_equal. f_equal. apply map_ext. exact E.
  - apply J4 with (st := st). exact HJ.
Qed.
(** writing a constrained parameter touches nothing else *)
Lemma set_con base st c v : J base st -> con c = true ->
  (forall l, level1 c l -> v = clamp c (fexp c (map base l))) -> J base (setv st c v).
Proof.
  intros [A1 A2 A3 A4] Hc Hv. constructor; cbn.
  - intros u Hu. rewrite upd_other by congruence. auto.
  - intros u x Hu. rewrite Hkids2 by exact Hc. rewrite upd_other by congruence. auto.
  - intros c' l x Hl. rewrite Hkids2 by exact Hc. unfold upd. destruct (Nat.eqb_spec c' c) as [->|N].
    + intros [= <-]. auto.
    + eauto.
  - exact A4.
Qed.
Lemma set_twice base st n a b : con n = true -> J base (setv st n b) -> J base (setv (setv st n a) n b).
Proof.
  intros Hc [A1 A2 A3 A4].
  assert (E1 : forall u, val (setv (setv st n a) n b) u = val (setv st n b) u).
  { intro u. cbn. unfold upd. destruct (Nat.eqb u n); reflexivity. }
  assert (E2 : forall u, sym (setv (setv st n a) n b) u = sym (setv st n b) u).
  { intro u. cbn. rewrite !Hkids2 by exact Hc. unfold upd. destruct (Nat.eqb u n); [reflexivity|]. rewrite Hkids2 by exact Hc. reflexivity. }
  constructor; intros; rewrite ?E1, ?E2 in *; eauto.
Qed.
(** values of level <= 1 *)
Definition low (d : nat) : Prop := con d = false \/ exists l, level1 d l.
Definition lowval (base : nat -> V) (d : nat) : V :=
  match expr d with None => base d | Some l => clamp d (fexp d (map base l)) end.

Lemma lookups_J (getv : vst V -> nat -> option (V * vst V)) base :
  (forall st n v st', J base st -> getv st n = Some (v, st') -> J base st' /\ (low n -> v = lowval base n)) ->
  forall l st vs st', J base st -> lookups getv st l = Some (vs, st') ->
  J base st' /\ ((forall d, In d l -> low d) -> vs = map (lowval base) l).
Proof.
  intros Hg. induction l as [|d l IH]; intros st vs st' HJ; cbn.
  - intros [= <- <-]. auto.
  - destruct (sym st d) as [x|] eqn:Es.
    + destruct (lookups getv st l) as [[xs st1]|] eqn:E; [|discriminate]. intros [= <- <-].
      destruct (IH _ _ _ HJ E) as [K1 K2]. split; [exact K1|]. intro Hl. rewrite K2 by auto. f_equal.
      destruct (Hl d (or_introl eq_refl)) as [Hd|[l' Hd]].
      * unfold lowval. unfold constrained in Hd. destruct (expr d) eqn:Ee; [discriminate|].
        apply (J2 _ _ HJ); [unfold constrained; now rewrite Ee|exact Es].
      * unfold lowval. destruct Hd as [Ee Hd]. rewrite Ee. apply (J3 _ _ HJ d l' x); [split; assumption|exact Es].
    + destruct (getv st d) as [[x st0]|] eqn:Eg; [|discriminate].
      destruct (lookups getv st0 l) as [[xs st1]|] eqn:E; [|discriminate]. intros [= <- <-].
      destruct (Hg _ _ _ _ HJ Eg) as [G1 G2]. destruct (IH _ _ _ G1 E) as [K1 K2]. split; [exact K1|].
      intro Hl. rewrite K2 by auto. f_equal. apply G2. apply Hl. left. reflexivity.
Qed.
Lemma getval_J base : forall fuel st n v st', J base st -> getval fuel st n = Some (v, st') ->
  J base st' /\ (low n -> v = lowval base n) /\
  (forall l, expr n = Some l -> (forall d, In d l -> low d) -> v = clamp n (fexp n (map (lowval base) l))).
Proof.
  induction fuel as [|fuel IH]; intros st n v st' HJ; cbn; [discriminate|].
  destruct (expr n) as [l|] eqn:Ee.
  - destruct (lookups (getval fuel) st l) as [[vs st1]|] eqn:El; [|discriminate]. intros [= <- <-].
    rewrite upd_same. pose proof (con_expr _ _ Ee) as Hc.
    assert (Hg : forall st n v st', J base st -> getval fuel st n = Some (v, st') -> J base st' /\ (low n -> v = lowval base n)).
    { intros s m x s' Hs Hm. destruct (IH _ _ _ _ Hs Hm) as [P1 [P2 _]]. auto. }
    destruct (lookups_J _ base Hg _ _ _ _ HJ El) as [K1 K2].
    assert (L1 : forall l', level1 n l' -> vs = map base l').
    { intros l' [E' Hl']. rewrite E' in Ee. injection Ee as <-. rewrite K2 by (intros d Hd; left; auto).
      apply map_ext_in. intros d Hd. unfold lowval. specialize (Hl' d Hd). unfold constrained in Hl'. destruct (expr d); [discriminate|reflexivity]. }
    split; [|split].
    + apply set_twice; [exact Hc|]. apply set_con; [exact K1|exact Hc|]. intros l' Hl'. rewrite (L1 l' Hl'). reflexivity.
    + intros [Hn|[l' Hl']]; [congruence|]. rewrite (L1 l' Hl'). unfold lowval. destruct Hl' as [E' _]. rewrite Ee in E' |- *. injection E' as <-. reflexivity.
    + intros l' [= <-] Hl'. rewrite K2 by exact Hl'. reflexivity.
  - assert (Hu : con n = false) by (unfold constrained; now rewrite Ee).
    destruct (vary n) eqn:Ev; intros [= <- <-].
    + rewrite (J1 _ _ HJ n Hu), (J4 _ _ HJ n Hu Ev). split; [apply set_same; assumption|]. split; [intros _; unfold lowval; now rewrite Ee|discriminate].
    + split; [exact HJ|]. split; [intros _; unfold lowval; rewrite Ee; apply (J1 _ _ HJ n Hu)|discriminate].
Qed.

(** a whole history *)
Definition legal (o : vop) : Prop := match o with VSet n v => con n = false /\ (vary n = true -> clamp n v = v) | VGet _ => True end.
Lemma vrun_J fuel : forall ops base st st', J base st -> Forall legal ops -> vrun expr vary fexp clamp kids fuel st ops = Some st' ->
  J (fold_left assigned ops base) st'.
Proof.
  induction ops as [|o ops IH]; intros base st st' HJ HL; cbn [vrun fold_left].
  - intros [= <-]. exact HJ.
  - apply Forall_cons_iff in HL. destruct HL as [Ho HL].
    destruct (vstep expr vary fexp clamp kids fuel st o) as [st1|] eqn:E; [|discriminate]. intro H. eapply IH; [|exact HL|exact H].
    destruct o as [n v|n]; cbn in *.
    + injection E as <-. destruct Ho. apply set_unc; assumption.
    + destruct (getval fuel st n) as [[v s]|] eqn:Eg; [|discriminate]. injection E as <-. apply (getval_J base _ _ _ _ _ HJ Eg).
Qed.
Lemma lowval_solves base D d : solves expr fexp clamp base D -> low d -> lowval base d = D d.
Proof.
  intros HD [H|[l [E H]]]; unfold lowval; rewrite (HD d).
  - unfold constrained in H. destruct (expr d); [discriminate|reflexivity].
  - rewrite E. f_equal. f_equal. apply map_ext_in. intros x Hx. rewrite (HD x). specialize (H x Hx). unfold constrained in H. destruct (expr x); [discriminate|reflexivity].
Qed.
Lemma read_fresh fuel ops base0 st0 st n v st' D : J base0 st0 -> Forall legal ops ->
  vrun expr vary fexp clamp kids fuel st0 ops = Some st -> getval fuel st n = Some (v, st') ->
  solves expr fexp clamp (fold_left assigned ops base0) D ->
  (forall l, expr n = Some l -> forall d, In d l -> low d) -> v = D n.
Proof.
  intros HJ HL Hr Hg HD Hn. pose proof (vrun_J _ _ _ _ _ HJ HL Hr) as HJ'.
  destruct (getval_J _ _ _ _ _ _ HJ' Hg) as [_ [K1 K2]].
  destruct (expr n) as [l|] eqn:E.
  - rewrite (K2 l eq_refl (Hn l eq_refl)), (HD n), E. f_equal. f_equal. apply map_ext_in. intros d Hd. apply lowval_solves; [exact HD|]. eapply Hn; eauto.
  - rewrite K1 by (left; unfold constrained; now rewrite E). apply lowval_solves; [exact HD|]. left; unfold constrained; now rewrite E.
Qed.
(** *** Reading in dependency order *)
Section Order.
Variables base D : nat -> V.
Hypothesis HD : solves expr fexp clamp base D.
Record JF (F : nat -> Prop) (st : vst V) : Prop := {
  F1 : forall u, con u = false -> val st u = base u;
  F2 : forall u x, con u = false -> sym st u = Some x -> x = D u;
  F3 : forall c x, F c -> con c = true -> sym st c = Some x -> x = D c;
  F4 : forall u, con u = false -> vary u = true -> clamp u (base u) = base u }.
Definition closed (F : nat -> Prop) : Prop := forall c l d, F c -> expr c = Some l -> In d l -> con d = true -> F d.
Lemma D_unc u : con u = false -> D u = base u.
Proof. intro H. rewrite (HD u). unfold constrained in H. destruct (expr u); [discriminate|reflexivity]. Qed.
Lemma J_JF st : J base st -> JF (fun c => exists l, level1 c l) st.
Proof.
  intros [A1 A2 A3 A4]. constructor; auto.
  - intros u x Hu Hx. rewrite D_unc by exact Hu. eauto.
  - intros c x [l Hl] Hc Hx. rewrite (A3 c l x Hl Hx), (HD c). destruct Hl as [E Hl]. rewrite E. f_equal. f_equal.
    apply map_ext_in. intros d Hd. symmetry. apply D_unc. auto.
Qed.
Lemma closed_level1 : closed (fun c => exists l, level1 c l).
Proof. intros c l d [l' [E H]] El Hd Hc. rewrite El in E. injection E as <-. specialize (H d Hd). congruence. Qed.
Lemma JF_set_con F st n a b : JF F st -> con n = true -> (F n -> b = D n) -> JF F (setv (setv st n a) n b).
Proof.
  intros [A1 A2 A3 A4] Hc Hb.
  assert (E1 : forall u, u <> n -> val (setv (setv st n a) n b) u = val st u).
  { intros u Hu. cbn. rewrite !upd_other by exact Hu. reflexivity. }
  assert (E2 : forall u, u <> n -> sym (setv (setv st n a) n b) u = sym st u).
  { intros u Hu. cbn. unfold upd. apply Nat.eqb_neq in Hu. rewrite Hu, !Hkids2 by exact Hc. reflexivity. }
  constructor.
  - intros u Hu. rewrite E1 by congruence. auto.
  - intros u x Hu. rewrite E2 by congruence. auto.
  - intros c x HF Hc' . destruct (Nat.eq_dec c n) as [->|N].
    + cbn. rewrite Hkids2 by exact Hc. rewrite upd_same. intros [= <-]. auto.
    + rewrite E2 by exact N. eauto.
  - exact A4.
Qed.
Lemma JF_set_unc F st u : JF F st -> con u = false -> JF F (setv st u (base u)).
Proof.
  intros [A1 A2 A3 A4] Hu. constructor; cbn.
  - intros m Hm. unfold upd. destruct (Nat.eqb_spec m u); [subst; reflexivity|auto].
  - intros m x Hm. destruct (kids u m); [discriminate|]. unfold upd. destruct (Nat.eqb_spec m u); [subst; intros [= <-]; symmetry; apply D_unc; exact Hu|eauto].
  - intros c x HF Hc. destruct (kids u c); [discriminate|]. rewrite upd_other by congruence. eauto.
  - exact A4.
Qed.
Definition okF (F : nat -> Prop) (d : nat) : Prop := con d = false \/ F d.
Lemma lookups_JF F (getv : vst V -> nat -> option (V * vst V)) :
  (forall st n v st', JF F st -> okF F n -> getv st n = Some (v, st') -> JF F st' /\ v = D n) ->
  forall l st vs st', JF F st -> (forall d, In d l -> okF F d) -> lookups getv st l = Some (vs, st') -> JF F st' /\ vs = map D l.
Proof.
  intros Hg. induction l as [|d l IH]; intros st vs st' HJ HF; cbn.
  - intros [= <- <-]. auto.
  - destruct (sym st d) as [x|] eqn:Es.
    + destruct (lookups getv st l) as [[xs st1]|] eqn:E; [|discriminate]. intros [= <- <-].
      destruct (IH _ _ _ HJ (fun d Hd => HF d (or_intror Hd)) E) as [K1 ->]. split; [exact K1|]. f_equal.
      destruct (con d) eqn:Ec; [|exact (F2 _ _ HJ d x Ec Es)]. destruct (HF d (or_introl eq_refl)) as [Kc|Kc]; [congruence|]. exact (F3 _ _ HJ d x Kc Ec Es).
    + destruct (getv st d) as [[x st0]|] eqn:Eg; [|discriminate].
      destruct (lookups getv st0 l) as [[xs st1]|] eqn:E; [|discriminate]. intros [= <- <-].
      destruct (Hg _ _ _ _ HJ (HF d (or_introl eq_refl)) Eg) as [G1 ->].
      destruct (IH _ _ _ G1 (fun d Hd => HF d (or_intror Hd)) E) as [K1 ->]. auto.
Qed.
Lemma getval_JF F : closed F -> forall fuel st n v st', JF F st ->
  (forall l d, expr n = Some l -> In d l -> okF F d) -> getval fuel st n = Some (v, st') ->
  JF F st' /\ v = D n /\ (con n = true -> sym st' n = Some (D n)).
Proof.
  intro HC. induction fuel as [|fuel IH]; intros st n v st' HJ Hn; cbn; [discriminate|].
  destruct (expr n) as [l|] eqn:Ee.
  - destruct (lookups (getval fuel) st l) as [[vs st1]|] eqn:El; [|discriminate]. intros [= <- <-].
    rewrite upd_same. pose proof (con_expr _ _ Ee) as Hc.
    assert (Hg : forall st n v st', JF F st -> okF F n -> getval fuel st n = Some (v, st') -> JF F st' /\ v = D n).
    { intros s m x s' Hs Hm Hx. destruct (IH s m x s' Hs) as [P1 [P2 _]]; auto.
      intros l' d E' Hd. destruct (con d) eqn:Ed; [right|left; exact Ed]. destruct Hm as [Hm|Hm]; [apply con_expr in E'; congruence|]. eapply HC; eauto. }
    destruct (lookups_JF F _ Hg _ _ _ _ HJ (fun d Hd => Hn l d eq_refl Hd) El) as [K1 ->].
    assert (E : clamp n (fexp n (map D l)) = D n) by (rewrite (HD n), Ee; reflexivity).
    split; [apply JF_set_con; auto|]. split; [exact E|]. intros _. cbn. rewrite Hkids2 by exact Hc. rewrite upd_same, E. reflexivity.
  - assert (Hu : con n = false) by (unfold constrained; now rewrite Ee).
    destruct (vary n) eqn:Ev; intros [= <- <-].
    + rewrite (F1 _ _ HJ n Hu), (F4 _ _ HJ n Hu Ev). split; [apply JF_set_unc; assumption|]. split; [symmetry; apply D_unc, Hu|congruence].
    + split; [exact HJ|]. split; [rewrite (F1 _ _ HJ n Hu); symmetry; apply D_unc, Hu|congruence].
Qed.
(** to_dict: read the parameters one after the other *)
Fixpoint reads (fuel : nat) (st : vst V) (ns : list nat) : option (list V) :=
  match ns with [] => Some [] | n :: ns =>
    match getval fuel st n with Some (v, st) => match reads fuel st ns with Some vs => Some (v :: vs) | None => None end | None => None end end.
(** every constrained symbol of an element comes before it *)
Fixpoint ordered (before : list nat) (ns : list nat) : Prop :=
  match ns with [] => True
  | n :: ns => (forall l d, expr n = Some l -> In d l -> con d = true -> In d before) /\ ordered (n :: before) ns end.
Lemma reads_ordered fuel : forall ns before F st vs, closed F -> (forall d, In d before -> con d = true -> F d) -> JF F st ->
  ordered before ns -> reads fuel st ns = Some vs -> vs = map D ns.
Proof.
  induction ns as [|n ns IH]; intros before F st vs HC HB HJ; cbn; [intros _ [= <-]; reflexivity|]. intros [Ho1 Ho2].
  destruct (getval fuel st n) as [[v st1]|] eqn:Eg; [|discriminate].
  destruct (reads fuel st1 ns) as [vs1|] eqn:Er; [|discriminate]. intros [= <-].
  assert (Hn : forall l d, expr n = Some l -> In d l -> okF F d).
  { intros l d E Hd. destruct (con d) eqn:Ed; [right|left; exact Ed]. apply HB; [eapply Ho1; eauto|exact Ed]. }
  destruct (getval_JF F HC _ _ _ _ _ HJ Hn Eg) as [K1 [-> K3]]. f_equal.
  apply (IH (n :: before) (fun c => F c \/ c = n) st1); [| |  |exact Ho2|exact Er].
  - intros c l d [Hc | -> ] E Hd Hcd; left; [eapply HC; eauto|]. destruct (Hn l d E Hd); [congruence|assumption].
  - intros d [<-|Hd] Hc; [right; reflexivity|left; auto].
  - destruct K1 as [B1 B2 B3 B4]. constructor; auto. intros c x [Hc| ->] Hcc Hx; [eauto|]. rewrite (K3 Hcc) in Hx. congruence.
Qed.
End Order.
Lemma reads_fresh fuel ops base0 st0 st ns vs D : J base0 st0 -> Forall legal ops ->
  vrun expr vary fexp clamp kids fuel st0 ops = Some st -> reads fuel st ns = Some vs ->
  solves expr fexp clamp (fold_left assigned ops base0) D -> ordered [] ns -> vs = map D ns.
Proof.
  intros HJ HL Hr Hg HD Ho. pose proof (vrun_J _ _ _ _ _ HJ HL Hr) as HJ'.
  eapply (reads_ordered _ D HD fuel ns [] _ st vs (closed_level1)); [cbn; tauto|apply J_JF; [exact HD|exact HJ']|exact Ho|exact Hg].
Qed.
(** enough fuel: depth 3 *)
Lemma unc_fuel fuel st u : con u = false -> exists r, getval (S fuel) st u = Some r.
Proof.
  unfold constrained. intro H. cbn. destruct (expr u); [discriminate|]. destruct (vary u); eauto.
Qed.
Lemma look_fuel (g : vst V -> nat -> option (V * vst V)) l : (forall d, In d l -> forall st, exists r, g st d = Some r) -> forall st, exists r, lookups g st l = Some r.
Proof.
  induction l as [|d l IH]; intros H st; cbn; [eauto|].
  assert (H' : exists r, match sym st d with Some x => Some (x, st) | None => g st d end = Some r).
  { destruct (sym st d); [eauto|]. apply H. left. reflexivity. }
  destruct H' as [[x s] ->]. destruct (IH (fun d Hd => H d (or_intror Hd)) s) as [[xs s'] ->]. eauto.
Qed.
Lemma low_fuel fuel st d : low d -> exists r, getval (S (S fuel)) st d = Some r.
Proof.
  intros [H|[l [E H]]]; [apply unc_fuel; exact H|]. change (getval (S (S fuel)) st d) with
   (match expr d with None => if vary d then let v := clamp d (val st d) in Some (v, setv st d v) else Some (val st d, st)
    | Some l => match lookups (getval (S fuel)) st l with None => None | Some (vs, st) =>
        let st := setv st d (fexp d vs) in let v := clamp d (val st d) in Some (v, setv st d v) end end).
  rewrite E. destruct (look_fuel (getval (S fuel)) l) with (st := st) as [[vs s] ->]; [|eauto].
  intros x Hx s. apply unc_fuel. auto.
Qed.
Lemma read_fuel fuel st n : (forall l, expr n = Some l -> forall d, In d l -> low d) -> exists r, getval (S (S (S fuel))) st n = Some r.
Proof.
  intro H. destruct (expr n) as [l|] eqn:E.
  - change (getval (S (S (S fuel))) st n) with
   (match expr n with None => if vary n then let v := clamp n (val st n) in Some (v, setv st n v) else Some (val st n, st)
    | Some l => match lookups (getval (S (S fuel))) st l with None => None | Some (vs, st) =>
        let st := setv st n (fexp n vs) in let v := clamp n (val st n) in Some (v, setv st n v) end end).
    rewrite E. destruct (look_fuel (getval (S (S fuel))) l) with (st := st) as [[vs s] ->]; [|eauto].
    intros x Hx s. apply low_fuel. eapply H; eauto.
  - apply unc_fuel. unfold constrained. now rewrite E.
Qed.
End Val.
