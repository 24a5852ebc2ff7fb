From Coq Require Import List Arith Bool Reals Lra Lia.
From Verif Require Import M_Prep S_Prep P_Prep M_ParamVal S_ParamVal P_ParamVal M_Prior S_Params P_Prior M_TheoryDefaults.
Import ListNotations.

Lemma J_ext {V} expr vary (fexp : nat -> list V -> V) clamp b b' st : (forall n, b n = b' n) -> J expr vary fexp clamp b st -> J expr vary fexp clamp b' st.
Proof.
  intros E [A1 A2 A3 A4]. constructor.
  - intros u Hu. rewrite <- E. auto.
  - intros u x Hu Hx. rewrite <- E. eauto.
  - intros c l x Hc Hx. rewrite (A3 c l x Hc Hx). f_equal. f_equal. apply map_ext. exact E.
  - intros u Hu Hv. rewrite <- E. auto.
Qed.
(** fresh parameter set: no symbol evaluated yet, varied values inside their bounds *)
Lemma J_init {V} expr vary (fexp : nat -> list V -> V) clamp (base : nat -> V) :
  (forall u, constrained expr u = false -> vary u = true -> clamp u (base u) = base u) ->
  J expr vary fexp clamp base (mkV base (fun _ => None)).
Proof. intro H. constructor; cbn; auto; discriminate. Qed.

Section SetFree.
Variable names : list nat.
Variable expr : nat -> option (list nat).
Variable vary : nat -> bool.
Variable fexp : nat -> list R -> R.
Variable spec : nat -> pspec.
Variable kids : nat -> nat -> bool.
Notation con := (constrained expr).
Hypothesis Hkids1 : forall c n, con c = false -> kids c n = true <-> edge names expr n c.
Hypothesis Hkids2 : forall c n, con c = true -> kids c n = false.
Hypothesis syms_in : forall n l, expr n = Some l -> In n names /\ incl l names.
Notation clamp := (fun n => clampR (spec n)).
Notation J := (J expr vary fexp clamp).
Hypothesis Hb : forall n a b, pmin (spec n) = Some a -> pmax (spec n) = Some b -> (a <= b)%R.


Lemma within_clamp n v : within_bounds (spec n) v = true -> clampR (spec n) v = v.
Proof. intro H. apply within_iff in H. destruct H as [H _]. exact (proj1 (proj2 (clamp_spec (spec n) v (Hb n))) H). Qed.

Lemma update_values_J fuel : forall kv base st st', J base st ->
  (forall k v, In (k, v) kv -> con k = false /\ within_bounds (spec k) v = true) ->
  update_values expr vary fexp spec kids fuel st kv = Some st' -> J (assign_all base kv) st'.
Proof.
  induction kv as [|[k v] kv IH]; intros base st st' HJ H; cbn; [intros [= <-]; exact HJ|].
  destruct (getval expr vary fexp clamp kids fuel st k) as [[cur st1]|] eqn:Eg; [|discriminate].
  destruct (H k v (or_introl eq_refl)) as [Hk Hw].
  destruct (getval_J names _ _ _ _ _ Hkids1 Hkids2 syms_in base _ _ _ _ _ HJ Eg) as [J1' [Hlow _]].
  assert (Ecur : cur = base k).
  { rewrite (Hlow (or_introl Hk)). unfold lowval. unfold constrained in Hk. destruct (expr k); [discriminate|reflexivity]. }
  intro Hu. unfold assign_all; cbn [fold_left fst snd]. refine (IH _ _ _ _ (fun k v Hi => H k v (or_intror Hi)) Hu).
  destruct (Req_EM_T v cur) as [E|E].
  - eapply J_ext; [|exact J1']. intro n. unfold upd. destruct (Nat.eqb_spec n k); [congruence|reflexivity].
  - apply (set_unc names); auto. intros _. apply within_clamp. exact Hw.
Qed.
Definition shallow (n : nat) : Prop := forall l, expr n = Some l -> forall d, In d l -> low expr d.
Lemma shallow_fresh fuel base st n v st' D : J base st -> getval expr vary fexp clamp kids fuel st n = Some (v, st') ->
  solves expr fexp clamp base D -> shallow n -> J base st' /\ v = D n.
Proof.
  intros HJ Hg HD Hn. destruct (getval_J names _ _ _ _ _ Hkids1 Hkids2 syms_in base _ _ _ _ _ HJ Hg) as [K0 [K1 K2]].
  split; [exact K0|]. destruct (expr n) as [l|] eqn:E.
  - rewrite (K2 l eq_refl (Hn l E)), (HD n), E. f_equal. f_equal. apply map_ext_in. intros d Hd. apply lowval_solves; [exact HD|]. eapply Hn; eauto.
  - rewrite K1 by (left; unfold constrained; now rewrite E). apply lowval_solves; [exact HD|]. left; unfold constrained; now rewrite E.
Qed.
Lemma to_dict_J fuel D : forall ks base st d st', J base st -> solves expr fexp clamp base D ->
  to_dict expr vary fexp spec kids fuel st ks = Some (d, st') ->
  J base st' /\ map fst d = ks /\ forall k v, In (k, v) d -> shallow k -> v = D k.
Proof.
  induction ks as [|k ks IH]; intros base st d st' HJ HD; cbn.
  - intros [= <- <-]. split; [exact HJ|]. split; [reflexivity|intros ? ? []].
  - destruct (getval expr vary fexp clamp kids fuel st k) as [[v st1]|] eqn:Eg; [|discriminate].
    destruct (to_dict expr vary fexp spec kids fuel st1 ks) as [[d' st2]|] eqn:Et; [|discriminate]. intros [= <- <-].
    destruct (getval_J names _ _ _ _ _ Hkids1 Hkids2 syms_in base _ _ _ _ _ HJ Eg) as [J1' _].
    destruct (IH _ _ _ _ J1' HD Et) as [A [B C]]. split; [exact A|]. split; [cbn; now f_equal|].
    intros k' v' [Hkv|Hi] Hs; [injection Hkv as <- <-|auto]. exact (proj2 (shallow_fresh _ _ _ _ _ _ _ HJ Eg HD Hs)).
Qed.
Lemma update_model_in d : forall m k, ~ In k (map fst d) -> update_model m d k = m k.
Proof.
  induction d as [|[a b] d IH]; intros m k Hk; cbn; [reflexivity|]. unfold update_model in IH. rewrite IH by (cbn in Hk; tauto).
  apply upd_other. intros ->. apply Hk. left. reflexivity.
Qed.
Lemma update_model_some d : forall m k, In k (map fst d) -> exists v, In (k, v) d /\ update_model m d k = Some v.
Proof.
  induction d as [|[a b] d IH]; intros m k Hk; cbn in *; [tauto|].
  destruct (in_dec Nat.eq_dec k (map fst d)) as [Hin|Hin].
  - destruct (IH (upd m a (Some b)) k Hin) as [v [H1 H2]]. exists v. split; [right; exact H1|exact H2].
  - destruct Hk as [->|Hk]; [|tauto]. exists b. split; [left; reflexivity|].
    change (update_model (upd m k (Some b)) d k = Some b). rewrite update_model_in by exact Hin. apply upd_same.
Qed.
Lemma assign_all_out kv : forall base k, ~ In k (map fst kv) -> assign_all base kv k = base k.
Proof.
  induction kv as [|[a b] kv IH]; intros base k Hk; cbn; [reflexivity|]. unfold assign_all in IH. rewrite IH by (cbn in Hk; tauto).
  apply upd_other. intros ->. apply Hk. left. reflexivity.
Qed.
Lemma assign_all_in kv : forall base k v, NoDup (map fst kv) -> In (k, v) kv -> assign_all base kv k = v.
Proof.
  induction kv as [|[a b] kv IH]; intros base k v Hn Hi; cbn in *; [tauto|]. apply NoDup_cons_iff in Hn. destruct Hn as [N1 N2].
  destruct Hi as [E|Hi]; [injection E as -> ->|apply IH; assumption].
  change (assign_all (upd base k v) kv k = v). rewrite assign_all_out by exact N1. apply upd_same.
Qed.
Lemma combine_fst {A B} (a : list A) : forall b : list B, length b = length a -> map fst (combine a b) = a.
Proof. induction a as [|x a IH]; intros [|y b]; cbn; try discriminate; auto. intro H. f_equal. apply IH. lia. Qed.

Theorem set_free_spec fuel free mps base st m th D r :
  J base st -> NoDup free -> length th = length free -> (forall k, In k free -> con k = false) ->
  solves expr fexp clamp (assign_all base (combine free th)) D ->
  set_free expr vary fexp spec kids fuel free mps st m th = Some r ->
  ((exists k v, In (k, v) (combine free th) /\ within_bounds (spec k) v = false) /\ r = (false, st, m)) \/
  ((forall k v, In (k, v) (combine free th) -> within_bounds (spec k) v = true) /\
   exists st' m', r = (true, st', m') /\
     J (assign_all base (combine free th)) st' /\
     (forall k v, In (k, v) (combine free th) -> val st' k = v) /\
     (forall k, con k = false -> ~ In k free -> val st' k = base k) /\
     (forall k, ~ In k mps -> m' k = m k) /\
     (forall k, In k mps -> shallow k -> m' k = Some (D k))).
Proof.
  intros HJ Hnd HL Hfree HD. unfold set_free.
  destruct (forallb (fun kv => within_bounds (spec (fst kv)) (snd kv)) (combine free th)) eqn:Ef; cbn [negb].
  - rewrite forallb_forall in Ef.
    assert (Hall : forall k v, In (k, v) (combine free th) -> within_bounds (spec k) v = true) by (intros k v Hi; apply (Ef (k, v) Hi)).
    destruct (update_values expr vary fexp spec kids fuel st (combine free th)) as [st1|] eqn:Eu; [|discriminate].
    destruct (to_dict expr vary fexp spec kids fuel st1 mps) as [[d st2]|] eqn:Ed; [|discriminate]. intros [= <-].
    assert (J1' : J (assign_all base (combine free th)) st1).
    { refine (update_values_J fuel _ _ _ _ HJ _ Eu). intros k v Hi. split; [|auto]. apply Hfree. eapply in_combine_l; eauto. }
    destruct (to_dict_J _ _ _ _ _ _ _ J1' HD Ed) as [J2' [Hk Hv]].
    right. split; [exact Hall|]. exists st2, (update_model m d). split; [reflexivity|]. split; [exact J2'|].
    pose proof (combine_fst free th HL) as Efst.
    split; [|split; [|split]].
    + intros k v Hi. rewrite (P_ParamVal.J1 _ _ _ _ _ _ J2' k) by (apply Hfree; eapply in_combine_l; eauto).
      apply assign_all_in; [rewrite Efst; exact Hnd|exact Hi].
    + intros k Hc Hn. rewrite (P_ParamVal.J1 _ _ _ _ _ _ J2' k Hc). apply assign_all_out. now rewrite Efst.
    + intros k Hn. apply update_model_in. now rewrite Hk.
    + intros k Hi Hs. rewrite <- Hk in Hi. destruct (update_model_some d m k Hi) as [v [H1 H2]]. rewrite H2. f_equal. apply (Hv k v H1 Hs).
  - intros [= <-]. left. split; [|reflexivity].
    assert (G : forall l : list (nat * R), forallb (fun kv => within_bounds (spec (fst kv)) (snd kv)) l = false -> exists k v, In (k, v) l /\ within_bounds (spec k) v = false).
    { induction l as [|[k v] l IH]; cbn; [discriminate|]. destruct (within_bounds (spec k) v) eqn:E; cbn.
      - intro H. destruct (IH H) as [k' [v' [H1 H2]]]. exists k', v'. auto.
      - intros _. exists k, v. auto. }
    exact (G _ Ef).
Qed.
Lemma update_values_total fuel : forall kv st, (forall k, In k (map fst kv) -> con k = false) ->
  exists st', update_values expr vary fexp spec kids (S fuel) st kv = Some st'.
Proof.
  induction kv as [|[k v] kv IH]; intros st H; cbn -[getval]; [eauto|].
  destruct (unc_fuel expr vary fexp clamp kids fuel st k (H k (or_introl eq_refl))) as [[cur st1] ->]. apply IH. intros; apply H; right; assumption.
Qed.
Lemma to_dict_total fuel : forall ks st, (forall k, In k ks -> shallow k) ->
  exists r, to_dict expr vary fexp spec kids (S (S (S fuel))) st ks = Some r.
Proof.
  induction ks as [|k ks IH]; intros st H; cbn -[getval]; [eauto|].
  destruct (read_fuel expr vary fexp clamp kids fuel st k (H k (or_introl eq_refl))) as [[cur st1] ->].
  destruct (IH st1 (fun k Hk => H k (or_intror Hk))) as [[d st2] ->]. eauto.
Qed.
Theorem set_free_total fuel free mps st m th : length th = length free -> (forall k, In k free -> con k = false) -> (forall k, In k mps -> shallow k) ->
  exists r, set_free expr vary fexp spec kids (S (S (S fuel))) free mps st m th = Some r.
Proof.
  intros HL H1 H2. unfold set_free. destruct (negb _); [eauto|].
  destruct (update_values_total (S (S fuel)) (combine free th) st) as [st1 ->]; [rewrite combine_fst by exact HL; exact H1|].
  destruct (to_dict_total fuel mps st1 H2) as [[d st2] ->]. eauto.
Qed.
End SetFree.

(** *** decision procedures for the concrete default theories *)
Definition conb (expr : nat -> option (list nat)) := constrained expr.
Definition lowb (expr : nat -> option (list nat)) (d : nat) : bool :=
  match expr d with None => true | Some l => forallb (fun x => negb (constrained expr x)) l end.
Definition shallowb (expr : nat -> option (list nat)) (n : nat) : bool :=
  match expr n with None => true | Some l => forallb (lowb expr) l end.
Lemma lowb_ok expr d : lowb expr d = true -> low expr d.
Proof.
  unfold lowb, low, level1. destruct (expr d) as [l|] eqn:E; intro H.
  - right. exists l. split; [reflexivity|]. intros x Hx. rewrite forallb_forall in H. apply negb_true_iff, H, Hx.
  - left. unfold constrained. now rewrite E.
Qed.
Lemma shallowb_ok expr n : shallowb expr n = true -> shallow expr n.
Proof. unfold shallowb. intros H l E d Hd. rewrite E in H. rewrite forallb_forall in H. apply lowb_ok, H, Hd. Qed.

(** *** Bridges to the specification vocabulary *)
Lemma two_levels_shallow expr n : two_levels expr n -> shallow expr n.
Proof.
  intros H l E d Hd. unfold low, level1, constrained. destruct (expr d) as [l'|] eqn:Ed; [right|left; reflexivity].
  exists l'. split; [reflexivity|]. intros x Hx. rewrite (H d x); [reflexivity|exists l; auto|exists l'; auto].
Qed.
Lemma shallow_two_levels expr n : shallow expr n -> two_levels expr n.
Proof.
  intros H d d' [l [E Hd]] [l' [E' Hd']]. destruct (H l E d Hd) as [Hc|[l2 [E2 H2]]].
  - unfold constrained in Hc. rewrite E' in Hc. discriminate.
  - rewrite E' in E2. injection E2 as <-. specialize (H2 d' Hd'). unfold constrained in H2. destruct (expr d'); [discriminate|reflexivity].
Qed.
Lemma proper_legal {V} expr vary (clamp : nat -> V -> V) o : proper expr vary clamp o -> legal expr vary clamp o.
Proof. destruct o; cbn; auto. intros [H1 H2]. split; [unfold constrained; now rewrite H1|exact H2]. Qed.
Lemma proper_legals {V} expr vary (clamp : nat -> V -> V) ops : List.Forall (proper expr vary clamp) ops -> List.Forall (legal expr vary clamp) ops.
Proof. intro H. eapply Forall_impl; [|exact H]. apply proper_legal. Qed.
Lemma con_None expr n : constrained expr n = false <-> expr n = None.
Proof. unfold constrained. destruct (expr n); split; congruence. Qed.

Section Prepared.
Variable names : list nat.
Variable expr : nat -> option (list nat).
Hypothesis nodup : NoDup names.
Hypothesis acyc : acyclic names expr.
Hypothesis syms_in : forall n l, expr n = Some l -> In n names /\ incl l names.
Variables (f : nat) (ps : pst).
Hypothesis prep : prepare names expr f = Some ps.
Lemma prep_kids : (forall c n, constrained expr c = false -> kids ps c n = true <-> edge names expr n c) /\
                  (forall c n, constrained expr c = true -> kids ps c n = false).
Proof. destruct acyc as [rank Hr]. destruct (prepare_any names expr nodup rank Hr f ps prep) as [_ [_ [A B]]]. auto. Qed.

Lemma prep_read_fresh {V} vary (fexp : nat -> list V -> V) clamp fuel ops base0 s n v s' D :
  (forall u, expr u = None -> vary u = true -> clamp u (base0 u) = base0 u) ->
  List.Forall (proper expr vary clamp) ops ->
  vrun expr vary fexp clamp (kids ps) fuel (mkV base0 (fun _ => None)) ops = Some s ->
  getval expr vary fexp clamp (kids ps) fuel s n = Some (v, s') ->
  solves expr fexp clamp (fold_left assigned ops base0) D -> two_levels expr n -> v = D n.
Proof.
  intros H0 Hops Hr Hg HD Hn. destruct prep_kids as [K1 K2].
  apply (read_fresh names expr vary fexp clamp (kids ps) K1 K2 syms_in fuel ops base0 (mkV base0 (fun _ => None)) s n v s' D); auto.
  - apply J_init. intros u Hu. apply H0. now apply con_None.
  - now apply proper_legals.
  - exact (two_levels_shallow _ _ Hn).
Qed.
Lemma prep_reads_fresh {V} vary (fexp : nat -> list V -> V) clamp fuel ops base0 s ns vs D :
  (forall u, expr u = None -> vary u = true -> clamp u (base0 u) = base0 u) ->
  List.Forall (proper expr vary clamp) ops ->
  vrun expr vary fexp clamp (kids ps) fuel (mkV base0 (fun _ => None)) ops = Some s ->
  reads expr vary fexp clamp (kids ps) fuel s ns = Some vs ->
  solves expr fexp clamp (fold_left assigned ops base0) D -> ordered expr [] ns -> vs = map D ns.
Proof.
  intros H0 Hops Hr Hg HD Hn. destruct prep_kids as [K1 K2].
  apply (reads_fresh names expr vary fexp clamp (kids ps) K1 K2 syms_in fuel ops base0 (mkV base0 (fun _ => None)) s ns vs D); auto.
  - apply J_init. intros u Hu. apply H0. now apply con_None.
  - now apply proper_legals.
Qed.
(** set_free_parameters after any history of proper operations *)
Lemma prep_set_free vary fexp spec fuel ops base0 s free mps m th D r :
  (forall n, bounds_ok (spec n)) ->
  (forall u, expr u = None -> vary u = true -> in_bounds (spec u) (base0 u)) ->
  List.Forall (proper expr vary (fun n => clampR (spec n))) ops ->
  vrun expr vary fexp (fun n => clampR (spec n)) (kids ps) fuel (mkV base0 (fun _ => None)) ops = Some s ->
  NoDup free -> length th = length free -> (forall k, In k free -> expr k = None) ->
  solves expr fexp (fun n => clampR (spec n)) (assign_all (fold_left assigned ops base0) (combine free th)) D ->
  set_free expr vary fexp spec (kids ps) fuel free mps s m th = Some r ->
  ((exists k v, In (k, v) (combine free th) /\ ~ (in_bounds (spec k) v /\ in_prior (spec k) v)) /\ r = (false, s, m)) \/
  ((forall k v, In (k, v) (combine free th) -> in_bounds (spec k) v /\ in_prior (spec k) v) /\
   exists s' m', r = (true, s', m') /\
     (forall k v, In (k, v) (combine free th) -> val s' k = v) /\
     (forall k, expr k = None -> ~ In k free -> val s' k = val s k) /\
     (forall k, ~ In k mps -> m' k = m k) /\
     (forall k, In k mps -> two_levels expr k -> m' k = Some (D k))).
Proof.
  intros Hb H0 Hops Hr Hnd HL Hf HD Hs. destruct prep_kids as [K1 K2].
  assert (HJ : J expr vary fexp (fun n => clampR (spec n)) (fold_left assigned ops base0) s).
  { eapply (vrun_J names expr vary fexp _ (kids ps) K1 K2 syms_in fuel ops base0 _ s); [|apply proper_legals; exact Hops|exact Hr].
    apply J_init. intros u Hu Hv. exact (proj1 (proj2 (clamp_spec (spec u) (base0 u) (Hb u))) (H0 u (proj1 (con_None expr u) Hu) Hv)). }
  assert (Hcf : forall k, In k free -> constrained expr k = false) by (intros k Hk; now apply con_None, Hf).
  destruct (set_free_spec names expr vary fexp spec (kids ps) K1 K2 syms_in Hb fuel free mps _ s m th D r HJ Hnd HL Hcf HD Hs) as [[[k [v [A B]]] E]|[A [s' [m' [E [B [C [F [G I]]]]]]]]].
  - left. split; [|exact E]. exists k, v. split; [exact A|]. intro X. apply within_iff in X. congruence.
  - right. split; [intros k v Hi; apply within_iff; auto|]. exists s', m'. split; [exact E|]. split; [exact C|]. split; [|split; [exact G|]].
    + intros k Hk Hn. rewrite (P_ParamVal.J1 _ _ _ _ _ _ HJ k) by now apply con_None. apply F; [now apply con_None|exact Hn].
    + intros k Hi Ht. apply I; [exact Hi|apply two_levels_shallow; exact Ht].
Qed.
End Prepared.

Local Open Scope nat_scope.
(** *** the concrete default theories *)
Definition edgeb (n : nat) (expr : nat -> option (list nat)) : list (nat * nat) :=
  flat_map (fun i => match expr i with Some l => map (fun d => (i, d)) l | None => [] end) (seq 0 n).
Definition wfb (n : nat) (expr : nat -> option (list nat)) (rank : nat -> nat) : bool :=
  forallb (fun e => Nat.ltb (snd e) n && Nat.ltb (rank (snd e)) (rank (fst e))) (edgeb n expr).
Lemma wf_acyclic n expr rank : wfb n expr rank = true -> acyclic (seq 0 n) expr.
Proof.
  intro H. exists rank. intros a c [Ha [_ [l [El Hc]]]]. unfold wfb in H. rewrite forallb_forall in H.
  assert (K : In (a, c) (edgeb n expr)). { unfold edgeb. apply in_flat_map. exists a. split; [exact Ha|]. rewrite El. apply in_map. exact Hc. }
  specialize (H _ K). cbn in H. apply andb_true_iff in H. destruct H as [_ H]. now apply Nat.ltb_lt in H.
Qed.
Lemma wf_syms n expr rank : wfb n expr rank = true -> (forall i, n <= i -> expr i = None) ->
  forall i l, expr i = Some l -> In i (seq 0 n) /\ incl l (seq 0 n).
Proof.
  intros H Ho i l E. assert (Hi : i < n). { destruct (le_lt_dec n i) as [Hle|Hlt]; [rewrite (Ho i Hle) in E; discriminate|exact Hlt]. }
  split; [apply in_seq; lia|]. intros d Hd. unfold wfb in H. rewrite forallb_forall in H.
  assert (K : In (i, d) (edgeb n expr)). { unfold edgeb. apply in_flat_map. exists i. split; [apply in_seq; lia|]. rewrite E. apply in_map. exact Hd. }
  specialize (H _ K). cbn in H. apply andb_true_iff in H. destruct H as [H _]. apply Nat.ltb_lt in H. apply in_seq. lia.
Qed.
(** rank: longest chain *)
Fixpoint height (fuel : nat) (expr : nat -> option (list nat)) (n : nat) : nat :=
  match fuel with O => 0 | S fuel => match expr n with None => 0 | Some l => S (fold_right (fun d m => max (height fuel expr d) m) 0 l) end end.
Lemma gal_out i : gal_n <= i -> gal_expr i = None.
Proof. unfold gal_n. intro H. do 35 (destruct i as [|i]; [lia|]). reflexivity. Qed.
Lemma galx_out i : gal_n <= i -> galx_expr i = None.
Proof. unfold gal_n, galx_expr. intro H. destruct (Nat.eqb_spec i 33); [lia|]. now apply gal_out. Qed.
Lemma qso_out i : qso_n <= i -> qso_expr i = None.
Proof. unfold qso_n. intro H. do 15 (destruct i as [|i]; [lia|]). reflexivity. Qed.
Lemma gal_wf : wfb gal_n gal_expr (height 9 gal_expr) = true. Proof. vm_compute. reflexivity. Qed.
Lemma galx_wf : wfb gal_n galx_expr (height 9 galx_expr) = true. Proof. vm_compute. reflexivity. Qed.
Lemma qso_wf : wfb qso_n qso_expr (height 9 qso_expr) = true. Proof. vm_compute. reflexivity. Qed.
Lemma gal_model_two k : In k gal_model -> two_levels gal_expr k.
Proof.
  intro H. apply shallow_two_levels, shallowb_ok. revert k H. apply forallb_forall. vm_compute. reflexivity.
Qed.
Lemma galx_model_two k : In k gal_model -> two_levels galx_expr k.
Proof. intro H. apply shallow_two_levels, shallowb_ok. revert k H. apply forallb_forall. vm_compute. reflexivity. Qed.
Lemma qso_all_two k : In k qso_names -> two_levels qso_expr k.
Proof. intro H. apply shallow_two_levels, shallowb_ok. revert k H. apply forallb_forall. vm_compute. reflexivity. Qed.
