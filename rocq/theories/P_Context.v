From Coq Require Import List String Bool Arith Lia.
From Verif Require Import M_Cache M_Context S_Context.
Import ListNotations.
Open Scope list_scope.

Section AP.
Context {K V : Type}.
Variable remap : K -> K.
Variable scale : V -> V.

Lemma exec_locked (p : prog K V) : exec remap scale p true = (plainp p, true).
Proof.
  induction p as [r|dec arg callee IHc cont IHk]; cbn [exec plainp]; [reflexivity|].
  rewrite andb_false_r, IHc. destruct (plainp (callee arg)); [apply IHk|reflexivity].
Qed.

Lemma exec_lock_free (p : prog K V) l : snd (exec remap scale p l) = l.
Proof.
  induction p as [r|dec arg callee IHc cont IHk] in l |- *; cbn [exec]; [reflexivity|].
  destruct dec, l; cbn [andb negb].
  - rewrite (surjective_pairing (exec _ _ (callee arg) true)), IHc. destruct (fst _); [apply IHk|reflexivity].
  - destruct (exec _ _ (callee (remap arg)) true) as [[v|e] l']; [apply IHk|reflexivity].
  - rewrite (surjective_pairing (exec _ _ (callee arg) true)), IHc. destruct (fst _); [apply IHk|reflexivity].
  - rewrite (surjective_pairing (exec _ _ (callee arg) false)), IHc. destruct (fst _); [apply IHk|reflexivity].
Qed.

Lemma user_call (arg : K) (callee : K -> prog K V) :
  exec remap scale (Call true arg callee (fun v => Ret (Ok v))) false =
  (match plainp (callee (remap arg)) with Ok v => Ok (scale v) | Err e => Err e end, false).
Proof. cbn [exec andb negb]. rewrite exec_locked. destruct (plainp _); reflexivity. Qed.
End AP.

(** ** Threads *)
Definition holds (p : pc) : bool := match p with Inside => true | _ => false end.
Definition inv (st : threads) : Prop := List.length (filter holds (pcs st)) = if held st then 1 else 0.

Lemma put_split (l : list pc) i p : nth_error l i = Some p -> l = firstn i l ++ p :: skipn (S i) l.
Proof.
  revert i; induction l as [|x l IH]; intros [|i] H; cbn in *; try discriminate.
  - congruence.
  - f_equal. now apply IH.
Qed.

Lemma Some_inj {A} (x y : A) : Some x = Some y -> x = y.
Proof. congruence. Qed.
Lemma tstep_inv st i st' : inv st -> tstep st i = Some st' -> inv st'.
Proof.
  unfold inv, tstep. intros Hi H. destruct (nth_error (pcs st) i) as [p|] eqn:E; [|discriminate].
  pose proof (put_split _ _ _ E) as Hs. rewrite Hs in Hi. rewrite filter_app, app_length in Hi. cbn [filter] in Hi.
  destruct p; cbn [holds] in Hi; try discriminate.
  - apply Some_inj in H. subst st'. cbn [pcs held]. rewrite filter_app, app_length. cbn [filter]. destruct (held st) eqn:Eh; cbn [filter holds List.length] in *; lia.
  - destruct (held st) eqn:Eh; [discriminate|]. apply Some_inj in H. subst st'. cbn [pcs held].
    rewrite filter_app, app_length. cbn [filter holds List.length]. lia.
  - apply Some_inj in H. subst st'. cbn [pcs held]. rewrite filter_app, app_length. cbn [filter holds List.length] in *.
    destruct (held st); lia.
  - apply Some_inj in H. subst st'. cbn [pcs held]. rewrite filter_app, app_length. cbn [filter holds List.length] in *.
    destruct (held st); lia.
Qed.

Lemma trun_inv sched : forall st st', inv st -> trun st sched = Some st' -> inv st'.
Proof.
  induction sched as [|i l IH]; intros st st' Hi H; cbn in H; [injection H as <-; assumption|].
  destruct (tstep st i) as [s1|] eqn:E; [|discriminate]. apply (IH s1); [exact (tstep_inv st i s1 Hi E)|exact H].
Qed.

Lemma tinit_inv n : inv (tinit n).
Proof. unfold inv, tinit. cbn. induction n as [|n IH]; cbn; auto. Qed.

Lemma tstep_length st i st' : tstep st i = Some st' -> List.length (pcs st') = List.length (pcs st).
Proof.
  unfold tstep. intros H. destruct (nth_error (pcs st) i) as [p|] eqn:E; [|discriminate].
  pose proof (put_split _ _ _ E) as Hs. apply (f_equal (@List.length pc)) in Hs.
  rewrite app_length in Hs. cbn [List.length] in Hs.
  destruct p; try discriminate; try (destruct (held st); try discriminate);
    apply Some_inj in H; subst st'; cbn [pcs]; rewrite app_length; cbn [List.length]; lia.
Qed.

(** No deadlock: while some call is not finished, some thread can run. *)
Lemma progress st : inv st -> (exists i p, nth_error (pcs st) i = Some p /\ forall d, p <> Done d) ->
  exists j st', tstep st j = Some st'.
Proof.
  intros Hi (i & p & E & Hn). destruct (held st) eqn:Eh.
  - unfold inv in Hi. rewrite Eh in Hi.
    assert (Hx : exists q, In q (filter holds (pcs st))).
    { destruct (filter holds (pcs st)) as [|q l]; [discriminate|]. exists q. now left. }
    destruct Hx as [q Hq]. apply filter_In in Hq. destruct Hq as [Hq1 Hq2]. destruct q; try discriminate.
    apply In_nth_error in Hq1. destruct Hq1 as [j Hj]. exists j. unfold tstep. rewrite Hj. eauto.
  - exists i. unfold tstep. rewrite E. destruct p; try (now eauto); [now rewrite Eh; eauto|].
    exfalso. eapply Hn; eauto.
Qed.

Lemma nth_error_mid (a : list pc) p b : nth_error (a ++ p :: b) (List.length a) = Some p.
Proof. rewrite nth_error_app2 by lia. now rewrite Nat.sub_diag. Qed.
Lemma put_mid (a : list pc) p q b :
  firstn (List.length a) (a ++ p :: b) ++ q :: skipn (S (List.length a)) (a ++ p :: b) = a ++ q :: b.
Proof.
  rewrite firstn_app, Nat.sub_diag, firstn_all. cbn [firstn]. rewrite app_nil_r.
  rewrite skipn_app. replace (S (List.length a) - List.length a) with 1 by lia.
  rewrite skipn_all2 by lia. reflexivity.
Qed.

Lemma one_call a b : trun (mkThreads false (a ++ Idle :: b)) [List.length a; List.length a; List.length a]
  = Some (mkThreads false (a ++ Done true :: b)).
Proof.
  cbn [trun]. unfold tstep at 1. cbn [pcs held]. rewrite nth_error_mid, put_mid.
  unfold tstep at 1. cbn [pcs held]. rewrite nth_error_mid, put_mid.
  unfold tstep at 1. cbn [pcs held]. rewrite nth_error_mid, put_mid. reflexivity.
Qed.
Lemma trun_app l1 : forall l2 st, trun st (l1 ++ l2) = match trun st l1 with Some s => trun s l2 | None => None end.
Proof. induction l1 as [|i l IH]; intros; cbn; [reflexivity|]. destruct (tstep st i); auto. Qed.

Lemma sequential_distorted n : trun (tinit n) (seq_sched n) = Some (mkThreads false (repeat (Done true) n)).
Proof.
  unfold seq_sched, tinit.
  cut (forall m d, trun (mkThreads false (repeat (Done true) d ++ repeat Idle m))
                        (flat_map (fun i => [i; i; i]) (seq d m)) = Some (mkThreads false (repeat (Done true) (d + m)))).
  { intro H. apply (H n 0). }
  induction m as [|m IH]; intros d; cbn [seq flat_map repeat].
  - cbn. now rewrite app_nil_r, Nat.add_0_r.
  - rewrite trun_app. pose proof (one_call (repeat (Done true) d) (repeat Idle m)) as H.
    rewrite repeat_length in H. rewrite H. specialize (IH (S d)).
    replace (repeat (Done true) (S d) ++ repeat Idle m) with (repeat (Done true) d ++ Done true :: repeat Idle m) in IH.
    + rewrite IH. f_equal. f_equal. f_equal. lia.
    + cbn. clear. induction d; cbn; congruence.
Qed.

(** ** Call cache *)
Section CallCache.
Context {Obj Name Arg Kw Key St V : Type}.
Variable key_eqb : Key -> Key -> bool.
Variable key : Name -> Arg -> Key.
Variable f : Obj -> Name -> Arg -> Kw -> St -> result V.
Hypothesis key_eqb_spec : forall x y, key_eqb x y = true <-> x = y.

Lemma cblock_ok C S l : forall g c,
  gcache g = Some c -> incl (calls_of l) C -> incl (states_of (model g) l) S -> compatible key f C S ->
  (forall k v, clookup key_eqb k c = Some v -> exists o n a w s, In (o, n, a, w) C /\ In s S /\ k = key n a /\ f o n a w s = Ok v) ->
  exists c', cblock key_eqb key f l g = (fst (fst (ublock f l (model g))), snd (fst (ublock f l (model g))),
                                        mkGS (Some c') (snd (ublock f l (model g)))).
Proof.
  induction l as [|x l IH]; intros g c Hg HC HS Hcomp Hinv.
  - exists c. cbn. destruct g; cbn in *; now subst.
  - destruct x as [o n a w|o n a w|s'|e].
    + assert (HinC : In (o, n, a, w) C) by (apply HC; now left).
      assert (HinS : In (model g) S) by (apply HS; now left).
      cbn [cblock ublock]. unfold ccall. rewrite Hg.
      destruct (clookup key_eqb (key n a) c) as [v|] eqn:El.
      * destruct (Hinv _ _ El) as (o' & n' & a' & w' & s' & H1 & H2 & H3 & H4).
        rewrite (Hcomp o n a w o' n' a' w' (model g) s' HinC H1 HinS H2 H3), H4.
        destruct (IH g c Hg) as [c' Hc']; auto.
        { intros y Hy. apply HC. cbn. now right. }
        exists c'. rewrite Hc'. destruct (ublock f l (model g)) as [[rs x] s2]. reflexivity.
      * destruct (f o n a w (model g)) as [v|e] eqn:Ef.
        -- destruct (IH (mkGS (Some ((key n a, v) :: c)) (model g)) ((key n a, v) :: c) eq_refl) as [c' Hc']; auto.
           { intros y Hy. apply HC. cbn. now right. }
           { intros k v' Hk. cbn in Hk. destruct (key_eqb k (key n a)) eqn:Ek; [|now apply Hinv].
             injection Hk as <-. apply key_eqb_spec in Ek. exists o, n, a, w, (model g). auto. }
           exists c'. cbn [model] in Hc'. rewrite Hc'. destruct (ublock f l (model g)) as [[rs x] s2]. reflexivity.
        -- exists c. cbn. destruct g; cbn in *; now subst.
    + assert (HinC : In (o, n, a, w) C) by (apply HC; now left).
      assert (HinS : In (model g) S) by (apply HS; now left).
      cbn [cblock ublock]. unfold ccall. rewrite Hg.
      destruct (clookup key_eqb (key n a) c) as [v|] eqn:El.
      * destruct (Hinv _ _ El) as (o' & n' & a' & w' & s' & H1 & H2 & H3 & H4).
        rewrite (Hcomp o n a w o' n' a' w' (model g) s' HinC H1 HinS H2 H3), H4.
        destruct (IH g c Hg) as [c' Hc']; auto.
        { intros y Hy. apply HC. cbn. now right. }
        exists c'. rewrite Hc'. destruct (ublock f l (model g)) as [[rs x] s2]. reflexivity.
      * destruct (f o n a w (model g)) as [v|e] eqn:Ef.
        -- destruct (IH (mkGS (Some ((key n a, v) :: c)) (model g)) ((key n a, v) :: c) eq_refl) as [c' Hc']; auto.
           { intros y Hy. apply HC. cbn. now right. }
           { intros k v' Hk. cbn in Hk. destruct (key_eqb k (key n a)) eqn:Ek; [|now apply Hinv].
             injection Hk as <-. apply key_eqb_spec in Ek. exists o, n, a, w, (model g). auto. }
           exists c'. cbn [model] in Hc'. rewrite Hc'. destruct (ublock f l (model g)) as [[rs x] s2]. reflexivity.
        -- destruct (IH g c Hg) as [c' Hc']; auto.
           { intros y Hy. apply HC. cbn. now right. }
           exists c'. rewrite Hc'. destruct (ublock f l (model g)) as [[rs x] s2]. reflexivity.
    + cbn [cblock ublock]. destruct (IH (mkGS (gcache g) s') c) as [c' Hc']; auto.
      { intros y Hy. apply HS. right. exact Hy. }
      exists c'. exact Hc'.
    + exists c. cbn. destruct g; cbn in *; now subst.
Qed.

Lemma use_cache_transparent l g :
  compatible key f (calls_of l) (states_of (model g) l) ->
  use_cache key_eqb key f l g = (fst (fst (ublock f l (model g))), snd (fst (ublock f l (model g))),
                                 mkGS None (snd (ublock f l (model g)))).
Proof.
  intros H. unfold use_cache.
  destruct (cblock_ok (calls_of l) (states_of (model g) l) l (mkGS (Some []) (model g)) [] eq_refl) as [c' Hc']; auto.
  - intros x Hx; exact Hx.
  - intros x Hx; exact Hx.
  - intros k v Hk. discriminate.
  - cbn [model] in Hc'. rewrite Hc'. reflexivity.
Qed.

Lemma use_cache_off l g : gcache (snd (use_cache key_eqb key f l g)) = None.
Proof. unfold use_cache. destruct (cblock _ _ _ _ _) as [[rs x] g']. reflexivity. Qed.
End CallCache.

(** ** use_spt *)
Section Spt.
Context {St A : Type}.
Variable flags : list string.
Variable hasattr : string -> bool.
Variable getf : string -> St -> bool.
Variable setf : string -> bool -> St -> St.
Hypothesis get_set : forall k b s, getf k (setf k b s) = b.
Hypothesis get_set_other : forall k k' b s, k <> k' -> getf k (setf k' b s) = getf k s.

Lemma spt_set_other b fl : forall s k, ~ In k fl ->
  getf k (fold_left (fun s k => if hasattr k then setf k (b k) s else s) fl s) = getf k s.
Proof.
  induction fl as [|x fl IH]; intros s k H; cbn [fold_left]; [reflexivity|].
  rewrite IH by (intro; apply H; now right). destruct (hasattr x); [|reflexivity].
  apply get_set_other. intros ->. apply H. now left.
Qed.
Lemma spt_set_get b fl : NoDup fl -> forall s k, In k fl -> hasattr k = true ->
  getf k (fold_left (fun s k => if hasattr k then setf k (b k) s else s) fl s) = b k.
Proof.
  induction 1 as [|x fl Hx Hnd IH]; intros s k Hk Ha; [destruct Hk|]. cbn [fold_left].
  destruct Hk as [->|Hk]; [|now apply IH].
  rewrite spt_set_other by assumption. rewrite Ha. apply get_set.
Qed.

Lemma use_spt_restores (block : St -> result A * St) s :
  NoDup flags -> forall k, In k flags -> hasattr k = true ->
  getf k (snd (use_spt flags hasattr getf setf block s)) = getf k s.
Proof.
  intros Hn k Hk Ha. unfold use_spt. destruct (block _) as [r s1].
  transitivity (getf k (spt_set flags hasattr setf (fun k => getf k s) s1)).
  - destruct r; reflexivity.
  - unfold spt_set. now rewrite spt_set_get.
Qed.
Lemma use_spt_inside s : NoDup flags -> forall k, In k flags -> hasattr k = true ->
  getf k (spt_set flags hasattr setf (fun _ => false) s) = false.
Proof. intros Hn k Hk Ha. unfold spt_set. now rewrite spt_set_get. Qed.
Lemma use_spt_swallows (block : St -> result A * St) s e s1 :
  block (spt_set flags hasattr setf (fun _ => false) s) = (Err e, s1) ->
  fst (use_spt flags hasattr getf setf block s) = Ok None.
Proof. intros H. unfold use_spt. now rewrite H. Qed.
End Spt.
