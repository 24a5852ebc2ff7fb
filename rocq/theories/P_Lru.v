(** * Proofs about the LRU cache *)
From Coq Require Import List Arith Bool ZArith Lia Permutation.
From Verif Require Import M_Lru S_Lru.
Import ListNotations.
Set Implicit Arguments.
Local Open Scope nat_scope.

Section Heap.
Variables (K V : Type).
Notation heap := (heap K V).
Implicit Types h : heap.

Lemma next_set_next h p x q : NEXT (set_next h p x q) = if Nat.eqb q p then x else NEXT (h q).
Proof. unfold set_next, upd. now destruct (Nat.eqb q p). Qed.
Lemma prev_set_next h p x q : PREV (set_next h p x q) = PREV (h q).
Proof. unfold set_next, upd. destruct (Nat.eqb_spec q p); subst; reflexivity. Qed.
Lemma key_set_next h p x q : KEY (set_next h p x q) = KEY (h q).
Proof. unfold set_next, upd. destruct (Nat.eqb_spec q p); subst; reflexivity. Qed.
Lemma res_set_next h p x q : RESULT (set_next h p x q) = RESULT (h q).
Proof. unfold set_next, upd. destruct (Nat.eqb_spec q p); subst; reflexivity. Qed.
Lemma prev_set_prev h p x q : PREV (set_prev h p x q) = if Nat.eqb q p then x else PREV (h q).
Proof. unfold set_prev, upd. now destruct (Nat.eqb q p). Qed.
Lemma next_set_prev h p x q : NEXT (set_prev h p x q) = NEXT (h q).
Proof. unfold set_prev, upd. destruct (Nat.eqb_spec q p); subst; reflexivity. Qed.
Lemma key_set_prev h p x q : KEY (set_prev h p x q) = KEY (h q).
Proof. unfold set_prev, upd. destruct (Nat.eqb_spec q p); subst; reflexivity. Qed.
Lemma res_set_prev h p x q : RESULT (set_prev h p x q) = RESULT (h q).
Proof. unfold set_prev, upd. destruct (Nat.eqb_spec q p); subst; reflexivity. Qed.
Lemma next_set_kr h p k r q : NEXT (set_kr h p k r q) = NEXT (h q).
Proof. unfold set_kr, upd. destruct (Nat.eqb_spec q p); subst; reflexivity. Qed.
Lemma prev_set_kr h p k r q : PREV (set_kr h p k r q) = PREV (h q).
Proof. unfold set_kr, upd. destruct (Nat.eqb_spec q p); subst; reflexivity. Qed.
Lemma key_set_kr h p k r q : KEY (set_kr h p k r q) = if Nat.eqb q p then k else KEY (h q).
Proof. unfold set_kr, upd. now destruct (Nat.eqb q p). Qed.
Lemma res_set_kr h p k r q : RESULT (set_kr h p k r q) = if Nat.eqb q p then r else RESULT (h q).
Proof. unfold set_kr, upd. now destruct (Nat.eqb q p). Qed.
Lemma upd_eq h p l : upd h p l p = l.
Proof. unfold upd. now rewrite Nat.eqb_refl. Qed.
Lemma upd_ne h p l q : q <> p -> upd h p l q = h q.
Proof. unfold upd. destruct (Nat.eqb_spec q p); congruence. Qed.

Fixpoint chain (h : heap) (a : nat) (l : list nat) (b : nat) : Prop :=
  match l with
  | [] => NEXT (h a) = b /\ PREV (h b) = a
  | x :: l' => NEXT (h a) = x /\ PREV (h x) = a /\ chain h x l' b
  end.

Lemma chain_app h l1 : forall a x l2 b, chain h a (l1 ++ x :: l2) b <-> chain h a l1 x /\ chain h x l2 b.
Proof. induction l1 as [|y l1 IH]; intros a x l2 b; cbn; [tauto|]. rewrite IH. tauto. Qed.
Lemma chain_ext h h' l : forall a b,
  (forall p, In p (a :: l) -> NEXT (h' p) = NEXT (h p)) ->
  (forall p, In p (l ++ [b]) -> PREV (h' p) = PREV (h p)) -> chain h a l b -> chain h' a l b.
Proof.
  induction l as [|x l IH]; intros a b H1 H2 H; cbn in *.
  - rewrite H1, H2 by auto. exact H.
  - destruct H as [E1 [E2 H]]. rewrite H1, H2 by auto. repeat split; auto.
Qed.

Ltac hsimp := repeat (rewrite ?next_set_next, ?prev_set_next, ?next_set_prev, ?prev_set_prev, ?next_set_kr, ?prev_set_kr).
Ltac eqs := repeat match goal with |- context[Nat.eqb ?a ?b] => destruct (Nat.eqb_spec a b); subst end.
Ltac ta := solve [tauto | exfalso; intuition congruence | intuition congruence].

Lemma NoDup_app_iff (X : Type) (l1 l2 : list X) :
  NoDup (l1 ++ l2) <-> NoDup l1 /\ NoDup l2 /\ (forall x, In x l1 -> ~ In x l2).
Proof.
  induction l1 as [|a l1 IH]; cbn.
  - split; [intro H; repeat split; [constructor|exact H|tauto]|tauto].
  - split.
    + intro H. inversion H as [|? ? Ha Hn]; subst. apply IH in Hn. destruct Hn as [N1 [N2 N3]].
      rewrite in_app_iff in Ha. repeat split; [constructor; tauto|exact N2|]. intros x [<-|Hx]; [tauto|auto].
    + intros [N1 [N2 N3]]. inversion N1 as [|? ? Ha Hn]; subst. constructor.
      * rewrite in_app_iff. intros [H|H]; [tauto|]. exact (N3 a (or_introl eq_refl) H).
      * apply IH. repeat split; auto.
Qed.
Lemma NoDup_cons_iff' (X : Type) (a : X) l : NoDup (a :: l) <-> ~ In a l /\ NoDup l.
Proof. apply NoDup_cons_iff. Qed.

Ltac nd H := rewrite ?NoDup_app_iff, ?NoDup_cons_iff', ?in_app_iff in H; cbn [In app] in H.
Ltac hit := match goal with
  | Hd : forall x, In x _ -> ~ _, Hy : In ?y ?l |- _ => let X := fresh in pose proof (Hd y) as X; cbn [In] in X; rewrite ?in_app_iff in X; cbn [In] in X; tauto
  end.

Ltac tb := first [ta
  | repeat match goal with H : forall y, In y _ \/ y = ?p -> _ |- _ => pose proof (H p (or_intror eq_refl)); let X := fresh in assert (X : forall y, In y _ -> _) by (intros y Hy0; exact (H y (or_introl Hy0))); clear H end;
    repeat match goal with N : forall y, In y ?m -> _ |- _ => match goal with H : context[In ?z m] |- _ => match type of H with forall _, _ => fail 1 | _ => pose proof (N z); clear N end end end; cbn [In] in *; ta].
(** remove the middle element of a cyclic list *)
Lemma chain_unlink h r n1 x n2 : NoDup (r :: n1 ++ x :: n2) -> chain h r (n1 ++ x :: n2) r ->
  chain (set_prev (set_next h (PREV (h x)) (NEXT (h x))) (NEXT (h x)) (PREV (h x))) r (n1 ++ n2) r.
Proof.
  intros Hnd Hc. apply chain_app in Hc. destruct Hc as [H1 H2].
  apply NoDup_cons_iff in Hnd. destruct Hnd as [Hr Hnd]. rewrite in_app_iff in Hr. cbn in Hr.
  apply NoDup_app_iff in Hnd. destruct Hnd as [N1 [N2 N3]]. apply NoDup_cons_iff in N2. destruct N2 as [Nx N2].
  destruct n1 as [|p m1 _] using rev_ind; destruct n2 as [|q m2].
  - cbn in *. destruct H1 as [E1 E2], H2 as [E3 E4]. rewrite E2, E3. hsimp. now rewrite !Nat.eqb_refl.
  - cbn in *. destruct H1 as [E1 E2], H2 as [E3 [E4 H2]]. rewrite E2, E3.
    hsimp. rewrite !Nat.eqb_refl. split; [reflexivity|]. split; [reflexivity|].
    apply NoDup_cons_iff in N2. destruct N2 as [Nq N2].
    eapply chain_ext; [| |exact H2].
    + intros p Hp. hsimp. cbn in Hp. eqs; ta.
    + intros p Hp. hsimp. apply in_app_iff in Hp. cbn in Hp. eqs; ta.
  - rewrite app_nil_r. cbn in H2. destruct H2 as [E3 E4].
    rewrite chain_app in *. cbn in H1. destruct H1 as [H1 [E1 E2]]. rewrite E2, E3.
    apply NoDup_app_iff in N1. destruct N1 as [N1 [_ N4]]. rewrite in_app_iff in Hr. cbn in *. split.
    + eapply chain_ext; [| |exact H1].
      * intros y Hy. hsimp. cbn in Hy. eqs; tb.
      * intros y Hy. hsimp. rewrite in_app_iff in Hy. cbn in Hy. eqs; tb.
    + hsimp. now rewrite !Nat.eqb_refl.
  - rewrite <- app_assoc. cbn [app]. cbn in H2. destruct H2 as [E3 [E4 H2]].
    rewrite chain_app in *. cbn in H1. destruct H1 as [H1 [E1 E2]]. rewrite E2, E3.
    apply NoDup_app_iff in N1. destruct N1 as [N1 [_ N4]]. rewrite in_app_iff in Hr. cbn in *.
    apply NoDup_cons_iff in N2. destruct N2 as [Nq N2].
    assert (Hpq : forall y, In y m1 \/ y = p -> y <> x /\ y <> q /\ ~ In y m2).
    { intros y Hy. specialize (N3 y). rewrite in_app_iff in N3. cbn in N3.
      assert (In y m1 \/ p = y \/ False) by (destruct Hy as [Hy | -> ]; tauto). specialize (N3 H). split; [|split]; intro; subst; tauto. }
    split; [|split; [|split]].
    + eapply chain_ext; [| |exact H1].
      * intros y Hy. hsimp. cbn in Hy. eqs; tb.
      * intros y Hy. hsimp. rewrite in_app_iff in Hy. cbn in Hy. eqs; tb.
    + hsimp. now rewrite Nat.eqb_refl.
    + hsimp. now rewrite Nat.eqb_refl.
    + eapply chain_ext; [| |exact H2].
      * intros y Hy. hsimp. cbn in Hy. eqs; tb.
      * intros y Hy. hsimp. rewrite in_app_iff in Hy. cbn in Hy. eqs; tb.
Qed.

(** link a new element in front of the root *)
Lemma chain_link h r l x (h' : heap) : NoDup (r :: l) -> ~ In x (r :: l) -> chain h r l r ->
  (forall p, NEXT (h' p) = if Nat.eqb p x then r else if Nat.eqb p (PREV (h r)) then x else NEXT (h p)) ->
  (forall p, PREV (h' p) = if Nat.eqb p x then PREV (h r) else if Nat.eqb p r then x else PREV (h p)) ->
  chain h' r (l ++ [x]) r.
Proof.
  intros Hnd Hx Hc HN HP. apply NoDup_cons_iff in Hnd. destruct Hnd as [Hr Hnd]. cbn in Hx.
  apply chain_app. cbn. rewrite HN, HP, Nat.eqb_refl. rewrite (proj2 (Nat.eqb_neq r x)) by (intro; subst; tauto).
  rewrite Nat.eqb_refl. split; [|tauto].
  destruct l as [|p m _] using rev_ind; cbn in *.
  - destruct Hc as [E1 E2]. rewrite HN, HP, Nat.eqb_refl, E2, Nat.eqb_refl. rewrite (proj2 (Nat.eqb_neq r x)) by (intro; subst; tauto). auto.
  - apply NoDup_app_iff in Hnd. destruct Hnd as [N1 [_ N3]]. rewrite in_app_iff in *. cbn in *.
    rewrite chain_app in Hc. cbn in Hc. destruct Hc as [Hc [E1 E2]]. rewrite E2 in *.
    apply chain_app. split.
    + eapply chain_ext; [| |exact Hc].
      * intros y Hy. rewrite HN. cbn in Hy. eqs; tb.
      * intros y Hy. rewrite HP. rewrite in_app_iff in Hy. cbn in Hy. eqs; tb.
    + cbn. rewrite HN, HP, Nat.eqb_refl, Nat.eqb_refl. rewrite (proj2 (Nat.eqb_neq p x)) by (intro; subst; tauto). auto.
Qed.

(** pushing the root pointer one link forward: the old root becomes the newest element *)
Lemma chain_rotate h r x l : chain h r (x :: l) r -> chain h x (l ++ [r]) x.
Proof. cbn. intros [E1 [E2 H]]. apply chain_app. cbn. auto. Qed.
End Heap.

Section Dict.
Variables (K : Type) (keq : K -> K -> bool).
Hypothesis Hk : key_equivalence keq.
Let krefl := proj1 Hk.
Let ksym := proj1 (proj2 Hk).
Let ktrans := proj2 (proj2 Hk).

Lemma keq_cong a b c : keq a b = true -> keq a c = keq b c.
Proof.
  intro H. destruct (keq b c) eqn:E; [now apply ktrans with b|].
  destruct (keq a c) eqn:E'; [|reflexivity]. rewrite ksym in H. now rewrite (ktrans H E') in E.
Qed.
Lemma keq_cong_r a b c : keq a b = true -> keq c a = keq c b.
Proof. intro H. rewrite (ksym c a), (ksym c b). now apply keq_cong. Qed.

Fixpoint kdist (ks : list K) : Prop :=
  match ks with [] => True | k :: ks' => Forall (fun k' => keq k' k = false) ks' /\ kdist ks' end.

Lemma dget_None X (d : list (K * X)) k : dget keq d k = None <-> Forall (fun k' => keq k' k = false) (map fst d).
Proof.
  induction d as [|[k' x] d IH]; cbn; [split; auto|]. destruct (keq k' k) eqn:E.
  - split; [discriminate|]. intro H. inversion H. congruence.
  - rewrite IH. split; intro H; [constructor; auto|now inversion H].
Qed.
Lemma dget_app X (d1 d2 : list (K * X)) k : dget keq (d1 ++ d2) k = match dget keq d1 k with Some x => Some x | None => dget keq d2 k end.
Proof. induction d1 as [|[k' x] d IH]; cbn; [reflexivity|]. destruct (keq k' k); auto. Qed.
Lemma dget_cong X (d : list (K * X)) a b : keq a b = true -> dget keq d a = dget keq d b.
Proof. intro H. induction d as [|[k' x] d IH]; cbn; [reflexivity|]. now rewrite (@keq_cong_r a b k' H), IH. Qed.
Lemma dget_split X (d : list (K * X)) k x : dget keq d k = Some x ->
  exists d1 k' d2, d = d1 ++ (k', x) :: d2 /\ keq k' k = true /\ ddel keq d k = d1 ++ d2.
Proof.
  induction d as [|[k' x'] d IH]; cbn; [discriminate|]. destruct (keq k' k) eqn:E; intro H.
  - injection H as <-. exists [], k', d. auto.
  - destruct (IH H) as [d1 [k2 [d2 [-> [E2 ->]]]]]. exists ((k', x') :: d1), k2, d2. auto.
Qed.
Lemma kdist_perm ks ks' : Permutation ks ks' -> kdist ks -> kdist ks'.
Proof.
  induction 1; cbn; try tauto.
  - intros [H1 H2]. split; [|tauto]. now rewrite <- H.
  - intros [H1 [H2 H3]]. inversion H1; subst. repeat split; auto. constructor; [now rewrite ksym|auto].
Qed.
Lemma dget_perm X (d d' : list (K * X)) k : Permutation d d' -> kdist (map fst d) -> dget keq d k = dget keq d' k.
Proof.
  induction 1 as [| [k1 x1] d d' P IH | [k1 x1] [k2 x2] d | d d1 d2 P1 IH1 P2 IH2]; cbn; intro H.
  - reflexivity.
  - rewrite IH by tauto. reflexivity.
  - destruct (keq k2 k) eqn:E2; destruct (keq k1 k) eqn:E1; try reflexivity.
    destruct H as [H _]. inversion H as [|? ? Hf _]; subst. exfalso.
    rewrite ksym in E1. rewrite (@keq_cong_r k k1 k2 E1) in E2. rewrite ksym in E2. congruence.
  - rewrite IH1 by exact H. apply IH2. apply (@kdist_perm (map fst d)); [now apply Permutation_map|exact H].
Qed.
Lemma ddel_perm X (d d' : list (K * X)) k : Permutation d d' -> kdist (map fst d) -> Permutation (ddel keq d k) (ddel keq d' k).
Proof.
  induction 1 as [| [k1 x1] d d' P IH | [k1 x1] [k2 x2] d | d d1 d2 P1 IH1 P2 IH2]; cbn; intro H.
  - constructor.
  - destruct (keq k1 k); [exact P|]. constructor. apply IH. tauto.
  - destruct (keq k2 k) eqn:E2; destruct (keq k1 k) eqn:E1; try apply Permutation_refl; [|apply perm_swap].
    destruct H as [H _]. inversion H as [|? ? Hf _]; subst. exfalso.
    rewrite ksym in E1. rewrite (@keq_cong_r k k1 k2 E1) in E2. rewrite ksym in E2. congruence.
  - eapply perm_trans; [apply IH1; exact H|]. apply IH2. apply (@kdist_perm (map fst d)); [now apply Permutation_map|exact H].
Qed.
Lemma dset_absent X (d : list (K * X)) k x : dget keq d k = None -> dset keq d k x = d ++ [(k, x)].
Proof. induction d as [|[k' x'] d IH]; cbn; [reflexivity|]. destruct (keq k' k); [discriminate|]. intro H. now rewrite IH. Qed.
Lemma ddel_incl X (d : list (K * X)) k e : In e (ddel keq d k) -> In e d.
Proof. induction d as [|[k' x'] d IH]; cbn; [tauto|]. destruct (keq k' k); cbn; tauto. Qed.
End Dict.

Lemma Forall2_length (X Y : Type) (R : X -> Y -> Prop) a b : Forall2 R a b -> length a = length b.
Proof. induction 1; cbn; congruence. Qed.
Lemma Forall2_impl (X Y : Type) (R S : X -> Y -> Prop) a b : (forall x y, R x y -> S x y) -> Forall2 R a b -> Forall2 S a b.
Proof. intros H. induction 1; constructor; auto. Qed.

Section Refine.
Variables (K V : Type) (keq : K -> K -> bool).
Hypothesis Hk : key_equivalence keq.

Record Rel (s : state K V) (ns : list nat) (l : list (K * V)) : Prop := mkRel {
  R_nd : NoDup (root s :: ns);
  R_chain : chain (hp s) (root s) ns (root s);
  R_val : Forall2 (fun p kv => KEY (hp s p) = Some (fst kv) /\ RESULT (hp s p) = Some (snd kv)) ns l;
  R_fresh : forall p, In p (root s :: ns) -> p < fresh s;
  R_cache : Permutation (cache s) (combine (map fst l) ns);
  R_dist : kdist keq (map fst l) }.

Lemma map_fst_combine (X Y : Type) (a : list X) (b : list Y) : length a = length b -> map fst (combine a b) = a.
Proof. revert b; induction a as [|x a IH]; intros [|y b]; cbn; intro; try discriminate; [reflexivity|]. now rewrite IH by lia. Qed.
Lemma combine_app (X Y : Type) (a a' : list X) (b b' : list Y) : length a = length b -> combine (a ++ a') (b ++ b') = combine a b ++ combine a' b'.
Proof. revert b; induction a as [|x a IH]; intros [|y b]; cbn; intro; try discriminate; [reflexivity|]. now rewrite IH by lia. Qed.

Lemma Rel_len s ns l : Rel s ns l -> length ns = length l.
Proof. intros []. now apply Forall2_length in R_val0. Qed.
Lemma Rel_size s ns l : Rel s ns l -> length (cache s) = length l.
Proof. intro H. rewrite (Permutation_length (R_cache H)), combine_length, map_length, (Rel_len H). lia. Qed.
Lemma Rel_cdist s ns l : Rel s ns l -> kdist keq (map fst (cache s)).
Proof.
  intro H. apply (@kdist_perm _ _ Hk (map fst (combine (map fst l) ns))).
  - apply Permutation_map, Permutation_sym, H.
  - rewrite map_fst_combine by (rewrite map_length; symmetry; exact (Rel_len H)). apply H.
Qed.
Lemma dget_combine_map (l : list (K * V)) : forall (ns : list nat) k, length ns = length l ->
  (dget keq (combine (map fst l) ns) k = None <-> dget keq l k = None).
Proof.
  induction l as [|[k' v] l IH]; intros [|n ns] k H; try discriminate H; cbn; [tauto|].
  destruct (keq k' k); [split; discriminate|]. apply IH. cbn in H. lia.
Qed.
Lemma Rel_dget_None s ns l k : Rel s ns l -> (dget keq (cache s) k = None <-> dget keq l k = None).
Proof.
  intro H. rewrite (dget_perm Hk k (R_cache H) (Rel_cdist H)). apply dget_combine_map, (Rel_len H).
Qed.

Lemma Rel_init : Rel init [] [].
Proof.
  split; cbn.
  - constructor; [intros []|constructor].
  - auto.
  - constructor.
  - intros p [<-|[]]. lia.
  - constructor.
  - exact I.
Qed.
Lemma Rel_clear s ns l : Rel s ns l -> Rel (clear s) [] [].
Proof.
  intros []. split; cbn.
  - constructor; [intros []|constructor].
  - now rewrite upd_eq.
  - constructor.
  - intros p [<-|[]]. apply R_fresh0. now left.
  - constructor.
  - exact I.
Qed.

Lemma dget_combine_Some (l : list (K * V)) : forall (ns : list nat) k p, length ns = length l ->
  dget keq (combine (map fst l) ns) k = Some p ->
  exists l1 k' v l2 n1 n2, l = l1 ++ (k', v) :: l2 /\ ns = n1 ++ p :: n2 /\ length n1 = length l1 /\ keq k' k = true /\ dget keq l k = Some v
    /\ dget keq l1 k = None.
Proof.
  induction l as [|[k' v] l IH]; intros [|n ns] k p H; try discriminate H; cbn; [discriminate|].
  destruct (keq k' k) eqn:E.
  - intro X; injection X as <-. exists [], k', v, l, [], ns. repeat split; auto.
  - intro X. cbn in H. destruct (IH ns k p ltac:(lia) X) as [l1 [k2 [v2 [l2 [n1 [n2 [-> [-> [E1 [E2 [E3 E4]]]]]]]]]]].
    exists ((k', v) :: l1), k2, v2, l2, (n :: n1), n2. cbn. rewrite E. repeat split; auto.
Qed.

(** first block: a miss changes nothing, a hit moves the entry to the newest end *)
Lemma lookup_miss s ns l k : Rel s ns l -> dget keq l k = None -> lookup keq s k = (None, s).
Proof. intros H E. unfold lookup. rewrite (proj2 (Rel_dget_None k H) E). reflexivity. Qed.

Lemma lookup_hit s ns l k v : Rel s ns l -> dget keq l k = Some v ->
  exists l1 k' l2 s' ns', l = l1 ++ (k', v) :: l2 /\ keq k' k = true /\ dget keq l1 k = None /\
    lookup keq s k = (Some (Some v), s') /\ Rel s' ns' (l1 ++ l2 ++ [(k', v)]) /\
    HITS s' = S (HITS s) /\ MISSES s' = MISSES s.
Proof.
  intros H E. unfold lookup. destruct (dget keq (cache s) k) as [p|] eqn:Ep.
  2:{ apply (Rel_dget_None k H) in Ep. congruence. }
  rewrite (dget_perm Hk k (R_cache H) (Rel_cdist H)) in Ep.
  destruct (@dget_combine_Some l ns k p (Rel_len H) Ep) as [l1 [k' [v' [l2 [n1 [n2 [-> [-> [E1 [E2 [E3 E4]]]]]]]]]]].
  assert (v' = v) by congruence. subst v'.
  destruct H as [Hnd Hc Hv Hf Hp Hd].
  assert (Hv' := Hv). apply Forall2_app_inv_l in Hv'. destruct Hv' as [a1 [a2 [V1 [V2 Ea]]]].
  inversion V2 as [|? [ka va] ? a2' [Vk Vr] V2']; subst.
  apply app_inj_tail_iff in Ea || idtac.
  assert (La : length a1 = length l1) by (apply Forall2_length in V1; congruence).
  assert (Ea' : a1 = l1 /\ (ka, va) :: a2' = (k', v) :: l2).
  { clear -Ea La. revert a1 La Ea. induction l1 as [|x l1 IH]; intros [|y a1] La Ea; try discriminate La; cbn in *.
    - auto.
    - injection Ea as -> Ea. destruct (IH a1 ltac:(lia) Ea). subst. auto. }
  destruct Ea' as [-> Ea']. injection Ea' as -> -> ->. cbn in Vk, Vr.
  exists l1, k', l2. eexists. exists (n1 ++ n2 ++ [p]).
  split; [reflexivity|]. split; [exact E2|]. split; [exact E4|]. split; [rewrite Vr; reflexivity|]. split; [|cbn; auto].
  assert (Hr : root s <> p). { apply NoDup_cons_iff in Hnd. destruct Hnd as [Hr _]. rewrite in_app_iff in Hr. cbn in Hr. intro; subst. tauto. }
  assert (Hnd2 : NoDup (root s :: n1 ++ n2)). { change (NoDup ((root s :: n1) ++ n2)). apply NoDup_remove_1 with p. exact Hnd. }
  assert (Hp2 : ~ In p (root s :: n1 ++ n2)). { change (~ In p ((root s :: n1) ++ n2)). apply NoDup_remove_2. exact Hnd. }
  split; cbn.
  - rewrite app_assoc. change (NoDup ((root s :: n1 ++ n2) ++ [p])). apply NoDup_app_iff. split; [exact Hnd2|]. split; [repeat constructor; intros []|].
    intros x Hx [<-|[]]. tauto.
  - rewrite app_assoc. eapply chain_link; [exact Hnd2|exact Hp2| |..].
    + eapply chain_unlink; [exact Hnd|exact Hc].
    + intro q. repeat (rewrite ?next_set_next, ?next_set_prev, ?prev_set_prev, ?prev_set_next). reflexivity.
    + intro q. repeat (rewrite ?next_set_next, ?next_set_prev, ?prev_set_prev, ?prev_set_next). reflexivity.
  - assert (G : Forall2 (fun p kv => KEY (hp s p) = Some (fst kv) /\ RESULT (hp s p) = Some (snd kv)) (n1 ++ n2 ++ [p]) (l1 ++ l2 ++ [(k', v)])).
    { apply Forall2_app; [exact V1|]. apply Forall2_app; [exact V2'|]. constructor; [|constructor]. cbn. auto. }
    eapply Forall2_impl; [|exact G]. intros q [kq vq]. cbn.
    repeat (rewrite ?key_set_next, ?key_set_prev, ?res_set_next, ?res_set_prev). auto.
  - intros q Hq. apply Hf. cbn. rewrite !in_app_iff in *. cbn in *. tauto.
  - rewrite !map_app. rewrite !map_app in Hp. cbn in *. rewrite combine_app in Hp by (rewrite map_length; congruence).
    assert (L2 : length l2 = length n2) by (apply Forall2_length in V2'; congruence).
    rewrite !combine_app; try (rewrite ?map_length; congruence). cbn in *.
    eapply perm_trans; [exact Hp|]. apply Permutation_app_head. apply Permutation_cons_append.
  - apply (@kdist_perm _ _ Hk) with (map fst (l1 ++ (k', v) :: l2)); [|exact Hd].
    apply Permutation_map. apply Permutation_app_head. apply Permutation_cons_append.
Qed.

(** second block *)
Lemma store_present n s ns l k v v0 : Rel s ns l -> dget keq l k = Some v0 ->
  exists s', store keq n s k v = (true, s') /\ Rel s' ns l /\ HITS s' = HITS s /\ MISSES s' = S (MISSES s).
Proof.
  intros H E. unfold store. destruct (dget keq (cache s) k) as [p|] eqn:Ep.
  2:{ apply (Rel_dget_None k H) in Ep. congruence. }
  eexists. split; [reflexivity|]. cbn. split; [|auto]. destruct H. split; auto.
Qed.
Lemma kdist_app ks k : kdist keq ks -> Forall (fun k' => keq k' k = false) ks -> kdist keq (ks ++ [k]).
Proof.
  intros H1 H2. apply (@kdist_perm _ _ Hk (k :: ks)); [apply Permutation_cons_append|]. cbn. auto.
Qed.
Lemma store_room n s ns l k v : Rel s ns l -> dget keq l k = None -> (Z.of_nat (length l) < n)%Z ->
  exists s', store keq n s k v = (true, s') /\ Rel s' (ns ++ [fresh s]) (l ++ [(k, v)]) /\ HITS s' = HITS s /\ MISSES s' = S (MISSES s).
Proof.
  intros H E Hn. unfold store. rewrite (proj2 (Rel_dget_None k H) E). rewrite (Rel_size H).
  rewrite (proj2 (Z.leb_gt _ _)) by lia. eexists. split; [reflexivity|]. cbn. split; [|auto].
  pose proof (Rel_len H) as Hl. assert (Hsz := Rel_dget_None k H). destruct H as [Hnd Hc Hv Hf Hp Hd].
  assert (Hx : ~ In (fresh s) (root s :: ns)). { intro Hx. apply Hf in Hx. lia. }
  assert (Hlast : PREV (hp s (root s)) <> fresh s).
  { intro X. apply Hx. clear -Hc X. destruct ns as [|q m _] using rev_ind; cbn in Hc.
    - left. destruct Hc. congruence.
    - apply chain_app in Hc. cbn in Hc. right. apply in_app_iff. right. left. destruct Hc as [_ [_ Hc]]. congruence. }
  split; cbn.
  - change (NoDup ((root s :: ns) ++ [fresh s])). apply NoDup_app_iff. split; [exact Hnd|]. split; [repeat constructor; intros []|].
    intros x Hx' [<-|[]]. tauto.
  - eapply chain_link; [exact Hnd|exact Hx|exact Hc| |].
    + intro q. repeat (rewrite ?next_set_next, ?next_set_prev, ?prev_set_prev, ?prev_set_next). unfold upd.
      destruct (Nat.eqb_spec q (fresh s)); [subst q|reflexivity].
      rewrite (proj2 (Nat.eqb_neq (fresh s) _)) by congruence. reflexivity.
    + intro q. repeat (rewrite ?next_set_next, ?next_set_prev, ?prev_set_prev, ?prev_set_next). unfold upd.
      destruct (Nat.eqb_spec q (fresh s)); [subst q|reflexivity].
      rewrite (proj2 (Nat.eqb_neq (fresh s) _)) by (cbn in Hx; intro; apply Hx; left; congruence). reflexivity.
  - apply Forall2_app.
    + assert (Hnf : forall p, In p ns -> p <> fresh s) by (intros p Hp' ->; apply Hx; now right).
      clear -Hv Hnf. induction Hv as [|p kv ns l Hpk Hv IH]; constructor.
      * repeat (rewrite ?key_set_next, ?key_set_prev, ?res_set_next, ?res_set_prev). rewrite upd_ne; [exact Hpk|]. apply Hnf. now left.
      * apply IH. intros q Hq. apply Hnf. now right.
    + constructor; [|constructor]. repeat (rewrite ?key_set_next, ?key_set_prev, ?res_set_next, ?res_set_prev). rewrite upd_eq. cbn. auto.
  - intros q Hq. rewrite in_app_iff in Hq. cbn in Hq.
    assert (In q (root s :: ns) \/ q = fresh s) as [Hq'| -> ] by (cbn; intuition auto); [|lia]. apply Hf in Hq'. lia.
  - rewrite dset_absent by (apply Hsz; exact E). rewrite map_app, combine_app by (rewrite map_length; congruence).
    cbn. apply Permutation_app_tail. exact Hp.
  - rewrite map_app. cbn. apply kdist_app; [exact Hd|]. now apply dget_None.
Qed.
Lemma store_full n s ns e l k v : Rel s ns (e :: l) -> dget keq (e :: l) k = None -> (n <= Z.of_nat (length (e :: l)))%Z ->
  exists s' ns', store keq n s k v = (true, s') /\ Rel s' ns' (l ++ [(k, v)]) /\ HITS s' = HITS s /\ MISSES s' = S (MISSES s).
Proof.
  intros H E Hn. unfold store. rewrite (proj2 (Rel_dget_None k H) E). rewrite (Rel_size H).
  rewrite (proj2 (Z.leb_le _ _)) by lia.
  pose proof (Rel_len H) as Hl. assert (Hcd := Rel_cdist H). destruct H as [Hnd Hc Hv Hf Hp Hd].
  inversion Hv as [|p [ke ve] ns' l' [Vk Vr] Hv' E1 E2]; subst. cbn in Vk, Vr, Hl.
  assert (Hn1 : NEXT (hp s (root s)) = p) by (cbn in Hc; tauto).
  assert (Hpr : p <> root s) by (intro X; apply NoDup_cons_iff in Hnd; apply (proj1 Hnd); now left).
  rewrite !next_set_kr, Hn1. rewrite !key_set_kr. rewrite (proj2 (Nat.eqb_neq p (root s))) by exact Hpr. rewrite Vk.
  assert (Dk : dget keq (cache s) ke = Some p).
  { rewrite (dget_perm Hk ke Hp Hcd). cbn. now rewrite (proj1 Hk). }
  rewrite Dk. eexists. exists (ns' ++ [root s]). split; [reflexivity|]. cbn. split; [|auto].
  assert (Pd : Permutation (ddel keq (cache s) ke) (combine (map fst l) ns')).
  { eapply perm_trans; [apply (ddel_perm Hk ke Hp Hcd)|]. cbn. rewrite (proj1 Hk). apply Permutation_refl. }
  split; cbn.
  - apply NoDup_cons_iff in Hnd. destruct Hnd as [N1 N2]. apply NoDup_cons_iff in N2. destruct N2 as [N2 N3]. cbn in N1.
    constructor; [rewrite in_app_iff; cbn; intuition congruence|]. apply NoDup_app_iff. split; [exact N3|]. split; [repeat constructor; intros []|].
    intros x Hx [<-|[]]. tauto.
  - apply chain_rotate. eapply chain_ext; [| |exact Hc]; intros q Hq; now rewrite ?next_set_kr, ?prev_set_kr.
  - apply NoDup_cons_iff in Hnd. destruct Hnd as [N1 N2]. apply NoDup_cons_iff in N2. destruct N2 as [N2 N3]. cbn in N1.
    apply Forall2_app.
    + assert (Hnf : forall q, In q ns' -> q <> p /\ q <> root s) by (intros q Hq; split; intros ->; tauto).
      clear -Hv' Hnf. induction Hv' as [|q kv ns l Hpk Hv IH]; constructor.
      * rewrite !key_set_kr, !res_set_kr. destruct (Hnf q (or_introl eq_refl)) as [Q1 Q2].
        rewrite (proj2 (Nat.eqb_neq _ _) Q1), (proj2 (Nat.eqb_neq _ _) Q2). exact Hpk.
      * apply IH. intros q' Hq. apply Hnf. now right.
    + constructor; [|constructor]. rewrite !key_set_kr, !res_set_kr. rewrite (proj2 (Nat.eqb_neq (root s) p)) by congruence. rewrite Nat.eqb_refl. cbn. auto.
  - intros q Hq. apply Hf. cbn. rewrite in_app_iff in Hq. cbn in Hq. tauto.
  - rewrite dset_absent.
    + rewrite map_app, combine_app by (rewrite map_length; lia). cbn. apply Permutation_app_tail. exact Pd.
    + assert (Dn : dget keq (ddel keq (cache s) ke) k = dget keq (combine (map fst l) ns') k).
      { apply (dget_perm Hk k Pd). apply (@kdist_perm _ _ Hk (map fst (combine (map fst l) ns'))).
        - apply Permutation_map, Permutation_sym, Pd.
        - rewrite map_fst_combine by (rewrite map_length; lia). cbn in Hd. tauto. }
      rewrite Dn. apply dget_combine_map; [lia|]. cbn in E. destruct (keq ke k); [discriminate|exact E].
  - rewrite map_app. cbn in *. apply kdist_app; [tauto|]. apply dget_None. destruct (keq ke k); [discriminate|exact E].
Qed.
End Refine.
