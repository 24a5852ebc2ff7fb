(** * Histories of calls of an LRU-cached function *)
From Coq Require Import List Arith Bool ZArith Lia Permutation.
From Verif Require Import M_Lru S_Lru P_Lru.
Import ListNotations.
Set Implicit Arguments.
Local Open Scope nat_scope.

Section Lists.
Variables (K : Type) (keq : K -> K -> bool).
Hypothesis Hk : key_equivalence keq.
Notation neqk k := (fun k' => negb (keq k' k)).

Lemma filter_none k (D : list K) : Forall (fun k' => keq k' k = false) D -> filter (neqk k) D = D.
Proof. induction 1 as [|x D Hx HD IH]; cbn; [reflexivity|]. now rewrite Hx, IH. Qed.
Lemma member_false k D : member keq k D = false <-> Forall (fun k' => keq k' k = false) D.
Proof.
  unfold member. induction D as [|x D IH]; cbn; [split; auto|]. rewrite orb_false_iff, IH. split; [intros []; auto|].
  intro H; inversion H; auto.
Qed.
Lemma member_true k D : member keq k D = true <-> exists k', In k' D /\ keq k' k = true.
Proof. unfold member. apply existsb_exists. Qed.
Lemma Forall_filter_incl (P : K -> Prop) g D : Forall P D -> Forall P (filter g D).
Proof. induction 1; cbn; [constructor|]. destruct (g x); auto. Qed.
Lemma kdist_filter g D : kdist keq D -> kdist keq (filter g D).
Proof. induction D as [|x D IH]; cbn; [tauto|]. intros [H1 H2]. destruct (g x); cbn; [split; [now apply Forall_filter_incl|auto]|auto]. Qed.
Lemma filter_neq_all k D : Forall (fun k' => keq k' k = false) (filter (neqk k) D).
Proof. induction D as [|x D IH]; cbn; [constructor|]. destruct (keq x k) eqn:E; cbn; auto. Qed.
Lemma dedup_dist l : kdist keq (dedup keq l).
Proof. induction l as [|k l IH]; cbn; [exact I|]. split; [apply filter_neq_all|now apply kdist_filter]. Qed.
Lemma kdist_firstn n D : kdist keq D -> kdist keq (firstn n D).
Proof.
  revert n; induction D as [|x D IH]; intros [|n]; cbn; try tauto. intros [H1 H2]. split; [|auto].
  clear -H1. revert n; induction H1; intros [|n]; cbn; auto.
Qed.
Lemma firstn_filter_hit k D : forall n, kdist keq D -> member keq k (firstn n D) = true ->
  firstn (n - 1) (filter (neqk k) D) = filter (neqk k) (firstn n D).
Proof.
  induction D as [|d D IH]; intros [|m] Hd Hm; cbn in *; try discriminate. destruct Hd as [Hd1 Hd2].
  rewrite Nat.sub_0_r. destruct (keq d k) eqn:E; cbn in *.
  - assert (X : forall m, Forall (fun k' => keq k' k = false) (firstn m D)).
    { assert (Forall (fun k' => keq k' k = false) D).
      { eapply Forall_impl; [|exact Hd1]. cbn. intros a Ha. rewrite <- (@keq_cong_r _ _ Hk d k a E). exact Ha. }
      clear -H. induction H; intros [|m]; cbn; auto. }
    specialize (X m) as Xm. rewrite (filter_none Xm). rewrite filter_none; [reflexivity|].
    specialize (X (length D)). now rewrite firstn_all in X.
  - destruct m as [|m']; cbn in *; [discriminate|].
    specialize (IH (S m') Hd2 Hm). cbn in IH. rewrite Nat.sub_0_r in IH. now rewrite IH.
Qed.
Lemma firstn_filter_full k D : forall n, Forall (fun k' => keq k' k = false) (firstn n D) -> n <= length D ->
  firstn (n - 1) (filter (neqk k) D) = firstn (n - 1) D.
Proof.
  induction D as [|d D IH]; intros [|m] Hf Hl; cbn in *; try reflexivity; try lia.
  rewrite Nat.sub_0_r. inversion Hf as [|? ? E Hf']; subst. rewrite E. cbn.
  destruct m as [|m']; [reflexivity|]. cbn. f_equal. specialize (IH (S m') Hf' ltac:(lia)). cbn in IH. now rewrite Nat.sub_0_r in IH.
Qed.
Definition R2 := Forall2 (fun a b => keq a b = true).
Lemma R2_refl l : R2 l l.
Proof. induction l; constructor; auto. apply Hk. Qed.
Lemma R2_filter k a b : R2 a b -> R2 (filter (neqk k) a) (filter (neqk k) b).
Proof. induction 1 as [|x y a b E H IH]; cbn; [constructor|]. rewrite (@keq_cong _ _ Hk x y k E). destruct (keq y k); cbn; [exact IH|constructor; auto]. Qed.
Lemma R2_firstn n a b : R2 a b -> R2 (firstn n a) (firstn n b).
Proof. intro H. revert n. induction H; intros [|n]; cbn; constructor; auto. apply IHForall2. Qed.
Lemma R2_member k a b : R2 a b -> member keq k a = member keq k b.
Proof. induction 1 as [|x y a b E H IH]; cbn; [reflexivity|]. unfold member in *. now rewrite (@keq_cong _ _ Hk x y k E), IH. Qed.
Lemma R2_len a b : R2 a b -> length a = length b.
Proof. apply Forall2_length. Qed.

Lemma most_recent_snoc n us k : 0 < n -> most_recent keq n (us ++ [k]) = k :: firstn (n - 1) (filter (neqk k) (dedup keq (rev us))).
Proof. intro H. unfold most_recent. rewrite rev_unit. cbn. destruct n; [lia|]. cbn. now rewrite Nat.sub_0_r. Qed.

(** the three ways the recency list moves *)
Lemma recent_hit n us ks k r : 0 < n -> R2 ks (most_recent keq n us) -> member keq k ks = true ->
  keq r k = true -> R2 (r :: filter (neqk k) ks) (most_recent keq n (us ++ [k])).
Proof.
  intros Hn H Hm Hr. rewrite most_recent_snoc by exact Hn. rewrite (R2_member k H) in Hm.
  rewrite firstn_filter_hit; [|apply dedup_dist|exact Hm]. constructor; [exact Hr|]. apply R2_filter. exact H.
Qed.
Lemma recent_room n us ks k : 0 < n -> R2 ks (most_recent keq n us) -> member keq k ks = false -> length ks < n ->
  R2 (k :: ks) (most_recent keq n (us ++ [k])).
Proof.
  intros Hn H Hm Hl. rewrite most_recent_snoc by exact Hn. rewrite (R2_member k H) in Hm. pose proof (R2_len H) as L.
  unfold most_recent in *. rewrite firstn_length in L. rewrite firstn_all2 in Hm, H by lia.
  apply member_false in Hm. rewrite (filter_none Hm). rewrite firstn_all2 by lia. constructor; [apply Hk|exact H].
Qed.
Lemma recent_full n us ks k : 0 < n -> R2 ks (most_recent keq n us) -> member keq k ks = false -> length ks = n ->
  R2 (k :: firstn (n - 1) ks) (most_recent keq n (us ++ [k])).
Proof.
  intros Hn H Hm Hl. rewrite most_recent_snoc by exact Hn. rewrite (R2_member k H) in Hm. pose proof (R2_len H) as L.
  unfold most_recent in *. rewrite firstn_length in L. apply member_false in Hm. rewrite (@firstn_filter_full k _ n Hm) by lia.
  constructor; [apply Hk|]. replace (firstn (n - 1) (dedup keq (rev us))) with (firstn (n - 1) (firstn n (dedup keq (rev us)))).
  - now apply R2_firstn.
  - rewrite firstn_firstn. f_equal. lia.
Qed.
End Lists.

Local Arguments member : simpl never.
Local Arguments uses : simpl never.
Section Hist.
Variables (A K V : Type) (keq : K -> K -> bool) (mk : A -> K) (f : A -> option V) (P : A -> Prop).
Hypothesis Hk : key_equivalence keq.

Lemma dget_member (l : list (K * V)) k : member keq k (rev (map fst l)) = match dget keq l k with Some _ => true | None => false end.
Proof.
  unfold member. destruct (existsb (fun k' => keq k' k) (rev (map fst l))) eqn:E.
  - apply existsb_exists in E. destruct E as [k' [Hin E]]. apply in_rev in Hin. destruct (dget keq l k) eqn:G; [reflexivity|].
    apply dget_None in G. rewrite Forall_forall in G. rewrite (G k' Hin) in E. discriminate.
  - destruct (dget keq l k) eqn:G; [|reflexivity]. destruct (dget_split keq l k G) as [d1 [k' [d2 [-> [E2 _]]]]].
    rewrite <- E. apply existsb_exists. exists k'. split; [|exact E2]. rewrite <- in_rev, map_app, in_app_iff. right. now left.
Qed.

(** ** bounded cache, sequential histories *)
Definition count (g : A * answer V -> bool) tr := length (filter g tr).
Record Inv (n : nat) (s : state K V) (tr : list (A * answer V)) (l : list (K * V)) : Prop := mkInv {
  I_rel : exists ns, Rel keq s ns l;
  I_rec : R2 keq (rev (map fst l)) (most_recent keq n (uses mk tr));
  I_hits : HITS s = count (fun x : A * answer V => returned x && negb (evaluated x)) tr;
  I_miss : MISSES s = count (fun x : A * answer V => returned x && evaluated x) tr;
  I_fun : Forall (fun kv => exists a, P a /\ keq (fst kv) (mk a) = true /\ f a = Some (snd kv)) l }.

Lemma Inv_len n s tr l : Inv n s tr l -> length l <= n.
Proof. intros []. apply R2_len in I_rec0. rewrite rev_length, map_length in I_rec0. rewrite I_rec0. unfold most_recent. rewrite firstn_length. lia. Qed.
Lemma uses_snoc (tr : list (A * answer V)) x : uses mk (tr ++ [x]) = uses mk tr ++ (if returned x then [mk (fst x)] else []).
Proof. unfold uses. rewrite filter_app, map_app. cbn. now destruct (returned x). Qed.
Lemma count_snoc g tr x : count g (tr ++ [x]) = count g tr + (if g x then 1 else 0).
Proof. unfold count. rewrite filter_app, app_length. cbn. now destruct (g x). Qed.
Lemma rev_last_cons (X : Type) (a : list X) (b : X) : rev (a ++ [b]) = b :: rev a.
Proof. apply rev_unit. Qed.

Lemma call_inv n s tr l a : P a -> 0 < n -> Inv n s tr l ->
  exists o ev s' l', call keq mk f (Z.of_nat n) s a = ((o, ev), s') /\ Inv n s' (tr ++ [(a, (o, ev))]) l' /\
    ev = negb (member keq (mk a) (most_recent keq n (uses mk tr))) /\
    o <> KeyErr /\
    (ev = true -> o = match f a with Some v => Ret v | None => Raised end) /\
    (ev = false -> exists b v, P b /\ keq (mk b) (mk a) = true /\ f b = Some v /\ o = Ret v).
Proof.
  intros HP Hn HI. pose proof (Inv_len HI) as Hlen. destruct HI as [[ns HR] Hrec Hh Hm Hf].
  assert (Hmem := dget_member l (mk a)). rewrite (R2_member Hk (mk a) Hrec) in Hmem.
  unfold call. destruct (dget keq l (mk a)) as [v|] eqn:E.
  - destruct (@lookup_hit _ _ _ Hk s ns l (mk a) v HR E) as [l1 [k' [l2 [s' [ns' [El [Ek [En [Es [HR' [E1 E2]]]]]]]]]]].
    rewrite Es. exists (Ret v), false, s', (l1 ++ l2 ++ [(k', v)]). split; [reflexivity|].
    assert (Hin : In (k', v) l) by (subst l; apply in_app_iff; right; now left).
    split.
    + split.
      * now exists ns'.
      * rewrite uses_snoc. cbn. rewrite app_assoc, map_app. cbn. rewrite rev_unit.
        assert (Ef : rev (map fst (l1 ++ l2)) = filter (fun k => negb (keq k (mk a))) (rev (map fst l))).
        { assert (Hd := R_dist HR). subst l. rewrite !map_app. cbn. rewrite !rev_app_distr. cbn. rewrite <- app_assoc. cbn.
          rewrite filter_app. cbn. rewrite Ek. cbn.
          assert (G : Forall (fun k => keq k (mk a) = false) (map fst l1 ++ map fst l2)).
          { rewrite map_app in Hd. cbn in Hd. apply (@kdist_perm _ _ Hk _ (k' :: map fst l1 ++ map fst l2)) in Hd; [|apply Permutation_sym, Permutation_middle].
            cbn in Hd. destruct Hd as [Hd _]. eapply Forall_impl; [|exact Hd]. cbn. intros b Hb. now rewrite <- (@keq_cong_r _ _ Hk k' (mk a) b Ek). }
          apply Forall_app in G. destruct G as [G1 G2].
          rewrite !filter_none; [reflexivity| |]; apply Forall_rev; assumption. }
        rewrite Ef. apply recent_hit; auto. rewrite (R2_member Hk (mk a) Hrec). exact Hmem.
      * rewrite count_snoc. cbn. lia.
      * rewrite count_snoc. cbn. lia.
      * subst l. apply Forall_app in Hf. destruct Hf as [F1 F2]. inversion F2; subst. apply Forall_app. split; [exact F1|]. apply Forall_app. auto.
    + rewrite Hmem. split; [reflexivity|]. split; [discriminate|]. split; [discriminate|]. intros _.
      rewrite Forall_forall in Hf. destruct (Hf _ Hin) as [b [B0 [B1 B2]]]. cbn in B1, B2. exists b, v. split; [exact B0|]. split; [|auto].
      rewrite (proj1 (proj2 Hk)) in B1. apply (proj2 (proj2 Hk)) with k'; assumption.
  - rewrite (lookup_miss Hk (mk a) HR E). rewrite Hmem.
    destruct (f a) as [v|] eqn:Ef.
    + assert (Hm2 : member keq (mk a) (rev (map fst l)) = false) by (rewrite (R2_member Hk (mk a) Hrec); exact Hmem).
      destruct (Nat.lt_ge_cases (length l) n) as [Hl|Hl].
      * destruct (@store_room _ _ _ Hk (Z.of_nat n) s ns l (mk a) v HR E ltac:(lia)) as [s' [Es [HR' [E1 E2]]]].
        rewrite Es. exists (Ret v), true, s', (l ++ [(mk a, v)]). split; [reflexivity|]. split.
        -- split.
           ++ eexists; exact HR'.
           ++ rewrite uses_snoc. cbn. rewrite map_app. cbn [map fst]. rewrite rev_unit. apply recent_room; auto. rewrite rev_length, map_length. lia.
           ++ rewrite count_snoc. cbn. lia.
           ++ rewrite count_snoc. cbn. lia.
           ++ apply Forall_app. split; [exact Hf|]. constructor; [|constructor]. exists a. split; [exact HP|]. split; [apply Hk|exact Ef].
        -- split; [reflexivity|]. split; [discriminate|]. split; [reflexivity|discriminate].
      * destruct l as [|e l]; [cbn in Hl; lia|].
        destruct (@store_full _ _ _ Hk (Z.of_nat n) s ns e l (mk a) v HR E ltac:(lia)) as [s' [ns' [Es [HR' [E1 E2]]]]].
        rewrite Es. exists (Ret v), true, s', (l ++ [(mk a, v)]). split; [reflexivity|]. split.
        -- split.
           ++ eexists; exact HR'.
           ++ rewrite uses_snoc. cbn. rewrite map_app. cbn [map fst]. rewrite rev_unit.
              replace (rev (map fst l)) with (firstn (n - 1) (rev (map fst (e :: l)))).
              ** apply recent_full; auto. rewrite rev_length, map_length. lia.
              ** cbn. rewrite firstn_app. rewrite firstn_all2 by (rewrite rev_length, map_length; cbn in Hlen; lia).
                 replace (n - 1 - length (rev (map fst l))) with 0 by (rewrite rev_length, map_length; cbn in Hl; lia). cbn. now rewrite app_nil_r.
           ++ rewrite count_snoc. cbn. lia.
           ++ rewrite count_snoc. cbn. lia.
           ++ inversion Hf; subst. apply Forall_app. split; [assumption|]. constructor; [|constructor]. exists a. split; [exact HP|]. split; [apply Hk|exact Ef].
        -- split; [reflexivity|]. split; [discriminate|]. split; [reflexivity|discriminate].
    + exists Raised, true, s, l. split; [reflexivity|]. split.
      * split; auto.
        -- now exists ns.
        -- rewrite uses_snoc. cbn. now rewrite app_nil_r.
        -- rewrite count_snoc. cbn. lia.
        -- rewrite count_snoc. cbn. lia.
      * split; [reflexivity|]. split; [discriminate|]. split; [reflexivity|discriminate].
Qed.

Lemma Inv_clear n s tr l : Inv n s tr l -> Inv n (clear s) [] [].
Proof.
  intros [[ns HR] _ _ _ _]. split; cbn; auto.
  - exists []. eapply Rel_clear; eauto.
  - unfold most_recent. cbn. rewrite firstn_nil. constructor.
Qed.
Lemma Inv_init n : Inv n init [] [].
Proof.
  split; cbn; auto.
  - exists []. apply Rel_init.
  - unfold most_recent. cbn. rewrite firstn_nil. constructor.
Qed.

(** ** the three branches together *)
Definition cap (c : cfg) (us : list K) : list K :=
  match c with NoCache => [] | Unbounded => dedup keq (rev us) | Bounded n => most_recent keq (Z.to_nat n) us end.
Definition valid_cfg (c : cfg) : Prop := match c with Bounded n => (0 < n)%Z | _ => True end.
Record UInv (c : cfg) (s : ustate K V) (tr : list (A * answer V)) : Prop := mkUInv {
  U_keys : R2 keq (rev (map fst (ucache s))) (rev (map fst (ucache s)));
  U_mem : forall k, member keq k (map fst (ucache s)) = match c with NoCache => false | _ => member keq k (uses mk tr) end;
  U_dist : kdist keq (map fst (ucache s));
  U_hits : UH s = count (fun x : A * answer V => returned x && negb (evaluated x)) tr;
  U_miss : UM s = count (fun x : A * answer V => returned x && evaluated x) tr;
  U_fun : Forall (fun kv => exists a, P a /\ keq (fst kv) (mk a) = true /\ f a = Some (snd kv)) (ucache s) }.
Definition MInv (c : cfg) (s : mstate K V) (tr : list (A * answer V)) : Prop :=
  match c, s with
  | Bounded n, MB s => exists l, Inv (Z.to_nat n) s tr l
  | NoCache, MU s | Unbounded, MU s => UInv c s tr
  | _, _ => False
  end.
Lemma member_rev k (l : list K) : member keq k (rev l) = member keq k l.
Proof.
  destruct (member keq k l) eqn:E.
  - apply member_true in E. destruct E as [k' [H1 H2]]. apply member_true. exists k'. split; [now apply -> in_rev|exact H2].
  - apply member_false in E. apply member_false. now apply Forall_rev.
Qed.
Lemma member_dedup k (l : list K) : member keq k (dedup keq l) = member keq k l.
Proof.
  induction l as [|x l IH]; [reflexivity|]. cbn. unfold member in *. cbn. destruct (keq x k) eqn:E; [reflexivity|]. cbn. rewrite <- IH.
  clear IH. induction (dedup keq l) as [|y m IH]; cbn; [reflexivity|]. destruct (keq y x) eqn:E'; cbn.
  - rewrite (@keq_cong _ _ Hk y x k E'), E. cbn. exact IH.
  - now rewrite IH.
Qed.
Lemma member_dget (l : list (K * V)) k : member keq k (map fst l) = match dget keq l k with Some _ => true | None => false end.
Proof. rewrite <- dget_member. symmetry. apply member_rev. Qed.

Lemma mcall_inv c s tr a : P a -> valid_cfg c -> MInv c s tr ->
  exists o ev s', mcall keq mk f c s a = ((o, ev), s') /\ MInv c s' (tr ++ [(a, (o, ev))]) /\
    ev = negb (member keq (mk a) (cap c (uses mk tr))) /\
    o <> KeyErr /\
    (ev = true -> o = match f a with Some v => Ret v | None => Raised end) /\
    (ev = false -> exists b v, P b /\ keq (mk b) (mk a) = true /\ f b = Some v /\ o = Ret v).
Proof.
  intros HP Hv HI. destruct c as [| |n]; destruct s as [s|s]; cbn in HI; try tauto.
  - destruct HI as [_ Hm Hd Hh Hs Hf]. cbn. unfold call0. destruct (f a) as [v|] eqn:Ef.
    + do 3 eexists. split; [reflexivity|]. split; [|split; [reflexivity|]; split; [discriminate|]; split; [reflexivity|discriminate]].
      split; cbn; auto. { apply R2_refl; exact Hk. } { rewrite count_snoc. cbn. lia. } { rewrite count_snoc. cbn. lia. }
    + do 3 eexists. split; [reflexivity|]. split; [|split; [reflexivity|]; split; [discriminate|]; split; [reflexivity|discriminate]].
      split; cbn; auto. { apply R2_refl; exact Hk. } { rewrite count_snoc. cbn. lia. } { rewrite count_snoc. cbn. lia. }
  - destruct HI as [_ Hm Hd Hh Hs Hf]. cbn [mcall cap]. unfold callN.
    assert (Hmk : member keq (mk a) (dedup keq (rev (uses mk tr))) = match dget keq (ucache s) (mk a) with Some _ => true | None => false end).
    { rewrite member_dedup, member_rev, <- Hm. apply member_dget. }
    rewrite Hmk. destruct (dget keq (ucache s) (mk a)) as [v|] eqn:E.
    + do 3 eexists. split; [reflexivity|]. split; [|split; [reflexivity|]; split; [discriminate|]; split; [discriminate|]].
      * split; cbn; auto. { apply R2_refl; exact Hk. }
        { intro k. rewrite Hm, uses_snoc. cbn. unfold member. rewrite existsb_app. cbn. rewrite orb_false_r.
          destruct (keq (mk a) k) eqn:Ek; [|now rewrite orb_false_r]. rewrite orb_true_r.
          rewrite member_dedup, member_rev in Hmk. apply member_true in Hmk. destruct Hmk as [k' [I1 I2]]. apply existsb_exists. exists k'. split; [exact I1|].
          apply (proj2 (proj2 Hk)) with (mk a); assumption. }
        { rewrite count_snoc. cbn. lia. } { rewrite count_snoc. cbn. lia. }
      * intros _. destruct (dget_split keq _ _ E) as [d1 [k' [d2 [Ed [Ek _]]]]]. rewrite Ed in Hf. apply Forall_app in Hf. destruct Hf as [_ Hf].
        inversion Hf as [|? ? [b [B0 [B1 B2]]] _]; subst. cbn in B1, B2. exists b, v. split; [exact B0|]. split; [|auto].
        rewrite (proj1 (proj2 Hk)) in B1. apply (proj2 (proj2 Hk)) with k'; assumption.
    + destruct (f a) as [v|] eqn:Ef.
      * do 3 eexists. split; [reflexivity|]. split; [|split; [reflexivity|]; split; [discriminate|]; split; [reflexivity|discriminate]].
        rewrite (dset_absent keq _ _ v E). split; cbn.
        { apply R2_refl; exact Hk. }
        { intro k. rewrite uses_snoc, map_app. cbn. unfold member in *. rewrite !existsb_app. now rewrite Hm. }
        { rewrite map_app. cbn. apply kdist_app; [exact Hk|exact Hd|]. now apply dget_None. }
        { rewrite count_snoc. cbn. lia. } { rewrite count_snoc. cbn. lia. }
        { apply Forall_app. split; [exact Hf|]. constructor; [|constructor]. exists a. split; [exact HP|]. split; [apply Hk|exact Ef]. }
      * do 3 eexists. split; [reflexivity|]. split; [|split; [reflexivity|]; split; [discriminate|]; split; [reflexivity|discriminate]].
        split; cbn; auto. { apply R2_refl; exact Hk. } { intro k. rewrite uses_snoc. cbn. now rewrite app_nil_r. } { rewrite count_snoc. cbn. lia. } { rewrite count_snoc. cbn. lia. }
  - destruct HI as [l HI]. cbn in Hv. destruct (@call_inv (Z.to_nat n) s tr l a HP ltac:(lia) HI) as [o [ev [s' [l' [E1 [E2 E3]]]]]].
    rewrite Z2Nat.id in E1 by lia. cbn. rewrite E1. exists o, ev, (MB s'). split; [reflexivity|]. split; [now exists l'|exact E3].
Qed.
Lemma MInv_init c : MInv c (minit c) [].
Proof.
  destruct c; cbn; [| |exists []; apply Inv_init]; (split; cbn; auto; constructor).
Qed.
Lemma MInv_clear c s tr : MInv c s tr -> MInv c (mclear s) [].
Proof.
  destruct c, s; cbn; try tauto.
  - intros _. split; cbn; auto; constructor.
  - intros _. split; cbn; auto; constructor.
  - intros [l H]. exists []. eapply Inv_clear; eauto.
Qed.

Definition transparent_answer (a : A) (r : answer V) : Prop :=
  fst r = match f a with Some v => Ret v | None => Raised end.
Fixpoint calls (h : list (op A)) : list A := match h with [] => [] | Call a :: h' => a :: calls h' | Clear :: h' => calls h' end.

Lemma mrun_inv c : valid_cfg c -> forall h s tr rs s', Forall P (calls h) -> MInv c s tr -> mrun keq mk f c s h = (rs, s') ->
  MInv c s' (since_clear h rs tr) /\ Forall2 (fun a r => fst r <> KeyErr /\
     (snd r = true -> fst r = match f a with Some v => Ret v | None => Raised end) /\
     (snd r = false -> exists b v, P b /\ keq (mk b) (mk a) = true /\ f b = Some v /\ fst r = Ret v)) (calls h) rs.
Proof.
  intros Hv. induction h as [|[a|] h IH]; intros s tr rs s' HP HI H; cbn in *.
  - injection H as <- <-. split; [exact HI|constructor].
  - inversion HP as [|? ? HP1 HP2]; subst. destruct (@mcall_inv c s tr a HP1 Hv HI) as [o [ev [s1 [E1 [E2 [E3 [E4 [E5 E6]]]]]]]]. rewrite E1 in H.
    destruct (mrun keq mk f c s1 h) as [rs' s2] eqn:E. injection H as <- <-.
    destruct (IH _ _ _ _ HP2 E2 E) as [G1 G2]. split; [exact G1|]. constructor; [|exact G2]. cbn. auto.
  - exact (IH _ _ _ _ HP (@MInv_clear c s tr HI) H).
Qed.
Lemma MInv_info c s tr : valid_cfg c -> MInv c s tr ->
  minfo s = (count (fun x : A * answer V => returned x && negb (evaluated x)) tr, count (fun x : A * answer V => returned x && evaluated x) tr, length (cap c (uses mk tr))).
Proof.
  intros Hv HI. destruct c as [| |n]; destruct s as [s|s]; cbn in HI; try tauto.
  - destruct HI as [_ Hm Hd Hh Hs Hf]. cbn. rewrite Hh, Hs. f_equal. destruct (ucache s) as [|[k v] d]; [reflexivity|].
    specialize (Hm k). unfold member in Hm. cbn in Hm. rewrite (proj1 Hk) in Hm. discriminate.
  - destruct HI as [_ Hm Hd Hh Hs Hf]. cbn. rewrite Hh, Hs. f_equal. rewrite <- (map_length fst).
    assert (Hm' : forall k, member keq k (map fst (ucache s)) = member keq k (dedup keq (rev (uses mk tr)))).
    { intro k. now rewrite member_dedup, member_rev. }
    assert (Hd' := dedup_dist keq (rev (uses mk tr))). clear -Hm' Hd Hd' Hk.
    (* two duplicate-free lists with the same members *)
    revert Hm' Hd Hd'. generalize (map fst (ucache s)) as a. generalize (dedup keq (rev (uses mk tr))) as b.
    assert (Main : forall a b, (forall k, member keq k a = member keq k b) -> kdist keq a -> kdist keq b -> length a = length b).
    { induction a as [|x a IHa]; intros b Hm Ha Hb.
      - destruct b as [|y b]; [reflexivity|]. specialize (Hm y). unfold member in Hm. cbn in Hm. rewrite (proj1 Hk) in Hm. discriminate.
      - assert (Hx : member keq x b = true). { rewrite <- Hm. unfold member. cbn. now rewrite (proj1 Hk). }
        apply member_true in Hx. destruct Hx as [y [Hy Hyx]]. apply in_split in Hy. destruct Hy as [b1 [b2 ->]].
        cbn in Ha. destruct Ha as [Ha1 Ha2].
        apply (@kdist_perm _ _ Hk _ (y :: b1 ++ b2)) in Hb; [|apply Permutation_sym, Permutation_middle]. cbn in Hb. destruct Hb as [Hb1 Hb2].
        rewrite app_length. cbn. rewrite (IHa (b1 ++ b2)); [rewrite app_length; lia| |exact Ha2|exact Hb2].
        intro k. specialize (Hm k). destruct (keq x k) eqn:Exk.
        + transitivity false; [|symmetry].
          * apply member_false. eapply Forall_impl; [|exact Ha1]. cbn. intros z Hz. now rewrite <- (@keq_cong_r _ _ Hk x k z Exk).
          * apply member_false. eapply Forall_impl; [|exact Hb1]. cbn. intros z Hz. rewrite <- (@keq_cong_r _ _ Hk x k z Exk). now rewrite <- (@keq_cong_r _ _ Hk y x z Hyx).
        + unfold member in *. cbn in Hm. rewrite Exk in Hm. cbn in Hm. rewrite Hm. rewrite !existsb_app. cbn.
          rewrite (@keq_cong _ _ Hk y x k Hyx), Exk. reflexivity. }
    intros b a. apply Main.
  - destruct HI as [l [[ns HR] Hrec Hh Hm Hf]]. cbn. unfold info. rewrite Hh, Hm. f_equal. rewrite (Rel_size HR).
    apply R2_len in Hrec. now rewrite rev_length, map_length in Hrec.
Qed.

(** ** concurrent use of the bounded cache *)
Definition CInv (n : nat) (c : conc A K V) : Prop :=
  exists ns l, Rel keq (cst c) ns l /\ length l <= n /\
    Forall (fun kv => exists a, P a /\ keq (fst kv) (mk a) = true /\ f a = Some (snd kv)) l /\ (forall t a, pending c t = Some a -> P a).
Definition enters (e : ev A) : Prop := match e with Enter _ a => P a | _ => True end.
Definition returns (x : A * outcome V) : bool := match snd x with Ret _ => true | _ => false end.
Definition explained (x : A * outcome V) : Prop :=
  snd x = match f (fst x) with Some v => Ret v | None => Raised end \/
  exists b v, P b /\ keq (mk b) (mk (fst x)) = true /\ f b = Some v /\ snd x = Ret v.
Lemma cstep_inv n c e c' o : enters e -> 0 < n -> CInv n c -> cstep keq mk f (Z.of_nat n) c e = Some (c', o) ->
  CInv n c' /\ (forall x, o = Some x -> explained x /\ snd x <> KeyErr) /\
  match e with ClearEv => HITS (cst c') = 0 /\ MISSES (cst c') = 0 /\ o = None
  | _ => HITS (cst c') + MISSES (cst c') = HITS (cst c) + MISSES (cst c) + (match o with Some x => if returns x then 1 else 0 | None => 0 end) end.
Proof.
  intros He Hn [ns [l [HR [Hl [Hf Hpe]]]]] H. destruct e as [t a|t|]; cbn in H.
  - destruct (pending c t); [discriminate|]. destruct (dget keq l (mk a)) as [v|] eqn:E.
    + destruct (@lookup_hit _ _ _ Hk (cst c) ns l (mk a) v HR E) as [l1 [k' [l2 [s' [ns' [El [Ek [En [Es [HR' [E1 E2]]]]]]]]]]].
      rewrite Es in H. injection H as <- <-. cbn. split; [|split].
      * exists ns', (l1 ++ l2 ++ [(k', v)]). cbn. split; [exact HR'|]. subst l. rewrite !app_length in *. cbn in *. split; [lia|]. split; [|exact Hpe].
        apply Forall_app in Hf. destruct Hf as [F1 F2]. inversion F2; subst. apply Forall_app. split; [exact F1|]. apply Forall_app. auto.
      * intros x Hx. injection Hx as <-. split; [|discriminate]. right. subst l. apply Forall_app in Hf. destruct Hf as [_ Hf]. inversion Hf as [|? ? [b [B0 [B1 B2]]] _]; subst.
        cbn in *. exists b, v. split; [exact B0|]. split; [|auto]. rewrite (proj1 (proj2 Hk)) in B1. apply (proj2 (proj2 Hk)) with k'; assumption.
      * lia.
    + rewrite (lookup_miss Hk (mk a) HR E) in H. injection H as <- <-. cbn. split; [|split; [discriminate|lia]].
      exists ns, l. cbn. split; [exact HR|]. split; [exact Hl|]. split; [exact Hf|]. intros t' a'. unfold pset. destruct (Nat.eqb t' t); [intro X; injection X as <-; exact He|apply Hpe].
  - destruct (pending c t) as [a|] eqn:Ept; [|discriminate]. pose proof (Hpe _ _ Ept) as HP.
    assert (Hpe' : forall t' a', pset (pending c) t None t' = Some a' -> P a') by (intros t' a'; unfold pset; destruct (Nat.eqb t' t); [discriminate|apply Hpe]). destruct (f a) as [v|] eqn:Ef.
    + assert (G : exists s' ns' l', store keq (Z.of_nat n) (cst c) (mk a) v = (true, s') /\ Rel keq s' ns' l' /\ length l' <= n /\
        Forall (fun kv => exists a, P a /\ keq (fst kv) (mk a) = true /\ f a = Some (snd kv)) l' /\ HITS s' = HITS (cst c) /\ MISSES s' = S (MISSES (cst c))).
      { destruct (dget keq l (mk a)) as [v0|] eqn:E.
        - destruct (@store_present _ _ _ Hk (Z.of_nat n) (cst c) ns l (mk a) v v0 HR E) as [s' [E1 [E2 [E3 E4]]]]. exists s', ns, l. auto 10.
        - destruct (Nat.lt_ge_cases (length l) n) as [Hl'|Hl'].
          + destruct (@store_room _ _ _ Hk (Z.of_nat n) (cst c) ns l (mk a) v HR E ltac:(lia)) as [s' [E1 [E2 [E3 E4]]]].
            exists s', (ns ++ [fresh (cst c)]), (l ++ [(mk a, v)]). split; [exact E1|]. split; [exact E2|]. rewrite app_length. cbn. split; [lia|]. split; [|auto].
            apply Forall_app. split; [exact Hf|]. constructor; [|constructor]. exists a. split; [exact HP|]. split; [apply Hk|exact Ef].
          + destruct l as [|e l]; [cbn in Hl'; lia|].
            destruct (@store_full _ _ _ Hk (Z.of_nat n) (cst c) ns e l (mk a) v HR E ltac:(lia)) as [s' [ns' [E1 [E2 [E3 E4]]]]].
            exists s', ns', (l ++ [(mk a, v)]). split; [exact E1|]. split; [exact E2|]. rewrite app_length. cbn in *. split; [lia|]. split; [|auto].
            inversion Hf; subst. apply Forall_app. split; [assumption|]. constructor; [|constructor]. exists a. split; [exact HP|]. split; [apply Hk|exact Ef]. }
      destruct G as [s' [ns' [l' [E1 [E2 [E3 [E4 [E5 E6]]]]]]]]. rewrite E1 in H. injection H as <- <-. cbn. split; [exists ns', l'; cbn; auto|].
      split; [|lia]. intros x Hx. injection Hx as <-. split; [|discriminate]. left. cbn. now rewrite Ef.
    + injection H as <- <-. cbn. split; [exists ns, l; cbn; auto|]. split; [|lia]. intros x Hx. injection Hx as <-. split; [|discriminate]. left. cbn. now rewrite Ef.
  - injection H as <- <-. cbn. split; [|split; [discriminate|auto]]. exists [], []. split; [eapply Rel_clear; eauto|]. split; [cbn; lia|]. split; [constructor|exact Hpe].
Qed.
Lemma CInv_init n : CInv n cinit.
Proof. exists [], []. split; [apply Rel_init|]. split; [cbn; lia|]. split; [constructor|discriminate]. Qed.
Lemma crun_inv n es : 0 < n -> Forall enters es -> forall c c' os, CInv n c -> crun keq mk f (Z.of_nat n) c es = Some (c', os) ->
  CInv n c' /\ Forall (fun x => explained x /\ snd x <> KeyErr) os /\
  ((forall e, In e es -> e <> ClearEv) -> HITS (cst c') + MISSES (cst c') = HITS (cst c) + MISSES (cst c) + length (filter returns os)).
Proof.
  intros Hn He. induction es as [|e es IH]; intros c c' os HI H; cbn in H.
  - injection H as <- <-. split; [exact HI|]. split; [constructor|]. cbn. lia.
  - destruct (cstep keq mk f (Z.of_nat n) c e) as [[c1 o]|] eqn:E; [|discriminate].
    destruct (crun keq mk f (Z.of_nat n) c1 es) as [[c2 os2]|] eqn:E2; [|discriminate]. injection H as <- <-.
    inversion He as [|? ? He1 He2]; subst. specialize (IH He2). destruct (@cstep_inv n c e c1 o He1 Hn HI E) as [H1 [H2 H3]]. destruct (IH _ _ _ H1 E2) as [G1 [G2 G3]]. split; [exact G1|]. split.
    + destruct o as [x|]; [|exact G2]. constructor; auto.
    + intro Hc. rewrite G3 by (intros; apply Hc; now right).
      assert (Hne : e <> ClearEv) by (apply Hc; now left).
      destruct e; [| |congruence]; rewrite H3; (destruct o as [x|]; cbn; [destruct (returns x); cbn; lia|lia]).
Qed.
End Hist.
