(** * Proofs about running chains *)
From Coq Require Import ZArith List Bool Arith Lia.
From Verif Require Import M_Mcmc S_Mcmc.
Import ListNotations.

Lemma in_others : forall N i j, In j (others N i) <-> j < N /\ j <> i.
Proof.
  intros. unfold others. rewrite filter_In, in_seq, negb_true_iff, Nat.eqb_neq. intuition lia.
Qed.
Lemma set_same : forall A (f : nat -> A) i a, set f i a i = a.
Proof. intros. unfold set. now rewrite Nat.eqb_refl. Qed.
Lemma set_other : forall A (f : nat -> A) i a j, j <> i -> set f i a j = f j.
Proof. intros. unfold set. apply Nat.eqb_neq in H. now rewrite H. Qed.

Lemma schedule : forall n, do_convergence n = true <-> scheduled n.
Proof.
  intros n. unfold do_convergence, scheduled.
  assert (A : n mod 100 = 0 <-> exists m, n = 100 * m).
  { split. - intros H. exists (n / 100). apply Nat.div_exact; auto. - intros [m ->]. rewrite Nat.mul_comm. apply Nat.mod_mul. lia. }
  assert (B : n mod 200 = 0 <-> exists m, n = 200 * m).
  { split. - intros H. exists (n / 200). apply Nat.div_exact; auto. - intros [m ->]. rewrite Nat.mul_comm. apply Nat.mod_mul. lia. }
  destruct (n <? 500)%nat eqn:E1; [apply Nat.ltb_lt in E1|apply Nat.ltb_ge in E1].
  { split; [discriminate|]. intros [H|[H _]]; [|lia]. repeat (destruct H as [H|H]; [lia|]); destruct H. }
  destruct (n <? 1500)%nat eqn:E2; [apply Nat.ltb_lt in E2|apply Nat.ltb_ge in E2]; cbn [andb].
  - destruct (n mod 200 =? 0)%nat eqn:E3; [apply Nat.eqb_eq in E3|apply Nat.eqb_neq in E3].
    + split; auto. intros _. left. apply B in E3. destruct E3 as [m ->]. assert (H : m = 3 \/ m = 4 \/ m = 5 \/ m = 6 \/ m = 7) by lia.
      cbn [In]. lia.
    + replace (1500 <=? n)%nat with false by (symmetry; apply Nat.leb_gt; lia). cbn [andb]. split; [discriminate|].
      intros [H|[H _]]; [|lia]. exfalso. apply E3. apply B.
      repeat (destruct H as [<-|H]; [first [now exists 3|now exists 4|now exists 5|now exists 6|now exists 7]|]). destruct H.
  - replace (1500 <=? n)%nat with true by (symmetry; apply Nat.leb_le; lia). cbn [andb].
    destruct (n mod 100 =? 0)%nat eqn:E3; [apply Nat.eqb_eq in E3|apply Nat.eqb_neq in E3].
    + split; auto. intros _. right. split; auto. now apply A.
    + split; [discriminate|]. intros [H|[_ H]].
      * exfalso. repeat (destruct H as [H|H]; [lia|]). destruct H.
      * exfalso. apply E3. now apply A.
Qed.

Section Proofs.
Variables (N niters start : nat) (tc : bool).
Notation stp := (step N niters start tc).
Notation rn := (run N niters start tc).

(** a message for every other chain of a stopped chain *)
Definition Told (s : net) : Prop :=
  forall i r j, i < N -> chain s i = Stopped r -> j < N -> j <> i -> In (j, r) (flight s) \/ box s j r.
Lemma next_not_stopped : forall n r, next niters n <> Stopped r.
Proof. intros. unfold next. destruct (_ <? _)%nat; discriminate. Qed.
Lemma next_not_waiting : forall n r, next niters n <> Waiting r.
Proof. intros. unfold next. destruct (_ <? _)%nat; discriminate. Qed.
Lemma told_leave : forall s i r, Told s -> Told (leave N s i r).
Proof.
  intros s i r H k q j Hk Hq Hj Hne. cbn in *. destruct (Nat.eq_dec k i) as [->|Hki].
  - rewrite set_same in Hq. injection Hq as <-. left. apply in_or_app. right. apply in_map_iff. exists j. split; auto. now apply in_others.
  - rewrite set_other in Hq by auto. destruct (H k q j Hk Hq Hj Hne); auto. left. apply in_or_app. auto.
Qed.
Lemma told_step : forall s o s', Told s -> stp s o s' -> Told s'.
Proof.
  intros s o s' H St. destruct St as [l1 d r l2 E|i n r Hi Hc Hr|i n r Hi Hc Hr|i n Hi Hc Hp Hd|i n Hi Hc Hp Hd|v Hw H0].
  - intros k q j Hk Hq Hj Hne. cbn in *. destruct (H k q j Hk Hq Hj Hne) as [I|I]; auto.
    rewrite E in I. apply in_app_or in I. destruct I as [I|[I|I]].
    + left. apply in_or_app. auto.
    + injection I as -> ->. auto.
    + left. apply in_or_app. auto.
  - now apply told_leave.
  - now apply told_leave.
  - intros k q j Hk Hq Hj Hne. cbn in *. destruct (Nat.eq_dec k i) as [->|Hki].
    + rewrite set_same in Hq. now apply next_not_stopped in Hq.
    + rewrite set_other in Hq by auto. eauto.
  - intros k q j Hk Hq Hj Hne. cbn in *. destruct (Nat.eq_dec k i) as [->|Hki].
    + rewrite set_same in Hq. discriminate.
    + rewrite set_other in Hq by auto. eauto.
  - cbv zeta. assert (T : Told {| chain := fun j => match chain s j with Waiting n => next niters n | p => p end; flight := flight s; box := box s |}).
    { intros k q j Hk Hq Hj Hne. cbn in *. destruct (Hw k Hk) as [n En]. rewrite En in Hq. now apply next_not_stopped in Hq. }
    destruct v; auto; now apply told_leave.
Qed.
Lemma run_told : forall cs s, rn cs s -> Told s.
Proof.
  intros cs s H. induction H as [|cs s o s' H IH St].
  - intros i r j _ Hq. unfold initial in Hq. cbn [chain] in Hq. destruct (0 <? niters)%nat; discriminate Hq.
  - eapply told_step; eauto.
Qed.

(** everything said and done has the cause r *)
Definition Caused (r : reason) (s : net) : Prop :=
  (forall i q, i < N -> chain s i = Stopped q -> q = r) /\ (forall j q, In (j, q) (flight s) -> q = r) /\ (forall j q, box s j q -> q = r).
Lemma caused_leave : forall r s i, Caused r s -> Caused r (leave N s i r).
Proof.
  intros r s i (A & B & C). repeat split; cbn.
  - intros k q Hk Hq. destruct (Nat.eq_dec k i) as [->|Hki]; [rewrite set_same in Hq; congruence|rewrite set_other in Hq by auto; eauto].
  - intros j q I. apply in_app_or in I. destruct I as [I|I]; eauto. apply in_map_iff in I. destruct I as (d & E & _). congruence.
  - eauto.
Qed.
Lemma probed_box : forall s i r, probed s i (Some r) -> box s i r.
Proof. intros s i r H. inversion H; subst; auto. Qed.
Lemma caused_step : forall r s o s', Caused r s -> stp s o s' -> match o with Some q => q = r | None => True end -> Caused r s'.
Proof.
  intros r s o s' H St Ho. destruct St as [l1 d q l2 E|i n q Hi Hc Hr|i n q Hi Hc Hr|i n Hi Hc Hp Hd|i n Hi Hc Hp Hd|v Hw H0].
  - destruct H as (A & B & C). repeat split; cbn; eauto.
    + intros j q' I. apply (B j). rewrite E. apply in_app_or in I. apply in_or_app. destruct I; auto. right. right. auto.
    + intros j q' [I|[-> ->]]; eauto. apply (B d). rewrite E. apply in_or_app. right. left. auto.
  - subst q. now apply caused_leave.
  - assert (q = r) as ->. { apply H with i. now apply probed_box. } now apply caused_leave.
  - destruct H as (A & B & C). repeat split; cbn; eauto. intros k q' Hk Hq. destruct (Nat.eq_dec k i) as [->|Hki].
    + rewrite set_same in Hq. now apply next_not_stopped in Hq. + rewrite set_other in Hq by auto. eauto.
  - destruct H as (A & B & C). repeat split; cbn; eauto. intros k q' Hk Hq. destruct (Nat.eq_dec k i) as [->|Hki].
    + rewrite set_same in Hq. discriminate. + rewrite set_other in Hq by auto. eauto.
  - cbv zeta. assert (T : Caused r {| chain := fun j => match chain s j with Waiting n => next niters n | p => p end; flight := flight s; box := box s |}).
    { destruct H as (A & B & C). repeat split; cbn; eauto. intros k q Hk Hq. destruct (Hw k Hk) as [n En]. rewrite En in Hq. now apply next_not_stopped in Hq. }
    destruct v; auto; subst r; now apply caused_leave.
Qed.
Lemma run_caused : forall r cs s, rn cs s -> single_cause r cs -> Caused r s.
Proof.
  intros r cs s H. induction H as [|cs s o s' H IH St]; intros Hc.
  - repeat split; try (cbn; tauto). unfold initial; cbn [chain]. intros i q _ E. destruct (0 <? niters)%nat; discriminate.
  - eapply caused_step; [|exact St|].
    + apply IH. destruct o; auto. inversion Hc; auto.
    + destruct o; auto. inversion Hc; auto.
Qed.

(** a chain with mail stops at its next step *)
Lemma mail_stops : forall s i n r o s', i < N -> chain s i = At n -> box s i r -> stp s o s' -> chain s' i <> chain s i ->
  exists q, chain s' i = Stopped q /\ (o = None -> box s i q).
Proof.
  intros s i n r o s' Hi Hc Hb St Hch. destruct St as [l1 d q l2 E|k m q Hk Hk' Hr|k m q Hk Hk' Hr|k m Hk Hk' Hp Hd|k m Hk Hk' Hp Hd|v Hw H0]; cbn in *.
  - congruence.
  - destruct (Nat.eq_dec i k) as [->|E]; [|rewrite set_other in Hch by auto; congruence]. exists q. rewrite set_same. split; auto. discriminate.
  - destruct (Nat.eq_dec i k) as [->|E]; [|rewrite set_other in Hch by auto; congruence]. exists q. rewrite set_same. split; auto. intros _. now apply probed_box.
  - destruct (Nat.eq_dec i k) as [->|E]; [|rewrite set_other in Hch by auto; congruence]. inversion Hp; destruct r; contradiction.
  - destruct (Nat.eq_dec i k) as [->|E]; [|rewrite set_other in Hch by auto; congruence]. inversion Hp; destruct r; contradiction.
  - destruct (Hw i Hi) as [m E]. congruence.
Qed.
Lemma can_stop : forall s i n r, i < N -> chain s i = At n -> box s i r -> (forall q, box s i q -> q = r) -> stp s None (leave N s i r).
Proof.
  intros s i n r Hi Hc Hb Hq. apply told with n; auto. destruct r.
  - apply probe_conv; auto. intros H. apply Hq in H. discriminate.
  - apply probe_exit; auto.
  - apply probe_ctrl; auto; intros H; apply Hq in H; discriminate.
Qed.

(** a stopped chain never moves again, and keeps every waiting chain in the barrier *)
Lemma stopped_step : forall s o s' i r, i < N -> chain s i = Stopped r -> stp s o s' -> chain s' i = Stopped r.
Proof.
  intros s o s' i r Hi Hc St. destruct St as [l1 d q l2 E|k m q Hk Hk' Hr|k m q Hk Hk' Hr|k m Hk Hk' Hp Hd|k m Hk Hk' Hp Hd|v Hw H0]; cbn;
    try (rewrite set_other; auto; intros ->; congruence); auto.
  exfalso. destruct (Hw i Hi). congruence.
Qed.
Lemma waiting_step : forall s o s' i n j r, i < N -> chain s i = Waiting n -> j < N -> chain s j = Stopped r -> stp s o s' -> chain s' i = Waiting n.
Proof.
  intros s o s' i n j r Hi Hc Hj Hc' St. destruct St as [l1 d q l2 E|k m q Hk Hk' Hr|k m q Hk Hk' Hr|k m Hk Hk' Hp Hd|k m Hk Hk' Hp Hd|v Hw H0]; cbn;
    try (rewrite set_other; auto; intros ->; congruence); auto.
  exfalso. destruct (Hw j Hj). congruence.
Qed.
Lemma waiting_forever : forall s i n j r, i < N -> chain s i = Waiting n -> j < N -> chain s j = Stopped r ->
  forall s', later N niters start tc s s' -> chain s' i = Waiting n /\ chain s' j = Stopped r.
Proof.
  intros s i n j r Hi Hc Hj Hc' s' L. induction L as [|s' o s'' L [IH1 IH2] St]; auto. split.
  - eapply waiting_step; [exact Hi| |exact Hj| |exact St]; eauto.
  - eapply stopped_step; eauto.
Qed.
(** without convergence tests nobody waits *)
Lemma never_waiting : tc = false -> forall cs s, rn cs s -> forall i n, i < N -> chain s i <> Waiting n.
Proof.
  intros Htc cs s H. induction H as [|cs s o s' H IH St]; intros i n Hi Hc.
  - unfold initial in Hc. cbn [chain] in Hc. destruct (0 <? niters)%nat; discriminate.
  - destruct St as [l1 d q l2 E|k m q Hk Hk' Hr|k m q Hk Hk' Hr|k m Hk Hk' Hp Hd|k m Hk Hk' Hp Hd|v Hw H0]; cbn in Hc.
    + now apply (IH i n).
    + destruct (Nat.eq_dec i k) as [->|E]; [rewrite set_same in Hc; discriminate|rewrite set_other in Hc by auto; now apply (IH i n)].
    + destruct (Nat.eq_dec i k) as [->|E]; [rewrite set_same in Hc; discriminate|rewrite set_other in Hc by auto; now apply (IH i n)].
    + destruct (Nat.eq_dec i k) as [->|E]; [rewrite set_same in Hc; now apply next_not_waiting in Hc|rewrite set_other in Hc by auto; now apply (IH i n)].
    + rewrite Htc in Hd. discriminate.
    + destruct (Hw 0 H0) as [m E]. now apply (IH 0 m).
Qed.

(** runs of one chain on its own *)
Lemma run_free : forall k cs s i n, rn cs s -> i < N -> chain s i = At n -> (forall r, ~ box s i r) -> n + k < niters ->
  (forall m, n <= m < n + k -> tc && do_convergence (start + m + 1) = false) ->
  exists s', rn cs s' /\ chain s' i = At (n + k) /\ (forall j, j <> i -> chain s' j = chain s j) /\ box s' = box s /\ flight s' = flight s.
Proof.
  induction k as [|k IH]; intros cs s i n H Hi Hc Hb Hk Hm.
  - exists s. rewrite Nat.add_0_r. auto.
  - assert (St : stp s None {| chain := set (chain s) i (next niters n); flight := flight s; box := box s |}).
    { apply go_on with (n := n); auto. { apply probe_none; auto. } apply Hm. lia. }
    assert (H' := run_step _ _ _ _ _ _ _ _ H St). cbn in H'.
    destruct (IH cs _ i (S n) H' Hi) as (s' & A & B & C & D & E); auto.
    + cbn. rewrite set_same. unfold next. replace (S n <? niters)%nat with true by (symmetry; apply Nat.ltb_lt; lia). auto.
    + lia.
    + intros m Hm'. apply Hm. lia.
    + cbn in *. exists s'. repeat split; auto. { rewrite B. f_equal. lia. } intros j Hj. rewrite C by auto. now rewrite set_other.
Qed.
Lemma run_wait : forall cs s i n, rn cs s -> i < N -> chain s i = At n -> (forall r, ~ box s i r) -> tc && do_convergence (start + n + 1) = true ->
  rn cs {| chain := set (chain s) i (Waiting n); flight := flight s; box := box s |}.
Proof.
  intros. eapply (run_step _ _ _ _ _ _ None); eauto. apply wait; auto. apply probe_none; auto.
Qed.
Lemma run_outside : forall cs s i n r, rn cs s -> i < N -> chain s i = At n -> r <> CONVERGED -> rn (r :: cs) (leave N s i r).
Proof. intros. apply (run_step _ _ _ _ _ _ (Some r) _ H). eapply outside; eauto. Qed.
End Proofs.
