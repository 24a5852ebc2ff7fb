(** * Properties C61, C62: walkers, convergence tests and stopping of chains *)
From Coq Require Import ZArith List Bool Arith Lia.
From Verif Require Import M_Mcmc S_Mcmc P_Mcmc.
Import ListNotations.

(** ** C61 *)
(** Even, at least 2*ndim, at least what was asked for, and the smallest such number. *)
Theorem C61_smallest_legal :
  forall requested ndim : Z,
  let w := walker_count requested ndim in
  (Z.Even w /\ 2 * ndim <= w /\ requested <= w)%Z /\
  (forall m, Z.Even m -> 2 * ndim <= m -> requested <= m -> w <= m)%Z.
Proof.
  intros q d. cbv zeta. unfold walker_count.
  assert (E : forall x, Z.Even x <-> (x mod 2 = 0)%Z).
  { intros x. rewrite <- Z.even_spec, Zeven_mod. unfold Zeq_bool. rewrite <- (Z.eqb_eq (x mod 2) 0). unfold Z.eqb. destruct (x mod 2)%Z; intuition. }
  destruct (Z.gtb_spec (2 * d) q) as [H|H].
  - replace ((2 * d) mod 2)%Z with 0%Z by (rewrite Z.mul_comm, Z.mod_mul; lia). change (0 =? 0)%Z with true. cbv iota. split.
    + split; [now exists d|lia].
    + intros; lia.
  - destruct (Z.eqb_spec (q mod 2) 0) as [H'|H'].
    + split. { split; [now apply E|lia]. } intros; lia.
    + assert (q mod 2 = 1)%Z by (assert (0 <= q mod 2 < 2)%Z by (apply Z.mod_pos_bound; lia); lia). split.
      * split; [|lia]. exists (q / 2 + 1)%Z. rewrite (Z.div_mod q 2) at 1 by lia. lia.
      * intros m Hm H1 H2. destruct (Z.eq_dec m q) as [->|]; [apply E in Hm; lia|lia].
Qed.
Theorem C61_request_kept_when_legal :
  forall requested ndim : Z, Z.Even requested -> (2 * ndim <= requested)%Z -> walker_count requested ndim = requested.
Proof.
  intros q d H1 H2. destruct (C61_smallest_legal q d) as [(A & B & C) D]. apply Z.le_antisymm; auto. apply D; auto. lia.
Qed.
Print Assumptions C61_smallest_legal.
Example C61_nonvacuous : walker_count 20 13 = 26%Z /\ walker_count 31 13 = 32%Z /\ walker_count 40 13 = 40%Z.
Proof. repeat split. Qed.

(** ** C62 *)
Theorem C62_schedule : forall n, do_convergence n = true <-> scheduled n.
Proof. exact schedule. Qed.
(** Whatever happened before: a message with its reason is on its way to, or has reached, every chain other than a stopped one. *)
Theorem C94_every_chain_is_told_partial :
  forall N niters start tc causes s, run N niters start tc causes s ->
  forall i j r, i < N -> j < N -> j <> i -> chain s i = Stopped r -> In (j, r) (flight s) \/ box s j r.
Proof. intros N niters start tc cs s H i j r Hi Hj Hne Hc. exact (run_told _ _ _ _ _ _ H i r j Hi Hc Hj Hne). Qed.
(** When all chains have arrived at a test and it reports convergence (or raises), chain 0 stops for that reason and
    every other chain is sent it; no chain is left waiting by the test. *)
Theorem C94_verdict_takes_effect_partial :
  forall N niters start tc s, (forall i, i < N -> exists n, chain s i = Waiting n) -> 0 < N ->
  forall v r, (v = Converged /\ r = CONVERGED) \/ (v = Raised /\ r = EXIT) ->
  exists s', step N niters start tc s (Some r) s' /\ chain s' 0 = Stopped r /\
    forall j, 0 < j < N -> In (j, r) (flight s') /\ (forall n, chain s' j <> Waiting n).
Proof.
  intros N niters start tc s Hw H0 v r Hv. pose proof (tested N niters start tc s v Hw H0) as T. cbv zeta in T.
  assert (G : forall (s0 : net) j, 0 < j < N -> In (j, r) (flight (leave N s0 0 r))).
  { intros s0 j Hj. cbn. apply in_or_app. right. apply in_map_iff. exists j. split; auto. unfold others. apply filter_In. split; [apply in_seq; lia|].
    destruct (Nat.eqb_spec j 0); [lia|reflexivity]. }
  destruct Hv as [[-> ->]|[-> ->]]; eexists; (split; [exact T|]); (split; [reflexivity|]); intros j Hj; (split; [apply G; auto|]); intros n;
    destruct (Hw j) as [m Hm]; try lia; cbn; unfold set; destruct (Nat.eqb_spec j 0); try lia; rewrite Hm; unfold next; destruct (_ <? _); discriminate.
Qed.
(** A chain that has a message stops as soon as it moves, for the reason of one of its messages (or an own failure). *)
Theorem C94_stops_when_told_partial :
  forall N niters start tc s i n r o s', i < N -> chain s i = At n -> box s i r ->
  step N niters start tc s o s' -> chain s' i <> chain s i -> exists q, chain s' i = Stopped q /\ (o = None -> box s i q).
Proof. exact mail_stops. Qed.
(** If all causes in the run agree, all chains that stop do so for that reason. *)
Theorem C94_same_reason_partial :
  forall N niters start tc causes s r, run N niters start tc causes s -> single_cause r causes ->
  forall i q, i < N -> chain s i = Stopped q -> q = r.
Proof. intros N niters start tc cs s r H Hc i q Hi Hq. exact (proj1 (run_caused _ _ _ _ r cs s H Hc) i q Hi Hq). Qed.
(** Once one chain has stopped and the messages have arrived, every other chain has stopped for the same reason, or is at
    the end, or is in a barrier, or can only stop for that reason (unless a further cause strikes). *)
Theorem C94_all_chains_stop_partial :
  forall N niters start tc causes s r, run N niters start tc causes s -> single_cause r causes -> flight s = [] ->
  forall i q, i < N -> chain s i = Stopped q -> forall j, j < N ->
  chain s j = Stopped r \/ chain s j = Finished \/ (exists n, chain s j = Waiting n) \/
  ((exists s', step N niters start tc s None s' /\ chain s' j = Stopped r) /\
   forall o s', step N niters start tc s o s' -> chain s' j = chain s j \/ (o = None -> chain s' j = Stopped r)).
Proof.
  intros N niters start tc cs s r H Hc Hf i q Hi Hq j Hj. destruct (run_caused _ _ _ _ r cs s H Hc) as (A & B & C).
  destruct (chain s j) as [n|n|q'|] eqn:E; auto.
  - right. right. right. destruct (Nat.eq_dec j i) as [->|Hne]; [congruence|].
    assert (Hb : box s j r). { destruct (run_told _ _ _ _ _ _ H i q j Hi Hq Hj Hne) as [F|F]; [rewrite Hf in F; destruct F|]. assert (q = r) by eauto. now subst. }
    split.
    + exists (leave N s j r). split. { eapply can_stop; eauto. } cbn. apply set_same.
    + intros o s' St. assert (D : chain s' j = At n \/ chain s' j <> At n).
      { destruct (chain s' j) as [m| | |]; [destruct (Nat.eq_dec m n) as [->|]; [auto|right; congruence]| | |]; right; discriminate. }
      destruct D as [D|D]; auto. right. intros ->. rewrite <- E in D. destruct (mail_stops _ _ _ _ s j n r None s' Hj E Hb St D) as (p & P1 & P2).
      rewrite P1. f_equal. eauto.
  - eauto.
  - left. f_equal. eauto.
Qed.
(** Without convergence tests no chain ever waits, so the last case does not occur. *)
Theorem C94_without_tests_nobody_waits_partial :
  forall N niters start causes s, run N niters start false causes s -> forall i n, i < N -> chain s i <> Waiting n.
Proof. intros. eapply never_waiting; eauto. Qed.
(** REFUTED: a chain that waits for a convergence test when another one stops waits forever, ... *)
Theorem C94_waiting_chain_blocked_refuted :
  (forall N niters start tc s i n j r, i < N -> chain s i = Waiting n -> j < N -> chain s j = Stopped r ->
   forall s', later N niters start tc s s' -> chain s' i = Waiting n) /\
  (exists N niters start s, run N niters start true [CTRL_C] s /\ chain s 0 = Stopped CTRL_C /\ chain s 1 = Waiting 0).
Proof.
  split.
  - intros. eapply waiting_forever; eauto.
  - exists 2, 10, 599.
    assert (R := run_start 2 10 599 true). apply run_wait with (i := 1) (n := 0) in R; auto.
    apply run_outside with (i := 0) (n := 0) (r := CTRL_C) in R; auto; try discriminate. eexists. split; [exact R|]. split; reflexivity.
Qed.
(** ... even when the cause is convergence, if the message is slow, ... *)
Theorem C94_convergence_can_block_refuted :
  exists N niters start s n, run N niters start true [CONVERGED] s /\ chain s 0 = Stopped CONVERGED /\ chain s 1 = Waiting n.
Proof.
  assert (R := run_start 2 200 1499 true). apply run_wait with (i := 1) (n := 0) in R; auto. apply run_wait with (i := 0) (n := 0) in R; auto.
  assert (St := tested 2 200 1499 true _ Converged (fun i Hi => ltac:(destruct i as [|[|]]; [exists 0; reflexivity|exists 0; reflexivity|lia])
     : exists n, chain {| chain := set (set (chain (initial 200)) 1 (Waiting 0)) 0 (Waiting 0); flight := []; box := fun _ _ => False |} i = Waiting n) ltac:(lia)).
  cbv zeta in St. apply (run_step _ _ _ _ _ _ (Some CONVERGED) _ R) in St. clear R.
  destruct (run_free 2 200 1499 true 99 [CONVERGED] _ 1 1 St) as (s' & A & B & C & D & E).
  - lia.
  - reflexivity.
  - intros r H. exact H.
  - lia.
  - intros m Hm. cbn [andb]. destruct (do_convergence (1499 + m + 1)) eqn:K; auto. apply schedule in K. exfalso. destruct K as [K|[_ [q K]]].
    + repeat (destruct K as [K|K]; [lia|]). destruct K. + lia.
  - exists 2, 200, 1499. apply run_wait with (i := 1) (n := 100) in A; auto; [|intros r; rewrite D; exact (fun H => H)].
    eexists; exists 100; split; [exact A|]. split; [|reflexivity]. cbn [chain]. rewrite set_other by discriminate. rewrite C by discriminate. reflexivity.
Qed.
(** ... and two chains hit by different causes stop for different reasons. *)
Theorem C94_different_reasons_refuted :
  exists N niters start s, run N niters start true [EXIT; CTRL_C] s /\ chain s 0 = Stopped CTRL_C /\ chain s 1 = Stopped EXIT.
Proof.
  exists 2, 10, 0. assert (R := run_start 2 10 0 true).
  apply run_outside with (i := 0) (n := 0) (r := CTRL_C) in R; auto; try discriminate.
  apply run_outside with (i := 1) (n := 0) (r := EXIT) in R; auto; try discriminate. eexists. split; [exact R|]. split; reflexivity.
Qed.
Print Assumptions C94_all_chains_stop_partial.
Print Assumptions C94_convergence_can_block_refuted.
(** a run in which an interrupt of chain 0 reaches chain 1 *)
Example C62_nonvacuous :
  exists s, run 2 10 0 true [CTRL_C] s /\ single_cause CTRL_C [CTRL_C] /\ flight s = [] /\ chain s 0 = Stopped CTRL_C /\ chain s 1 = At 0 /\ box s 1 CTRL_C.
Proof.
  assert (R := run_start 2 10 0 true). apply run_outside with (i := 0) (n := 0) (r := CTRL_C) in R; auto; try discriminate.
  assert (St := deliver 2 10 0 true (leave 2 (initial 10) 0 CTRL_C) [] 1 CTRL_C [] eq_refl).
  apply (run_step _ _ _ _ _ _ None _ R) in St. eexists. split; [exact St|]. split; [repeat constructor|]. repeat split. cbn. auto.
Qed.
