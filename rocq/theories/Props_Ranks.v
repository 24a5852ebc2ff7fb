(** * Properties C66, C67: rank splitting and output names *)
From Coq Require Import String Ascii ZArith List Bool Arith Lia.
From Verif Require Import M_Ranks P_Ranks.
Import ListNotations.
Open Scope list_scope.

(** ** C66 *)
(** n groups, numbered from 0, that contain every rank exactly once, with sizes that differ by at most one. *)
Theorem C66_partition :
  forall N n, 0 < n -> exists groups, split_ranks N n = Some groups /\ map fst groups = seq 0 n /\
    NoDup (concat (map snd groups)) /\ (forall r, r < N <-> exists i g, In (i, g) groups /\ In r g) /\
    (forall i g j h, In (i, g) groups -> In (j, h) groups -> length g <= length h + 1).
Proof.
  intros N n H. destruct (split_spec N n H) as (l & A & B & C & D). exists l. split; auto. split; auto. rewrite C. split; [apply seq_NoDup|]. split.
  - intros r. assert (E : r < N <-> In r (concat (map snd l))) by (rewrite C, in_seq; lia). rewrite E. split.
    + intros K. apply in_groups in K. destruct K as ([i g] & K1 & K2). eauto.
    + intros (i & g & K1 & K2). apply in_concat. exists g. split; auto. apply in_map_iff. exists (i, g). auto.
  - intros i g j h Hg Hh. rewrite Forall_forall in D. apply D in Hg, Hh. cbn in *. lia.
Qed.
Theorem C66_zero_groups_raise : forall N, split_ranks N 0 = None.
Proof. reflexivity. Qed.
(** Entering the manager: every rank gets the number of its group as colour and the groups' first ranks become the masters, ... *)
Theorem C66_colours :
  forall N n rank, 0 < n <= N -> rank < N -> exists groups roots i g,
  split_ranks N n = Some groups /\ enter N n rank = Entered roots (Some i) /\ In (i, g) groups /\ In rank g /\
  length roots = n /\ forall j h, In (j, h) groups -> In (hd 0 h) roots /\ In (hd 0 h) h.
Proof.
  intros N n rank Hn Hr. destruct (C66_partition N n) as (l & A & B & C & D & E); [lia|]. destruct (split_spec N n) as (l' & A' & _ & _ & F); [lia|].
  rewrite A in A'. injection A' as <-. assert (P : 1 <= N / n) by (apply Nat.div_le_lower_bound; lia).
  assert (G : Forall (fun g : nat * list nat => snd g <> []) l). { eapply Forall_impl; [|exact F]. intros [i g] H K. cbn in *. subst g. cbn in H. lia. }
  destruct (proj1 (D rank) Hr) as (i & g & Hig & Hrg). exists l, (map (fun g => hd 0 (snd g)) l), i, g. split; auto. split.
  - unfold enter. rewrite A. rewrite enter_loop_ok by auto. cbn [app]. f_equal. eapply colour_unique; eauto.
  - split; auto. split; auto. split. { rewrite map_length. rewrite <- (map_length fst), B. apply seq_length. }
    intros j h Hh. split. { apply in_map_iff. exists (j, h). auto. } rewrite Forall_forall in G. specialize (G _ Hh). cbn in G. destruct h; [congruence|]. cbn. auto.
Qed.
(** ... but with fewer ranks than groups it raises IndexError on every rank. *)
Theorem C66_too_many_groups_raise :
  forall N n rank, N < n -> enter N n rank = IndexError.
Proof.
  intros N n rank H. destruct (split_spec N n) as (l & A & B & C & _); [lia|]. unfold enter. rewrite A. apply enter_loop_bad.
  assert (L : length l = n) by (rewrite <- (map_length fst), B; apply seq_length).
  assert (S : length (concat (map snd l)) = N) by (rewrite C; apply seq_length).
  assert (K : length (concat (map snd l)) < length l) by lia. clear -K. induction l as [|[i g] l IH]; cbn in K; [lia|]. rewrite app_length in K.
  destruct g as [|x g]; [exists (i, []); cbn; auto|]. cbn in K. destruct IH as (h & H1 & H2); [lia|]. exists h. cbn. auto.
Qed.
Print Assumptions C66_colours.
Example C66_nonvacuous :
  split_ranks 8 3 = Some [(0, [0; 1; 2]); (1, [3; 4; 5]); (2, [6; 7])] /\ enter 8 3 4 = Entered [0; 3; 6] (Some 1) /\ enter 2 3 0 = IndexError.
Proof. repeat split. Qed.

(** ** C67 *)
(** Whatever is in the directory (and however int() reads the names): the name chosen is new, belongs to the requested base, and
    is numbered after every file of that base; the only other outcome is an unreadable number in a matching file name. *)
Theorem C67_new_name :
  forall suffix_of base dir,
  (exists n, create_output_file suffix_of base dir = Created (fname base n) (fname base n :: dir) /\ ~ In (fname base n) dir /\
     forall f z i, In f dir -> String.index 0 base f = Some i -> suffix_of f = Some z -> (z < Z.of_nat n)%Z) \/
  (create_output_file suffix_of base dir = BadSuffix /\ exists f i, In f dir /\ String.index 0 base f = Some i /\ suffix_of f = None).
Proof. exact create_spec. Qed.
(** Any number of calls one after the other: the names are distinct and new, and no file disappears. *)
Theorem C67_repeated_calls_distinct :
  forall suffix_of bases dir names dir', create_all suffix_of bases dir = Some (names, dir') ->
  NoDup names /\ (forall n, In n names -> ~ In n dir) /\ (forall f, In f dir' <-> In f names \/ In f dir).
Proof. exact create_all_spec. Qed.
(** Chains of one run never share a name, in whatever order their steps are taken. *)
Theorem C67_chains_distinct :
  forall suffix_of date tag c1 c2 dir dir' n1 n2, c1 <> c2 ->
  preach suffix_of (outname_base date tag c1 None) (outname_base date tag c2 None) dir (dir', Done n1, Done n2) -> n1 <> n2.
Proof.
  intros suffix_of date tag c1 c2 dir dir' n1 n2 Hc H.
  set (b1 := outname_base date tag c1 None) in *. set (b2 := outname_base date tag c2 None) in *.
  assert (I : forall st, preach suffix_of b1 b2 dir st ->
     (forall n, snd (fst st) = Chosen n \/ snd (fst st) = Done n -> exists s, n = fname b1 s) /\
     (forall n, snd st = Chosen n \/ snd st = Done n -> exists s, n = fname b2 s)).
  { clear H. intros st H. induction H as [|s s' H [IH1 IH2] St]; [split; intros n [K|K]; discriminate|].
    destruct St; cbn [fst snd] in *; split; intros m [K|K]; try discriminate; eauto; injection K as <-; eauto. }
  destruct (I _ H) as [I1 I2]. cbn [fst snd] in *. destruct (I1 n1) as [s1 ->]; auto. destruct (I2 n2) as [s2 ->]; auto.
  intros E. apply different_chains in E. tauto.
Qed.
(** REFUTED for two processes with the same base: they can be given the same file. *)
Theorem C97_concurrent_same_base_refuted :
  forall suffix_of base dir n dir1, create_output_file suffix_of base dir = Created n dir1 ->
  exists dir', preach suffix_of base base dir (dir', Done n, Done n).
Proof.
  intros suffix_of base dir n dir1 H. unfold create_output_file in H. destruct (choose suffix_of base dir) as [[s|]|] eqn:E; try discriminate. injection H as <- _.
  eexists. eapply preach_step; [|apply create2]. eapply preach_step; [|apply create1]. eapply preach_step; [|apply choose2; exact E].
  eapply preach_step; [|apply choose1; exact E]. apply preach_start.
Qed.
Print Assumptions C67_new_name.
Print Assumptions C67_chains_distinct.
Open Scope string_scope.
Example C67_nonvacuous :
  let base := outname_base "2016-05-01" "40x500" 2 None in
  create_output_file py_suffix base ["2016-05-01_40x500_chain2__3.npz"; "params.dat"; "2016-05-01_40x500_chain1__9.npz"] =
    Created "2016-05-01_40x500_chain2__4.npz" ("2016-05-01_40x500_chain2__4.npz" :: ["2016-05-01_40x500_chain2__3.npz"; "params.dat"; "2016-05-01_40x500_chain1__9.npz"])%list /\
  create_output_file py_suffix base ["2016-05-01_40x500_chain2__info.txt"] = BadSuffix.
Proof. split; vm_compute; reflexivity. Qed.
