From Coq Require Import Reals List Arith Lra Lia Permutation.
From Verif Require Import M_Quad S_Quad P_QuadSort P_Quad P_QuadGK P_Quad2.
Import ListNotations.
Local Open Scope R_scope.

Lemma seq_split n i : (i < n)%nat -> seq 0 n = seq 0 i ++ i :: seq (S i) (n - S i).
Proof. intros H. replace n with (i + S (n - S i))%nat at 1 by lia. rewrite seq_app. reflexivity. Qed.
Definition others (w : ws) (im : nat) : list (R * R) := map (fun i => (al w i, bl w i)) (seq 0 im ++ seq (S im) (size w - S im)).
Lemma pieces_split w im : (im < size w)%nat -> Permutation (pieces w) ((al w im, bl w im) :: others w im).
Proof. intros H. unfold pieces, others. rewrite (seq_split _ _ H), !map_app. cbn [map]. apply Permutation_sym, Permutation_middle. Qed.
Lemma others_in w im I : (im < size w)%nat -> In I (others w im) -> exists i, (i < size w)%nat /\ i <> im /\ I = (al w i, bl w i).
Proof. intros H HI. unfold others in HI. apply in_map_iff in HI. destruct HI as (i & E & Hi). exists i. apply in_app_iff in Hi. rewrite !in_seq in Hi. split; [lia|]. split; [lia|symmetry; exact E]. Qed.
Lemma pieces_update w a1 m r1 e1 b2 r2 e2 : (order w 0 < size w)%nat -> a1 = al w (order w 0%nat) -> b2 = bl w (order w 0%nat) ->
  Permutation (pieces (update w a1 m r1 e1 m b2 r2 e2)) ((a1, m) :: (m, b2) :: others w (order w 0%nat)).
Proof.
  intros H -> ->. set (im := order w 0%nat) in *. unfold update. fold im.
  assert (O : forall A B : nat -> R, (forall i, (i < size w)%nat -> i <> im -> A i = al w i /\ B i = bl w i) ->
    Permutation (map (fun i => (A i, B i)) (seq 0 (size w))) ((A im, B im) :: others w im)).
  { intros A B E. rewrite (seq_split _ _ H), map_app. cbn [map]. eapply Permutation_trans; [apply Permutation_sym, Permutation_middle|]. apply perm_skip.
    rewrite <- map_app. unfold others. erewrite map_ext_in; [apply Permutation_refl|]. intros i Hi. cbv beta. apply in_app_iff in Hi. rewrite !in_seq in Hi. destruct (E i ltac:(lia) ltac:(lia)) as [-> ->]. reflexivity. }
  destruct (rltb e1 e2); unfold pieces; cbn [size al bl]; rewrite seq_S; rewrite map_app; cbn [map Nat.add]; rewrite !set_eq.
  - eapply Permutation_trans; [apply Permutation_app_comm|]. cbn [app]. apply perm_skip. eapply Permutation_trans; [apply O|].
    + intros i Hi N. rewrite !set_ne by lia. split; reflexivity.
    + cbv beta. rewrite !(set_ne _ (size w)) by lia. rewrite set_eq. apply Permutation_refl.
  - eapply Permutation_trans; [apply Permutation_app_comm|]. cbn [app]. eapply Permutation_trans; [|apply perm_swap]. apply perm_skip. eapply Permutation_trans; [apply O|].
    + intros i Hi N. rewrite !set_ne by lia. split; reflexivity.
    + cbv beta. rewrite !(set_ne _ (size w)) by lia. rewrite set_eq. apply Permutation_refl.
Qed.
Lemma body_bisects rule a b L er ea s : linv rule a b L s -> (l_iter s < L)%nat -> bisects (fun I => snd (rule (fst I) (snd I))) (pieces (l_ws s)) (pieces (l_ws (body rule er ea s))).
Proof.
  intros (W & HL & Hz & Hi & _) Hl. assert (OF := ordered_first _ _ _ _ (proj1 (proj2 W)) ltac:(lia)). destruct OF as [Him Hmx]. destruct W as (_ & _ & HP & _).
  set (im := order (l_ws s) 0%nat) in *. exists (al (l_ws s) im), (bl (l_ws s) im), (others (l_ws s) im). split; [apply pieces_split, Him|]. split.
  - intros I HI. destruct (others_in _ _ _ Him HI) as (i & H1 & _ & ->). cbn [fst snd]. destruct (HP i H1) as (_ & _ & ->). destruct (HP im Him) as (_ & _ & ->). apply Hmx, H1.
  - unfold body. fold im. set (m := 1/2 * (al (l_ws s) im + bl (l_ws s) im)). replace ((al (l_ws s) im + bl (l_ws s) im) / 2) with m by (unfold m; field).
    destruct (rule (al (l_ws s) im) m) as [r1 e1]. destruct (rule m (bl (l_ws s) im)) as [r2 e2]. cbn [l_ws]. apply (pieces_update (l_ws s)); [exact Him|reflexivity|reflexivity].
Qed.
Lemma loop_refines rule a b L er ea : forall fuel s s', linv rule a b L s -> (l_iter s < L)%nat -> loop fuel rule er ea s = Some s' ->
  refines (fun I => snd (rule (fst I) (snd I))) (accurate (fun I => fst (rule (fst I) (snd I))) (fun I => snd (rule (fst I) (snd I))) er ea) (pieces (l_ws s)) (pieces (l_ws s')).
Proof.
  induction fuel as [|f IH]; intros s s' I Hl E; [discriminate E|]. cbn [loop] in E. assert (B := body_bisects rule a b L er ea s I Hl). destruct (body_inv rule a b L er ea s I Hl) as (I' & Hi & Ht).
  destruct (continue (body rule er ea s)) eqn:C; [|injection E as <-; apply ref_one, B]. unfold continue in C. apply andb_prop in C. destruct C as [C1 C2]. apply andb_prop in C2. destruct C2 as [_ C2]. apply Nat.ltb_lt in C1.
  apply ref_more with (1 := B); [|apply IH; [exact I'| |exact E]].
  - unfold accurate. destruct (rltb_spec (l_tol (body rule er ea s)) (l_errsum (body rule er ea s))) as [Q|Q]; [|discriminate C2]. rewrite Ht in Q.
    destruct I' as (W' & _ & _ & _ & _ & Ha & He & _). destruct (pieces_rule _ _ _ _ W') as [P1 P2]. rewrite <- P1, <- P2, <- Ha, <- He. lra.
  - destruct I' as (_ & HL' & _). lia.
Qed.
Lemma first_pieces w rule a b : pieces (l_ws (first w rule a b)) = [(a, b)].
Proof. unfold first. destruct (rule a b). reflexivity. Qed.
