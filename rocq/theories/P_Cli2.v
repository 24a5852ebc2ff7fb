(** * Proofs about histories of commands, and about the processes of a run *)
From Coq Require Import ZArith Bool Ascii String Lia Arith.
From Coq Require Import List.
From Verif Require Import M_Cli S_Cli P_Cli.
Import ListNotations.

Section Histories.
Local Open Scope string_scope.
Variable int_of : string -> option Z.
Variable folder_of : string -> string.
Variable model_dir : string -> option string.
(** nothing that exists goes away or changes its kind *)
Definition grows (f f' : fs) : Prop := forall p k, f p = Some k -> f' p = Some k.
Lemma grows_refl f : grows f f. Proof. intros p k H. exact H. Qed.
Lemma grows_trans f g h : grows f g -> grows g h -> grows f h. Proof. intros A B p k H. auto. Qed.
Lemma write_grows f p f' : write f p = Some f' -> grows f f'.
Proof.
  unfold write. destruct (isdir f p) eqn:E; [discriminate|]. intros Q. inversion Q; subst. apply isdir_false in E. intros q k Hq. destruct (string_dec q p) as [->|N].
  - rewrite set_same. destruct k; congruence. - rewrite set_other; auto.
Qed.
Lemma made_grows f f' l : made f f' l -> grows f f'.
Proof. intros (_ & H & _) p k Hp. rewrite H; congruence. Qed.
Lemma start_grows f c : grows f (snd (start int_of folder_of model_dir f c)).
Proof.
  unfold start. assert (D := parse_describes int_of folder_of f c). destruct (parse int_of folder_of f c) as [| |f1|n f1]; cbn [snd]; try apply grows_refl.
  - destruct D as (_ & -> & _). apply grows_refl.
  - destruct D as (_ & _ & _ & M & _). assert (G := made_grows _ _ _ M). destruct (initialize model_dir f1 n) as [[[p s] save]|]; [|exact G].
    destruct (match save with Some m => write f1 m | None => Some f1 end) as [f2|] eqn:E; [|exact G].
    assert (G2 : grows f f2). { eapply grows_trans; [exact G|]. destruct save; [eapply write_grows; eauto|inversion E; apply grows_refl]. }
    destruct (n_mode n); try exact G2; (destruct (write f2 (join (n_folder n) params_filename)) as [f3|] eqn:E3; [eapply grows_trans; [exact G2|eapply write_grows; eauto]|exact G2]).
Qed.
Lemma starts_grows cs : forall f, grows f (starts int_of folder_of model_dir f cs).
Proof. induction cs as [|c cs IH]; intros f; cbn [starts]; [apply grows_refl|]. eapply grows_trans; [apply start_grows|apply IH]. Qed.
Lemma grows_some f f' p : grows f f' -> f p <> None -> f' p <> None.
Proof. intros G H. destruct (f p) as [k|] eqn:E; [|congruence]. rewrite (G p k E). discriminate. Qed.

Lemma start_uses f c d p s : c_mode c <> Restart -> c_folder c = Some d -> f d = Some Dir -> f (join d "params.dat") <> None ->
  fst (start int_of folder_of model_dir f c) = Some (p, s) ->
  p = join d "params.dat" /\ (forall m, c_model c = Some m -> s = Load m) /\ (c_model c = None -> f (join d "model.npy") <> None -> s = Load (join d "model.npy")) /\
  (c_model c = None -> f (join d "model.npy") = None -> s = Init).
Proof.
  intros Hm Hd H1 H2. unfold start. assert (D := parse_describes int_of folder_of f c). destruct (parse int_of folder_of f c) as [| |f1|n f1]; cbn [fst]; try discriminate.
  destruct D as (_ & Hn & _ & M & S).
  assert (S' : c_folder c = Some (n_folder n) /\ params_used f c (n_folder n) (n_params n) /\ model_used f c (n_folder n) (n_model n) /\ f1 (n_folder n) = Some Dir)
    by (destruct (c_mode c); try congruence; tauto).
  clear S. destruct S' as (S1 & S2 & S3 & S4). rewrite Hd in S1. inversion S1; subst d. assert (G := made_grows _ _ _ M).
  assert (P : n_params n = join (n_folder n) "params.dat") by (inversion S2; auto; tauto).
  assert (E1 : exists_ f1 (join (n_folder n) params_filename) = true) by (apply exists_iff; eapply grows_some; eauto).
  assert (E2 : isdir f1 (n_folder n) = true) by (apply isdir_iff; auto).
  assert (IN : initialize model_dir f1 n = option_map (fun r => (r, None)) (from_directory f1 (n_folder n) (n_model n) true)).
  { unfold initialize. rewrite Hn. destruct (c_mode c); try congruence; rewrite P, E2; unfold params_filename in *; rewrite String.eqb_refl, E1; reflexivity. }
  rewrite IN. unfold from_directory. rewrite E2, E1. cbn [negb].
  destruct (n_model n) as [m|] eqn:EM.
  - destruct (exists_ f1 m); cbn [negb option_map]; [|discriminate].
    assert (R : (p, s) = (join (n_folder n) "params.dat", Load m) -> p = join (n_folder n) "params.dat" /\ (forall m, c_model c = Some m -> s = Load m) /\
       (c_model c = None -> f (join (n_folder n) "model.npy") <> None -> s = Load (join (n_folder n) "model.npy")) /\ (c_model c = None -> f (join (n_folder n) "model.npy") = None -> s = Init)).
    { intros Q. inversion Q; subst p s. split; auto. inversion S3 as [m' K|K1 K2 K3 K4|]; subst.
      - split; [intros m0 Q0; congruence|]. split; intros; congruence.
      - split; [intros; congruence|]. split; [auto|]. intros _ Q4. congruence. }
    intros Q. apply R. revert Q. destruct (n_mode n); cbn [fst]; (try (destruct (write f1 (join (n_folder n) params_filename)); cbn [fst])); intros Q; try discriminate; inversion Q; reflexivity.
  - cbn [option_map]. inversion S3; subst.
    intros Q. assert (Q' : (p, s) = (join (n_folder n) "params.dat", Init)).
    { revert Q. destruct (n_mode n); cbn [fst]; (try (destruct (write f1 (join (n_folder n) params_filename)); cbn [fst])); intros Q; try discriminate; inversion Q; reflexivity. }
    inversion Q'; subst p s. split; auto. split; [intros; congruence|]. split; [intros _ Q2; exfalso; auto|auto].
Qed.

(** joining one folder with different names *)
Lemma append_inj (a b c : string) : a ++ b = a ++ c -> b = c. Proof. induction a as [|x a IH]; cbn; intros H; auto. inversion H. auto. Qed.
Lemma append_assoc (a b c : string) : (a ++ b) ++ c = a ++ (b ++ c). Proof. induction a as [|x a IH]; cbn; auto. now rewrite IH. Qed.
Lemma join_plain d : exists a, forall x, starts_slash x = false -> join d x = a ++ x.
Proof.
  unfold join. destruct ((d =? "") || ends_slash d); [exists d|exists (d ++ "/")]; intros x ->; auto. rewrite append_assoc. reflexivity.
Qed.
Lemma join_inj d x y : starts_slash x = false -> starts_slash y = false -> join d x = join d y -> x = y.
Proof. intros Hx Hy H. destruct (join_plain d) as [a J]. rewrite J, J in H by auto. eapply append_inj; eauto. Qed.

(** a run in a folder with a parameter file saves no model *)
Lemma start_no_model f c d : c_mode c <> Restart -> c_folder c = Some d -> f d = Some Dir -> f (join d "params.dat") <> None -> f (join d "model.npy") = None -> join d "model.npy" <> d ->
  snd (start int_of folder_of model_dir f c) (join d "model.npy") = None.
Proof.
  intros Hm Hd H1 H2 H3 ND. unfold start. assert (D := parse_describes int_of folder_of f c). destruct (parse int_of folder_of f c) as [| |f1|n f1]; cbn [snd]; auto.
  { destruct D as (_ & -> & _). auto. }
  destruct D as (_ & Hn & _ & M & S).
  assert (S' : c_folder c = Some (n_folder n) /\ params_used f c (n_folder n) (n_params n) /\ f1 (n_folder n) = Some Dir) by (destruct (c_mode c); try congruence; tauto).
  clear S. destruct S' as (S1 & S2 & S4). rewrite Hd in S1. inversion S1; subst d. assert (G := made_grows _ _ _ M).
  assert (P : n_params n = join (n_folder n) "params.dat") by (inversion S2; auto; tauto).
  assert (E1 : exists_ f1 (join (n_folder n) params_filename) = true) by (apply exists_iff; eapply grows_some; eauto).
  assert (E2 : isdir f1 (n_folder n) = true) by (apply isdir_iff; auto).
  assert (IN : initialize model_dir f1 n = option_map (fun r => (r, None)) (from_directory f1 (n_folder n) (n_model n) true)).
  { unfold initialize. rewrite Hn. destruct (c_mode c); try congruence; rewrite P, E2; unfold params_filename in *; rewrite String.eqb_refl, E1; reflexivity. }
  assert (NM : f1 (join (n_folder n) "model.npy") = None).
  { destruct M as (_ & _ & M & _). rewrite M; auto. intros K.
    assert (K' : n_folder n = join (n_folder n) "model.npy" \/ join (n_folder n) "logs" = join (n_folder n) "model.npy").
    { destruct (c_mode c); try congruence; destruct K as [K|[K|[]]]; auto. }
    destruct K' as [K'|K']; [congruence|]. apply join_inj in K'; [discriminate| |]; reflexivity. }
  rewrite IN. destruct (from_directory f1 (n_folder n) (n_model n) true) as [[p s]|]; cbn [option_map snd]; auto.
  assert (W : forall f3, write f1 (join (n_folder n) params_filename) = Some f3 -> f3 (join (n_folder n) "model.npy") = None).
  { intros f3 Q. unfold write in Q. destruct (isdir f1 (join (n_folder n) params_filename)); inversion Q. rewrite set_other; auto. intros K. apply join_inj in K; [discriminate| |]; reflexivity. }
  destruct (n_mode n); cbn [snd]; auto; destruct (write f1 (join (n_folder n) params_filename)) as [f3|] eqn:E3; cbn [snd]; auto.
Qed.
End Histories.

Section Processes.
Context {block : Type}.
Notation world := (world block).
Lemma upd_same (l : list (pc block)) i p : i < length l -> nth_error (upd block l i p) i = Some p.
Proof. revert i. induction l as [|q l IH]; intros [|i] H; cbn in *; try lia; auto. apply IH. lia. Qed.
Lemma upd_other (l : list (pc block)) i j p : i <> j -> nth_error (upd block l i p) j = nth_error l j.
Proof. revert i j. induction l as [|q l IH]; intros [|i] [|j] H; cbn; auto; try congruence. Qed.
Lemma upd_length (l : list (pc block)) i p : length (upd block l i p) = length l.
Proof. revert i. induction l as [|q l IH]; intros [|i]; cbn; auto. Qed.
Lemma upd_nth l i p j q : nth_error (upd block l i p) j = Some q -> (i = j /\ q = p /\ i < length l) \/ (i <> j /\ nth_error l j = Some q).
Proof.
  intros H. destruct (Nat.eq_dec i j) as [->|N].
  - left. assert (L : j < length l). { rewrite <- (upd_length l j p). apply nth_error_Some. congruence. }
    rewrite upd_same in H by auto. inversion H. auto.
  - right. rewrite upd_other in H by auto. auto.
Qed.

Definition ended (p : pc block) : Prop := match p with At_barrier _ _ | Failed _ => True | _ => False end.
Lemma exec_inv j (P : world -> Prop) : (forall w i w', P w -> step block j w i = Some w' -> P w') -> forall sched w, P w -> P (exec block j w sched).
Proof.
  intros H sched. induction sched as [|i sched IH]; intros w Hw; cbn [exec]; auto. apply IH. destruct (step block j w i) eqn:E; auto. eapply H; eauto.
Qed.
Lemma world0_nth n file i q : nth_error (ranks block (world0 block n file)) i = Some q -> (i = 0 /\ q = Parsing block) \/ (0 < i <= n /\ q = Waiting_bcast block).
Proof.
  destruct i as [|i]; cbn; intros H; [inversion H; auto|]. right. assert (L : i < n). { rewrite <- (repeat_length (Waiting_bcast block) n). apply nth_error_Some. congruence. }
  rewrite nth_error_repeat in H by auto. inversion H. split; [lia|auto].
Qed.

(** a rejected command line *)
Lemma rejected_waits j n file sched i : accepted block j = false -> 0 < i <= n -> nth_error (ranks block (exec block j (world0 block n file) sched)) i = Some (Waiting_bcast block).
Proof.
  intros Hj Hi.
  apply (exec_inv j (fun w => sent block w = false /\ (nth_error (ranks block w) 0 = Some (Parsing block) \/ nth_error (ranks block w) 0 = Some (Failed block)) /\
    (forall k, 0 < k <= n -> nth_error (ranks block w) k = Some (Waiting_bcast block)) /\ forall k, n < k -> nth_error (ranks block w) k = None)); auto.
  - intros w k w' (H1 & H2 & H3 & H4) S. unfold step in S. destruct (Nat.eq_dec k 0) as [->|Nk].
    + destruct H2 as [H2|H2]; rewrite H2 in S; [|discriminate]. rewrite Hj in S. inversion S; subst; cbn [ranks sent]. split; auto. split; [right; apply upd_same; apply nth_error_Some; rewrite H2; discriminate|].
      split; intros m Hm; rewrite upd_other by lia; auto.
    + destruct (le_lt_dec k n) as [L|L]; [rewrite (H3 k) in S by lia; rewrite H1 in S; discriminate|rewrite (H4 k) in S by lia; discriminate].
  - cbn. split; auto. split; auto. split.
    + intros [|k] Hk; [lia|]. cbn. apply nth_error_repeat. lia.
    + intros [|k] Hk; [lia|]. cbn. apply nth_error_None. rewrite repeat_length. lia.
Qed.

(** an accepted command line, or one process: whoever cannot move has ended *)
Definition stuck j (w : world) : Prop := forall i, step block j w i = None.
Definition settled j (w : world) (i : nat) (p : pc block) : Prop :=
  match p with
  | Parsing _ => i = 0 /\ sent block w = false
  | Waiting_bcast _ => 0 < i
  | Failed _ => accepted block j = false \/ fits block j = false
  | _ => accepted block j = true /\ fits block j = true
  end.
Definition state_ok j n (w : world) : Prop :=
  length (ranks block w) = S n /\ (forall i p, nth_error (ranks block w) i = Some p -> settled j w i p) /\
  (sent block w = false -> nth_error (ranks block w) 0 = Some (Parsing block) \/ accepted block j = false) /\ (sent block w = true -> accepted block j = true).
Lemma after_settled j w i : accepted block j = true -> settled j w i (after_create block j).
Proof. intros H. unfold after_create. destruct (fits block j) eqn:E; cbn; auto. Qed.
Lemma state_init j n file : state_ok j n (world0 block n file).
Proof.
  split; [cbn; rewrite repeat_length; auto|]. split; [|split; [left; reflexivity|cbn; discriminate]].
  intros i p H. apply world0_nth in H. destruct H as [[-> ->]|[Hi ->]]; cbn; auto. lia.
Qed.
Lemma settled_sent j r t s r' t' s' i p : (s = s' \/ i <> 0) -> settled j {| ranks := r; target := t; sent := s |} i p -> settled j {| ranks := r'; target := t'; sent := s' |} i p.
Proof. intros [->|Hi]; destruct p; cbn; auto. intros [K _]. contradiction. Qed.
Lemma state_upd j n w i q t s : state_ok j n w -> i < S n -> (s = sent block w \/ i = 0) -> (forall r, settled j {| ranks := r; target := t; sent := s |} i q) ->
  (s = false -> nth_error (ranks block w) 0 = Some (Parsing block) -> (i = 0 -> accepted block j = false)) -> (s = true -> accepted block j = true) -> (sent block w = true -> s = true) ->
  state_ok j n {| ranks := upd block (ranks block w) i q; target := t; sent := s |}.
Proof.
  intros (H1 & H2 & H3 & H4) Hi Hs Hq Hf Ha Hm. split; [cbn; rewrite upd_length; auto|]. split; [|split; auto].
  - intros k p H. cbn [ranks] in H. apply upd_nth in H. destruct H as [(-> & -> & _)|[N H]]; auto. specialize (H2 k p H). destruct w as [r0 t0 s0]. cbn in *.
    eapply settled_sent; [|exact H2]. destruct Hs as [-> | ->]; [left; auto|right; lia].
  - cbn [ranks sent]. intros Q. destruct (Nat.eq_dec i 0) as [->|N].
    + right. destruct H3 as [H3|H3]; auto. destruct (sent block w); auto. specialize (Hm eq_refl). congruence.
    + rewrite upd_other by auto. apply H3. destruct (sent block w); auto; try (specialize (Hm eq_refl); congruence).
Qed.
Lemma state_step j n w i w' : state_ok j n w -> step block j w i = Some w' -> state_ok j n w'.
Proof.
  intros HO S. assert (HO' := HO). destruct HO' as (H1 & H2 & H3 & H4). unfold step in S. destruct (nth_error (ranks block w) i) as [p|] eqn:E; [|discriminate].
  assert (LI : i < Datatypes.S n) by (rewrite <- H1; apply nth_error_Some; rewrite E; discriminate). assert (SP := H2 i p E).
  destruct p as [| | |own todo|own|]; cbn in SP; try discriminate.
  - destruct SP as [-> SP]. destruct (accepted block j) eqn:EA; inversion S; subst.
    + apply state_upd; auto. intros r. apply after_settled. auto. intros; discriminate.
    + apply state_upd; auto; [intros r; cbn; auto|]. intros Q. rewrite SP in Q. discriminate.
  - destruct (sent block w) eqn:ES; inversion S; subst. rewrite <- ES. apply state_upd; auto; try (intros r; apply after_settled; auto); intros _ _ ->; cbn in SP; lia.
  - destruct i as [|i]; inversion S; subst; apply state_upd; auto; try (intros r; cbn; auto; fail); try (intros _ _ Q; discriminate); try (intros _ Q; congruence).
  - assert (SW : forall t q, (forall r, settled j {| ranks := r; target := t; sent := sent block w |} i q) ->
       state_ok j n {| ranks := upd block (ranks block w) i q; target := t; sent := sent block w |}).
    { intros t q Hq. apply state_upd; auto. intros _ Q ->. congruence. }
    destruct todo as [|b bs]; inversion S; subst; apply SW; intros r; cbn; auto.
Qed.
Lemma no_deadlock j n file sched : accepted block j = true \/ n = 0 -> let w := exec block j (world0 block n file) sched in
  stuck j w -> length (ranks block w) = S n /\ forall i p, nth_error (ranks block w) i = Some p -> ended p /\ (p = Failed block <-> accepted block j = false \/ fits block j = false).
Proof.
  intros Hj w St. assert (HO : state_ok j n w) by (apply exec_inv; [intros; eapply state_step; eauto|apply state_init]). destruct HO as (H1 & H2 & H3 & H4).
  split; auto. intros i p E. assert (SP := H2 i p E). assert (T := St i). unfold step in T. rewrite E in T.
  assert (E0 : i <> 0 -> nth_error (ranks block w) 0 <> Some (Parsing block)).
  { intros _ Q. assert (T0 := St 0). unfold step in T0. rewrite Q in T0. destruct (accepted block j); discriminate. }
  destruct p as [| | |own todo|own|]; cbn in SP.
  - destruct (accepted block j); discriminate.
  - exfalso. destruct (sent block w) eqn:ES; [discriminate|]. destruct (H3 eq_refl) as [Q|Q]; [apply E0; auto; lia|]. destruct Hj as [Hj|Hj]; [congruence|].
    assert (i < length (ranks block w)) by (apply nth_error_Some; rewrite E; discriminate). lia.
  - destruct i; discriminate.
  - destruct todo; discriminate.
  - split; [cbn; auto|]. destruct SP as [-> ->]. split; [discriminate|intros [Q|Q]; discriminate].
  - split; [cbn; auto|]. split; auto.
Qed.

(** what the processes read *)
Lemma same_parameters j n file c sched : (other block j = Some c \/ (n = 0 /\ other block j = None /\ c = file)) -> forall i own,
  (exists todo, nth_error (ranks block (exec block j (world0 block n file) sched)) i = Some (Writing block own todo)) \/ nth_error (ranks block (exec block j (world0 block n file) sched)) i = Some (At_barrier block own) ->
  own = c.
Proof.
  intros Hj.
  assert (Inv : let w := exec block j (world0 block n file) sched in length (ranks block w) = S n /\
     (forall i p, nth_error (ranks block w) i = Some p -> match p with Writing _ own _ => own = c /\ i = 0 | At_barrier _ own => own = c | _ => i = 0 -> other block j = None -> target block w = file end)).
  { apply (exec_inv j (fun w => length (ranks block w) = S n /\
     (forall i p, nth_error (ranks block w) i = Some p -> match p with Writing _ own _ => own = c /\ i = 0 | At_barrier _ own => own = c | _ => i = 0 -> other block j = None -> target block w = file end))).
    2:{ split; [cbn; rewrite repeat_length; auto|]. intros i p H. apply world0_nth in H. destruct H as [[-> ->]|[Hi ->]]; cbn; auto. }
    intros w i w' (H1 & H2) S. unfold step in S. destruct (nth_error (ranks block w) i) as [p|] eqn:E; [|discriminate].
    assert (LI : i < Datatypes.S n) by (rewrite <- H1; apply nth_error_Some; rewrite E; discriminate). assert (SP := H2 i p E).
    assert (SW : forall q t s, (t = target block w \/ (i = 0 /\ match q with Writing _ _ _ => True | _ => False end)) -> (match q with Writing _ own _ => own = c /\ i = 0 | At_barrier _ own => own = c | _ => i = 0 -> other block j = None -> t = file end) ->
       length (ranks block {| ranks := upd block (ranks block w) i q; target := t; sent := s |}) = Datatypes.S n /\
       forall k p, nth_error (ranks block {| ranks := upd block (ranks block w) i q; target := t; sent := s |}) k = Some p ->
         match p with Writing _ own _ => own = c /\ k = 0 | At_barrier _ own => own = c | _ => k = 0 -> other block j = None -> target block {| ranks := upd block (ranks block w) i q; target := t; sent := s |} = file end).
    { intros q t s Ht Hq. cbn [ranks target]. rewrite upd_length. split; auto. intros k p' H. apply upd_nth in H. destruct H as [(-> & -> & _)|[N H]]; [exact Hq|].
      specialize (H2 k p' H). destruct Ht as [->|[-> Ht]]; [exact H2|]. destruct p'; auto; intros K; exfalso; lia. }
    destruct p as [| | |own todo|own|]; cbn in SP; try discriminate.
    - destruct (accepted block j); inversion S; subst; apply SW; auto; unfold after_create; destruct (fits block j); auto.
    - destruct (sent block w) eqn:ES; inversion S; subst. apply SW; auto. unfold after_create; destruct (fits block j); auto.
    - assert (RD : match other block j with Some x => x | None => target block w end = c).
      { destruct Hj as [->|(-> & Hn & ->)]; auto. rewrite Hn. apply SP; auto. lia. }
      rewrite RD in S. clear RD. destruct i as [|i]; injection S as <-; apply SW; auto.
    - destruct todo as [|b bs]; inversion S; subst; apply SW; auto; try tauto. }
  destruct Inv as (_ & Inv). intros i own [[todo H]|H]; apply (Inv i _ H).
Qed.
End Processes.
