(** * Proofs about building results *)
From Coq Require Import String List Bool Arith Lia.
From Verif Require Import M_Results S_Results.
Import ListNotations.
Open Scope list_scope.

Section B.
Variable V : Type.
Variable zero : V.
Variable iszero : V -> bool.
Hypothesis Hzero : iszero zero = true.
Notation nz := (fun v => negb (iszero v)).

Lemma rows_concat : forall A len (l : list (list A)), Forall (fun x => length x = len) l -> rows (length l) len (concat l) = l.
Proof.
  intros A len l. induction l as [|x l IH]; intros H; cbn; auto. inversion H; subst. f_equal.
  - rewrite firstn_app, Nat.sub_diag, firstn_all. cbn. now rewrite app_nil_r.
  - rewrite skipn_app, Nat.sub_diag, skipn_all. cbn. auto.
Qed.
Lemma rows_length : forall A f len (l : list A), length (rows f len l) = f.
Proof. induction f; intros; cbn; auto. Qed.
Lemma filter_zeros : forall ndim pad, filter nz (concat (repeat (repeat zero ndim) pad)) = [].
Proof.
  intros ndim pad. assert (H : forall n, filter nz (repeat zero n) = []). { induction n; cbn; auto. now rewrite Hzero. }
  induction pad; cbn; auto. rewrite filter_app, H. auto.
Qed.
Lemma filter_id : forall l, Forall (fun v => iszero v = false) l -> filter nz l = l.
Proof. induction l; intros H; cbn; auto. inversion H; subst. rewrite H2. cbn. f_equal. auto. Qed.
Lemma filter_alloc : forall ndim pad w, filter nz (concat (allocated V zero ndim pad w)) = filter nz (concat w).
Proof. intros. unfold allocated. rewrite concat_app, filter_app, filter_zeros. now rewrite app_nil_r. Qed.
Lemma filter_chain : forall ndim pad run, filter nz (concat (concat (map (allocated V zero ndim pad) run))) = filter nz (concat (concat run)).
Proof.
  intros ndim pad run. induction run as [|w run IH]; cbn; auto. rewrite !concat_app, !filter_app, filter_alloc. now f_equal.
Qed.
Lemma concat_nonzero : forall run, all_nonzero iszero run -> Forall (fun v => iszero v = false) (concat (concat run)).
Proof.
  intros run H. unfold all_nonzero in H. apply Forall_concat. apply Forall_concat in H. auto.
Qed.
Lemma block_length : forall m ndim (run : list (list (list V))), block m ndim run -> length (concat (concat run)) = length run * (m * ndim).
Proof.
  intros m ndim run H. induction run as [|w run IH]; cbn; auto. inversion H as [|? ? [Hw Hs] Hr]; subst. rewrite concat_app, app_length, IH by auto. f_equal.
  clear IH Hr H. induction w; cbn; auto. inversion Hs; subst. rewrite app_length. rewrite IHw by auto. lia.
Qed.
Lemma block_concat : forall m ndim (run : list (list (list V))), block m ndim run -> Forall (fun x => length x = m * ndim) (map (@concat V) run).
Proof.
  intros m ndim run H. apply Forall_map. eapply Forall_impl; [|exact H]. intros w [Hw Hs]. clear H run. subst m.
  induction w; cbn; auto. inversion Hs; subst. rewrite app_length, IHw by auto. lia.
Qed.
Theorem build_exact : forall ndim pad m run, run <> [] -> ndim <> 0 -> block m ndim run -> all_nonzero iszero run ->
  nonzero_chain V iszero (length run) ndim (map (allocated V zero ndim pad) run) = Ok run.
Proof.
  intros ndim pad m run Hr Hd Hb Hz. unfold nonzero_chain. rewrite filter_chain, (filter_id _ (concat_nonzero _ Hz)), (block_length m ndim) by auto.
  assert (Hp : length run * ndim <> 0). { destruct run; [congruence|]. cbn. lia. }
  destruct (Nat.eqb_spec (length run * ndim) 0) as [E|_]; [congruence|].
  replace (length run * (m * ndim)) with (m * (length run * ndim)) by lia. rewrite Nat.mod_mul, Nat.div_mul by auto. cbn [Nat.eqb]. f_equal.
  replace (concat (concat run)) with (concat (map (@concat V) run)) by (clear; induction run; cbn; auto; rewrite concat_app; now f_equal).
  rewrite <- (map_length (@concat V) run) at 1. rewrite rows_concat by (now apply block_concat). rewrite map_map.
  clear Hr Hz Hp. induction Hb as [|w run [Hw Hs] Hb IH]; cbn; auto. f_equal; auto. subst m. now apply rows_concat.
Qed.
Lemma in_rows : forall A f len (l : list A) r v, In r (rows f len l) -> In v r -> In v l.
Proof.
  induction f; intros len l r v H1 H2; cbn in H1; [destruct H1|]. destruct H1 as [<-|H1].
  - rewrite <- (firstn_skipn len l). apply in_or_app. auto.
  - rewrite <- (firstn_skipn len l). apply in_or_app. right. eauto.
Qed.
(** nothing that was zero survives *)
Theorem build_no_zero : forall walkers ndim x r, nonzero_chain V iszero walkers ndim x = Ok r -> all_nonzero iszero r.
Proof.
  intros walkers ndim x r H. unfold nonzero_chain in H. destruct (_ =? 0)%nat; [discriminate|]. destruct (_ =? 0)%nat; [|discriminate].
  injection H as <-. unfold all_nonzero. apply Forall_forall. intros w Hw. apply Forall_forall. intros s Hs. apply Forall_forall. intros v Hv.
  apply in_map_iff in Hw. destruct Hw as (l & <- & Hl). assert (K := in_rows _ _ _ _ _ _ Hs Hv). assert (K' := in_rows _ _ _ _ _ _ Hl K).
  apply filter_In in K'. destruct K' as [_ K']. now apply negb_true_iff in K'.
Qed.
Theorem lnprobs_exact : forall pad m run, run <> [] -> Forall (fun w => length w = m) run -> Forall (Forall (fun v => iszero v = false)) run ->
  nonzero_lnprobs V iszero (length run) (map (fun w => w ++ repeat zero pad) run) = Ok run.
Proof.
  intros pad m run Hr Hb Hz. unfold nonzero_lnprobs.
  assert (E : filter nz (concat (map (fun w => w ++ repeat zero pad) run)) = concat run).
  { clear Hr Hb. induction Hz as [|w run Hw Hz IH]; cbn; auto. rewrite !filter_app, IH, (filter_id w Hw).
    replace (filter nz (repeat zero pad)) with (@nil V). { now rewrite app_nil_r. } clear - Hzero. induction pad; cbn; auto. now rewrite Hzero. }
  rewrite E. assert (L : length (concat run) = m * length run). { clear -Hb. induction Hb; cbn; auto. rewrite app_length, IHHb. lia. }
  destruct (Nat.eqb_spec (length run) 0) as [K|K]; [destruct run; cbn in K; congruence|]. rewrite L, Nat.mod_mul, Nat.div_mul by auto. cbn [Nat.eqb].
  f_equal. now apply rows_concat.
Qed.

Section Con.
Variable PS : Type.
Variable assign : PS -> list V -> PS.
Variable read : PS -> list V.
Variable f : list V -> list V.
Hypothesis Hf : forall st th, read (assign st th) = f th.
Lemma con_walkers_map : forall ths st, snd (con_walkers V PS assign read st ths) = map f ths.
Proof.
  induction ths; intros; cbn; auto. specialize (IHths (assign st a)). destruct (con_walkers _ _ _ _ _ _); cbn in *. rewrite Hf. now f_equal.
Qed.
Lemma con_iters_map : forall ns st ch, snd (con_iters V PS assign read st ch ns) = map (fun n => map f (map (fun w => nth n w []) ch)) ns.
Proof.
  induction ns; intros; cbn; auto. assert (W := con_walkers_map (map (fun w => nth a w []) ch) st). destruct (con_walkers _ _ _ _ _ _) as [st' r]. cbn in *.
  specialize (IHns st' ch). destruct (con_iters _ _ _ _ _ _ _); cbn in *. now subst.
Qed.
Theorem constrained_chain_exact : forall ch m st, Forall (fun w => length w = m) ch ->
  constrained_chain V PS assign read st ch = map (map f) ch.
Proof.
  intros ch m st H. unfold constrained_chain. rewrite con_iters_map.
  assert (Hm : forall w, In w ch -> length w = length (hd [] ch)).
  { intros w Hw. rewrite Forall_forall in H. destruct ch as [|w0 ch]; [destruct Hw|]. cbn. rewrite (H w), (H w0); cbn; auto. }
  set (niter := length (hd [] ch)) in *.
  apply nth_ext with (d := []) (d' := []). { now rewrite !map_length, seq_length. }
  rewrite map_length, seq_length. intros w Hw.
  rewrite (nth_indep _ [] (map (fun n => nth 0 (nth n (map (fun n0 => map f (map (fun w0 => nth n0 w0 []) ch)) (seq 0 niter)) []) []) (seq 0 niter))) by (now rewrite map_length, seq_length).
  rewrite (map_nth (fun w => map (fun n => nth w (nth n (map (fun n0 => map f (map (fun w0 => nth n0 w0 []) ch)) (seq 0 niter)) []) []) (seq 0 niter)) (seq 0 (length ch)) 0).
  rewrite seq_nth by auto. cbn [plus].
  rewrite (nth_indep (map (map f) ch) [] (map f [])) by (now rewrite map_length). rewrite map_nth.
  assert (L : length (nth w ch []) = niter) by (apply Hm; now apply nth_In).
  apply nth_ext with (d := []) (d' := f []). { now rewrite !map_length, seq_length. }
  rewrite map_length, seq_length. intros n Hn.
  rewrite (nth_indep _ [] ((fun n => nth w (nth n (map (fun n0 => map f (map (fun w0 => nth n0 w0 []) ch)) (seq 0 niter)) []) []) 0)) by (now rewrite map_length, seq_length).
  rewrite (map_nth (fun n => nth w (nth n (map (fun n0 => map f (map (fun w0 => nth n0 w0 []) ch)) (seq 0 niter)) []) []) (seq 0 niter) 0). rewrite seq_nth by auto. cbn [plus].
  rewrite (nth_indep (map (fun n0 => map f (map (fun w0 => nth n0 w0 []) ch)) (seq 0 niter)) [] ((fun n0 => map f (map (fun w0 => nth n0 w0 []) ch)) 0)) by (now rewrite map_length, seq_length).
  rewrite (map_nth (fun n0 => map f (map (fun w0 => nth n0 w0 []) ch)) (seq 0 niter) 0). rewrite seq_nth by auto. cbn [plus].
  rewrite map_map. rewrite (nth_indep _ [] ((fun x => f (nth n x [])) [])) by (now rewrite map_length).
  rewrite (map_nth (fun x => f (nth n x [])) ch []). rewrite map_nth. reflexivity.
Qed.
End Con.
End B.
