From Coq Require Import List Arith Bool Reals Lra Lia.
From Coquelicot Require Import Coquelicot.
From Verif Require Import M_Prep P_Prep M_GradNum.
Import ListNotations.
Open Scope R_scope.

Section Call.
Variable bounds : list (R * R).
Variable power : list R -> option row.
Variable ana : nat -> list R -> option row.

Lemma ana_rows_spec num m : forall is_ t t', NoDup is_ -> ana_rows ana num m is_ t = Some t' ->
  forall i, (In i is_ -> mem i num = false -> ana i m = Some (t' i)) /\ (~ In i is_ \/ mem i num = true -> t' i = t i).
Proof.
  induction is_ as [|j is_ IH]; intros t t' Hn; cbn.
  - intros [= <-] i. split; [tauto|reflexivity].
  - apply NoDup_cons_iff in Hn. destruct Hn as [N1 N2]. destruct (mem j num) eqn:Ej.
    + intros H i. destruct (IH _ _ N2 H i) as [A B]. split.
      * intros [->|Hi] Hm; [congruence|auto].
      * intros [K|K]; apply B; [left; tauto|right; exact K].
    + destruct (ana j m) as [r|] eqn:Er; [|discriminate]. intros H i. destruct (IH _ _ N2 H i) as [A B]. split.
      * intros [->|Hi] Hm; [|auto]. rewrite B by (left; exact N1). now rewrite upd_same.
      * intros K. rewrite B by (destruct K; [left; tauto|right; assumption]). rewrite upd_other; [reflexivity|].
        intros ->. destruct K; [tauto|congruence].
Qed.
Lemma eval_tasks_spec ts : forall rs, eval_tasks bounds power ts = Some rs ->
  length rs = length ts /\ forall j th, nth_error ts j = Some th -> exists r, nth_error rs j = Some r /\ power (clip bounds th) = Some r.
Proof.
  induction ts as [|th ts IH]; intros rs; cbn.
  - intros [= <-]. split; [reflexivity|]. intros [|j] ? H; discriminate.
  - destruct (power (clip bounds th)) as [r|] eqn:E; [|discriminate].
    destruct (eval_tasks bounds power ts) as [rs'|] eqn:E'; [|discriminate]. intros [= <-].
    destruct (IH _ eq_refl) as [A B]. split; [cbn; lia|]. intros [|j] th' H; cbn in *.
    + injection H as <-. eauto.
    + eauto.
Qed.
Lemma assign_spec : forall ii rs t, NoDup ii -> length rs = length ii ->
  (forall j i r, nth_error ii j = Some i -> nth_error rs j = Some r -> assign t ii rs i = r) /\
  (forall i, ~ In i ii -> assign t ii rs i = t i).
Proof.
  induction ii as [|a ii IH]; intros rs t Hn HL; cbn.
  - split; [intros [|j]; discriminate|reflexivity].
  - destruct rs as [|r rs]; [discriminate|]. apply NoDup_cons_iff in Hn. destruct Hn as [N1 N2]. cbn in HL.
    destruct (IH rs (upd t a r) N2 ltac:(lia)) as [A B]. split.
    + intros [|j] i x Hi Hx; cbn in *.
      * injection Hi as <-. injection Hx as <-. rewrite B by exact N1. apply upd_same.
      * eapply A; eauto.
    + intros i Hi. rewrite B by tauto. apply upd_other. intros ->. tauto.
Qed.
Lemma map_nth_error_inv {A B} (f : A -> B) l j b : nth_error (map f l) j = Some b -> exists a, nth_error l j = Some a /\ b = f a.
Proof.
  revert j; induction l as [|x l IH]; intros [|j]; cbn; try discriminate; [intros [= <-]; eauto|apply IH].
Qed.
Lemma nth_error_firstn {A} (l : list A) : forall n j, (j < n)%nat -> nth_error (firstn n l) j = nth_error l j.
Proof. induction l as [|x l IH]; intros [|n] [|j] H; cbn; auto; try lia. apply IH. lia. Qed.
Lemma nth_error_skipn {A} (l : list A) : forall n j, nth_error (skipn n l) j = nth_error l (n + j).
Proof. induction l as [|x l IH]; intros [|n] j; cbn; auto. - now destruct j. Qed.
Lemma nth_error_combine {A B} (a : list A) : forall (b : list B) j x y, nth_error a j = Some x -> nth_error b j = Some y -> nth_error (combine a b) j = Some (x, y).
Proof. induction a as [|u a IH]; intros [|v b] [|j] x y; cbn; try discriminate; [intros [= <-] [= <-]; reflexivity|apply IH]. Qed.

Lemma gcall_rows nk m th eps num M m' : NoDup num -> gcall bounds power ana nk m th eps num = (Ret M, m') ->
  m' = clip bounds th /\ length M = length th /\
  forall i, (i < length th)%nat ->
    exists r, nth_error M i = Some r /\
    (~ In i num -> ana i m = Some r) /\
    (In i num -> exists a b, power (clip bounds (bump th i (eps_at eps i))) = Some a /\
                            power (clip bounds (bump th i (- eps_at eps i))) = Some b /\
                            r = diff_row (eps_at eps i) a b).
Proof.
  intros Hn. unfold gcall. destruct (ana_rows _ _ _ _ _) as [t|] eqn:Ea; [|discriminate].
  destruct (eval_tasks _ _ _) as [rs|] eqn:Er; [|discriminate]. intro H. injection H as HM Hm'.
  subst M m'. split; [reflexivity|]. split; [rewrite map_length, seq_length; reflexivity|].
  intros i Hi. destruct (eval_tasks_spec _ _ Er) as [HL HT]. rewrite app_length, !map_length in HL.
  match goal with |- context [assign t num ?D] => set (d := D) end.
  assert (Hd : length d = length num).
  { unfold d. rewrite map_length, !combine_length, firstn_length, skipn_length. lia. }
  destruct (assign_spec num d t Hn Hd) as [A B].
  exists (assign t num d i). split; [rewrite (map_nth_error _ i (seq 0 (length th)) (d := i)); [reflexivity|]|].
  { rewrite (nth_error_nth' _ 0%nat) by (rewrite seq_length; exact Hi). rewrite seq_nth by exact Hi. reflexivity. }
  destruct (ana_rows_spec _ _ _ _ _ (seq_NoDup (length th) 0) Ea i) as [A1 A2]. split.
  - intro Hni. rewrite B by exact Hni. apply A1; [apply in_seq; lia|apply mem_false; exact Hni].
  - intro Hin. apply In_nth_error in Hin. destruct Hin as [j Hj].
    assert (HjL : (j < length num)%nat) by (apply nth_error_Some; congruence).
    destruct (HT j (bump th i (eps_at eps i))) as [a [Ha1 Ha2]].
    { rewrite nth_error_app1 by (rewrite map_length; exact HjL). rewrite (map_nth_error _ j num Hj). reflexivity. }
    destruct (HT (length num + j)%nat (bump th i (- eps_at eps i))) as [b [Hb1 Hb2]].
    { rewrite nth_error_app2 by (rewrite map_length; lia). rewrite map_length. replace (length num + j - length num)%nat with j by lia.
      rewrite (map_nth_error _ j num Hj). reflexivity. }
    exists a, b. split; [exact Ha2|]. split; [exact Hb2|]. apply (A j i); [exact Hj|]. unfold d.
    rewrite (map_nth_error _ j _ (d := (i, (a, b)))); [reflexivity|]. apply nth_error_combine; [exact Hj|]. apply nth_error_combine.
    + rewrite nth_error_firstn by exact HjL. exact Ha1.
    + rewrite nth_error_skipn. exact Hb1.
Qed.
Lemma gcall_raise nk m th eps num m' : gcall bounds power ana nk m th eps num = (Raise, m') ->
  m' = clip bounds th \/ (m' = m /\ exists i, (i < length th)%nat /\ mem i num = false /\ ana i m = None).
Proof.
  unfold gcall. destruct (ana_rows _ _ _ _ _) as [t|] eqn:Ea.
  - destruct (eval_tasks _ _ _); intros [= <-]; auto.
  - intros [= <-]. right. split; [reflexivity|].
    assert (G : forall is_ t, ana_rows ana num m is_ t = None -> exists i, In i is_ /\ mem i num = false /\ ana i m = None).
    { clear. induction is_ as [|j is_ IH]; intros t; cbn; [discriminate|]. destruct (mem j num) eqn:Ej.
      - intro H. destruct (IH _ H) as [i Hi]. exists i. intuition.
      - destruct (ana j m) eqn:Er; [|intros _; exists j; auto]. intro H. destruct (IH _ H) as [i Hi]. exists i. intuition. }
    destruct (G _ _ Ea) as [i [H1 H2]]. apply in_seq in H1. exists i. split; [lia|exact H2].
Qed.
End Call.

(** bounds not active *)
Definition inside (bs : list (R * R)) (th : list R) : Prop :=
  forall i b v, nth_error bs i = Some b -> nth_error th i = Some v -> fst b <= v <= snd b.
Lemma clip_inside bs th : inside bs th -> clip bs th = th.
Proof.
  revert th; induction bs as [|b bs IH]; intros [|v th] H; cbn; auto. f_equal.
  - specialize (H 0%nat b v eq_refl eq_refl). unfold clip1. destruct (Rlt_dec (snd b) v); [lra|]. destruct (Rlt_dec v (fst b)); [lra|reflexivity].
  - apply IH. intros i b' v' Hb Hv. exact (H (S i) b' v' Hb Hv).
Qed.
Lemma quad_row e (q0 q1 q2 : list R) : e <> 0 -> length q1 = length q0 -> length q2 = length q0 ->
  diff_row e (map (fun q => fst q + fst (snd q) * e + snd (snd q) * (e * e)) (combine q0 (combine q1 q2)))
             (map (fun q => fst q + fst (snd q) * (- e) + snd (snd q) * (- e * - e)) (combine q0 (combine q1 q2))) = q1.
Proof.
  intro He. revert q1 q2; induction q0 as [|a q0 IH]; intros [|b q1] [|c q2]; cbn; try discriminate; [reflexivity|].
  intros H1 H2. unfold diff_row in IH |- *. cbn. f_equal; [field; exact He|]. apply IH; lia.
Qed.
