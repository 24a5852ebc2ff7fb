From Coq Require Import Reals List Bool Arith Lra Lia.
From Coquelicot Require Import Coquelicot.
From Verif Require Import M_Prior M_Lbfgs M_Driver S_Params S_Lbfgs S_Driver P_Prior P_Lbfgs P_Driver.
Import ListNotations.
Open Scope R_scope.

Lemma is_derive_sum n (f : nat -> R -> R) x (f' : nat -> R) : (forall i, (i < n)%nat -> is_derive (f i) x (f' i)) ->
  is_derive (fun t => S_Lbfgs.sum n (fun i => f i t)) x (S_Lbfgs.sum n f').
Proof.
  induction n; intros H; cbn.
  - apply @is_derive_const.
  - apply (is_derive_plus (fun t => S_Lbfgs.sum n (fun i => f i t)) (f n)); [apply IHn; intros; apply H; lia|apply H; lia].
Qed.
Lemma is_derive_eq (f : R -> R) x a b : is_derive f x a -> a = b -> is_derive f x b.
Proof. now intros H <-. Qed.
Lemma quad_derive N C (p : R -> list R) d x (g : list R) : (forall a, (a < N)%nat -> is_derive (fun t => e (p t) a) x (e g a)) ->
  symmetric N C ->
  is_derive (fun t => / 2 * quad N C (p t) d) x (S_Lbfgs.sum N (fun a => S_Lbfgs.sum N (fun b => entry C a b * (e (p x) b - e d b)) * e g a)).
Proof.
  intros H HC. unfold quad.
  eapply is_derive_eq.
  - apply (is_derive_scal (fun t => S_Lbfgs.sum N (fun i => S_Lbfgs.sum N (fun j => (e (p t) i - e d i) * entry C i j * (e (p t) j - e d j)))) x (/2)).
    apply (is_derive_sum N (fun i t => S_Lbfgs.sum N (fun j => (e (p t) i - e d i) * entry C i j * (e (p t) j - e d j)))). intros i Hi.
    apply (is_derive_sum N (fun j t => (e (p t) i - e d i) * entry C i j * (e (p t) j - e d j)) x
             (fun j => e g i * (entry C i j * (e (p x) j - e d j)) + e g j * ((e (p x) i - e d i) * entry C i j))). intros j Hj.
    eapply is_derive_eq.
    + apply (is_derive_mult (fun t => (e (p t) i - e d i) * entry C i j) (fun t => e (p t) j - e d j) x); [| |intros; apply Rmult_comm].
      * apply (is_derive_ext (fun t => entry C i j * (e (p t) i - e d i))); [intros; apply Rmult_comm|].
        apply (is_derive_scal (fun t => e (p t) i - e d i)). apply (is_derive_minus (fun t => e (p t) i) (fun _ => e d i)); [apply H; auto|apply @is_derive_const].
      * apply (is_derive_minus (fun t => e (p t) j) (fun _ => e d j)); [apply H; auto|apply @is_derive_const].
    + unfold minus, plus, opp, zero, scal, mult; cbn; unfold mult; cbn. ring.
  - cbn. assert (E : forall i, (i < N)%nat -> S_Lbfgs.sum N (fun j => e g i * (entry C i j * (e (p x) j - e d j)) + e g j * ((e (p x) i - e d i) * entry C i j)) =
       S_Lbfgs.sum N (fun b => entry C i b * (e (p x) b - e d b)) * e g i + S_Lbfgs.sum N (fun j => e g j * ((e (p x) i - e d i) * entry C i j))).
    { intros i Hi. rewrite P_Lbfgs.sum_plus. f_equal. rewrite <- sum_scal_r. apply sum_ext; intros; ring. }
    rewrite (@sum_ext N _ _ E). rewrite P_Lbfgs.sum_plus.
    assert (E2 : S_Lbfgs.sum N (fun i => S_Lbfgs.sum N (fun j => e g j * ((e (p x) i - e d i) * entry C i j))) =
                 S_Lbfgs.sum N (fun a => S_Lbfgs.sum N (fun b => entry C a b * (e (p x) b - e d b)) * e g a)).
    { rewrite sum_swap. apply sum_ext; intros j Hj. rewrite <- sum_scal_r. apply sum_ext; intros i Hi. rewrite (HC i j) by auto. ring. }
    rewrite E2. lra.
Qed.

Definition smooth_prior (ss : list pspec) (th : list R) : R := total (map (fun sx => lnval (lnprior (fst sx) (snd sx))) (combine ss th)).
Definition smooth_ok (s : pspec) : Prop := pana s = true /\ prior_ok s /\ (forall m sg, pprior s = Norm m sg -> sg <> 0).

Lemma smooth_derive ss : forall th i, length th = length ss -> List.Forall smooth_ok ss -> (i < length ss)%nat ->
  is_derive (fun t => smooth_prior ss (setnth th i t)) (e th i) (e (dlnprior_at ss th) i).
Proof.
  unfold smooth_prior, dlnprior_at. induction ss as [|s ss IH]; intros [|x th] [|i] Hl Hs Hi; cbn in Hl, Hi; try lia; inversion Hs as [|? ? (A & B & D) Hs']; subst.
  - cbn. eapply is_derive_eq.
    + apply (is_derive_plus (fun t => lnval (lnprior s t)) (fun _ => total (map (fun sx => lnval (lnprior (fst sx) (snd sx))) (combine ss th)))); [apply dlnprior_ok; auto|apply @is_derive_const].
    + unfold plus, zero; cbn. lra.
  - cbn. eapply is_derive_eq.
    + apply (is_derive_plus (fun _ => lnval (lnprior s x)) (fun t => total (map (fun sx => lnval (lnprior (fst sx) (snd sx))) (combine ss (setnth th i t))))); [apply @is_derive_const|apply IH; auto; lia].
    + unfold plus, zero; cbn. unfold e. lra.
Qed.
Lemma setnth_same l : forall i, (i < length l)%nat -> setnth l i (e l i) = l.
Proof. unfold e. induction l as [|x l IH]; intros [|i] H; cbn in *; try lia; auto. f_equal. apply IH. lia. Qed.
Lemma len_vscale c v : length (vscale c v) = length v. Proof. apply len_scale. Qed.

Lemma e_grad_rows G v i : (i < length G)%nat -> e (grad_rows G v) i = dot v (nth i G []).
Proof.
  intros H. unfold e, grad_rows. rewrite (nth_indep _ 0 (dot v [])) by (rewrite map_length; auto). apply (map_nth (fun g => dot v g)).
Qed.
Lemma grad_analytic_ok ss pred d C N jac st th G (predf : list R -> list R) eps b :
  length th = length ss -> allowed ss th -> length d = N -> square N C -> symmetric N C ->
  (forall t, pred t = Some (predf t)) -> (forall t, length (predf t) = N) ->
  jac th = Some G -> length G = length ss -> List.Forall (fun g => length g = N) G ->
  (forall i a, (i < length ss)%nat -> (a < N)%nat -> is_derive (fun t => e (predf (setnth th i t)) a) (e th i) (e (nth i G []) a)) ->
  (b = true -> List.Forall smooth_ok ss) ->
  exists g, grad_minus_lnlike ss pred d C jac st (Some th) eps b false = (Ret g, mkD th th) /\ length g = length ss /\
  forall i, (i < length ss)%nat ->
    is_derive (fun t => / 2 * quad N C (predf (setnth th i t)) d - (if b then smooth_prior ss (setnth th i t) else 0)) (e th i) (e g i).
Proof.
  intros Hl Ha Hd HC Hs Hp Hpl Hj HG HGl HD Hb.
  unfold grad_minus_lnlike. rewrite set_free_true by auto. unfold grad_analytic. cbn [mdl fp]. rewrite Hj, Hp.
  set (g0 := vscale (-1) (grad_rows G (matvec C (vsub d (predf th))))).
  assert (L0 : length g0 = length ss) by (unfold g0; rewrite len_vscale; unfold grad_rows; now rewrite map_length).
  assert (Ld : length (dlnprior_at ss th) = length ss) by (unfold dlnprior_at; rewrite map_length, combine_length; lia).
  assert (D0 : forall i, (i < length ss)%nat -> is_derive (fun t => / 2 * quad N C (predf (setnth th i t)) d) (e th i) (e g0 i)).
  { intros i Hi. eapply is_derive_eq; [apply (quad_derive N C (fun t => predf (setnth th i t)) d (e th i) (nth i G [])); auto|].
    unfold g0. rewrite e_scale. rewrite setnth_same by lia.
    assert (E : e (grad_rows G (matvec C (vsub d (predf th)))) i = dot (matvec C (vsub d (predf th))) (nth i G [])).
    { apply e_grad_rows. lia. }
    rewrite E. rewrite Forall_forall in HGl. rewrite (@dot_inner N); [|rewrite matvec_length; destruct HC; auto|apply HGl, nth_In; lia].
    unfold inner. rewrite <- sum_scal. apply sum_ext; intros a Haa. rewrite (matvec_sum N); auto; [|rewrite len_vsub; rewrite ?Hpl; lia].
    rewrite <- Rmult_assoc. f_equal. rewrite <- sum_scal. apply sum_ext; intros c Hc. rewrite e_sub by (rewrite Hpl; lia). ring. }
  destruct b.
  - exists (vadd g0 (vscale (-1) (dlnprior_at ss th))). split; [reflexivity|].
    assert (Lv : length (vscale (-1) (dlnprior_at ss th)) = length g0) by (rewrite len_vscale; lia).
    split; [unfold vadd; rewrite len_map2 by (symmetry; exact Lv); auto|]. intros i Hi.
    eapply is_derive_eq.
    + apply (is_derive_minus (fun t => / 2 * quad N C (predf (setnth th i t)) d) (fun t => smooth_prior ss (setnth th i t))); [apply D0; auto|].
      apply smooth_derive; auto.
    + rewrite e_add by (symmetry; exact Lv). rewrite e_scale. unfold minus, plus, opp; cbn. lra.
  - exists g0. split; [reflexivity|]. split; auto. intros i Hi. eapply is_derive_ext; [|apply D0; auto]. intros t. cbn. lra.
Qed.
Lemma grad_oob ss pred d C jac st th eps b fl : length th = length ss -> ~ allowed ss th ->
  fst (grad_minus_lnlike ss pred d C jac st (Some th) eps b fl) = Ret (vscale (-1) (dlnprior_at ss th)).
Proof. intros H1 H2. unfold grad_minus_lnlike. rewrite set_free_false by auto. reflexivity. Qed.

(** the finite-difference path *)
Lemma eval_tasks_ok ss pred d C N tasks : forall st, consistent pred d C N -> exact_priors ss ->
  List.Forall (fun t => length t = length ss /\ allowed ss t /\ pred t <> None) tasks ->
  exists vs st', eval_tasks ss pred d C st tasks = (Ret vs, st') /\
   Forall2 (fun t v => exists m, pred t = Some m /\ v = Some (/ 2 * quad N C m d)) tasks vs /\
   st' = match tasks with [] => st | t :: ts => mkD (last ts t) (last ts t) end.
Proof.
  induction tasks as [|t ts IH]; intros st HC He HF; cbn [eval_tasks].
  - exists [], st. repeat split. constructor.
  - inversion HF as [|? ? (A & B & D) HF']; subst. rewrite (@minus_spec ss pred d C st t N false) by auto.
    destruct (pred t) as [m|] eqn:E; [|congruence].
    destruct (IH (mkD t t) HC He HF') as (vs & st' & E1 & E2 & E3). rewrite E1. exists (Some (/ 2 * quad N C m d - 0) :: vs), st'.
    split; [reflexivity|]. split.
    + constructor; auto. exists m. split; auto. f_equal. lra.
    + rewrite E3. destruct ts as [|t' ts]; [reflexivity|]. cbn [last].
      assert (K : forall (l : list (list R)) a b, l <> [] -> last l a = last l b). { clear. induction l as [|y [|z l] IH]; cbn; intros; congruence || auto. apply IH. discriminate. }
      destruct ts as [|t'' ts]; [reflexivity|]. f_equal; apply (K (t'' :: ts)); discriminate.
Qed.
Lemma quotients_ok eps ta : forall tb va vb (f : list R -> R), length ta = length tb ->
  Forall2 (fun t v => v = Some (f t)) ta va -> Forall2 (fun t v => v = Some (f t)) tb vb ->
  exists g, quotients eps va vb = Some g /\ length g = length ta /\
   forall i, (i < length ta)%nat -> e g i = (f (nth i ta []) - f (nth i tb [])) / (2 * eps).
Proof.
  induction ta as [|t ta IH]; intros [|u tb] va vb f Hl H1 H2; cbn in Hl; try lia; inversion H1; inversion H2; subst; cbn.
  - exists []. repeat split; auto. intros i Hi. lia.
  - destruct (IH tb l' l'0 f) as (g & E & L & Hg); auto. rewrite E. eexists. split; [reflexivity|]. split; [cbn; lia|].
    intros [|i] Hi; cbn; auto. apply Hg. lia.
Qed.
Lemma Forall2_imp {A B} (P Q : A -> B -> Prop) l l' : (forall a b, P a b -> Q a b) -> Forall2 P l l' -> Forall2 Q l l'.
Proof. intros H. induction 1; constructor; auto. Qed.
Lemma Forall2_firstn {A B} (P : A -> B -> Prop) n : forall l l', Forall2 P l l' -> Forall2 P (firstn n l) (firstn n l').
Proof. induction n; intros; cbn; [constructor|]. inversion H; subst; constructor; auto. Qed.
Lemma Forall2_skipn {A B} (P : A -> B -> Prop) n : forall l l', Forall2 P l l' -> Forall2 P (skipn n l) (skipn n l').
Proof. induction n; intros; cbn; auto. inversion H; subst; [constructor|auto]. Qed.
Lemma grad_fd_ok ss pred d C N jac st th eps (predf : list R -> list R) :
  length th = length ss -> allowed ss th -> consistent pred d C N -> exact_priors ss ->
  (forall t, pred t = Some (predf t)) ->
  (forall i, (i < length ss)%nat -> allowed ss (bump th i eps) /\ allowed ss (bump th i (- eps))) ->
  exists g st', grad_minus_lnlike ss pred d C jac st (Some th) eps false true = (Ret g, st') /\ length g = length ss /\
  forall i, (i < length ss)%nat ->
   e g i = (/ 2 * quad N C (predf (bump th i eps)) d - / 2 * quad N C (predf (bump th i (- eps))) d) / (2 * eps).
Proof.
  intros Hl Ha HC He Hp HB. unfold grad_minus_lnlike. rewrite set_free_true by auto. unfold grad_from_lnlike.
  assert (Lb : forall l i h, length (bump l i h) = length l). { induction l; intros [|i] h; cbn; auto. }
  assert (HF : List.Forall (fun t => length t = length ss /\ allowed ss t /\ pred t <> None) (fd_tasks th eps)).
  { unfold fd_tasks. apply Forall_app. split; apply Forall_map, Forall_forall; intros i Hi; apply in_seq in Hi; rewrite Lb, Hp;
      (split; [auto|split; [apply HB; lia|discriminate]]). }
  destruct (eval_tasks_ok ss pred d C N _ (mkD th th) HC He HF) as (vs & st' & E & HV & _). rewrite E.
  assert (HV' : Forall2 (fun t v => v = Some ((fun t => / 2 * quad N C (predf t) d) t)) (fd_tasks th eps) vs).
  { eapply Forall2_imp; [|exact HV]. cbn. intros t v (m & A & B). rewrite Hp in A. congruence. }
  unfold fd_tasks in HV'. set (ta := map (fun i => bump th i eps) (seq 0 (length th))) in *. set (tb := map (fun i => bump th i (- eps)) (seq 0 (length th))) in *.
  assert (La : length ta = length th) by (unfold ta; rewrite map_length, seq_length; auto).
  assert (Lb' : length tb = length th) by (unfold tb; rewrite map_length, seq_length; auto).
  assert (Fa : Forall2 (fun t v => v = Some ((fun t => / 2 * quad N C (predf t) d) t)) ta (firstn (length th) vs)).
  { apply (Forall2_firstn _ (length th)) in HV'. rewrite firstn_app, La, Nat.sub_diag in HV'. cbn [firstn] in HV'. rewrite app_nil_r in HV'. rewrite firstn_all2 in HV' by lia. exact HV'. }
  assert (Fb : Forall2 (fun t v => v = Some ((fun t => / 2 * quad N C (predf t) d) t)) tb (skipn (length th) vs)).
  { apply (Forall2_skipn _ (length th)) in HV'. rewrite skipn_app, La, Nat.sub_diag in HV'. cbn [skipn] in HV'. rewrite skipn_all2 in HV' by lia. exact HV'. }
  destruct (quotients_ok eps ta tb _ _ _ ltac:(lia) Fa Fb) as (g & Eg & Lg & Hg). rewrite Eg.
  exists g, st'. split; [reflexivity|]. split; [lia|]. intros i Hi. rewrite Hg by lia. f_equal.
  assert (Na : nth i ta [] = bump th i eps). { unfold ta. rewrite (nth_indep _ [] (bump th 0%nat eps)) by (rewrite map_length, seq_length; lia). rewrite (map_nth (fun i => bump th i eps)). rewrite seq_nth by lia. reflexivity. }
  assert (Nb : nth i tb [] = bump th i (- eps)). { unfold tb. rewrite (nth_indep _ [] (bump th 0%nat (- eps))) by (rewrite map_length, seq_length; lia). rewrite (map_nth (fun i => bump th i (- eps))). rewrite seq_nth by lia. reflexivity. }
  now rewrite Na, Nb.
Qed.
