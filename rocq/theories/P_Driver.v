From Coq Require Import Reals List Bool Arith Lra Lia.
From Verif Require Import M_Prior M_Lbfgs M_Driver S_Params S_Lbfgs S_Driver P_Prior P_Lbfgs.
Import ListNotations.
Open Scope R_scope.

Lemma e_matvec C v i : (i < length C)%nat -> e (matvec C v) i = dot (nth i C []) v.
Proof.
  intros H. unfold e, matvec. rewrite (nth_indep _ 0 (dot [] v)) by (rewrite map_length; auto).
  apply (map_nth (fun r => dot r v)).
Qed.
Lemma matvec_length C v : length (matvec C v) = length C.
Proof. apply map_length. Qed.
Lemma square_row N C i : square N C -> (i < N)%nat -> length (nth i C []) = N.
Proof. intros [H1 H2] H. rewrite Forall_forall in H2. apply H2. apply nth_In. lia. Qed.
Lemma matvec_sum N C v i : square N C -> length v = N -> (i < N)%nat -> e (matvec C v) i = sum N (fun j => entry C i j * e v j).
Proof.
  intros H1 H2 H. rewrite e_matvec by (destruct H1; lia). rewrite (@dot_inner N); [|now apply square_row|auto]. reflexivity.
Qed.
Lemma dot_matvec N C u v : square N C -> length u = N -> length v = N ->
  dot u (matvec C v) = sum N (fun i => sum N (fun j => e u i * entry C i j * e v j)).
Proof.
  intros H1 H2 H3. rewrite (@dot_inner N); auto; [|rewrite matvec_length; destruct H1; auto].
  apply sum_ext. intros i Hi. rewrite (matvec_sum N) by auto. rewrite <- sum_scal. apply sum_ext. intros j Hj. ring.
Qed.
Lemma len_vsub u v : length u = length v -> length (vsub u v) = length u.
Proof. apply len_map2. Qed.
Lemma chi2_quad N C m d : square N C -> length m = N -> length d = N ->
  dot (vsub m d) (matvec C (vsub m d)) = quad N C m d.
Proof.
  intros H1 H2 H3. rewrite (dot_matvec N); auto; try (rewrite len_vsub; lia).
  apply sum_ext; intros i Hi. apply sum_ext; intros j Hj. rewrite !e_sub by lia. reflexivity.
Qed.
Lemma all_within_iff ss th : length th = length ss -> (all_within ss th = true <-> allowed ss th).
Proof.
  revert th. induction ss as [|s ss IH]; intros [|x th] H; cbn in H; try lia.
  - split; intros; [constructor|reflexivity].
  - unfold all_within in *. cbn. rewrite andb_true_iff, within_iff. split.
    + intros [H1 H2]. constructor; auto. apply IH; auto.
    + intros K. inversion K; subst. split; auto. apply IH; auto.
Qed.
Lemma allowed_length ss th : allowed ss th -> length th = length ss.
Proof. induction 1; cbn; auto. Qed.
Lemma lnprior_sum_value ss th : length th = length ss -> exact_priors ss -> allowed ss th ->
  lnprior_at ss th = Some (log_prior ss th).
Proof.
  unfold lnprior_at, log_prior. intros Hl He Ha. revert Hl He. induction Ha as [|s x ss th H Ha IH]; intros Hl He; [reflexivity|].
  inversion He as [|? ? [E1 E2] He']; subst. cbn in *. rewrite IH by (auto; lia).
  rewrite lnprior_value; auto. now apply within_iff.
Qed.
Lemma lnprior_sum_none ss th : length th = length ss -> exact_priors ss -> ~ allowed ss th -> lnprior_at ss th = None.
Proof.
  unfold lnprior_at. revert th. induction ss as [|s ss IH]; intros [|x th] Hl He Ha; cbn in Hl; try lia.
  - exfalso. apply Ha. constructor.
  - inversion He as [|? ? [E1 E2] He']; subst. cbn. destruct (lnprior s x) as [v|] eqn:E; [|reflexivity].
    rewrite IH; auto. intros K. apply Ha. constructor; auto. apply within_iff, lnprior_fin; auto. congruence.
Qed.
(** value of the posterior *)
Lemma lnprob_spec ss pred d C st th N : length th = length ss -> exact_priors ss -> consistent pred d C N ->
  (allowed ss th -> lnprob ss pred d C st (Some th) =
     (match pred th with Some m => Ret (Some (log_prior ss th - / 2 * quad N C m d)) | None => Raise end, mkD th th)) /\
  (~ allowed ss th -> lnprob ss pred d C st (Some th) = (Ret None, st)).
Proof.
  intros Hl He (Hd & HC & Hp). unfold lnprob, set_free_parameters. split; intros Ha.
  - rewrite (proj2 (all_within_iff ss th Hl) Ha). cbn. rewrite lnprior_sum_value by auto.
    unfold lnlike, chi2, chi2_now. cbn. destruct (pred th) as [m|] eqn:E; [|reflexivity].
    rewrite (chi2_quad N) by eauto. do 3 f_equal. lra.
  - destruct (all_within ss th) eqn:E; [|reflexivity]. exfalso. apply Ha. apply all_within_iff; auto.
Qed.
Lemma minus_spec ss pred d C st th N b : length th = length ss -> consistent pred d C N -> exact_priors ss ->
  allowed ss th -> minus_lnlike ss pred d C st (Some th) b =
     (match pred th with Some m => Ret (Some (/ 2 * quad N C m d - (if b then log_prior ss th else 0))) | None => Raise end, mkD th th).
Proof.
  intros Hl (Hd & HC & Hp) He Ha. unfold minus_lnlike, set_free_parameters. rewrite (proj2 (all_within_iff ss th Hl) Ha).
  unfold lnlike, chi2, chi2_now. cbn. destruct (pred th) as [m|] eqn:E; [|reflexivity].
  rewrite (chi2_quad N) by eauto. destruct b; [rewrite lnprior_sum_value by auto|]; cbn; do 3 f_equal; lra.
Qed.
Lemma minus_oob ss pred d C st th N b : length th = length ss -> consistent pred d C N -> ~ allowed ss th ->
  fst (minus_lnlike ss pred d C st (Some th) b) = Ret (msub (/ 2 * quad N C (zeros N) d) (lnprior_at ss th)) /\
  mdl (snd (minus_lnlike ss pred d C st (Some th) b)) = mdl st.
Proof.
  intros Hl (Hd & HC & Hp) Ha. unfold minus_lnlike, set_free_parameters.
  destruct (all_within ss th) eqn:E. { exfalso. apply Ha. apply all_within_iff; auto. }
  cbn. split; auto. do 2 f_equal. unfold null_lnlike. rewrite (dot_matvec N) by auto.
  unfold quad. replace (sum N (fun i => sum N (fun j => (e (zeros N) i - e d i) * entry C i j * (e (zeros N) j - e d j))))
    with (sum N (fun i => sum N (fun j => e d i * entry C i j * e d j))); [lra|].
  apply sum_ext; intros i Hi. apply sum_ext; intros j Hj. unfold zeros. unfold e. rewrite !nth_repeat. ring.
Qed.

(** ** Histories *)
Inductive call := QChi2 (th : list R) | QLnprob (th : list R) | QMinus (th : list R) (b : bool) | QReadChi2 | QReadLnprob.
Definition do_call ss pred d C (st : dstate) (c : call) : dstate :=
  match c with
  | QChi2 th => snd (chi2 ss pred d C st (Some th))
  | QLnprob th => snd (lnprob ss pred d C st (Some th))
  | QMinus th b => snd (minus_lnlike ss pred d C st (Some th) b)
  | QReadChi2 => snd (chi2 ss pred d C st None)
  | QReadLnprob => snd (lnprob ss pred d C st None)
  end.
Definition theta_of (c : call) : option (list R) := match c with QChi2 th | QLnprob th | QMinus th _ => Some th | _ => None end.
(** the last allowed vector requested, or the initial one *)
Inductive last_accepted ss : list R -> list call -> list R -> Prop :=
| LNil th : last_accepted ss th [] th
| LHit th0 c cs th r : theta_of c = Some th -> allowed ss th -> last_accepted ss th cs r -> last_accepted ss th0 (c :: cs) r
| LMiss th0 c cs r : (forall th, theta_of c = Some th -> ~ allowed ss th) -> last_accepted ss th0 cs r -> last_accepted ss th0 (c :: cs) r.

Lemma lnprob_none_state ss pred d C st : snd (lnprob ss pred d C st None) = st.
Proof.
  unfold lnprob. destruct (all_within _ _); [|reflexivity]. cbn. destruct (lnprior_at ss (fp st)); [|reflexivity].
  unfold lnlike, chi2. destruct (chi2_now _ _ _ _); reflexivity.
Qed.
Lemma set_free_true ss st th : length th = length ss -> allowed ss th -> set_free_parameters ss st th = (true, mkD th th).
Proof. intros H1 H2. unfold set_free_parameters. now rewrite (proj2 (all_within_iff ss th H1) H2). Qed.
Lemma set_free_false ss st th : length th = length ss -> ~ allowed ss th -> set_free_parameters ss st th = (false, st).
Proof.
  intros H1 H2. unfold set_free_parameters. destruct (all_within ss th) eqn:E; auto. exfalso. apply H2. apply all_within_iff; auto.
Qed.
Lemma clamp_in s x : in_bounds s x -> clampR s x = x.
Proof.
  intros [H1 H2]. unfold clampR, Rltb. destruct (pmax s) as [b|].
  - specialize (H2 b eq_refl). destruct (Rlt_dec b x); [lra|]. destruct (pmin s) as [a|]; auto.
    specialize (H1 a eq_refl). destruct (Rlt_dec x a); [lra|auto].
  - destruct (pmin s) as [a|]; auto. specialize (H1 a eq_refl). destruct (Rlt_dec x a); [lra|auto].
Qed.
Lemma clamp_allowed ss th : allowed ss th -> map (fun sx => clampR (fst sx) (snd sx)) (combine ss th) = th.
Proof. induction 1 as [|s x ss th [H1 H2] Ha IH]; [reflexivity|]. cbn. now rewrite IH, clamp_in. Qed.

Lemma do_call_hit ss pred d C st c th : theta_of c = Some th -> length th = length ss -> allowed ss th -> do_call ss pred d C st c = mkD th th.
Proof.
  intros Ht Hl Ha. destruct c; cbn in Ht; inversion Ht; subst; cbn.
  - unfold chi2. rewrite set_free_true by auto. reflexivity.
  - unfold lnprob. rewrite set_free_true by auto. cbn. destruct (lnprior_at ss th); [|reflexivity].
    unfold lnlike, chi2. destruct (chi2_now _ _ _ _); reflexivity.
  - unfold minus_lnlike. rewrite set_free_true by auto. unfold lnlike, chi2. destruct (chi2_now _ _ _ _); reflexivity.
Qed.
Lemma do_call_miss ss pred d C th0 c : (forall th, theta_of c = Some th -> length th = length ss) ->
  (forall th, theta_of c = Some th -> ~ allowed ss th) -> allowed ss th0 ->
  do_call ss pred d C (mkD th0 th0) c = mkD th0 th0.
Proof.
  intros Hl Ha H0. destruct c as [th|th|th b| |]; cbn -[lnprob chi2 minus_lnlike].
  - unfold chi2. rewrite set_free_false; auto.
  - unfold lnprob. rewrite set_free_false; auto.
  - unfold minus_lnlike. rewrite set_free_false by auto. cbn. now rewrite clamp_allowed.
  - reflexivity.
  - apply lnprob_none_state.
Qed.
Lemma history_state ss pred d C cs : forall th0 r, allowed ss th0 ->
  List.Forall (fun c => forall th, theta_of c = Some th -> length th = length ss) cs ->
  last_accepted ss th0 cs r -> fold_left (do_call ss pred d C) cs (mkD th0 th0) = mkD r r /\ allowed ss r.
Proof.
  induction cs as [|c cs IH]; intros th0 r H0 Hl Hr.
  - inversion Hr; subst. auto.
  - inversion Hl as [|? ? Hc Hl']; subst. cbn. inversion Hr as [|? ? ? th ? Ht Ha Hr'|? ? ? ? Hm Hr']; subst.
    + rewrite (do_call_hit _ _ _ _ _ _ th) by auto. apply IH; auto.
    + rewrite do_call_miss by auto. apply IH; auto.
Qed.

(** ** Fisher *)
Lemma entry_quad N C u v : square N C -> length u = N -> length v = N -> symmetric N C -> dot u (matvec C v) = dot v (matvec C u).
Proof.
  intros H1 H2 H3 H4. rewrite !(dot_matvec N) by auto. rewrite sum_swap.
  apply sum_ext; intros j Hj. apply sum_ext; intros i Hi. rewrite (H4 i j) by auto. ring.
Qed.
Lemma fisher_core_entry N C G i j : square N C -> symmetric N C -> List.Forall (fun g => length g = N) G ->
  (i < length G)%nat -> (j < length G)%nat ->
  fisher_core C G i j = sum N (fun a => sum N (fun b => e (nth i G []) a * entry C a b * e (nth j G []) b)).
Proof.
  intros H1 H2 H3 Hi Hj. rewrite Forall_forall in H3.
  assert (Li : length (nth i G []) = N) by (apply H3, nth_In; auto). assert (Lj : length (nth j G []) = N) by (apply H3, nth_In; auto).
  unfold fisher_core, fisher_entry. destruct (i <=? j)%nat; [|rewrite entry_quad with (N := N) by auto]; now apply dot_matvec.
Qed.
Lemma sum_nonneg n f : (forall i, (i < n)%nat -> 0 <= f i) -> 0 <= sum n f.
Proof. induction n; cbn; intros H; [lra|]. assert (0 <= sum n f) by auto. specialize (H n). assert (0 <= f n) by (apply H; lia). lra. Qed.
Lemma sum_mult_l n c f : c * sum n f = sum n (fun i => c * f i).
Proof. now rewrite sum_scal. Qed.

Fixpoint tab (n : nat) (f : nat -> R) : list R := match n with O => [] | S n => f O :: tab n (fun i => f (S i)) end.
Lemma tab_length n : forall f, length (tab n f) = n. Proof. induction n; cbn; auto. Qed.
Lemma e_tab n : forall f i, (i < n)%nat -> e (tab n f) i = f i.
Proof. induction n; intros f [|i] H; cbn; try lia; auto. apply (IHn (fun i => f (S i))). lia. Qed.

Lemma JCJ_psd n N (g : nat -> nat -> R) C x : psd N (entry C) ->
  0 <= sum n (fun i => sum n (fun j => e x i * (sum N (fun a => sum N (fun b => g i a * entry C a b * g j b))) * e x j)).
Proof.
  intros HC. specialize (HC (tab N (fun a => sum n (fun i => e x i * g i a))) (tab_length _ _)). unfold form in HC.
  assert (E : sum N (fun a => sum N (fun b => e (tab N (fun a => sum n (fun i => e x i * g i a))) a * entry C a b * e (tab N (fun a => sum n (fun i => e x i * g i a))) b)) =
              sum n (fun i => sum n (fun j => e x i * (sum N (fun a => sum N (fun b => g i a * entry C a b * g j b))) * e x j))).
  { transitivity (sum N (fun a => sum N (fun b => sum n (fun i => sum n (fun j => e x i * g i a * entry C a b * (e x j * g j b)))))).
    { apply sum_ext; intros a Ha. apply sum_ext; intros b Hb. rewrite !e_tab by auto. rewrite Rmult_assoc.
      rewrite <- sum_scal_r. apply sum_ext; intros i Hi. rewrite <- Rmult_assoc. rewrite <- sum_scal. reflexivity. }
    transitivity (sum n (fun i => sum N (fun a => sum N (fun b => sum n (fun j => e x i * g i a * entry C a b * (e x j * g j b)))))).
    { transitivity (sum N (fun a => sum n (fun i => sum N (fun b => sum n (fun j => e x i * g i a * entry C a b * (e x j * g j b)))))).
      - apply sum_ext; intros a Ha. apply sum_swap. - apply sum_swap. }
    apply sum_ext; intros i Hi.
    transitivity (sum n (fun j => sum N (fun a => sum N (fun b => e x i * g i a * entry C a b * (e x j * g j b))))).
    { transitivity (sum N (fun a => sum n (fun j => sum N (fun b => e x i * g i a * entry C a b * (e x j * g j b))))).
      - apply sum_ext; intros a Ha. apply sum_swap. - apply sum_swap. }
    apply sum_ext; intros j Hj. rewrite <- sum_scal, <- sum_scal_r. apply sum_ext; intros a Ha.
    rewrite <- sum_scal, <- sum_scal_r. apply sum_ext; intros b Hb. ring. }
  rewrite <- E. exact HC.
Qed.
Lemma seq_opt_spec l : forall r, seq_opt l = Some r -> l = map Some r.
Proof. induction l as [|[x|] l IH]; cbn; intros r H; try discriminate; [now inversion H|]. destruct (seq_opt l); inversion H; subst. cbn. now rewrite (IH l0). Qed.
Lemma prior_info_nonneg s v : prior_info s = Some v -> 0 <= v.
Proof.
  unfold prior_info. destruct (pprior s) as [|l u|mu sg]; intros H; [discriminate|injection H as <-; lra|].
  destruct (Req_EM_T sg 0) as [E|E]; [discriminate|]. assert (K : v = / (sg ^ 2)) by congruence. subst v.
  left. apply Rinv_0_lt_compat. assert (0 <= sg ^ 2) by apply pow2_ge_0. assert (sg ^ 2 <> 0) by (apply pow_nonzero; auto). lra.
Qed.
Lemma fisher_priors ss b p : (if b : bool then seq_opt (map prior_info ss) else Some (zeros (length ss))) = Some p -> length p = length ss /\ forall i, 0 <= nth i p 0.
Proof.
  destruct b; intros H.
  - apply seq_opt_spec in H. assert (L : length p = length ss) by (apply (f_equal (@length _)) in H; rewrite !map_length in H; lia).
    split; auto. intros i. destruct (Nat.lt_ge_cases i (length p)) as [Hi|Hi]; [|rewrite nth_overflow by lia; lra].
    assert (K : nth_error (map prior_info ss) i = Some (Some (nth i p 0))). { rewrite H. apply map_nth_error. now apply nth_error_nth'. }
    rewrite nth_error_map in K. destruct (nth_error ss i) as [s|]; [|discriminate]. injection K as K. eapply prior_info_nonneg; eauto.
  - inversion H; subst. split; [apply repeat_length|]. intros i. unfold zeros. rewrite nth_repeat. lra.
Qed.
Lemma fisher_ok ss N C G b F : square N C -> symmetric N C -> List.Forall (fun g => length g = N) G -> length G = length ss ->
  fisher_assemble ss C G b = Some F ->
  (forall i j, (i < length ss)%nat -> (j < length ss)%nat -> F i j = F j i) /\
  (psd N (entry C) -> psd (length ss) F).
Proof.
  intros H1 H2 H3 H4. unfold fisher_assemble. destruct (if b then _ else _) as [p|] eqn:E; [|discriminate].
  intros [= <-]. apply fisher_priors in E. destruct E as [Ep Hp]. split.
  - intros i j Hi Hj. rewrite !(fisher_core_entry N) by (auto; lia). rewrite Nat.eqb_sym. f_equal; [|destruct (Nat.eqb_spec j i); subst; auto].
    rewrite sum_swap. apply sum_ext; intros a Ha. apply sum_ext; intros c Hc. rewrite (H2 c a) by auto. ring.
  - intros HC x Hx. unfold form.
    assert (K := JCJ_psd (length ss) N (fun i a => e (nth i G []) a) C x HC). cbn beta in K.
    replace (sum (length ss) _) with
      (sum (length ss) (fun i => sum (length ss) (fun j => e x i * sum N (fun a => sum N (fun b => e (nth i G []) a * entry C a b * e (nth j G []) b)) * e x j)) +
       sum (length ss) (fun i => e x i * nth i p 0 * e x i)).
    + assert (0 <= sum (length ss) (fun i => e x i * nth i p 0 * e x i)).
      { apply sum_nonneg; intros i Hi. specialize (Hp i). assert (Q := Rle_0_sqr (e x i)). unfold Rsqr in Q.
        replace (e x i * nth i p 0 * e x i) with ((e x i * e x i) * nth i p 0) by ring. now apply Rmult_le_pos. }
      lra.
    + rewrite <- sum_plus. apply sum_ext; intros i Hi. rewrite <- (@sum_delta (length ss) i (fun j => e x i * nth i p 0 * e x j)) by auto.
      rewrite <- sum_plus. apply sum_ext; intros j Hj. rewrite (fisher_core_entry N) by (auto; lia). unfold delta. destruct (i =? j)%nat; ring.
Qed.
