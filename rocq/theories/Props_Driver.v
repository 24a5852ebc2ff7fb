(** * Properties C54, C55, C56, C57, C76: the fitting driver *)
From Coq Require Import Reals List Bool Arith Lra Lia Permutation.
From Coquelicot Require Import Coquelicot.
From Verif Require Import M_Prior M_Lbfgs M_Driver M_Groups S_Params S_Lbfgs S_Driver S_Groups P_Prior P_Lbfgs P_Driver P_DriverGrad P_Groups.
Import ListNotations.
Open Scope R_scope.

(** ** C54 *)
(** With exact priors, lnprob(theta) is -inf exactly when theta is not allowed. *)
Theorem C54_minus_inf_exactly_outside :
  forall ss pred d C N st th, length th = length ss -> exact_priors ss -> consistent pred d C N ->
  (fst (lnprob ss pred d C st (Some th)) = Ret None <-> ~ allowed ss th).
Proof.
  intros ss pred d C N st th Hl He HC. destruct (lnprob_spec ss pred d C st th N Hl He HC) as [H1 H2]. split.
  - intros H Ha. rewrite (H1 Ha) in H. cbn in H. destruct (pred th); discriminate.
  - intros Ha. now rewrite (H2 Ha).
Qed.
(** Inside, it is the log prior density minus half the chi-squared at theta (and raises only if the model does). *)
Theorem C54_value_inside :
  forall ss pred d C N st th, length th = length ss -> exact_priors ss -> consistent pred d C N -> allowed ss th ->
  (forall m, pred th = Some m -> fst (lnprob ss pred d C st (Some th)) = Ret (Some (log_prior ss th - / 2 * quad N C m d))) /\
  (pred th = None -> fst (lnprob ss pred d C st (Some th)) = Raise).
Proof.
  intros ss pred d C N st th Hl He HC Ha. destruct (lnprob_spec ss pred d C st th N Hl He HC) as [H1 _]. rewrite (H1 Ha).
  split; [intros m ->|intros ->]; reflexivity.
Qed.
(** minus_lnlike with priors is minus lnprob at every allowed theta. *)
Theorem C54_minus_lnlike_is_negative :
  forall ss pred d C N st st' th v, length th = length ss -> exact_priors ss -> consistent pred d C N -> allowed ss th ->
  fst (lnprob ss pred d C st (Some th)) = Ret (Some v) <-> fst (minus_lnlike ss pred d C st' (Some th) true) = Ret (Some (- v)).
Proof.
  intros ss pred d C N st st' th v Hl He HC Ha. destruct (lnprob_spec ss pred d C st th N Hl He HC) as [H1 _]. rewrite (H1 Ha).
  rewrite (@minus_spec ss pred d C st' th N true) by auto. cbn [fst]. destruct (pred th) as [m|]; [|split; discriminate].
  split; intros [= E]; do 2 f_equal; lra.
Qed.
(** Without theta: the same at the values held by the parameters, after any history of driver calls. *)
Theorem C54_current_values_after_any_history :
  forall ss pred d C N th0 cs r, exact_priors ss -> consistent pred d C N -> allowed ss th0 ->
  List.Forall (fun c => forall th, theta_of c = Some th -> length th = length ss) cs -> last_accepted ss th0 cs r ->
  let st := fold_left (do_call ss pred d C) cs (mkD th0 th0) in
  forall m, pred r = Some m -> fst (lnprob ss pred d C st None) = Ret (Some (log_prior ss r - / 2 * quad N C m d)).
Proof.
  intros ss pred d C N th0 cs r He HC H0 Hl Hr st m Hm. unfold st.
  destruct (history_state ss pred d C cs th0 r H0 Hl Hr) as [-> Ha].
  assert (Lr : length r = length ss) by (now apply allowed_length).
  destruct (lnprob_spec ss pred d C (mkD r r) r N Lr He HC) as [H1 _]. specialize (H1 Ha). rewrite Hm in H1.
  unfold lnprob in *. rewrite set_free_true in H1 by auto. change (fp (mkD r r)) with r. rewrite (proj2 (all_within_iff ss r Lr) Ha). change (fp (mkD r r)) with r in H1. now rewrite H1.
Qed.
(** Out of bounds, minus_lnlike is +inf in exact mode, with or without priors. *)
Theorem C54_minus_lnlike_outside :
  forall ss pred d C N st th b, length th = length ss -> exact_priors ss -> consistent pred d C N -> ~ allowed ss th ->
  fst (minus_lnlike ss pred d C st (Some th) b) = Ret None.
Proof.
  intros. destruct (minus_oob ss pred d C st th N b) as [E _]; auto. rewrite E. now rewrite lnprior_sum_none.
Qed.
(** In analytic (smoothed) mode the posterior is still cut at the bounds. *)
Theorem C54_cut_in_any_mode :
  forall ss pred d C st th, length th = length ss -> ~ allowed ss th -> fst (lnprob ss pred d C st (Some th)) = Ret None.
Proof. intros. unfold lnprob. rewrite set_free_false by auto. reflexivity. Qed.
(** minus_lnlike without priors out of bounds nevertheless contains the prior (analytic mode). *)
Theorem C54_use_priors_false_refuted :
  exists ss pred d C th, length th = length ss /\ consistent pred d C 1 /\ ~ allowed ss th /\
  fst (minus_lnlike ss pred d C (mkD [0] [0]) (Some th) false) <> Ret (Some (- null_lnlike d C)).
Proof.
  exists [mkS (Some 0) None (Norm 0 1) true], (fun _ => Some [0]), [1], [[1]], [-1]. split; [reflexivity|].
  split; [split; [reflexivity|split; [split; [reflexivity|repeat constructor]|intros ? ? [= <-]; reflexivity]]|].
  assert (Hn : ~ allowed [mkS (Some 0) None (Norm 0 1) true] [-1]).
  { intros K. inversion K as [|? ? ? ? [[A _] _] _]; subst. specialize (A 0 eq_refl). lra. }
  split; [exact Hn|]. unfold minus_lnlike. rewrite set_free_false by auto. cbn. intros [= E].
  set (L := ln (1 + exp (- 2 * 1000 * (1 * (-1 - 0))))) in *.
  assert (L0 : 0 < L). { assert (G : forall a, 0 < ln (1 + exp a)) by (intros a; rewrite <- ln_1; assert (K := exp_pos a); apply ln_increasing; lra). apply G. }
  assert (P2 : 0 < ln (2 * PI * 1)). { rewrite <- ln_1. apply ln_increasing; [lra|]. assert (K := PI2_1). lra. }
  unfold logaddexp0 in E. fold L in E. replace (1 * (1 * 1)) with 1 in E by ring. lra.
Qed.
Print Assumptions C54_value_inside.
Print Assumptions C54_minus_inf_exactly_outside.
Example C54_nonvacuous :
  let ss := [mkS (Some 0) (Some 2) (Unif 0 1) false; mkS None None (Norm 0 1) false] in
  exact_priors ss /\ consistent (fun th => Some [e th 0; e th 0 * e th 1]) [1; 2] [[2; 0]; [0; 3]] 2 /\ allowed ss [/ 2; 5] /\ ~ allowed ss [3; 0].
Proof.
  cbn. split; [repeat constructor; intros l u [= <- <-]; lra|].
  split; [split; [reflexivity|split; [split; [reflexivity|repeat constructor]|intros ? ? [= <-]; reflexivity]]|]. split.
  - constructor; [split; [split; intros b [= <-]; lra|intros l u [= <- <-]; lra]|]. constructor; [|constructor].
    split; [split; intros b; discriminate|intros l u; discriminate].
  - intros K. inversion K as [|? ? ? ? [[_ A] _] _]; subst. specialize (A 2 eq_refl). lra.
Qed.

(** ** C55 *)
(** chi2(theta) for an allowed theta is the quadratic form of the residual there, whatever happened before. *)
Theorem C55_chi2_in_bounds :
  forall ss pred d C N st th, length th = length ss -> consistent pred d C N -> allowed ss th ->
  (forall m, pred th = Some m -> fst (chi2 ss pred d C st (Some th)) = Ret (quad N C m d)) /\
  snd (chi2 ss pred d C st (Some th)) = mkD th th.
Proof.
  intros ss pred d C N st th Hl (Hd & HC & Hp) Ha. unfold chi2. rewrite set_free_true by auto. cbn. split; [|reflexivity].
  intros m Hm. unfold chi2_now. cbn. rewrite Hm. rewrite (chi2_quad N) by eauto. reflexivity.
Qed.
(** chi2() is the value at the last allowed vector that was requested. *)
Theorem C55_chi2_current_after_any_history :
  forall ss pred d C N th0 cs r, consistent pred d C N -> allowed ss th0 ->
  List.Forall (fun c => forall th, theta_of c = Some th -> length th = length ss) cs -> last_accepted ss th0 cs r ->
  forall m, pred r = Some m -> fst (chi2 ss pred d C (fold_left (do_call ss pred d C) cs (mkD th0 th0)) None) = Ret (quad N C m d).
Proof.
  intros ss pred d C N th0 cs r (Hd & HC & Hp) H0 Hl Hr m Hm.
  destruct (history_state ss pred d C cs th0 r H0 Hl Hr) as [-> Ha]. unfold chi2, chi2_now. cbn. rewrite Hm. cbn. rewrite (chi2_quad N) by eauto. reflexivity.
Qed.
(** every history has a last accepted vector *)
Theorem C55_history_total :
  forall ss cs th0, List.Forall (fun c => forall th, theta_of c = Some th -> length th = length ss) cs -> exists r, last_accepted ss th0 cs r.
Proof.
  intros ss cs. induction cs as [|c cs IH]; intros th0 H; [exists th0; constructor|]. inversion H as [|? ? Hc H']; subst.
  destruct (theta_of c) as [th|] eqn:E.
  - destruct (all_within ss th) eqn:W.
    + destruct (IH th H') as [r Hr]. exists r. eapply LHit; eauto. apply all_within_iff; auto.
    + destruct (IH th0 H') as [r Hr]. exists r. apply LMiss; auto. intros th' E'. assert (th' = th) by congruence. subst. intros K. apply all_within_iff in K; auto. congruence.
  - destruct (IH th0 H') as [r Hr]. exists r. apply LMiss; auto. intros th' E'. congruence.
Qed.
(** REFUTED out of bounds: chi2(theta) silently returns the value at the previous parameters. *)
Theorem C95_out_of_bounds_refuted :
  forall ss pred d C st th m, length th = length ss -> ~ allowed ss th -> pred (mdl st) = Some m ->
  fst (chi2 ss pred d C st (Some th)) = fst (chi2 ss pred d C st None) /\ fst (chi2 ss pred d C st (Some th)) <> Raise.
Proof.
  intros ss pred d C st th m Hl Ha Hm. unfold chi2. rewrite set_free_false by auto. cbn. split; auto.
  unfold chi2_now. rewrite Hm. discriminate.
Qed.
Theorem C95_chi2_refuted :
  exists ss pred d C st th m, length th = length ss /\ consistent pred d C 1 /\ pred th = Some m /\
  fst (chi2 ss pred d C st (Some th)) <> Ret (quad 1 C m d).
Proof.
  exists [mkS (Some 0) None NoPrior false], (fun th => Some [e th 0]), [0], [[1]], (mkD [1] [1]), [-2], [-2].
  split; [reflexivity|]. split; [split; [reflexivity|split; [split; [reflexivity|repeat constructor]|intros ? ? [= <-]; reflexivity]]|]. split; [reflexivity|].
  unfold chi2. rewrite set_free_false; [|reflexivity|].
  - cbn. unfold quad, entry. cbn. intros [= E]. lra.
  - intros K. inversion K as [|? ? ? ? [[A _] _] _]; subst. specialize (A 0 eq_refl). lra.
Qed.
Print Assumptions C55_chi2_current_after_any_history.
Example C55_nonvacuous :
  let ss := [mkS (Some 0) None NoPrior false] in
  last_accepted ss [1] [QLnprob [2]; QChi2 [-1]; QReadChi2; QMinus [3] true; QLnprob [-5]] [3].
Proof.
  assert (A : forall x, 0 <= x -> allowed [mkS (Some 0) None NoPrior false] [x]).
  { intros x Hx. constructor; [|constructor]. split; [split; intros b; [intros [= <-]; auto|discriminate]|intros l u; discriminate]. }
  assert (B : forall x, x < 0 -> ~ allowed [mkS (Some 0) None NoPrior false] [x]).
  { intros x Hx K. inversion K as [|? ? ? ? [[A' _] _] _]; subst. specialize (A' 0 eq_refl). lra. }
  cbn. eapply LHit; [reflexivity|apply A; lra|]. eapply LMiss; [intros th [= <-]; apply B; lra|]. eapply LMiss; [intros th; discriminate|].
  eapply LHit; [reflexivity|apply A; lra|]. eapply LMiss; [intros th [= <-]; apply B; lra|]. constructor.
Qed.

(** ** C56 *)
(** With the specific statistics leading in data order and the remaining ones enumerated in data order,
    every entry of the model vector is the prediction for the same entry of the data vector:
    always with a window function, and without one if the remaining statistics share their k. *)
Theorem C56_in_order_partial :
  forall w ms1 ms2 dec, distinct (ms1 ++ ms2) -> well_posed dec (ms1 ++ ms2) ->
  (w = true \/ forall m m', In m ms2 -> In m' ms2 -> mk m = mk m') ->
  combined_model (data_of w (ms1 ++ ms2)) (map mname ms1) dec (groups (map mname ms1) (map mname ms2)) =
  Some (wanted (map mname ms1) dec (ms1 ++ ms2)).
Proof. intros w ms1 ms2 dec [H1 _]. now apply in_order. Qed.
(** Without statistic-specific parameters and decorators, and with a common k, for every iteration order of the set. *)
Theorem C56_common_k_any_set_order_partial :
  forall w ms order, distinct ms -> set_difference (map mname ms) [] order -> List.Forall (fun m => length (mid m) = 1%nat) ms ->
  (forall m m', In m ms -> In m' ms -> mk m = mk m') ->
  combined_model (data_of w ms) [] (fun _ => false) (groups [] order) = Some (wanted [] (fun _ => false) ms).
Proof.
  intros w ms order [H1 _] [H2 H3] H4 H5. apply any_order; auto. apply NoDup_Permutation; auto. intros s. rewrite H3. split; [intros [A _]; auto|auto].
Qed.
(** REFUTED in general.  (1) window function, different k, set enumerated in another order. *)
Theorem C56_set_order_refuted :
  exists ms order r, distinct ms /\ well_posed (fun _ => false) ms /\ set_difference (map mname ms) [] order /\
  combined_model (data_of true ms) [] (fun _ => false) (groups [] order) = Some r /\ length r = length (wanted [] (fun _ => false) ms) /\ r <> wanted [] (fun _ => false) ms.
Proof.
  exists [mkMeas 0 [0%nat] [1%nat;2%nat]; mkMeas 1 [2%nat] [1%nat]], [1%nat;0%nat]. eexists.
  split. { split; repeat constructor; cbn; intuition lia. } split. { repeat constructor; cbn; intros; try discriminate; auto. }
  split. { split; [repeat constructor; cbn; intuition lia|intros s; cbn; intuition]. }
  split; [vm_compute; reflexivity|]. split; [reflexivity|]. vm_compute. discriminate.
Qed.
(** (2) a statistic with specific parameters that is not the first one: its block moves to the front. *)
Theorem C56_specific_not_first_refuted :
  exists ms r, distinct ms /\ well_posed (fun _ => false) ms /\
  combined_model (data_of true ms) [1%nat] (fun _ => false) (groups [1%nat] [0%nat]) = Some r /\
  length r = length (wanted [1%nat] (fun _ => false) ms) /\ r <> wanted [1%nat] (fun _ => false) ms.
Proof.
  exists [mkMeas 0 [0%nat] [1%nat]; mkMeas 1 [2%nat] [1%nat]]. eexists.
  split. { split; repeat constructor; cbn; intuition lia. } split. { repeat constructor; cbn; intros; try discriminate; auto. }
  split; [vm_compute; reflexivity|]. split; [reflexivity|]. vm_compute. discriminate.
Qed.
(** (3) smooth transfers with different k: the vector has NaN entries and another length. *)
Theorem C56_smooth_different_k_refuted :
  exists ms r, distinct ms /\ well_posed (fun _ => false) ms /\
  combined_model (data_of false ms) [] (fun _ => false) (groups [] (map mname ms)) = Some r /\
  In NaN r /\ length r <> length (wanted [] (fun _ => false) ms).
Proof.
  exists [mkMeas 0 [0%nat] [1%nat;2%nat]; mkMeas 1 [2%nat] [1%nat]]. eexists.
  split. { split; repeat constructor; cbn; intuition lia. } split. { repeat constructor; cbn; intros; try discriminate; auto. }
  split; [vm_compute; reflexivity|]. split; [cbn; auto 10|cbn; discriminate].
Qed.
(** (4) a subset selected with `usedata` keeps the full list of statistics: no callable can be built. *)
Theorem C56_subset_refuted :
  exists D, stats D = [0%nat; 1%nat] /\ length (ks D) = 1%nat /\ length (xs D) = 1%nat /\
  forall order, set_difference (stats D) [] order -> combined_model D [] (fun _ => false) (groups [] order) = None.
Proof.
  exists (mkP [0%nat;1%nat] [[1%nat]] [[2%nat]] false). repeat split.
  intros order [HN H]. assert (P : Permutation order [0%nat;1%nat]).
  { apply NoDup_Permutation; auto. - repeat constructor; cbn; intuition lia. - intros s. rewrite H. cbn. intuition. }
  assert (K : order = [0%nat;1%nat] \/ order = [1%nat;0%nat]).
  { apply Permutation_sym, Permutation_length_2_inv in P. exact P. }
  destruct K as [-> | ->]; vm_compute; reflexivity.
Qed.
(** Without decorators a statistic with several identifiers is refused: no model vector is returned, in whatever order the set is enumerated. *)
Theorem C56_several_identifiers_refused :
  forall w ms specific dec order m, distinct ms -> In m ms -> (forall s, dec s = false) -> (2 <= length (mid m))%nat ->
  set_difference (map mname ms) specific order ->
  combined_model (data_of w ms) specific dec (groups specific order) = None.
Proof. exact several_refused. Qed.
Print Assumptions C56_several_identifiers_refused.
Print Assumptions C56_in_order_partial.
Print Assumptions C56_common_k_any_set_order_partial.
Example C56_nonvacuous :
  let ms := [mkMeas 7 [0;2]%nat [1;2]%nat; mkMeas 8 [4]%nat [3]%nat] in
  distinct ms /\ well_posed (fun s => Nat.eqb s 7) ms /\
  wanted [7%nat] (fun s => Nat.eqb s 7) ms = [Dec 7 [Sym (Some 7%nat) 0 1; Sym (Some 7%nat) 2 1]; Dec 7 [Sym (Some 7%nat) 0 2; Sym (Some 7%nat) 2 2]; Sym None 4 3].
Proof.
  split. { split; repeat constructor; cbn; intuition lia. } split; [repeat constructor; cbn; intros; try discriminate; auto|reflexivity].
Qed.

(** ** C57 *)
(** REFUTED: the default fisher() never returns: the driver has no attribute [pkmu_gradient]. *)
Theorem C57_fisher_never_returns_refuted :
  forall ss C st theta b, fst (fisher ss C driver_pkmu_gradient st theta b) = Raise.
Proof. intros ss C st [th|] b; cbn; [|reflexivity]. destruct (set_free_parameters ss st th) as [[] ?]; reflexivity. Qed.
(** The assembly of the matrix from a gradient is right: had the gradient been found, the result would be the
    matrix J C^-1 J^T plus the prior information, symmetric, and positive semi-definite when C^-1 is. *)
Theorem C57_assembly_partial :
  forall ss N C grad st th b F, square N C -> symmetric N C -> length th = length ss ->
  length (grad th) = length ss -> List.Forall (fun g => length g = N) (grad th) ->
  fst (fisher ss C (Some grad) st (Some th) b) = Ret F ->
  (forall i j, (i < length ss)%nat -> (j < length ss)%nat -> F i j = F j i) /\ (psd N (entry C) -> psd (length ss) F).
Proof.
  intros ss N C grad st th b F H1 H2 Hl HG HGl. unfold fisher. destruct (set_free_parameters ss st th) as [[] st']; cbn; [|discriminate].
  destruct (fisher_assemble ss C (grad th) b) as [F'|] eqn:E; [|discriminate]. intros [= <-]. eapply fisher_ok; eauto.
Qed.
(** its entries, without priors *)
Theorem C57_entries_partial :
  forall ss N C G F i j, square N C -> symmetric N C -> List.Forall (fun g => length g = N) G -> length G = length ss ->
  fisher_assemble ss C G false = Some F -> (i < length ss)%nat -> (j < length ss)%nat ->
  F i j = S_Lbfgs.sum N (fun a => S_Lbfgs.sum N (fun b => e (nth i G []) a * entry C a b * e (nth j G []) b)).
Proof.
  intros ss N C G F i j H1 H2 H3 H4. unfold fisher_assemble. intros [= <-] Hi Hj. rewrite (fisher_core_entry N) by (auto; lia).
  unfold zeros. rewrite nth_repeat. destruct (i =? j)%nat; lra.
Qed.
Print Assumptions C57_assembly_partial.
Example C57_nonvacuous :
  let ss := [mkS None None (Norm 0 2) false; mkS None None (Unif 0 1) false] in
  square 2 [[2; 1]; [1; 3]] /\ symmetric 2 [[2; 1]; [1; 3]] /\ psd 2 (entry [[2; 1]; [1; 3]]) /\
  exists F, fisher_assemble ss [[2; 1]; [1; 3]] [[1; 0]; [1; 1]] true = Some F /\ F 0%nat 1%nat = 3 /\ F 0%nat 0%nat = 2 + / 4.
Proof.
  cbn. split; [split; [reflexivity|repeat constructor]|]. split.
  - intros [|[|i]] [|[|j]] Hi Hj; try lia; reflexivity.
  - split.
    + intros [|x [|y [|]]] H; try discriminate H. unfold form, entry, e. cbn.
      assert (K := Rle_0_sqr (x + y)). assert (K2 := Rle_0_sqr x). assert (K3 := Rle_0_sqr y). unfold Rsqr in *. nra.
    + unfold fisher_assemble. cbn. destruct (Req_EM_T 2 0) as [E|_]; [lra|]. eexists. split; [reflexivity|]. unfold fisher_core, fisher_entry, matvec. cbn. split; lra.
Qed.

(** ** C76 *)
(** At an allowed theta the (semi-)analytic gradient is the derivative, with respect to each free parameter, of
    half the chi-squared minus the log prior (the smoothed one, for which the derivative is implemented). *)
Theorem C76_analytic_gradient :
  forall ss pred d C N jac st th G (predf : list R -> list R) eps b,
  length th = length ss -> allowed ss th -> length d = N -> square N C -> symmetric N C ->
  (forall t, pred t = Some (predf t)) -> (forall t, length (predf t) = N) ->
  jac th = Some G -> length G = length ss -> List.Forall (fun g => length g = N) G ->
  (forall i a, (i < length ss)%nat -> (a < N)%nat -> is_derive (fun t => e (predf (setnth th i t)) a) (e th i) (e (nth i G []) a)) ->
  (b = true -> List.Forall smooth_ok ss) ->
  exists g, grad_minus_lnlike ss pred d C jac st (Some th) eps b false = (Ret g, mkD th th) /\ length g = length ss /\
  forall i, (i < length ss)%nat ->
    is_derive (fun t => / 2 * quad N C (predf (setnth th i t)) d - (if b then smooth_prior ss (setnth th i t) else 0)) (e th i) (e g i).
Proof. exact grad_analytic_ok. Qed.
(** Out of bounds: minus the derivative of the log prior at theta, for every flag. *)
Theorem C76_out_of_bounds :
  forall ss pred d C jac st th eps b fl i, length th = length ss -> ~ allowed ss th -> List.Forall smooth_ok ss -> (i < length ss)%nat ->
  exists g, fst (grad_minus_lnlike ss pred d C jac st (Some th) eps b fl) = Ret g /\
  is_derive (fun t => - smooth_prior ss (setnth th i t)) (e th i) (e g i).
Proof.
  intros ss pred d C jac st th eps b fl i Hl Ha Hs Hi. eexists. split; [now apply grad_oob|].
  eapply is_derive_eq; [apply (is_derive_opp (fun t => smooth_prior ss (setnth th i t))); apply smooth_derive; auto|].
  rewrite e_scale. unfold opp; cbn. lra.
Qed.
(** The finite-difference path without priors is the central difference quotient of half the chi-squared. *)
Theorem C92_finite_difference_partial :
  forall ss pred d C N jac st th eps (predf : list R -> list R),
  length th = length ss -> allowed ss th -> consistent pred d C N -> exact_priors ss -> (forall t, pred t = Some (predf t)) ->
  (forall i, (i < length ss)%nat -> allowed ss (bump th i eps) /\ allowed ss (bump th i (- eps))) ->
  exists g st', grad_minus_lnlike ss pred d C jac st (Some th) eps false true = (Ret g, st') /\ length g = length ss /\
  forall i, (i < length ss)%nat ->
   e g i = (/ 2 * quad N C (predf (bump th i eps)) d - / 2 * quad N C (predf (bump th i (- eps))) d) / (2 * eps).
Proof. exact grad_fd_ok. Qed.
(** REFUTED: with priors that path adds the prior's derivative at the last finite-difference point, not at theta, and
    leaves the parameters there. *)
Theorem C92_finite_difference_prior_refuted :
  forall eps x, eps <> 0 ->
  let ss := [mkS None None (Norm 0 1) true] in
  exists st', grad_minus_lnlike ss (fun _ => Some [0]) [0] [[1]] (fun _ => None) (mkD [x] [x]) (Some [x]) eps true true = (Ret [x - eps], st') /\
  st' = mkD [x - eps] [x - eps] /\ - dlnprior (mkS None None (Norm 0 1) true) x = x.
Proof.
  intros eps x He ss. eexists. split; [|split; [reflexivity|unfold dlnprior, bound_deriv, prior_deriv; cbn; field]].
  unfold grad_minus_lnlike. cbn. unfold grad_from_lnlike. cbn. replace (x + - eps) with (x - eps) by lra.
  unfold dlnprior; cbn. match goal with |- (Ret [?a], _) = (Ret [?b], _) => replace a with b; [reflexivity|field; auto] end.
Qed.
Print Assumptions C76_analytic_gradient.
Example C76_nonvacuous :
  let ss := [mkS None None (Norm 0 1) true] in let predf := (fun t => [e t 0 * e t 0; 3 * e t 0]) in
  List.Forall smooth_ok ss /\ allowed ss [2] /\
  forall i a, (i < 1)%nat -> (a < 2)%nat -> is_derive (fun t => e (predf (setnth [2] i t)) a) (e [2] i) (e (nth i [[4; 3]] []) a).
Proof.
  cbn. split; [repeat constructor; [intros l u; discriminate|intros m sg [= <- <-]; lra]|]. split.
  - constructor; [split; [split; intros b; discriminate|intros l u; discriminate]|constructor].
  - intros [|i] [|[|a]] Hi Ha; try lia; unfold e; cbn; auto_derive; auto; lra.
Qed.
