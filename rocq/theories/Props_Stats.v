(** * Property C68: the Gelman-Rubin statistic *)
From Coq Require Import Reals List Lra Lia Permutation.
From Verif Require Import M_Stats P_Stats.
Import ListNotations.
Open Scope R_scope.

Theorem C68_shift_invariant :
  forall c chains, Forall (fun x => x <> []) chains -> gelman_rubin (map (map (fun x => x + c)) chains) = gelman_rubin chains.
Proof.
  intros c cs H. unfold gelman_rubin, scale_reduction, estvar. rewrite within_shift, between_shift by auto.
  replace (length (hd [] (map (map (fun x => x + c)) cs))) with (length (hd [] cs)); auto. destruct cs; cbn; auto. now rewrite map_length.
Qed.
Theorem C68_scale_invariant :
  forall c chains, c <> 0 -> gelman_rubin (map (map (fun x => c * x)) chains) = gelman_rubin chains.
Proof.
  intros c cs H. unfold gelman_rubin, scale_reduction, estvar. rewrite within_scale, between_scale.
  replace (length (hd [] (map (map (fun x => c * x)) cs))) with (length (hd [] cs)) by (destruct cs; cbn; auto; now rewrite map_length).
  set (n := INR _). f_equal. assert (c ^ 2 <> 0) by (now apply pow_nonzero). 
  replace ((1 - 1 / n) * (c ^ 2 * within cs) + c ^ 2 * between n cs / n) with (c ^ 2 * ((1 - 1 / n) * within cs + between n cs / n)) by (unfold Rdiv; ring).
  destruct (Req_dec (within cs) 0) as [E|E].
  - rewrite E. unfold Rdiv. rewrite !Rmult_0_r. rewrite Rinv_0. ring.
  - set (X := (1 - 1 / n) * within cs + between n cs / n). field. split; auto.
Qed.
(** The order of the chains does not matter when they have the same length, ... *)
Theorem C68_order_independent :
  forall n a b, Permutation a b -> Forall (fun c => length c = n) a -> gelman_rubin a = gelman_rubin b.
Proof.
  intros n a b H L. unfold gelman_rubin, scale_reduction, estvar. rewrite (within_perm a b H).
  assert (E : length (hd [] a) = length (hd [] b)).
  { assert (L' : Forall (fun c => length c = n) b) by (eapply Permutation_Forall; eauto). destruct a, b; auto.
    - apply Permutation_nil in H. discriminate. - apply Permutation_sym, Permutation_nil in H. discriminate. - inversion L; inversion L'; subst; cbn; congruence. }
  rewrite E, (between_perm _ a b H). auto.
Qed.
Theorem C68_lower_bound :
  forall chains, (2 <= length chains)%nat -> (hd [] chains <> []) -> 0 < within chains ->
  sqrt ((INR (length (hd [] chains)) - 1) / INR (length (hd [] chains))) <= gelman_rubin chains.
Proof.
  intros cs H H1 H2. unfold gelman_rubin, scale_reduction. set (n := INR (length (hd [] cs))). assert (Hn : 0 < n) by (now apply INR_len).
  apply sqrt_le_1_alt. rewrite estvar_form by auto. assert (B : 0 <= between 1 cs) by (apply between_nonneg; auto; lra).
  replace ((n - 1) / n) with ((1 - 1 / n) * within cs / within cs) by (field; lra). apply Rmult_le_compat_r; [left; now apply Rinv_0_lt_compat|]. lra.
Qed.
(** REFUTED: ... but with chains of different lengths exchanging the first always changes the result. *)
Theorem C68_order_matters_refuted :
  forall a b, a <> [] -> b <> [] -> length a <> length b -> 0 < within [a; b] -> gelman_rubin [a; b] <> gelman_rubin [b; a].
Proof.
  intros a b Ha Hb Hl Hw E. unfold gelman_rubin, scale_reduction in E. cbn [hd] in E. assert (P : Permutation [a; b] [b; a]) by apply perm_swap.
  assert (Na := INR_len _ a Ha). assert (Nb := INR_len _ b Hb). rewrite !estvar_form in E by auto. rewrite <- (within_perm _ _ P), <- (between_perm 1 _ _ P) in E.
  assert (B : 0 <= between 1 [a; b]) by (apply between_nonneg; cbn; try lra; lia).
  assert (G : forall x, x <> [] -> 0 <= (1 - 1 / INR (length (A := R) x)) * within [a; b] + between 1 [a; b]).
  { intros x Hx. assert (1 <= INR (length x)) by (apply (le_INR 1); destruct x; [congruence|cbn; lia]).
    assert (1 / INR (length x) <= 1) by (unfold Rdiv; rewrite Rmult_1_l, <- Rinv_1; apply Rinv_le_contravar; lra).
    assert (0 <= (1 - 1 / INR (length x)) * within [a; b]) by (apply Rmult_le_pos; lra). lra. }
  apply sqrt_inj in E; try (apply Rmult_le_pos; [apply G; auto|left; now apply Rinv_0_lt_compat]).
  apply Rmult_eq_reg_r in E; [|apply Rinv_neq_0_compat; lra].
  assert (E' : (1 - 1 / INR (length a)) * within [a; b] = (1 - 1 / INR (length b)) * within [a; b]) by lra.
  apply Rmult_eq_reg_r in E'; [|lra]. assert (F : / INR (length a) = / INR (length b)) by (unfold Rdiv in E'; lra).
  apply (f_equal Rinv) in F. rewrite !Rinv_inv in F. now apply INR_eq in F.
Qed.
(** The run counts as converged only if no parameter has a statistic further from one than epsilon, above or below it. *)
Theorem C68_converged_both_sides :
  forall epsilon rs, converged epsilon rs <-> ~ exists r, In r rs /\ (r < 1 - epsilon \/ 1 + epsilon < r).
Proof.
  intros e rs. unfold converged. rewrite Forall_forall. split.
  - intros H (r & I1 & K). specialize (H r I1). unfold Rabs in H; destruct (Rcase_abs (1 - r)); lra.
  - intros H r I1. unfold Rabs; destruct (Rle_dec (1 - e) r) as [A|A]; [destruct (Rle_dec r (1 + e)) as [B|B]; [destruct (Rcase_abs (1 - r)); lra|]|]; exfalso; apply H; exists r; split; auto; lra.
Qed.
Print Assumptions C68_converged_both_sides.
Print Assumptions C68_lower_bound.
Print Assumptions C68_order_matters_refuted.
Example C68_nonvacuous :
  within [[0; 2]; [1; 3]] = 1 /\ gelman_rubin [[0; 2]; [1; 3]] = 1 /\ 0 < within [[0; 2]; [1; 3; 5]].
Proof.
  repeat split.
  - unfold within, var, mean; cbn. field.
  - assert (W : within [[0; 2]; [1; 3]] = 1) by (unfold within, var, mean; cbn; field).
    assert (B : between 1 [[0; 2]; [1; 3]] = 1 / 2) by (unfold between, mean; cbn [map total length hd]; simpl INR; lra).
    unfold gelman_rubin, scale_reduction. transitivity (sqrt 1); [f_equal|apply sqrt_1]. rewrite estvar_form by (cbn; lra).
    rewrite W, B. cbn [length hd]. simpl INR. lra.
  - unfold within, var, mean; cbn. lra.
Qed.
