From Coq Require Import Reals Lra Psatz.
From Coquelicot Require Import Coquelicot.
From Verif Require Import M_AP P_Gal.
Open Scope R_scope.

Definition apN (mu aperp apar : R) : R := 1 + mu ^ 2 * (1 / (apar / aperp) ^ 2 - 1).

Lemma k_AP_smooth k mu aperp apar : k_AP k mu aperp apar = (k / aperp) * sqrt (apN mu aperp apar).
Proof.
  unfold k_AP, apN. destruct (Req_EM_T (apar / aperp) 1) as [E|E]; [|reflexivity].
  rewrite E. replace (1 + mu ^ 2 * (1 / 1 ^ 2 - 1)) with 1 by field. rewrite sqrt_1. ring.
Qed.
Lemma mu_AP_N mu aperp apar : mu_AP mu aperp apar = mu / (apar / aperp) * / sqrt (apN mu aperp apar).
Proof. reflexivity. Qed.

Lemma mu2 mu : -1 <= mu <= 1 -> 0 <= mu ^ 2 <= 1.
Proof. intros H. nra. Qed.

Lemma apN_eq mu aperp apar : 0 < aperp -> 0 < apar ->
  apN mu aperp apar = (1 - mu ^ 2) + mu ^ 2 * (aperp / apar) ^ 2.
Proof. intros. unfold apN. field. lra. Qed.

Lemma apN_pos mu aperp apar : 0 < aperp -> 0 < apar -> -1 <= mu <= 1 -> 0 < apN mu aperp apar.
Proof.
  intros Ha Hb Hm. rewrite apN_eq by assumption.
  assert (H : 0 < (aperp / apar) ^ 2) by (apply pow_lt, Rdiv_lt_0_compat; assumption).
  apply mu2 in Hm. nra.
Qed.

Section Geometry.
Variables k mu aperp apar : R.
Hypothesis Ha : 0 < aperp.
Hypothesis Hb : 0 < apar.
Hypothesis Hm : -1 <= mu <= 1.

Lemma sqrtN_pos : 0 < sqrt (apN mu aperp apar).
Proof. apply sqrt_lt_R0, apN_pos; assumption. Qed.

Lemma ap_parallel : k_AP k mu aperp apar * mu_AP mu aperp apar = k * mu / apar.
Proof.
  rewrite k_AP_smooth, mu_AP_N. pose proof sqrtN_pos. field. repeat split; lra.
Qed.

Lemma mu_AP_sq : mu_AP mu aperp apar ^ 2 = mu ^ 2 * (aperp / apar) ^ 2 / apN mu aperp apar.
Proof.
  rewrite mu_AP_N. pose proof (apN_pos _ _ _ Ha Hb Hm) as HN.
  replace ((mu / (apar / aperp) * / sqrt (apN mu aperp apar)) ^ 2)
    with ((mu / (apar / aperp)) ^ 2 * / (sqrt (apN mu aperp apar) * sqrt (apN mu aperp apar))).
  - rewrite sqrt_sqrt by lra. field. repeat split; lra.
  - pose proof sqrtN_pos. field. repeat split; lra.
Qed.

Lemma mu_AP_range : -1 <= mu_AP mu aperp apar <= 1.
Proof.
  assert (H : mu_AP mu aperp apar ^ 2 <= 1).
  { rewrite mu_AP_sq. pose proof (apN_pos _ _ _ Ha Hb Hm) as HN.
    apply (Rmult_le_reg_r (apN mu aperp apar)); [lra|]. unfold Rdiv at 1. rewrite Rmult_assoc, Rinv_l by lra.
    rewrite apN_eq by assumption. apply mu2 in Hm. lra. }
  nra.
Qed.

Lemma ap_perp2 : k_AP k mu aperp apar ^ 2 * (1 - mu_AP mu aperp apar ^ 2) = k ^ 2 * (1 - mu ^ 2) / aperp ^ 2.
Proof.
  rewrite mu_AP_sq, k_AP_smooth. pose proof (apN_pos _ _ _ Ha Hb Hm) as HN.
  replace ((k / aperp * sqrt (apN mu aperp apar)) ^ 2)
    with ((k / aperp) ^ 2 * (sqrt (apN mu aperp apar) * sqrt (apN mu aperp apar))) by ring.
  rewrite sqrt_sqrt by lra. apply Rmult_eq_reg_r with (apN mu aperp apar); [|lra].
  transitivity ((k / aperp) ^ 2 * apN mu aperp apar * (apN mu aperp apar - mu ^ 2 * (aperp / apar) ^ 2)).
  - field. repeat split; lra.
  - replace (apN mu aperp apar - mu ^ 2 * (aperp / apar) ^ 2) with (1 - mu ^ 2)
      by (rewrite apN_eq by assumption; ring). field. lra.
Qed.

Lemma ap_perp : 0 < k -> k_AP k mu aperp apar * sqrt (1 - mu_AP mu aperp apar ^ 2) = k * sqrt (1 - mu ^ 2) / aperp.
Proof.
  intros Hk. pose proof mu_AP_range as Hr. apply mu2 in Hr. pose proof (mu2 _ Hm) as Hm2.
  assert (Hkp : 0 < k_AP k mu aperp apar).
  { rewrite k_AP_smooth. apply Rmult_lt_0_compat; [apply Rdiv_lt_0_compat; assumption|apply sqrtN_pos]. }
  assert (E1 : 0 <= k_AP k mu aperp apar * sqrt (1 - mu_AP mu aperp apar ^ 2)).
  { apply Rmult_le_pos; [lra|apply sqrt_pos]. }
  assert (E2 : 0 <= k * sqrt (1 - mu ^ 2) / aperp).
  { apply Rmult_le_pos; [apply Rmult_le_pos; [lra|apply sqrt_pos]|left; now apply Rinv_0_lt_compat]. }
  assert (Sq : (k_AP k mu aperp apar * sqrt (1 - mu_AP mu aperp apar ^ 2)) ^ 2 = (k * sqrt (1 - mu ^ 2) / aperp) ^ 2).
  { transitivity (k_AP k mu aperp apar ^ 2 * (sqrt (1 - mu_AP mu aperp apar ^ 2) * sqrt (1 - mu_AP mu aperp apar ^ 2))); [ring|].
    rewrite sqrt_sqrt by lra. rewrite ap_perp2.
    transitivity (k ^ 2 * (sqrt (1 - mu ^ 2) * sqrt (1 - mu ^ 2)) / aperp ^ 2); [rewrite sqrt_sqrt by lra; reflexivity|].
    field. lra. }
  rewrite <- (sqrt_pow2 _ E1), <- (sqrt_pow2 _ E2), Sq. reflexivity.
Qed.

Lemma k_AP_pos : 0 < k -> 0 < k_AP k mu aperp apar.
Proof. intros. rewrite k_AP_smooth. apply Rmult_lt_0_compat; [apply Rdiv_lt_0_compat; assumption|apply sqrtN_pos]. Qed.

End Geometry.

Lemma ap_identity k mu : k_AP k mu 1 1 = k /\ mu_AP mu 1 1 = mu.
Proof.
  rewrite k_AP_smooth, mu_AP_N.
  replace (apN mu 1 1) with 1 by (unfold apN; field). rewrite sqrt_1. split; field.
Qed.
Lemma ap_fixed aperp apar : 0 < aperp -> 0 < apar ->
  mu_AP 0 aperp apar = 0 /\ mu_AP 1 aperp apar = 1 /\ mu_AP (-1) aperp apar = -1.
Proof.
  intros Ha Hb. rewrite !mu_AP_N.
  assert (E : forall m, m ^ 2 = 1 -> sqrt (apN m aperp apar) = aperp / apar).
  { intros m Hm. rewrite apN_eq, Hm by assumption. replace (1 - 1 + 1 * (aperp / apar) ^ 2) with ((aperp / apar) ^ 2) by ring.
    apply sqrt_pow2. left. now apply Rdiv_lt_0_compat. }
  rewrite (E 1) by ring. rewrite (E (-1)) by ring.
  repeat split; [unfold Rdiv; ring|field; lra|field; lra].
Qed.

(** Derivatives of the remapping. *)
Section Remap.
Variables k mu aperp apar : R.
Hypothesis Ha : 0 < aperp.
Hypothesis Hb : 0 < apar.
Hypothesis Hm : -1 <= mu <= 1.
Notation N := (apN mu aperp apar).

Lemma dN_par : is_derive (fun v => apN mu aperp v) apar (mu ^ 2 * (-2 * aperp ^ 2 / apar ^ 3)).
Proof.
  unfold apN. auto_derive.
  - repeat split; try lra.
    assert (apar * / aperp <> 0) by (apply Rmult_integral_contrapositive_currified; [lra|apply Rinv_neq_0_compat; lra]).
    apply Rmult_integral_contrapositive_currified; [lra|]. rewrite Rmult_1_r. assumption.
  - field. lra.
Qed.
Lemma dN_perp : is_derive (fun v => apN mu v apar) aperp (mu ^ 2 * (2 * aperp / apar ^ 2)).
Proof.
  unfold apN. auto_derive.
  - repeat split; try lra.
    assert (apar * / aperp <> 0) by (apply Rmult_integral_contrapositive_currified; [lra|apply Rinv_neq_0_compat; lra]).
    apply Rmult_integral_contrapositive_currified; [lra|]. rewrite Rmult_1_r. assumption.
  - field. lra.
Qed.

Lemma dsqrtN (f : R -> R) x l : is_derive f x l -> 0 < f x -> is_derive (fun v => sqrt (f v)) x (l / (2 * sqrt (f x))).
Proof.
  intros Hf Hp. auto_derive; [repeat split; [eexists; eauto|exact Hp]|]. rewrite (DU _ _ _ Hf).
  assert (0 < sqrt (f x)) by now apply sqrt_lt_R0. field. lra.
Qed.

Lemma dk_par : is_derive (fun v => k_AP k mu aperp v) apar (- k * mu ^ 2 / (apar / aperp * apar ^ 2) / sqrt N).
Proof.
  apply is_derive_ext with (fun v => k / aperp * sqrt (apN mu aperp v)); [intro; now rewrite k_AP_smooth|].
  pose proof dN_par as H; pose proof (apN_pos _ _ _ Ha Hb Hm). pose proof (sqrtN_pos mu aperp apar Ha Hb Hm).
  auto_derive; [repeat split; first [eexists; eassumption|lra]|]. rewrite (DU (fun v => apN mu aperp v) _ _ H). field. repeat split; lra.
Qed.
Lemma dk_perp : is_derive (fun v => k_AP k mu v apar) aperp (- k * (1 - mu ^ 2) / aperp ^ 2 / sqrt N).
Proof.
  apply is_derive_ext with (fun v => k / v * sqrt (apN mu v apar)); [intro; now rewrite k_AP_smooth|].
  pose proof dN_perp as H; pose proof (apN_pos _ _ _ Ha Hb Hm). pose proof (sqrtN_pos mu aperp apar Ha Hb Hm).
  pose proof (apN_pos _ _ _ Ha Hb Hm).
  auto_derive; [repeat split; first [lra|eexists; eassumption]|]. rewrite (DU (fun v => apN mu v apar) _ _ H).
  apply Rmult_eq_reg_r with (sqrt N); [|lra].
  transitivity (- k / aperp ^ 2 * (sqrt N * sqrt N) + k * mu ^ 2 / apar ^ 2); [field; repeat split; lra|].
  rewrite sqrt_sqrt by lra.
  transitivity (- k * (1 - mu ^ 2) / aperp ^ 2); [|field; repeat split; lra].
  rewrite apN_eq by assumption. field. repeat split; lra.
Qed.
Lemma dmu_par : is_derive (fun v => mu_AP mu aperp v) apar (- mu * (1 - mu ^ 2) / (apar / aperp * apar * (N * sqrt N))).
Proof.
  pose proof dN_par as H; pose proof (apN_pos _ _ _ Ha Hb Hm). pose proof (sqrtN_pos mu aperp apar Ha Hb Hm).
  pose proof (apN_pos _ _ _ Ha Hb Hm).
  apply is_derive_ext with (fun v => mu / (v / aperp) * / sqrt (apN mu aperp v)); [intro; now rewrite mu_AP_N|].
  auto_derive.
  - repeat split; try lra.
    + apply Rmult_integral_contrapositive_currified; [lra|apply Rinv_neq_0_compat; lra].
    + eexists; eassumption.
  - rewrite (DU (fun v => apN mu aperp v) _ _ H).
    apply Rmult_eq_reg_r with (sqrt N * (sqrt N * sqrt N)); [|rewrite sqrt_sqrt by lra; nra].
    transitivity (- mu * aperp / apar ^ 2 * (sqrt N * sqrt N) + mu * aperp / apar * (mu ^ 2 * aperp ^ 2 / apar ^ 3)).
    { field. repeat split; lra. }
    rewrite sqrt_sqrt by lra.
    transitivity (- mu * (1 - mu ^ 2) * aperp / apar ^ 2); [|field; repeat split; lra].
    rewrite apN_eq by assumption. field. repeat split; lra.
Qed.
Lemma dmu_perp : is_derive (fun v => mu_AP mu v apar) aperp (mu * (1 - mu ^ 2) / (apar * (N * sqrt N))).
Proof.
  pose proof dN_perp as H; pose proof (apN_pos _ _ _ Ha Hb Hm). pose proof (sqrtN_pos mu aperp apar Ha Hb Hm).
  pose proof (apN_pos _ _ _ Ha Hb Hm).
  apply is_derive_ext with (fun v => mu / (apar / v) * / sqrt (apN mu v apar)); [intro; now rewrite mu_AP_N|].
  auto_derive.
  - repeat split; try lra.
    + apply Rmult_integral_contrapositive_currified; [lra|apply Rinv_neq_0_compat; lra].
    + eexists; eassumption.
  - rewrite (DU (fun v => apN mu v apar) _ _ H).
    apply Rmult_eq_reg_r with (sqrt N * (sqrt N * sqrt N)); [|rewrite sqrt_sqrt by lra; nra].
    transitivity (mu / apar * (sqrt N * sqrt N) - mu * aperp / apar * (mu ^ 2 * aperp / apar ^ 2)).
    { field. repeat split; lra. }
    rewrite sqrt_sqrt by lra.
    transitivity (mu * (1 - mu ^ 2) / apar); [|field; repeat split; lra].
    rewrite apN_eq by assumption. field. repeat split; lra.
Qed.
End Remap.
