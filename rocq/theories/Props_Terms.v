(** Properties of the terms of the redshift-space power expansion. *)
From Coq Require Import Reals Lra Bool.
From Verif Require Import M_Terms S_Terms P_Terms.
Local Open Scope R_scope.

(** * C142: the cross spectrum does not depend on which tracer is called first *)
Lemma exch t t' : exchanged t t' -> ib1 t' = ib1b t /\ ib1b t' = ib1 t /\ bs t' = bsb t /\ bsb t' = bs t.
Proof.
  intros (A & B & C & D & _). unfold bs, bsb, tidal_bias. assert (E1 : ib1 t' = ib1b t) by (unfold ib1, ib1b; rewrite A, B, C, (Rmult_comm (b1_bar t)); reflexivity).
  assert (E2 : ib1b t' = ib1 t) by (unfold ib1, ib1b; rewrite A, B, C, (Rmult_comm (b1_bar t)); reflexivity). rewrite D, E1, E2. repeat split; reflexivity.
Qed.
Theorem C142_cross_spectrum_is_symmetric_in_the_two_tracers : forall m t t' h mu, exchanged t t' ->
  bi_power m t' h mu = bi_power m t h mu
  /\ bi_mu0 m t' = bi_mu0 m t /\ bi_mu2 m t' = bi_mu2 m t /\ bi_mu4 m t' = bi_mu4 m t /\ bi_mu6 m t' = bi_mu6 m t.
Proof.
  intros m t t' h mu X. destruct (exch _ _ X) as (E1 & E2 & E3 & E4). destruct X as (_ & _ & _ & _ & A1 & A2 & A3 & A4 & A5 & A6 & A7 & A8 & A9 & A10 & A11 & A12).
  assert (S1 : s2 m t' = s2b m t) by (unfold s2, s2b, sigh; rewrite A2, E1; reflexivity).
  assert (S2 : s2b m t' = s2 m t) by (unfold s2, s2b, sigh; rewrite A2, E2; reflexivity).
  assert (ST : stochasticity t' = stochasticity t).
  { unfold stochasticity. rewrite E1, E2, A5, A6, (Rmin_comm (ib1b t)), (Rmax_comm (ib1b t)). destruct (Req_EM_T (ib1b t) (ib1 t)) as [e|e], (Req_EM_T (ib1 t) (ib1b t)) as [g|g]; congruence. }
  assert (HH : forall b2, Phh m t' b2 = Phh m t b2) by (intros; unfold Phh; rewrite E1, E2, E3, E4; ring).
  assert (H1 : forall b2, H01 m t' b2 = H01 m t b2) by (intros; unfold H01; rewrite E1, E2, E3, E4; ring).
  assert (HP : forall b c, Phm m t' b c = Phm m t b c) by (intros; unfold Phm; rewrite A1, A7; reflexivity).
  assert (Q : bi_mu0 m t' = bi_mu0 m t /\ bi_mu2 m t' = bi_mu2 m t /\ bi_mu4 m t' = bi_mu4 m t /\ bi_mu6 m t' = bi_mu6 m t).
  { repeat split.
    - unfold bi_mu0, H00, H00n. rewrite ST, !HP, E1, E2, E3, E4. ring.
    - unfold bi_mu2, H11_2, H02_2, correction. rewrite H1, HH, A3, A9, A11, E1, E2, E3, E4, S1, S2, (Rmult_comm (ib1b t) (ib1 t)). destruct (corr2 t); ring.
    - unfold bi_mu4, H11_4, H02_4, H12_4, H03_4, H22_4, H13_4, H04_4, H11_2, correction. rewrite !H1, !HH, A4, A8, A10, A12, E1, E2, E3, E4, S1, S2, (Rmult_comm (ib1b t) (ib1 t)). destruct (corr4 t); ring.
    - unfold bi_mu6, H12_6. rewrite E1, E2. ring. }
  split; [|exact Q]. destruct Q as (Q0 & Q2 & Q4 & Q6). unfold bi_power. rewrite Q0, Q2, Q4, Q6. reflexivity.
Qed.
Print Assumptions C142_cross_spectrum_is_symmetric_in_the_two_tracers.

(** * C143: the mean bias option and the halo auto spectrum *)
Lemma same_eff m t t' : ib1 t' = ib1 t -> ib1b t' = ib1b t -> tidal t' = tidal t -> phm t' = phm t -> veldisp t' = veldisp t -> corr2 t' = corr2 t -> corr4 t' = corr4 t ->
  auto_st t' = auto_st t -> cross_st t' = cross_st t -> b00a t' = b00a t -> b00b t' = b00b t -> b00c t' = b00c t -> b00d t' = b00d t -> b01a t' = b01a t -> b01b t' = b01b t ->
  forall h mu, bi_power m t' h mu = bi_power m t h mu.
Proof.
  intros E1 E2 D A1 A2 A3 A4 A5 A6 A7 A8 A9 A10 A11 A12 h mu.
  unfold bi_power, bi_mu0, bi_mu2, bi_mu4, bi_mu6, H00, H00n, H11_4, H02_2, H02_4, H12_4, H12_6, H03_4, H22_4, H13_4, H04_4, H11_2, H01, Phh, Phm, s2, s2b, sigh, stochasticity, bs, bsb, tidal_bias, correction.
  rewrite E1, E2, D, A1, A2, A3, A4, A5, A6, A7, A8, A9, A10, A11, A12. reflexivity.
Qed.
Theorem C143_mean_bias_is_the_auto_spectrum_of_the_geometric_mean_bias : forall m t t' h mu,
  mean_bias t = true -> 0 <= b1 t * b1_bar t -> rebias t t' (sqrt (b1 t * b1_bar t)) (sqrt (b1 t * b1_bar t)) false ->
  bi_power m t h mu = bi_power m t' h mu.
Proof.
  intros m t t' h mu M _ (A & B & C & D & A1 & A2 & A3 & A4 & A5 & A6 & A7 & A8 & A9 & A10 & A11 & A12). symmetry. apply same_eff; auto.
  - unfold ib1. rewrite C, A, M. reflexivity.
  - unfold ib1b. rewrite C, B, M. reflexivity.
Qed.
Theorem C143_halo_auto_spectrum_is_the_cross_spectrum_at_equal_biases : forall m t t' b h mu, 0 <= b -> rebias t t' b b false ->
  bi_power m (halo t b) h mu = bi_power m t' h mu.
Proof.
  intros m t t' b h mu Hb (A & B & C & D & A1 & A2 & A3 & A4 & A5 & A6 & A7 & A8 & A9 & A10 & A11 & A12). symmetry.
  assert (S : sqrt (b * b) = b) by (apply sqrt_square; exact Hb).
  apply same_eff; auto.
  - unfold ib1. rewrite C, A. cbn [halo b1 b1_bar mean_bias]. rewrite S. destruct (mean_bias t); reflexivity.
  - unfold ib1b. rewrite C, B. cbn [halo b1 b1_bar mean_bias]. rewrite S. destruct (mean_bias t); reflexivity.
Qed.
Theorem C143_mean_bias_discards_the_separate_biases : forall m t t' h mu, mean_bias t = true -> 0 <= b1 t * b1_bar t -> forall c, 0 < c ->
  rebias t t' (c * b1 t) (b1_bar t / c) true -> bi_power m t' h mu = bi_power m t h mu.
Proof.
  intros m t t' h mu M _ c Hc (A & B & C & D & A1 & A2 & A3 & A4 & A5 & A6 & A7 & A8 & A9 & A10 & A11 & A12).
  assert (E : b1 t' * b1_bar t' = b1 t * b1_bar t) by (rewrite A, B; field; lra).
  apply same_eff; auto; unfold ib1, ib1b; rewrite C, M, E; reflexivity.
Qed.
Print Assumptions C143_mean_bias_is_the_auto_spectrum_of_the_geometric_mean_bias.
Print Assumptions C143_halo_auto_spectrum_is_the_cross_spectrum_at_equal_biases.
Print Assumptions C143_mean_bias_discards_the_separate_biases.

(** * C144, C145: tracers of unit bias and matter *)
Lemma unit_eff t : unit_bias t -> ib1 t = 1 /\ ib1b t = 1 /\ bs t = 0 /\ bsb t = 0.
Proof.
  intros (A & B & _). assert (E1 : ib1 t = 1) by (unfold ib1; rewrite A, B, Rmult_1_r, sqrt_1; destruct (mean_bias t); reflexivity).
  assert (E2 : ib1b t = 1) by (unfold ib1b; rewrite A, B, Rmult_1_r, sqrt_1; destruct (mean_bias t); reflexivity).
  unfold bs, bsb, tidal_bias. rewrite E1, E2. repeat split; auto; destruct (tidal t); ring.
Qed.
Lemma unit_Phh m t b2 : unit_bias t -> b2 1 = 0 -> Phh m t b2 = P00 m.
Proof. intros U Z. destruct (unit_eff _ U) as (E1 & E2 & E3 & E4). unfold Phh. rewrite E1, E2, E3, E4, Z. ring. Qed.
Lemma unit_H01 m t b2 : unit_bias t -> b2 1 = 0 -> H01 m t b2 = P01 m.
Proof. intros U Z. destruct (unit_eff _ U) as (E1 & E2 & E3 & E4). unfold H01. rewrite E1, E2, E3, E4, Z. ring. Qed.
Lemma unit_s m t : no_sims t -> s2 m t = sigma_v m ^ 2 /\ s2b m t = sigma_v m ^ 2.
Proof. intros (_ & E & _). unfold s2, s2b, sigh. rewrite E. split; reflexivity. Qed.
Lemma sigsq0 m s : s = 0 -> sigsq m s = sigma_v m ^ 2.
Proof. intros ->. unfold sigsq, Rdiv. ring. Qed.

Theorem C144_unit_bias_tracers_have_the_matter_mu0_and_mu2 : forall m t,
  unit_bias t -> no_sims t -> P00 m <> 0 -> bi_mu0 m t = dm_mu0 m /\ (two m = true -> sbv2 m = 0 -> ld11a m = None -> bi_mu2 m t = dm_mu2 m).
Proof.
  intros m t U N Z. destruct (unit_eff _ U) as (E1 & E2 & E3 & E4). destruct (unit_s m t N) as (S1 & S2). pose proof U as (_ & _ & Ba & Bb & Bc & Bd & Ba1 & Bb1). pose proof N as (Np & _ & N2 & N4 & Na & Nc). split.
  - unfold bi_mu0, H00, H00n, dm_mu0, stochasticity, Phm. rewrite E1, E2, E3, E4, Np, Ba. destruct (Req_EM_T 1 1); [|congruence]. rewrite Na. field. exact Z.
  - intros T V Ld. unfold bi_mu2, dm_mu2, H02_2, H11_2, P11_2, P11_vec, P02_2, P02_2v, correction. rewrite (unit_H01 m t _ U Ba1), (unit_Phh m t _ U Bc), S1, S2, E1, E2, E3, E4, N2, Bc, T, Ld, (sigsq0 m _ V). field.
Qed.
(** the mu^4 power differs from that of matter by exactly two terms of the convolution of the squared velocity *)
Theorem C144_unit_bias_mu4_differs_from_matter_by_two_known_terms : forall m t,
  unit_bias t -> no_sims t -> two m = true -> sbv2 m = 0 -> sv2 m = 0 -> sbv4 m = 0 -> ld11a m = None ->
  dm_mu4 m - bi_mu4 m t = (f m * k m) ^ 4 * Plin m * J m 0 2 ^ 2 + 1/2 * (f m * k m) ^ 4 * (P00 m - Pdd m) * sigmasq_k m ^ 2.
Proof.
  intros m t U N T V1 V2 V3 Ld. destruct (unit_eff _ U) as (E1 & E2 & E3 & E4). destruct (unit_s m t N) as (S1 & S2). pose proof U as (_ & _ & Ba & Bb & Bc & Bd & Ba1 & Bb1). pose proof N as (Np & _ & N2 & N4 & Na & Nc).
  unfold bi_mu4, dm_mu4, H11_4, H02_4, H12_4, H03_4, H22_4, H13_4, H04_4, H11_2, correction, P12_4, P12_4v, P22_4, P03_4, P13_4, P04_4, P11_2. cbv zeta.
  rewrite !(unit_H01 m t _ U Bb1), !(unit_Phh m t _ U Bd), S1, S2, E1, E2, E3, E4, N4, Bb, T, !sigsq0 by assumption. unfold P11_vec. rewrite Ld, T. field.
Qed.
Print Assumptions C144_unit_bias_tracers_have_the_matter_mu0_and_mu2.
Print Assumptions C144_unit_bias_mu4_differs_from_matter_by_two_known_terms.

Definition toy (b : bool) : matter :=
  {| k := 1; f := 1; norm := 1; plin := 1; Im := fun _ _ => 0; Jm := fun a b => match a, b with O, 2%nat => 1 | _, _ => 0 end; Km := fun _ => 0; Lm := fun _ => (0, 0, 0); pdd0 := 0; pdv0 := 0; pvv0 := 0;
     sigk0 := 0; kurt0 := 0; siglin0 := 1; two := b; hz00 := None; hz01 := None; hz11 := None; ld00 := None; ld01 := None; ld11a := None; ld11b := None; dvv := None; vvv := None; sigv := None;
     sbv2 := 0; sv2 := 0; sbv4 := 0; hH := 1 |}.
Definition toyt : tracers :=
  {| b1 := 1; b1_bar := 1; mean_bias := true; tidal := true; phm := None; veldisp := None; corr2 := None; corr4 := None; auto_st := fun _ => 0; cross_st := fun _ _ => 0;
     b00a := fun b => b - 1; b00b := fun b => b - 1; b00c := fun b => b - 1; b00d := fun b => b - 1; b01a := fun b => b - 1; b01b := fun b => b - 1 |}.
Lemma toyt_unit : unit_bias toyt /\ no_sims toyt.
Proof. split; unfold unit_bias, no_sims, toyt; cbn; repeat split; auto; ring. Qed.
Lemma toy_pure b : pure_spt (toy b).
Proof. unfold pure_spt, toy; cbn. tauto. Qed.
Example C144_nonvacuous : P00 (toy true) <> 0 /\ two (toy true) = true /\ unit_bias toyt /\ no_sims toyt /\ pure_spt (toy true).
Proof. split. { unfold P00, Plin, I, J, toy; cbn. lra. } split; [reflexivity|]. split; [apply toyt_unit|]. split; [apply toyt_unit|]. apply toy_pure. Qed.

Theorem C145_unit_bias_mu4_and_mu6_are_not_the_matter_ones_refuted :
  exists m t, pure_spt m /\ two m = true /\ unit_bias t /\ no_sims t /\ P00 m <> 0 /\ bi_mu4 m t <> dm_mu4 m /\ dm_mu6 m <> None /\ dm_mu6 m <> Some (bi_mu6 m t).
Proof.
  exists (toy true), toyt. destruct toyt_unit as (U & N). pose proof (toy_pure true) as P. destruct C144_nonvacuous as (Z & T & _).
  split; [exact P|]. split; [exact T|]. split; [exact U|]. split; [exact N|]. split; [exact Z|]. split.
  - pose proof (C144_unit_bias_mu4_differs_from_matter_by_two_known_terms (toy true) toyt U N T eq_refl eq_refl eq_refl eq_refl) as D.
    assert (E : (f (toy true) * k (toy true)) ^ 4 * Plin (toy true) * J (toy true) 0 2 ^ 2 + 1 / 2 * (f (toy true) * k (toy true)) ^ 4 * (P00 (toy true) - Pdd (toy true)) * sigmasq_k (toy true) ^ 2 = 1).
    { unfold Plin, J, P00, Pdd, Plin, I, J, sigmasq_k, toy; cbn. lra. }
    rewrite E in D. lra.
  - assert (E : dm_mu6 (toy true) = Some (-1)).
    { unfold dm_mu6, P13_6, P12_6, P22_6, P22_6n, P04_6, P02_4, P11_4, P11_scal, P11_vec, sigsq, sigma_v, Plin, J, I, L, toy; cbn. f_equal. rewrite sqrt_1. unfold Rdiv. field. }
    rewrite E. split; [discriminate|]. intros H. injection H as H. unfold bi_mu6, H12_6, ib1, ib1b, I, J, Plin, toy, toyt in H; cbn in H. lra.
Qed.
Print Assumptions C145_unit_bias_mu4_and_mu6_are_not_the_matter_ones_refuted.

(** * C146: the Kaiser limit *)
Theorem C146_biased_power_tends_to_the_kaiser_spectrum : forall m t mu h, (h = 2 \/ h = 3)%nat -> pure_spt m -> no_sims t -> mean_bias t = false -> plin m <> 0 ->
  linear_limit (fun n => bi_power (at_norm m n) t h mu) (kaiser (b1 t) (b1_bar t) (f m) mu (plin m)).
Proof.
  intros m t mu h Hh PS NS MB Z. assert (E1 : ib1 t = b1 t) by (unfold ib1; rewrite MB; reflexivity). assert (E2 : ib1b t = b1_bar t) by (unfold ib1b; rewrite MB; reflexivity).
  pose proof (o_b0 m PS t NS Z) as O0'. pose proof (o_b2 m PS t NS) as O2'. pose proof (o_b4 m PS t NS) as O4'. pose proof (o_b6 m t) as O6'.
  rewrite E1, E2 in *.
  destruct Hh as [-> | ->].
  - eapply O1_P; [intros n; reflexivity|]. eapply O1_val; [|apply O1_add; [apply O1_add; [exact O0' | apply O1_scal; exact O2'] | apply O1_scal; exact O4']]. unfold kaiser. ring.
  - eapply O1_P; [intros n; reflexivity|]. eapply O1_val; [|apply O1_add; [apply O1_add; [apply O1_add; [exact O0' | apply O1_scal; exact O2'] | apply O1_scal; exact O4'] | apply O1_scal; exact O6']]. unfold kaiser. ring.
Qed.
Theorem C146_matter_power_tends_to_the_kaiser_spectrum : forall m mu h, (h = 2 \/ h = 3 /\ two m = true)%nat -> pure_spt m ->
  linear_limit (fun n => dm_power (at_norm m n) h mu) (kaiser 1 1 (f m) mu (plin m)).
Proof.
  intros m mu h Hh PS. pose proof (o_d0 m PS) as O0'. pose proof (o_d2 m PS) as O2'. pose proof (o_d4 m PS) as O4'.
  destruct Hh as [-> | (-> & T)].
  - eapply O1_P; [intros n; reflexivity|]. eapply O1_val; [|apply O1_add; [apply O1_add; [exact O0' | apply O1_scal; exact O2'] | apply O1_scal; exact O4']]. unfold kaiser. ring.
  - destruct (o_d6 m PS T) as (g & Hg & O6'). eapply O1_P; [intros n; unfold dm_power; rewrite Hg; reflexivity|].
    eapply O1_val; [|apply O1_add; [apply O1_add; [apply O1_add; [exact O0' | apply O1_scal; exact O2'] | apply O1_scal; exact O4'] | apply O1_scal; exact O6']]. unfold kaiser. ring.
Qed.
Print Assumptions C146_biased_power_tends_to_the_kaiser_spectrum.
Print Assumptions C146_matter_power_tends_to_the_kaiser_spectrum.
Example C146_nonvacuous : kaiser 2 1 1 1 1 = 6 /\ plin (toy false) <> 0 /\ pure_spt (toy false).
Proof. split; [unfold kaiser; ring|]. split; [cbn; lra | apply toy_pure]. Qed.

(** * C147: one-loop matter terms are exactly linear plus quadratic in the linear spectrum *)
Theorem C147_one_loop_matter_terms_are_linear_plus_quadratic : forall m, pure_spt m -> two m = false ->
  exists q0 q2 q4, forall n, 0 <= n ->
    dm_mu0 (at_norm m n) = n * plin m + n ^ 2 * q0
    /\ dm_mu2 (at_norm m n) = n * (2 * f m * plin m) + n ^ 2 * q2
    /\ dm_mu4 (at_norm m n) = n * (f m ^ 2 * plin m) + n ^ 2 * q4.
Proof.
  intros m (Z1 & Z2 & Z3 & Z4 & Z5 & Z6 & Z7 & Z8 & Z9 & Z10 & Z11 & Z12 & Z13) T.
  pose (s := siglin0 m ^ 2).
  exists (2 * Im m 0 0 + 6 * k m ^ 2 * Jm m 0 0 * plin m).
  exists (8 * f m * (Im m 0 0 + 3 * k m ^ 2 * Jm m 0 0 * plin m) + f m ^ 2 * Im m 3 1 + (- (f m * k m) ^ 2 * s * plin m + f m ^ 2 * (Im m 0 2 + 2 * k m ^ 2 * Jm m 0 2 * plin m))).
  exists (f m ^ 2 * (2 * Im m 1 1 + 4 * Im m 2 2 + 6 * k m ^ 2 * (Jm m 1 1 + 2 * Jm m 1 0) * plin m + Im m 1 3) + f m ^ 2 * (Im m 2 0 + 2 * k m ^ 2 * Jm m 2 0 * plin m)
     + (- f m * (f m * k m) ^ 2 * s * plin m + f m ^ 3 * (Im m 1 2 - Im m 0 3 + 2 * k m ^ 2 * Jm m 0 2 * plin m)) + 1/16 * f m ^ 4 * Im m 2 3 + - f m * (f m * k m) ^ 2 * s * plin m).
  intros n Hn.
  assert (S : forall x, x = 0 -> sigsq (at_norm m n) x = n * s).
  { intros x X. rewrite sigsq0 by exact X. unfold sigma_v; red_at. rewrite Z10, Rpow_mult_distr. f_equal. simpl. rewrite Rmult_1_r. apply sqrt_sqrt, Hn. }
  repeat split.
  - unfold dm_mu0, P00, Plin, I, J; red_at. rewrite Z1, Z4. ring.
  - unfold dm_mu2, P01, P11_2, P11_vec, P02_2, P02_2v, P02_2n, Plin, I, J; red_at. rewrite Z2, Z5, Z6, T, (S _ Z11). ring.
  - unfold dm_mu4, P11_4, P11_scal, P11_vec, P02_4, P12_4, P12_4v, P12_4n, P22_4, P22_4n, P03_4, Plin, I, J; cbv zeta; red_at. rewrite Z3, Z6, Z7, T, (S _ Z11), (S _ Z12). field.
Qed.
Print Assumptions C147_one_loop_matter_terms_are_linear_plus_quadratic.
Example C147_nonvacuous : pure_spt (toy false) /\ two (toy false) = false /\ dm_mu2 (at_norm (toy false) 1) = 3.
Proof.
  split; [apply toy_pure|]. split; [reflexivity|].
  unfold dm_mu2, P01, P11_2, P11_vec, P02_2, P02_2v, P02_2n, sigsq, sigma_v, Plin, I, J, toy; red_at. rewrite sqrt_1. unfold Rdiv. cbn. field.
Qed.

(** * C148: the mu^6 term of matter at one loop *)
Theorem C148_matter_power_to_mu6_raises_at_one_loop_refuted : forall m mu, two m = false -> dm_power m 3 mu = None.
Proof. intros m mu T. unfold dm_power, dm_mu6, P13_6. rewrite T. reflexivity. Qed.
Theorem C148_matter_power_to_mu4_and_at_two_loops_is_defined_partial : forall m h mu, (h <= 2)%nat \/ (h = 3%nat /\ two m = true) -> exists p, dm_power m h mu = Some p.
Proof.
  intros m h mu [H | (-> & T)].
  - destruct h as [|[|[|h]]]; [eexists; reflexivity .. | exfalso; do 2 apply le_S_n in H; inversion H].
  - unfold dm_power, dm_mu6, P13_6. rewrite T. eexists. reflexivity.
Qed.
Print Assumptions C148_matter_power_to_mu6_raises_at_one_loop_refuted.
Print Assumptions C148_matter_power_to_mu4_and_at_two_loops_is_defined_partial.
Example C148_nonvacuous : dm_power (toy false) 3 0 = None /\ dm_power (toy true) 3 0 <> None.
Proof. split; [apply C148_matter_power_to_mu6_raises_at_one_loop_refuted; reflexivity|]. unfold dm_power, dm_mu6, P13_6, toy; cbn -[expansion]. discriminate. Qed.
