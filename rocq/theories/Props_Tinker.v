(** Properties of the relation between halo bias, mass and velocity dispersion. *)
From Coq Require Import Reals List Arith Lia Lra Bool.
Import ListNotations.
From Verif Require Import M_Interp S_Interp Props_Interp M_Tinker S_Tinker P_Tinker.
Local Open Scope R_scope.

(** * C153: the mass returned for a bias has that bias, and is the only one *)
Theorem C153_the_returned_mass_has_the_requested_bias : forall tol brentq spline r s8 b1,
  finds_roots tol brentq -> hierarchical (r_cosmo r) -> r_interp r = false -> 0 < s8 ->
  match mass brentq spline r s8 b1 with
  | (Value M, r') => r' = r /\ 0 < M /\ exists M', Rabs (M - M') <= tol * 10 ^ 13 /\ 10 ^ 5 <= M' <= 10 ^ 16 /\ has_bias (r_cosmo r) (r_delta_halo r) s8 b1 M'
  | (ValueErr, r') => r' = r /\ forall bl bh, has_bias (r_cosmo r) (r_delta_halo r) s8 bl (10 ^ 5) -> has_bias (r_cosmo r) (r_delta_halo r) s8 bh (10 ^ 16) -> 0 < (bl - b1) * (bh - b1)
  | (NameErr, _) => False
  end.
Proof.
  intros tol brentq spline r s8 b1 FR HC HI Hs. unfold mass. rewrite HI. unfold compute_fresh.
  assert (L : / 10 ^ 8 < 10 ^ 3). { apply Rlt_trans with 1; [|simpl; lra]. rewrite <- Rinv_1. apply Rinv_lt_contravar; simpl; lra. }
  pose proof (solve_mass tol brentq (r_cosmo r) (r_delta_halo r) s8 b1 (/ 10 ^ 8) (10 ^ 3) FR HC Hs (Rinv_0_lt_compat _ (pos_ten 8)) L) as H.
  destruct (brentq _ _ _) as [x|].
  - destruct H as (P & M' & T & B & HB). split; [reflexivity|]. split; [exact P|]. exists M'. rewrite e8, e3 in B. auto.
  - rewrite e8, e3 in H. split; [reflexivity | exact H].
Qed.
(** mass_from_bias: the same with fluctuations Dz sigma8, between 1e8 and 1e18, for the default overdensity *)
Theorem C153_mass_from_bias_has_the_requested_bias : forall tol brentq c Dz b,
  finds_roots tol brentq -> hierarchical c -> 0 < Dz ->
  match mass_from_bias brentq c Dz b with
  | Value M => 0 < M /\ exists M', Rabs (M - M') <= tol * 10 ^ 13 /\ 10 ^ 8 <= M' <= 10 ^ 18 /\ has_bias c 200 (Dz * sigma8 c) b M'
  | ValueErr => forall bl bh, has_bias c 200 (Dz * sigma8 c) bl (10 ^ 8) -> has_bias c 200 (Dz * sigma8 c) bh (10 ^ 18) -> 0 < (bl - b) * (bh - b)
  | NameErr => False
  end.
Proof.
  intros tol brentq c Dz b FR HC HD. pose proof HC as (_ & H8 & _). unfold mass_from_bias.
  assert (L : / 10 ^ 5 < 10 ^ 5). { apply Rlt_trans with 1; [|simpl; lra]. rewrite <- Rinv_1. apply Rinv_lt_contravar; simpl; lra. }
  assert (0 < Dz * sigma8 c) as Hs by (apply Rmult_lt_0_compat; auto).
  pose proof (solve_mass tol brentq c 200 (Dz * sigma8 c) b (/ 10 ^ 5) (10 ^ 5) FR HC Hs (Rinv_0_lt_compat _ (pos_ten 5)) L) as H.
  replace (Dz * sigma8 c / sigma8 c) with Dz in H by (field; lra).
  assert (E1 : / 10 ^ 5 * mass_norm = 10 ^ 8) by (unfold mass_norm; field_simplify; lra). assert (E2 : 10 ^ 5 * mass_norm = 10 ^ 18) by (unfold mass_norm; ring).
  destruct (brentq _ _ _) as [x|].
  - destruct H as (P & M' & T & B & HB). split; [exact P|]. exists M'. rewrite E1, E2 in B. auto.
  - rewrite E1, E2 in H. exact H.
Qed.
(** the fit increases with the peak height from nu = 1 on *)
Theorem C153_bias_increases_with_peak_height : forall dh s s', 100 <= dh <= 10000 -> 0 < s' -> s' < s -> s <= 1.686 -> bias_Tinker s delta_c dh < bias_Tinker s' delta_c dh.
Proof.
  intros dh s s' Hd Hp Hs H1. rewrite !bias_spec. apply tinker_increasing; auto.
  - unfold Rdiv. apply Rmult_le_reg_r with s. lra. rewrite Rmult_assoc, Rinv_l by lra. lra.
  - unfold Rdiv. apply Rmult_lt_compat_l. lra. apply Rinv_lt_contravar; nra.
Qed.
(** for biases of at least 1, one mass for each bias, increasing with the bias and with sigma8 *)
Theorem C153_one_mass_per_bias_increasing : forall c dh s8 s8' b b' M M',
  hierarchical c -> 100 <= dh <= 215 -> 0 < s8 <= s8' -> 1 <= b <= b' -> has_bias c dh s8 b M -> has_bias c dh s8' b' M' ->
  M <= M' /\ (s8 < s8' \/ b < b' -> M < M').
Proof. exact mass_increasing. Qed.
Theorem C153_the_mass_is_unique : forall c dh s8 b M M', hierarchical c -> 100 <= dh <= 215 -> 0 < s8 -> 1 <= b -> has_bias c dh s8 b M -> has_bias c dh s8 b M' -> M = M'.
Proof.
  intros c dh s8 b M M' HC Hd Hs Hb H H'. apply Rle_antisym.
  - apply (mass_increasing c dh s8 s8 b b M M'); auto; lra.
  - apply (mass_increasing c dh s8 s8 b b M' M); auto; lra.
Qed.
Print Assumptions C153_the_returned_mass_has_the_requested_bias.
Print Assumptions C153_mass_from_bias_has_the_requested_bias.
Print Assumptions C153_bias_increases_with_peak_height.
Print Assumptions C153_one_mass_per_bias_increasing.
Print Assumptions C153_the_mass_is_unique.

(** a cosmology with Sigma(R) = 1/R in which a sphere of radius R holds R^3 1e10 *)
Definition ex_c : cosmology := {| rho_bar := 3 / (4 * PI) * 10 ^ 10; sigma8 := 1; Sigma := fun R => / R; H_z := fun z => 100; H0 := 100 |}.
Lemma ex_hier : hierarchical ex_c.
Proof.
  pose proof PI_RGT_0. split; [|split; [|split; [|split; [|split]]]]; simpl; try lra.
  - apply Rmult_lt_0_compat. apply Rdiv_lt_0_compat; lra. lra.
  - intros. apply Rinv_0_lt_compat; auto.
  - intros. apply Rinv_lt_contravar; nra.
  - intros R HR. apply (continuity_pt_inv id). apply derivable_continuous_pt, derivable_pt_id. unfold id; lra.
  - split; [lra | intros; lra].
Qed.
Lemma ex_bias dh R : 0 < R -> has_bias ex_c dh 1 (tinker_2010 dh (1.686 * R)) (R * R * R * 10 ^ 10).
Proof.
  intros HR. pose proof PI_RGT_0. exists R. split.
  - split; auto. unfold ex_c, rho_bar. field. lra.
  - unfold ex_c, sigma8, Sigma. f_equal. field. lra.
Qed.
Lemma ex_two : 1 < tinker_2010 200 2.
Proof.
  rewrite tinker_F. unfold Ft. pose proof (yy_ge2 200 ltac:(lra)) as Y2. pose proof (yy_le73 200 ltac:(lra)) as Y4. pose proof (ee_pos 200) as E0. pose proof (ee_le9 200 (conj Y2 Y4)) as E1.
  assert (L2 : 0 < ln 2) by (rewrite <- ln_1; apply ln_increasing; lra).
  assert (A1 : 2 <= exp (1.5 * ln 2)). { rewrite <- (exp_ln 2) at 1 by lra. apply exp_mono. lra. }
  assert (A2 : 4 <= exp (2.4 * ln 2)). { replace 4 with (exp (2 * ln 2)). apply exp_mono. lra. replace (2 * ln 2) with (ln 2 + ln 2) by ring. rewrite exp_plus, exp_ln by lra. ring. }
  set (u := exp ((0.44 * yy 200 - 0.88) * ln 2)). set (D := exp ((0.44 * yy 200 - 0.88) * ln 1.686)). assert (0 < u) by apply exp_pos. assert (0 < D) by apply exp_pos.
  assert (Q : 0 <= u / (u + D) <= 1). { split. apply Rlt_le, Rdiv_lt_0_compat; lra. apply Rmult_le_reg_r with (u+D). lra. unfold Rdiv. rewrite Rmult_assoc, Rinv_l by lra. lra. }
  set (q := u / (u + D)) in *. assert (P1 : 0 <= yy 200 * ee 200 <= 7/3 * / 9) by (split; [apply Rmult_le_pos; lra | apply Rmult_le_compat; lra]).
  assert ((1 + 0.24 * yy 200 * ee 200) * q <= 1.07). { apply Rle_trans with (1.07 * 1); [apply Rmult_le_compat; lra | lra]. } assert (0.233 * 4 <= (0.019 + 0.107 * yy 200 + 0.19 * ee 200) * exp (2.4 * ln 2)) by (apply Rmult_le_compat; lra).
  lra.
Qed.
Example C153_nonvacuous : forall spline, exists M, mass bisect spline (new_relation 0 ex_c false None None) 1 (tinker_2010 200 2) = (Value M, new_relation 0 ex_c false None None) /\ has_bias ex_c 200 1 (tinker_2010 200 2) M.
Proof.
  intros spline. pose proof (C153_the_returned_mass_has_the_requested_bias 0 bisect spline (new_relation 0 ex_c false None None) 1 (tinker_2010 200 2) bisect_finds_roots ex_hier eq_refl ltac:(lra)) as H.
  destruct (mass _ _ _ _ _) as [[M| |] r']; [| | destruct H].
  - destruct H as (-> & _ & M' & T & _ & HB). exists M. split; auto. replace M with M'; auto. rewrite Rmult_0_l in T. pose proof (Rabs_pos (M - M')). unfold Rabs in *. destruct (Rcase_abs (M - M')); lra.
  - exfalso. destruct H as (_ & H). cbn [r_cosmo r_delta_halo new_relation] in H.
    pose proof ex_two. set (R5 := mass_to_radius (rho_bar ex_c) (/ 10 ^ 8)).
    assert (HR5 : 0 < R5) by apply radius_pos.
    assert (C5 : R5 * R5 * R5 * 10 ^ 10 = 10 ^ 5).
    { unfold R5. rewrite radius_cube; [|apply ex_hier|apply Rinv_0_lt_compat, pos_ten]. unfold mass_norm, ex_c, rho_bar. pose proof PI_RGT_0. field_simplify; lra. }
    assert (R5 < 1/10). { apply cube_lt; lra. }
    pose proof (ex_bias 200 R5 HR5) as B5. rewrite C5 in B5. pose proof (ex_bias 200 100 ltac:(lra)) as B6. replace (100 * 100 * 100 * 10 ^ 10) with (10 ^ 16) in B6 by ring.
    specialize (H _ _ B5 B6). pose proof (tinker_below_one 200 (1.686 * R5) ltac:(lra) ltac:(lra)). pose proof (tinker_increasing 200 2 (1.686 * 100) ltac:(lra) ltac:(lra) ltac:(lra)). nra.
Qed.

(** * C154: the velocity dispersion assigned to a bias *)
(** the normalisation given by the user when both numbers are given, else the virial scaling of Evrard et al. *)
Theorem C154_dispersion_of_the_mass : forall brentq spline r s8 b1 v r',
  sigmav brentq spline r s8 b1 = (Value v, r') ->
  exists M, mass brentq spline r s8 b1 = (Value M, r') /\
    match r_sigmav_0 r, r_M_0 r with
    | Some s0, Some m0 => 0 < M -> 0 < m0 -> exists x, v = s0 * x /\ x * x * x = M / m0
    | _, _ => v = evrard_2008 (H_z (r_cosmo r) (r_z r) / H0 (r_cosmo r)) (H_z (r_cosmo r) (r_z r)) (r_z r) M
    end.
Proof.
  intros brentq spline r s8 b1 v r' H. unfold sigmav in H. destruct (mass brentq spline r s8 b1) as [[M| |] r1] eqn:E; try discriminate H. injection H as <- <-. exists M. split; [reflexivity|].
  assert (K : r_sigmav_0 r1 = r_sigmav_0 r /\ r_M_0 r1 = r_M_0 r /\ r_cosmo r1 = r_cosmo r /\ r_z r1 = r_z r).
  { unfold mass in E. destruct (r_interp r). 2: { injection E as _ <-. auto. }
    destruct (get_table brentq spline r) as [[t|] r2] eqn:G. 2: discriminate E.
    assert (Kr : r_sigmav_0 r2 = r_sigmav_0 r /\ r_M_0 r2 = r_M_0 r /\ r_cosmo r2 = r_cosmo r /\ r_z r2 = r_z r).
    { unfold get_table in G. destruct (r_table r). injection G as _ <-. auto. destruct (interpolation_table brentq spline (r_cosmo r)). injection G as _ <-. auto. discriminate G. }
    destruct (call _ _ _ _ _ _) as [[|[m|] l]| |]; injection E as _ <-; auto. }
  destruct K as (-> & -> & K3 & K4). rewrite (evrard_spec r1), K3, K4.
  destruct (r_sigmav_0 r) as [s0|]; auto. destruct (r_M_0 r) as [m0|]; auto.
  intros HM Hm. exists (Rpower (M / m0) (1/3)). split; auto. rewrite <- !Rpower_plus. replace (1/3 + 1/3 + 1/3) with 1 by lra. apply Rpower_1. apply Rdiv_lt_0_compat; auto.
Qed.
(** positive, and for biases of at least 1 strictly increasing with the bias and with sigma8 (exact root finding) *)
Theorem C154_dispersion_positive_and_increasing : forall brentq spline r s8 s8' b b' v v',
  finds_roots 0 brentq -> hierarchical (r_cosmo r) -> r_interp r = false -> 100 <= r_delta_halo r <= 215 -> -1 < r_z r ->
  (forall s0 m0, r_sigmav_0 r = Some s0 -> r_M_0 r = Some m0 -> 0 < s0 /\ 0 < m0) -> 0 < s8 <= s8' -> 1 <= b <= b' -> s8 < s8' \/ b < b' ->
  fst (sigmav brentq spline r s8 b) = Value v -> fst (sigmav brentq spline r s8' b') = Value v' -> 0 < v < v'.
Proof.
  intros brentq spline r s8 s8' b b' v v' FR HC HI Hd Hz HN Hs Hb St V V'.
  destruct (sigmav brentq spline r s8 b) as [o r1] eqn:E. destruct (sigmav brentq spline r s8' b') as [o' r1'] eqn:E'. cbn [fst] in V, V'. subst o o'.
  destruct (C154_dispersion_of_the_mass _ _ _ _ _ _ _ E) as (M & EM & F). destruct (C154_dispersion_of_the_mass _ _ _ _ _ _ _ E') as (M' & EM' & F').
  pose proof (C153_the_returned_mass_has_the_requested_bias 0 brentq spline r s8 b FR HC HI ltac:(lra)) as H. rewrite EM in H. destruct H as (_ & P & X & TX & _ & BX).
  pose proof (C153_the_returned_mass_has_the_requested_bias 0 brentq spline r s8' b' FR HC HI ltac:(lra)) as H. rewrite EM' in H. destruct H as (_ & P' & X' & TX' & _ & BX').
  assert (Z : forall a b, Rabs (a - b) <= 0 * 10 ^ 13 -> a = b). { intros x y T. rewrite Rmult_0_l in T. unfold Rabs in T. destruct (Rcase_abs (x - y)); lra. }
  apply Z in TX, TX'. subst X X'. assert (MM : M < M') by (apply (mass_increasing (r_cosmo r) (r_delta_halo r) s8 s8' b b' M M'); auto).
  destruct HC as (_ & _ & _ & _ & _ & H0p & Hzp). specialize (Hzp (r_z r)). assert (Ep : 0 < H_z (r_cosmo r) (r_z r) / H0 (r_cosmo r)) by (apply Rdiv_lt_0_compat; auto).
  destruct (r_sigmav_0 r) as [s0|]; [destruct (r_M_0 r) as [m0|]|]; try (subst v v'; split; [apply evrard_pos | apply evrard_incr]; auto; fail).
  destruct (HN s0 m0 eq_refl eq_refl) as (S0 & M0). destruct (F P M0) as (x & -> & Cx). destruct (F' P' M0) as (x' & -> & Cx').
  assert (Cp : forall x y, 0 < y -> x * x * x = y -> 0 < x). { intros x0 y Hy Ex. destruct (Rlt_dec 0 x0); auto. exfalso. assert (0 <= (-x0)*(-x0)*(-x0)) by (repeat apply Rmult_le_pos; lra). lra. }
  assert (0 < x) by (apply (Cp x (M/m0)); auto; apply Rdiv_lt_0_compat; auto). assert (0 < x') by (apply (Cp x' (M'/m0)); auto; apply Rdiv_lt_0_compat; auto).
  split. apply Rmult_lt_0_compat; auto. apply Rmult_lt_compat_l; auto. apply cube_lt; auto. rewrite Cx, Cx'. unfold Rdiv. apply Rmult_lt_compat_r; auto. apply Rinv_0_lt_compat; auto.
Qed.
Print Assumptions C154_dispersion_of_the_mass.
Print Assumptions C154_dispersion_positive_and_increasing.
Example C154_nonvacuous : forall spline, exists v, fst (sigmav bisect spline (new_relation 0 ex_c false None None) 1 (tinker_2010 200 2)) = Value v /\ 1 <= tinker_2010 200 2.
Proof.
  intros spline. destruct (C153_nonvacuous spline) as (M & E & _). unfold sigmav. rewrite E. cbn [fst r_sigmav_0 r_M_0 new_relation]. eexists. split; [reflexivity|]. pose proof ex_two. lra.
Qed.
