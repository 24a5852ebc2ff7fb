(** * C159 (continued): every entry of the tables of second-order integrals *)
From Coq Require Import Reals ZArith Lra Lia Psatz.
From Coquelicot Require Import Coquelicot.
From Verif Require Import M_Kernels S_Kernels S_Kernels2 P_Kernels P_KInt Props_Kernels.
Local Open Scope R_scope.

Lemma bipolar_ext2 f g P k : 0 < k <= 2 * 10 ^ 5 -> (forall q r, 0 < q -> 0 < r -> k < q + r -> r - q < k -> q - r < k -> f q r k = g q r k) -> bipolar f P k = bipolar g P k.
Proof.
  intros Hk H. unfold bipolar. f_equal. apply RInt_ext. intros x Hx. apply RInt_ext. intros v Hv.
  rewrite Rmin_left in Hv by lra. rewrite Rmax_right in Hv by lra. pose proof (umax_pos k Hk).
  rewrite Rmin_left in Hx by assumption. assert (1 < exp x) by (rewrite <- exp_0; apply exp_increasing; lra).
  cbv zeta. f_equal. apply H; try (apply Rmult_lt_0_compat; lra); nra.
Qed.
Lemma halves_ext2 f g P k : 0 < k <= 2 * 10 ^ 5 -> (forall q r, 0 < q -> 0 < r -> k < q + r -> r - q < k -> q - r < k -> f q r k = g q r k) -> bipolar_halves_exist f P k -> bipolar_halves_exist g P k.
Proof.
  intros Hk H [H1 [H2 H3]]. pose proof (umax_pos k Hk) as Hu.
  assert (E : forall x v, 0 < x -> -1 < v < 1 -> f (k / 2 * (exp x - v)) (k / 2 * (exp x + v)) k = g (k / 2 * (exp x - v)) (k / 2 * (exp x + v)) k).
  { intros x v Hx Hv. assert (1 < exp x) by (rewrite <- exp_0; apply exp_increasing; lra). apply H; try (apply Rmult_lt_0_compat; lra); nra. }
  split.
  - intros x Hx. destruct (H1 x Hx) as [A B]. split; [eapply ex_RInt_ext; [|exact A]|eapply ex_RInt_ext; [|exact B]]; intros v Hv; rewrite Rmin_left, Rmax_right in Hv by lra; cbv beta zeta; rewrite E by lra; reflexivity.
  - split; [eapply ex_RInt_ext; [|exact H2]|eapply ex_RInt_ext; [|exact H3]]; intros x Hx; rewrite Rmin_left, Rmax_right in Hx by exact Hu; apply RInt_ext; intros v Hv; rewrite Rmin_left, Rmax_right in Hv by lra; cbv beta zeta; rewrite E by lra; reflexivity.
Qed.
(** a triangle as (K, a, c) *)
Lemma tri_c q r k : 0 < q -> 0 < r -> 0 < k -> k < q + r -> r - q < k -> q - r < k ->
  let c := (k * k + q * q - r * r) / (2 * k * q) in -1 <= c <= 1 /\ 0 < k * k + q * q - 2 * k * q * c /\ third_side k q c = r.
Proof.
  intros Hq Hr Hk H1 H2 H3 c. assert (E : 2 * k * q * c = k * k + q * q - r * r) by (unfold c; field; lra). assert (P : 0 < 2 * k * q) by nra.
  split; [split|]; [apply Rmult_le_reg_l with (2 * k * q); [lra|]; nra|apply Rmult_le_reg_l with (2 * k * q); [lra|]; nra|].
  split; [nra|]. unfold third_side. replace (k * k + q * q - 2 * k * q * c) with (r * r) by lra. apply sqrt_square. lra.
Qed.
Lemma config_lens K a c m : config K a c m -> 0 < third_side K a c.
Proof. intros (_ & _ & _ & _ & H). apply sqrt_lt_R0, H. Qed.
(** the model's kernels satisfy the specification *)
Ltac cfg H := let HK := fresh "HK" in let Ha := fresh "Ha" in let Hc := fresh "Hc" in let Hm := fresh "Hm" in let Hn := fresh "Hn" in destruct H as (HK & Ha & Hc & Hm & Hn).
Lemma az_cfg K a c m : config K a c m ->
  k20_a ((a + third_side K a c) / K) ((third_side K a c - a) / K) + k20_b ((a + third_side K a c) / K) ((third_side K a c - a) / K) * m ^ 2 = K ^ 2 * azimuthal (fun phi => vq a c m phi * vp K a c m phi) /\
  f31 ((a + third_side K a c) / K) ((third_side K a c - a) / K) + f13 ((a + third_side K a c) / K) ((third_side K a c - a) / K) * m ^ 2 = K ^ 2 * azimuthal (fun phi => vq a c m phi * (vq a c m phi + vp K a c m phi)) /\
  f03 ((a + third_side K a c) / K) ((third_side K a c - a) / K) * m + f30 ((a + third_side K a c) / K) ((third_side K a c - a) / K) * m ^ 3 = -2 * (K ^ 3 * azimuthal (fun phi => vq a c m phi ^ 2 * vp K a c m phi)) /\
  f23 ((a + third_side K a c) / K) ((third_side K a c - a) / K) / 8 + f32 ((a + third_side K a c) / K) ((third_side K a c - a) / K) / 4 * m ^ 2 + f33 ((a + third_side K a c) / K) ((third_side K a c - a) / K) / 8 * m ^ 4
    = K ^ 4 * azimuthal (fun phi => (vq a c m phi * vp K a c m phi) ^ 2).
Proof.
  intro H. cfg H. pose proof (C158_anisotropic_kernels_are_azimuthal_averages K a c m 0 HK Ha Hc Hm Hn) as X. cbv beta zeta in X.
  rewrite cu_az, cv_az in X by assumption. change (sqrt (K * K + a * a - 2 * K * a * c)) with (third_side K a c) in X. destruct X as (E1 & E2 & E3 & E4).
  rewrite E1, E2, E3, E4. unfold vq, vp.
  assert (Q : forall phi, dot (qvec a c phi) (qvec a c phi) <> 0) by (intro phi; rewrite qq by exact Hc; nra).
  assert (R : forall phi, dot (minus (kvec K) (qvec a c phi)) (minus (kvec K) (qvec a c phi)) <> 0) by (intro phi; rewrite pp by exact Hc; lra).
  refine (conj _ (conj _ (conj _ _))).
  - f_equal. apply az_ext. intro phi. field. split; [apply R|apply Q].
  - reflexivity.
  - f_equal. f_equal. apply az_ext. intro phi. field. split; [apply R|apply Q].
  - f_equal. apply az_ext. intro phi. field. split; [apply R|apply Q].
Qed.
Lemma vv_unique h0 h2 q r k : coefs_vv h0 h2 -> 0 < q -> 0 < r -> 0 < k -> k < q + r -> r - q < k -> q - r < k ->
  h03 ((q + r) / k) ((r - q) / k) = h0 q r k /\ h04 ((q + r) / k) ((r - q) / k) = h2 q r k.
Proof.
  intros H Hq Hr Hk H1 H2 H3. destruct (tri_c q r k Hq Hr Hk H1 H2 H3) as (Hc & Hn & Et). set (c := (k * k + q * q - r * r) / (2 * k * q)) in *. clearbody c.
  assert (C0 : config k q c 0) by (unfold config; do 3 (split; [assumption|]); split; [lra|assumption]). assert (C1 : config k q c 1) by (unfold config; do 3 (split; [assumption|]); split; [lra|assumption]).
  pose proof (H k q c 0 C0) as A0. pose proof (H k q c 1 C1) as A1. destruct (az_cfg k q c 0 C0) as (B0 & _). destruct (az_cfg k q c 1 C1) as (B1 & _).
  rewrite <- B0 in A0. rewrite <- B1 in A1. rewrite Et in A0, A1. unfold k20_a, k20_b in A0, A1. split; lra.
Qed.
Lemma vsum_unique h0 h2 q r k : coefs_v_sum h0 h2 -> 0 < q -> 0 < r -> 0 < k -> k < q + r -> r - q < k -> q - r < k ->
  f31 ((q + r) / k) ((r - q) / k) = h0 q r k /\ f13 ((q + r) / k) ((r - q) / k) = h2 q r k.
Proof.
  intros H Hq Hr Hk H1 H2 H3. destruct (tri_c q r k Hq Hr Hk H1 H2 H3) as (Hc & Hn & Et). set (c := (k * k + q * q - r * r) / (2 * k * q)) in *. clearbody c.
  assert (C0 : config k q c 0) by (unfold config; do 3 (split; [assumption|]); split; [lra|assumption]). assert (C1 : config k q c 1) by (unfold config; do 3 (split; [assumption|]); split; [lra|assumption]).
  pose proof (H k q c 0 C0) as A0. pose proof (H k q c 1 C1) as A1. destruct (az_cfg k q c 0 C0) as (_ & B0 & _). destruct (az_cfg k q c 1 C1) as (_ & B1 & _).
  rewrite <- B0 in A0. rewrite <- B1 in A1. rewrite Et in A0, A1. split; lra.
Qed.
Lemma vvv_unique h1 h3 q r k : coefs_vvv h1 h3 -> 0 < q -> 0 < r -> 0 < k -> k < q + r -> r - q < k -> q - r < k ->
  f03 ((q + r) / k) ((r - q) / k) = -2 * h1 q r k /\ f30 ((q + r) / k) ((r - q) / k) = -2 * h3 q r k.
Proof.
  intros H Hq Hr Hk H1 H2 H3. destruct (tri_c q r k Hq Hr Hk H1 H2 H3) as (Hc & Hn & Et). set (c := (k * k + q * q - r * r) / (2 * k * q)) in *. clearbody c.
  assert (C0 : config k q c (1/2)) by (unfold config; do 3 (split; [assumption|]); split; [lra|assumption]). assert (C1 : config k q c 1) by (unfold config; do 3 (split; [assumption|]); split; [lra|assumption]).
  pose proof (H k q c (1/2) C0) as A0. pose proof (H k q c 1 C1) as A1. destruct (az_cfg k q c (1/2) C0) as (_ & _ & B0 & _). destruct (az_cfg k q c 1 C1) as (_ & _ & B1 & _).
  rewrite <- A0 in B0. rewrite <- A1 in B1. rewrite Et in B0, B1. split; lra.
Qed.
Lemma vvvv_unique h0 h2 h4 q r k : coefs_vvvv h0 h2 h4 -> 0 < q -> 0 < r -> 0 < k -> k < q + r -> r - q < k -> q - r < k ->
  f23 ((q + r) / k) ((r - q) / k) = 8 * h0 q r k /\ f32 ((q + r) / k) ((r - q) / k) = 4 * h2 q r k /\ f33 ((q + r) / k) ((r - q) / k) = 8 * h4 q r k.
Proof.
  intros H Hq Hr Hk H1 H2 H3. destruct (tri_c q r k Hq Hr Hk H1 H2 H3) as (Hc & Hn & Et). set (c := (k * k + q * q - r * r) / (2 * k * q)) in *. clearbody c.
  assert (C0 : config k q c 0) by (unfold config; do 3 (split; [assumption|]); split; [lra|assumption]). assert (Ch : config k q c (1/2)) by (unfold config; do 3 (split; [assumption|]); split; [lra|assumption]). assert (C1 : config k q c 1) by (unfold config; do 3 (split; [assumption|]); split; [lra|assumption]).
  pose proof (H k q c 0 C0) as A0. pose proof (H k q c (1/2) Ch) as Ah. pose proof (H k q c 1 C1) as A1.
  destruct (az_cfg k q c 0 C0) as (_ & _ & _ & B0). destruct (az_cfg k q c (1/2) Ch) as (_ & _ & _ & Bh). destruct (az_cfg k q c 1 C1) as (_ & _ & _ & B1).
  rewrite <- B0 in A0. rewrite <- Bh in Ah. rewrite <- B1 in A1. rewrite Et in A0, Ah, A1. refine (conj _ (conj _ _)); lra.
Qed.

Theorem C159_anisotropic_integrals_are_over_all_wavevectors : forall h0 h2 (P : R -> R) k part, coefs_vv h0 h2 -> 0 < k <= 2 * 10 ^ 5 ->
  I_eval P k 0 2 = Some (bipolar (fun q r k => 2 * (side_F2 q r k * h0 q r k)) P k) /\ I_eval P k 2 0 = Some (bipolar (fun q r k => 2 * (side_F2 q r k * h2 q r k)) P k) /\
  I_eval P k 1 2 = Some (bipolar (fun q r k => 2 * (side_G2 q r k * h0 q r k)) P k) /\ I_eval P k 2 1 = Some (bipolar (fun q r k => 2 * (side_G2 q r k * h2 q r k)) P k) /\
  K_eval P k 2 0 false part = Some (bipolar (if (part =? 0)%Z then h0 else h2) P k) /\
  K_eval P k 2 0 true part = Some (bipolar (fun q r k => side_S2 q r k * (if (part =? 0)%Z then h0 else h2) q r k) P k).
Proof.
  intros h0 h2 P k part Hh Hk. destruct evens as (EF & EG & ES & E3 & E4). destruct evens_I as (_ & _ & E02 & _ & E12 & E20 & E21 & _).
  assert (M : forall f g : R -> R -> R, even_in_v f -> even_in_v g -> even_in_v (fun u v => f u v * g u v)) by (intros f g Hf Hg u v; rewrite Hf, Hg; reflexivity).
  repeat match goal with |- _ /\ _ => split end.
  1-4: unfold I_eval; cbn [Z.mul Z.add Pos.mul Pos.add Pos.succ]; rewrite I_sym by (lra || assumption); f_equal; apply bipolar_ext2; [exact Hk|]; intros q r Hq Hr H1 H2 H3;
    destruct (vv_unique h0 h2 q r k Hh Hq Hr ltac:(lra) H1 H2 H3) as [A3 A4]; rewrite <- ?A3, <- ?A4;
    rewrite ?f02_p, ?f20_p, ?f12_p, ?f21_p by (apply uv1 || apply uv2; lra); rewrite ?F2_side, ?G2_side by lra; reflexivity.
  1-2: unfold K_eval; cbn [Z.mul Z.add Pos.mul Pos.add Pos.succ]; destruct (part =? 0)%Z;
    (rewrite K_sym by (lra || assumption || (apply M; assumption))); f_equal; apply bipolar_ext2; try exact Hk; intros q r Hq Hr H1 H2 H3;
    destruct (vv_unique h0 h2 q r k Hh Hq Hr ltac:(lra) H1 H2 H3) as [A3 A4]; rewrite <- ?A3, <- ?A4; unfold k20_a, k20_b, k20s_a, k20s_b; rewrite ?S2_side by lra; reflexivity.
Qed.
Print Assumptions C159_anisotropic_integrals_are_over_all_wavevectors.
Theorem C159_quartic_integrals_are_over_all_wavevectors : forall h0 h2 h4 (P : R -> R) k, coefs_vvvv h0 h2 h4 -> 0 < k <= 2 * 10 ^ 5 ->
  I_eval P k 2 3 = Some (bipolar (fun q r k => 8 * h0 q r k) P k) /\ I_eval P k 3 2 = Some (bipolar (fun q r k => 4 * h2 q r k) P k) /\ I_eval P k 3 3 = Some (bipolar (fun q r k => 8 * h4 q r k) P k).
Proof.
  intros h0 h2 h4 P k Hh Hk. destruct evens_I as (_ & _ & _ & _ & _ & _ & _ & E23 & E32 & E33).
  repeat match goal with |- _ /\ _ => split end; unfold I_eval; cbn [Z.mul Z.add Pos.mul Pos.add Pos.succ]; rewrite I_sym by (lra || assumption); f_equal; apply bipolar_ext2; try exact Hk; intros q r Hq Hr H1 H2 H3;
    destruct (vvvv_unique h0 h2 h4 q r k Hh Hq Hr ltac:(lra) H1 H2 H3) as (A & B & C); assumption.
Qed.
Print Assumptions C159_quartic_integrals_are_over_all_wavevectors.
Theorem C159_odd_anisotropic_integrals_are_over_all_wavevectors : forall (P : R -> R) k, 0 < k <= 2 * 10 ^ 5 ->
  (forall h0 h2, coefs_v_sum h0 h2 -> (bipolar_halves_exist h0 P k -> I_eval P k 3 1 = Some (bipolar h0 P k)) /\ (bipolar_halves_exist h2 P k -> I_eval P k 1 3 = Some (bipolar h2 P k))) /\
  (forall h1 h3, coefs_vvv h1 h3 -> (bipolar_halves_exist (fun q r k => -2 * h1 q r k) P k -> I_eval P k 0 3 = Some (bipolar (fun q r k => -2 * h1 q r k) P k)) /\
     (bipolar_halves_exist (fun q r k => -2 * h3 q r k) P k -> I_eval P k 3 0 = Some (bipolar (fun q r k => -2 * h3 q r k) P k))).
Proof.
  intros P k Hk. split.
  - intros h0 h2 Hh. split; intro He; unfold I_eval; cbn [Z.mul Z.add Pos.mul Pos.add Pos.succ]; (rewrite I_nsym; [f_equal; apply bipolar_ext2; [exact Hk|]|exact Hk|eapply halves_ext2; [exact Hk| |exact He]]);
      intros q r Hq Hr H1 H2 H3; destruct (vsum_unique h0 h2 q r k Hh Hq Hr ltac:(lra) H1 H2 H3) as [A B]; symmetry + idtac; (exact A || exact B || (symmetry; (exact A || exact B))).
  - intros h1 h3 Hh. split; intro He; unfold I_eval; cbn [Z.mul Z.add Pos.mul Pos.add Pos.succ]; (rewrite I_nsym; [f_equal; apply bipolar_ext2; [exact Hk|]|exact Hk|eapply halves_ext2; [exact Hk| |exact He]]);
      intros q r Hq Hr H1 H2 H3; destruct (vvv_unique h1 h3 q r k Hh Hq Hr ltac:(lra) H1 H2 H3) as [A B]; (exact A || exact B || (symmetry; (exact A || exact B))).
Qed.
Print Assumptions C159_odd_anisotropic_integrals_are_over_all_wavevectors.
(** such coefficients exist, and for P(q) = q^3 the halves exist *)
Example C159_coefs_exist : (exists h0 h2, coefs_vv h0 h2) /\ (exists h0 h2, coefs_v_sum h0 h2) /\ (exists h1 h3, coefs_vvv h1 h3) /\ (exists h0 h2 h4, coefs_vvvv h0 h2 h4).
Proof.
  refine (conj _ (conj _ (conj _ _))).
  - exists (fun q r k => k20_a ((q + r) / k) ((r - q) / k)), (fun q r k => k20_b ((q + r) / k) ((r - q) / k)). intros K a c m H. apply (az_cfg K a c m H).
  - exists (fun q r k => f31 ((q + r) / k) ((r - q) / k)), (fun q r k => f13 ((q + r) / k) ((r - q) / k)). intros K a c m H. apply (az_cfg K a c m H).
  - exists (fun q r k => f03 ((q + r) / k) ((r - q) / k) / -2), (fun q r k => f30 ((q + r) / k) ((r - q) / k) / -2). intros K a c m H. destruct (az_cfg K a c m H) as (_ & _ & E & _).
    apply Rmult_eq_reg_l with (-2); [|lra]. rewrite <- E. field.
  - exists (fun q r k => f23 ((q + r) / k) ((r - q) / k) / 8), (fun q r k => f32 ((q + r) / k) ((r - q) / k) / 4), (fun q r k => f33 ((q + r) / k) ((r - q) / k) / 8). intros K a c m H. apply (az_cfg K a c m H).
Qed.
Example C159_odd_nonvacuous : exists h0 h2, coefs_v_sum h0 h2 /\ bipolar_halves_exist h0 (fun q => q ^ 3) 1.
Proof.
  exists (fun q r k => f31 ((q + r) / k) ((r - q) / k)), (fun q r k => f13 ((q + r) / k) ((r - q) / k)). split; [intros K a c m H; apply (az_cfg K a c m H)|].
  set (U := fun x => - 8 * exp x * (exp x ^ 2 - 1) / 256).
  apply (poly_exists 1 (fun _ => 0) (fun x => - U x * exp x ^ 2) (fun x => - 2 * U x * exp x) (fun x => U x * (exp x ^ 2 - 1)) (fun x => 2 * U x * exp x) U); [lra|..].
  1-6: intro x; apply (@ex_derive_continuous R_AbsRing R_NormedModule); unfold U; auto_derive; exact I.
  intros x v Hx Hv. assert (1 < exp x) by (rewrite <- exp_0; apply exp_increasing; exact Hx). unfold f31, U. set (u := exp x) in *. clearbody u. field. split; lra.
Qed.
