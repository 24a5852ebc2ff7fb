(** * C157-C160: the second-order perturbation theory integrals *)
From Coq Require Import Reals ZArith Lra Lia Psatz.
From Coquelicot Require Import Coquelicot.
From Verif Require Import M_Kernels S_Kernels P_Kernels P_KInt.
Local Open Scope R_scope.

(** ** C157: the kernels are the standard ones of two wavevectors *)
Theorem C157_second_order_kernels_are_the_standard_ones : forall q p : vec, q <> zero -> p <> zero -> plus q p <> zero ->
  let u := cu q p in let v := cv q p in
  k00 u v = spt_F2 q p /\ k10 u v = spt_G2 q p /\ k02s u v = spt_S2 q p /\ k11 u v = spt_alpha q p /\ k01 u v = 1 /\
  k00s u v = spt_F2 q p * spt_S2 q p /\ k10s u v = spt_G2 q p * spt_S2 q p /\ k01s u v = spt_S2 q p ^ 2 /\ k11s u v = spt_alpha q p * spt_S2 q p /\
  f00 u v = spt_F2 q p ^ 2 /\ f01 u v = spt_F2 q p * spt_G2 q p /\ f11 u v = spt_G2 q p ^ 2 /\
  f10 u v = spt_F2 q p * spt_alpha q p /\ f22 u v = spt_G2 q p * spt_alpha q p.
Proof.
  intros q p Hq Hp Hk u v. pose proof (F2_std q p Hq Hp Hk) as EF. pose proof (G2_std q p Hq Hp Hk) as EG. pose proof (S2_std q p Hq Hp Hk) as ES.
  pose proof (k11_std q p Hq Hp Hk) as EK. pose proof (d1 q p Hq Hp Hk) as D1. pose proof (d2 q p Hq Hp Hk) as D2. fold u v in EF, EG, ES, EK, D1, D2.
  unfold k00, k10, k02s, k01, k00s, k10s, k01s. change (k11s u v) with (k11 u v * S2 u v).
  rewrite f00_p, f01_p, f11_p, f10_p, f22_p by assumption. rewrite EF, EG, ES, EK.
  repeat match goal with |- _ /\ _ => split end; try reflexivity; ring.
Qed.
Print Assumptions C157_second_order_kernels_are_the_standard_ones.
(** the rectangle u >= 1, -1 <= v <= 1 is exactly the set of triangles *)
Theorem C157_every_pair_of_wavevectors_is_in_the_rectangle : forall q p : vec, q <> zero -> p <> zero -> plus q p <> zero ->
  1 <= cu q p /\ -1 <= cv q p <= 1 /\ len q = len (plus q p) / 2 * (cu q p - cv q p) /\ len p = len (plus q p) / 2 * (cu q p + cv q p).
Proof.
  intros q p Hq Hp Hk. split; [apply cu_ge1; assumption|]. split; [apply cv_rng; assumption|].
  pose proof (len_pos _ Hk). unfold cu, cv. split; field; lra.
Qed.
Print Assumptions C157_every_pair_of_wavevectors_is_in_the_rectangle.
Theorem C157_every_point_of_the_rectangle_is_a_pair_of_wavevectors : forall K u v, 0 < K -> 1 <= u -> -1 <= v <= 1 -> v < u -> - v < u ->
  exists q p, plus q p = (0, 0, K) /\ q <> zero /\ p <> zero /\ cu q p = u /\ cv q p = v.
Proof.
  intros K u v HK Hu Hv H1 H2. destruct (triangle_exists K u v HK Hu Hv H1 H2) as (q & p & A & B & C & D & E & _). exists q, p. auto.
Qed.
Print Assumptions C157_every_point_of_the_rectangle_is_a_pair_of_wavevectors.
Example C157_nonvacuous : (1, 0, 0) <> zero /\ (0, 1, 0) <> zero /\ plus (1, 0, 0) (0, 1, 0) <> zero /\ spt_F2 (1, 0, 0) (0, 1, 0) = 5/7.
Proof.
  refine (conj _ (conj _ (conj _ _))); try (unfold zero, plus; intro E; injection E; intros; lra).
  unfold spt_F2, dot. field.
Qed.

(** ** C158: the anisotropic kernels are azimuthal averages *)
Theorem C158_anisotropic_kernels_are_azimuthal_averages : forall K a c m phi0, 0 < K -> 0 < a -> -1 <= c <= 1 -> -1 <= m <= 1 ->
  0 < K * K + a * a - 2 * K * a * c ->
  let n := los m in let q phi := qvec a c phi in let p phi := minus (kvec K) (qvec a c phi) in
  let u := cu (q phi0) (p phi0) in let v := cv (q phi0) (p phi0) in
  (** (n.q)(n.p)/(q^2 p^2) *)
  k20_a u v + k20_b u v * m ^ 2
    = K ^ 2 * azimuthal (fun phi => dot n (q phi) * dot n (p phi) / (dot (q phi) (q phi) * dot (p phi) (p phi))) /\
  (** (n.q/q^2)(n.q/q^2 + n.p/p^2) *)
  f31 u v + f13 u v * m ^ 2
    = K ^ 2 * azimuthal (fun phi => dot n (q phi) / dot (q phi) (q phi) * (dot n (q phi) / dot (q phi) (q phi) + dot n (p phi) / dot (p phi) (p phi))) /\
  (** (n.q)^2 (n.p)/(q^4 p^2) *)
  f03 u v * m + f30 u v * m ^ 3
    = -2 * (K ^ 3 * azimuthal (fun phi => (dot n (q phi)) ^ 2 * dot n (p phi) / ((dot (q phi) (q phi)) ^ 2 * dot (p phi) (p phi)))) /\
  (** ((n.q)(n.p)/(q^2 p^2))^2 *)
  f23 u v / 8 + f32 u v / 4 * m ^ 2 + f33 u v / 8 * m ^ 4
    = K ^ 4 * azimuthal (fun phi => (dot n (q phi) * dot n (p phi) / (dot (q phi) (q phi) * dot (p phi) (p phi))) ^ 2).
Proof.
  intros K a c m phi0 HK Ha Hc Hm Hne n q p u v. unfold u, v, q, p, n.
  rewrite cu_az, cv_az by assumption.
  rewrite (az_11 K a c m), (az_12 K a c m), (az_21 K a c m), (az_22 K a c m) by assumption.
  refine (conj _ (conj _ (conj _ _))); [apply h_az|apply f13_az|apply f30_az|apply f33_az]; assumption.
Qed.
Print Assumptions C158_anisotropic_kernels_are_azimuthal_averages.
(** and the mixed ones are 2 F2 and 2 G2 times the first average *)
Theorem C158_mixed_kernels_are_products : forall q p : vec, q <> zero -> p <> zero -> plus q p <> zero ->
  let u := cu q p in let v := cv q p in forall m,
  f02 u v + f20 u v * m ^ 2 = 2 * spt_F2 q p * (k20_a u v + k20_b u v * m ^ 2) /\
  f12 u v + f21 u v * m ^ 2 = 2 * spt_G2 q p * (k20_a u v + k20_b u v * m ^ 2) /\
  k20s_a u v + k20s_b u v * m ^ 2 = spt_S2 q p * (k20_a u v + k20_b u v * m ^ 2).
Proof.
  intros q p Hq Hp Hk u v m. pose proof (F2_std q p Hq Hp Hk) as EF. pose proof (G2_std q p Hq Hp Hk) as EG. pose proof (S2_std q p Hq Hp Hk) as ES.
  pose proof (d1 q p Hq Hp Hk) as D1. pose proof (d2 q p Hq Hp Hk) as D2. fold u v in EF, EG, ES, D1, D2.
  rewrite <- EF, <- EG, <- ES. unfold k20_a, k20_b, k20s_a, k20s_b. rewrite f02_p, f20_p, f12_p, f21_p by assumption.
  refine (conj _ (conj _ _)); ring.
Qed.
Print Assumptions C158_mixed_kernels_are_products.
Example C158_nonvacuous : 0 < 2 /\ 0 < 1 /\ -1 <= 1/2 <= 1 /\ -1 <= 1/3 <= 1 /\ 0 < 2 * 2 + 1 * 1 - 2 * 2 * 1 * (1/2). Proof. lra. Qed.

(** ** C159: the integrals *)
Theorem C159_each_integral_is_over_all_wavevectors : forall (P : R -> R) k part, 0 < k <= 2 * 10 ^ 5 ->
  I_eval P k 0 0 = Some (bipolar (fun q r k => side_F2 q r k ^ 2) P k) /\
  I_eval P k 0 1 = Some (bipolar (fun q r k => side_F2 q r k * side_G2 q r k) P k) /\
  I_eval P k 1 1 = Some (bipolar (fun q r k => side_G2 q r k ^ 2) P k) /\
  K_eval P k 0 0 false part = Some (bipolar side_F2 P k) /\
  K_eval P k 1 0 false part = Some (bipolar side_G2 P k) /\
  K_eval P k 0 1 false part = Some (bipolar (fun _ _ _ => 1) P k) /\
  K_eval P k 0 0 true part = Some (bipolar (fun q r k => side_F2 q r k * side_S2 q r k) P k) /\
  K_eval P k 1 0 true part = Some (bipolar (fun q r k => side_G2 q r k * side_S2 q r k) P k) /\
  K_eval P k 0 1 true part = Some (bipolar (fun q r k => side_S2 q r k ^ 2) P k) /\
  K_eval P k 0 2 true part = Some (bipolar side_S2 P k) /\
  K_eval P k 1 1 false part = Some (bipolar side_alpha P k) /\
  K_eval P k 1 1 true part = Some (bipolar (fun q r k => side_alpha q r k * side_S2 q r k) P k).
Proof.
  intros P k part Hk. destruct evens as (EF & EG & ES & _ & _). destruct evens_I as (E00 & E01 & _ & E11 & _).
  assert (M : forall f g : R -> R -> R, even_in_v f -> even_in_v g -> even_in_v (fun u v => f u v * g u v)) by (intros f g Hf Hg u v; rewrite Hf, Hg; reflexivity).
  repeat match goal with |- _ /\ _ => split end.
  1-3: unfold I_eval; cbn [Z.mul Z.add Pos.mul Pos.add]; rewrite I_sym by (lra || assumption); f_equal; apply bipolar_ext; [exact Hk|]; intros q r Hq Hr _.
  1-3: rewrite ?f00_p, ?f01_p, ?f11_p by (apply uv1 || apply uv2; lra); rewrite ?F2_side, ?G2_side by lra; ring.
  all: unfold K_eval; cbn [Z.mul Z.add Pos.mul Pos.add Pos.succ].
  1-7: rewrite K_sym by (lra || assumption || (apply M; assumption) || (intros u v; unfold k01s; rewrite ES; reflexivity) || (intros u v; reflexivity)).
  8-9: rewrite K_nsym by lra.
  all: f_equal; apply bipolar_ext; try exact Hk; intros q r Hq Hr _.
  - unfold k00. apply F2_side; lra.
  - unfold k10. apply G2_side; lra.
  - unfold k00s. rewrite F2_side, S2_side by lra. reflexivity.
  - unfold k10s. rewrite G2_side, S2_side by lra. reflexivity.
  - unfold k01s. rewrite S2_side by lra. reflexivity.
  - unfold k02s. apply S2_side; lra.
  - apply k11_side; lra.
  - change (k11s ((q + r) / k) ((r - q) / k)) with (k11 ((q + r) / k) ((r - q) / k) * S2 ((q + r) / k) ((r - q) / k)). rewrite k11_side, S2_side by lra. reflexivity.
Qed.
Print Assumptions C159_each_integral_is_over_all_wavevectors.
Theorem C159_mixed_integrals_are_over_all_wavevectors : forall (P : R -> R) k, 0 < k <= 2 * 10 ^ 5 ->
  (bipolar_halves_exist (fun q r k => side_F2 q r k * side_alpha q r k) P k -> I_eval P k 1 0 = Some (bipolar (fun q r k => side_F2 q r k * side_alpha q r k) P k)) /\
  (bipolar_halves_exist (fun q r k => side_G2 q r k * side_alpha q r k) P k -> I_eval P k 2 2 = Some (bipolar (fun q r k => side_G2 q r k * side_alpha q r k) P k)).
Proof.
  intros P k Hk.
  assert (E1 : forall q r, 0 < q -> 0 < r -> k < q + r -> f10 ((q + r) / k) ((r - q) / k) = side_F2 q r k * side_alpha q r k).
  { intros q r Hq Hr _. rewrite f10_p by (apply uv1 || apply uv2; lra). rewrite F2_side, k11_side by lra. reflexivity. }
  assert (E2 : forall q r, 0 < q -> 0 < r -> k < q + r -> f22 ((q + r) / k) ((r - q) / k) = side_G2 q r k * side_alpha q r k).
  { intros q r Hq Hr _. rewrite f22_p by (apply uv1 || apply uv2; lra). rewrite G2_side, k11_side by lra. reflexivity. }
  split; intro He; unfold I_eval; cbn [Z.mul Z.add Pos.mul Pos.add Pos.succ].
  - rewrite I_nsym; [f_equal; apply bipolar_ext; assumption|exact Hk|]. eapply halves_ext; [exact Hk| |exact He]. intros; symmetry; apply E1; assumption.
  - rewrite I_nsym; [f_equal; apply bipolar_ext; assumption|exact Hk|]. eapply halves_ext; [exact Hk| |exact He]. intros; symmetry; apply E2; assumption.
Qed.
Print Assumptions C159_mixed_integrals_are_over_all_wavevectors.
Example C159_mixed_nonvacuous : bipolar_halves_exist (fun q r k => side_F2 q r k * side_alpha q r k) (fun q => q ^ 3) 1.
Proof.
  set (A := fun x => (8 + 6 * exp x ^ 2) / 7 / 256). set (B := fun x => (6 - 20 * exp x ^ 2) / 7 / 256).
  apply (poly_exists 1 (fun x => 2 * exp x ^ 2 * A x) (fun x => (4 * exp x - 2 * exp x ^ 3) * A x) (fun x => (2 - 4 * exp x ^ 2) * A x + 2 * exp x ^ 2 * B x)
     (fun x => - 2 * exp x * A x + (4 * exp x - 2 * exp x ^ 3) * B x) (fun x => (2 - 4 * exp x ^ 2) * B x) (fun x => - 2 * exp x * B x)); [lra|..].
  1-6: intro x; apply (@ex_derive_continuous R_AbsRing R_NormedModule); unfold A, B; auto_derive; exact I.
  intros x v Hx Hv. assert (1 < exp x) by (rewrite <- exp_0; apply exp_increasing; exact Hx).
  assert (H1 : exp x - v <> 0) by lra. assert (H2 : exp x + v <> 0) by lra. unfold side_F2, side_alpha, side_dot, A, B. set (u := exp x) in *. clearbody u.
  field. lra.
Qed.
(** scaling, k <= 0, signs and the Cauchy-Schwarz inequality *)
Theorem C159_integrals_are_quadratic_in_the_spectrum : forall (P : R -> R) k m n tidal part l,
  I_eval (fun q => l * P q) k m n = option_map (fun x => l ^ 2 * x) (I_eval P k m n) /\
  K_eval (fun q => l * P q) k m n tidal part = option_map (fun x => l ^ 2 * x) (K_eval P k m n tidal part).
Proof. intros; split; [apply I_eval_scal|apply K_eval_scal]. Qed.
Print Assumptions C159_integrals_are_quadratic_in_the_spectrum.
Theorem C159_integrals_vanish_at_nonpositive_k : forall (P : R -> R) k m n tidal part x, k <= 0 ->
  (I_eval P k m n = Some x -> x = 0) /\ (K_eval P k m n tidal part = Some x -> x = 0).
Proof. intros P k m n t part x Hk; split; [apply I_k0; exact Hk|apply K_k0; exact Hk]. Qed.
Print Assumptions C159_integrals_vanish_at_nonpositive_k.
Theorem C159_squares_give_nonnegative_integrals : forall (P : R -> R) k part, 0 < k <= 2 * 10 ^ 5 -> (forall q, 0 < q -> 0 <= P q) ->
  forall x, (I_eval P k 0 0 = Some x \/ I_eval P k 1 1 = Some x \/ K_eval P k 0 1 false part = Some x \/ K_eval P k 0 1 true part = Some x) -> 0 <= x.
Proof.
  intros P k part Hk HP x Hx. destruct (C159_each_integral_is_over_all_wavevectors P k part Hk) as (E1 & _ & E2 & _ & _ & E3 & _ & _ & E4 & _).
  rewrite E1, E2, E3, E4 in Hx.
  destruct Hx as [Hx|[Hx|[Hx|Hx]]]; injection Hx as <-; apply bipolar_nonneg; try assumption; intros; try apply pow2_ge_0; lra.
Qed.
Print Assumptions C159_squares_give_nonnegative_integrals.
Theorem C159_cross_integral_is_bounded_by_the_autos : forall (P : R -> R) k i00 i01 i11, 0 < k <= 2 * 10 ^ 5 -> (forall q, 0 < q -> 0 <= P q) ->
  bipolar_exists (fun q r k => side_F2 q r k * side_F2 q r k) P k -> bipolar_exists (fun q r k => side_F2 q r k * side_G2 q r k) P k ->
  bipolar_exists (fun q r k => side_G2 q r k * side_G2 q r k) P k ->
  I_eval P k 0 0 = Some i00 -> I_eval P k 0 1 = Some i01 -> I_eval P k 1 1 = Some i11 -> i01 ^ 2 <= i00 * i11.
Proof.
  intros P k i00 i01 i11 Hk HP H1 H2 H3 G1 G2' G3. destruct (C159_each_integral_is_over_all_wavevectors P k 0%Z Hk) as (E1 & E2 & E3 & _).
  rewrite E1 in G1; rewrite E2 in G2'; rewrite E3 in G3. injection G1 as <-. injection G2' as <-. injection G3 as <-.
  rewrite (bipolar_ext (fun q r k => side_F2 q r k ^ 2) (fun q r k => side_F2 q r k * side_F2 q r k)) by (try exact Hk; intros; ring).
  rewrite (bipolar_ext (fun q r k => side_G2 q r k ^ 2) (fun q r k => side_G2 q r k * side_G2 q r k)) by (try exact Hk; intros; ring).
  apply bipolar_CS; assumption.
Qed.
Print Assumptions C159_cross_integral_is_bounded_by_the_autos.
Example C159_nonvacuous : 0 < 1 <= 2 * 10 ^ 5 /\ (forall q, 0 < q -> 0 <= q ^ 3) /\
  bipolar_exists (fun q r k => side_F2 q r k * side_F2 q r k) (fun q => q ^ 3) 1 /\ bipolar_exists (fun q r k => side_F2 q r k * side_G2 q r k) (fun q => q ^ 3) 1 /\
  bipolar_exists (fun q r k => side_G2 q r k * side_G2 q r k) (fun q => q ^ 3) 1.
Proof.
  assert (HA : forall f g : R -> R -> R -> R, forall A B C D : R -> R,
    (forall x, continuous A x) -> (forall x, continuous B x) -> (forall x, continuous C x) -> (forall x, continuous D x) ->
    (forall q r, 0 < q -> 0 < r -> forall x v, q = 1 / 2 * (exp x - v) -> r = 1 / 2 * (exp x + v) -> (q * r) ^ 2 * f q r 1 = A x + B x * v ^ 2 /\ (q * r) ^ 2 * g q r 1 = C x + D x * v ^ 2) ->
    bipolar_exists (fun q r k => f q r k * g q r k) (fun q => q ^ 3) 1).
  { intros f g A B C D CA CB CC CD H. apply (cube_exists 1 A B C D); try assumption; try lra.
    intros x v Hx Hv. assert (1 < exp x) by (rewrite <- exp_0; apply exp_increasing; exact Hx).
    destruct (H (1 / 2 * (exp x - v)) (1 / 2 * (exp x + v)) ltac:(lra) ltac:(lra) x v eq_refl eq_refl) as [E1 E2]. rewrite <- E1, <- E2. ring. }
  assert (CF : forall a b x, continuous (fun y => a + b * exp y ^ 2) x) by (intros a b x; apply (@ex_derive_continuous R_AbsRing R_NormedModule); auto_derive; exact I).
  assert (EF : forall q r, 0 < q -> 0 < r -> forall x v, q = 1 / 2 * (exp x - v) -> r = 1 / 2 * (exp x + v) ->
     (q * r) ^ 2 * side_F2 q r 1 = (8 / 112 + 6 / 112 * exp x ^ 2) + (6 / 112 + - 20 / 112 * exp x ^ 2) * v ^ 2).
  { intros q r Hq Hr x v -> ->. unfold side_F2, side_dot. field. lra. }
  assert (EG : forall q r, 0 < q -> 0 < r -> forall x v, q = 1 / 2 * (exp x - v) -> r = 1 / 2 * (exp x + v) ->
     (q * r) ^ 2 * side_G2 q r 1 = (16 / 112 + - 2 / 112 * exp x ^ 2) + (- 2 / 112 + - 12 / 112 * exp x ^ 2) * v ^ 2).
  { intros q r Hq Hr x v -> ->. unfold side_G2, side_dot. field. lra. }
  split; [lra|]. split; [intros q Hq; apply pow_le; lra|].
  refine (conj _ (conj _ _)); (eapply HA; [..|intros q r Hq Hr x v Eq Er; split; (exact (EF q r Hq Hr x v Eq Er) || exact (EG q r Hq Hr x v Eq Er))]); intro; apply CF.
Qed.

(** ** C160: indices outside the table are answered with another integral *)
Theorem C160_i_indices_are_collapsed : forall (P : R -> R) k m n, I_eval P k m (n + 4) = I_eval P k (m + 1) n.
Proof. intros. unfold I_eval. replace (4 * m + (n + 4))%Z with (4 * (m + 1) + n)%Z by ring. reflexivity. Qed.
Print Assumptions C160_i_indices_are_collapsed.
Theorem C160_k_second_index_two_without_tide_is_the_tidal_integral : forall (P : R -> R) k m n part,
  K_eval P k m (n + 2) false part = K_eval P k m n true part.
Proof. intros. unfold K_eval. replace (2 * (3 * m + 0) + (n + 2))%Z with (2 * (3 * m + 1) + n)%Z by ring. reflexivity. Qed.
Print Assumptions C160_k_second_index_two_without_tide_is_the_tidal_integral.
(** "an index pair outside 0..3 x 0..3 is an error" *)
Theorem C160_indices_outside_the_table_are_rejected_refuted :
  ~ (forall (P : R -> R) k m n, ~ (0 <= m <= 3 /\ 0 <= n <= 3)%Z -> I_eval P k m n = None) /\
  ~ (forall (P : R -> R) k m n part, ~ (0 <= m <= 2 /\ 0 <= n <= 1)%Z -> K_eval P k m n false part = None).
Proof.
  split; intro H.
  - specialize (H (fun _ => 0) 1 0%Z 4%Z). unfold I_eval in H. discriminate H; lia.
  - specialize (H (fun _ => 0) 1 0%Z 2%Z 0%Z). unfold K_eval in H. discriminate H; lia.
Qed.
Print Assumptions C160_indices_outside_the_table_are_rejected_refuted.
Theorem C160_answered_indices_partial : forall (P : R -> R) k m n,
  ((0 <= 4 * m + n <= 15)%Z <-> I_eval P k m n <> None) /\ ((0 <= m <= 3 /\ 0 <= n <= 3)%Z -> I_eval P k m n <> None).
Proof.
  intros P k m n. assert (H : (0 <= 4 * m + n <= 15)%Z <-> I_eval P k m n <> None).
  { unfold I_eval. destruct (4 * m + n)%Z as [|p|p]; [split; [discriminate|lia]| |split; [lia|congruence]].
    do 4 (try destruct p as [p|p|]); (split; [intro; try discriminate; lia|intro; try lia; congruence]). }
  split; [exact H|]. intros [? ?]. apply H. lia.
Qed.
Print Assumptions C160_answered_indices_partial.
