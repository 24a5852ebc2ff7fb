(** * Proofs about the second-order kernels *)
From Coq Require Import Reals ZArith Lra Lia Psatz.
From Coquelicot Require Import Coquelicot.
From Verif Require Import M_Kernels S_Kernels.
Local Open Scope R_scope.

Lemma dot_pos a : 0 <= dot a a. Proof. destruct a as [[x y] z]; unfold dot; nra. Qed.
Lemma dot_nz a : a <> zero -> 0 < dot a a.
Proof.
  intro H. destruct (Rle_lt_or_eq_dec 0 (dot a a) (dot_pos a)) as [?|E]; [assumption|]. exfalso; apply H.
  destruct a as [[x y] z]; unfold dot in E; unfold zero.
  assert (x = 0) by nra. assert (y = 0) by nra. assert (z = 0) by nra. subst; reflexivity.
Qed.
Lemma len_sq a : len a * len a = dot a a. Proof. unfold len. apply sqrt_sqrt, dot_pos. Qed.
Lemma len_pos a : a <> zero -> 0 < len a. Proof. intro; unfold len; apply sqrt_lt_R0, dot_nz; assumption. Qed.
Lemma dot_law q p : dot q p = (len (plus q p) * len (plus q p) - len q * len q - len p * len p) / 2.
Proof. rewrite !len_sq. destruct q as [[? ?] ?], p as [[? ?] ?]; unfold dot, plus; field. Qed.
Lemma dot_plus q p : dot (plus q p) q = dot q q + dot q p.
Proof. destruct q as [[? ?] ?], p as [[? ?] ?]; unfold dot, plus; ring. Qed.

Lemma cs q p : dot q p * dot q p <= dot q q * dot p p.
Proof.
  destruct q as [[a b] c], p as [[d e] f]; unfold dot.
  assert (E : (a * a + b * b + c * c) * (d * d + e * e + f * f) - (a * d + b * e + c * f) * (a * d + b * e + c * f)
    = Rsqr (a * e - b * d) + Rsqr (a * f - c * d) + Rsqr (b * f - c * e)) by (unfold Rsqr; ring).
  pose proof (Rle_0_sqr (a * e - b * d)). pose proof (Rle_0_sqr (a * f - c * d)). pose proof (Rle_0_sqr (b * f - c * e)). lra.
Qed.

Section geom.
  Variables q p : vec.
  Hypothesis Hq : q <> zero. Hypothesis Hp : p <> zero. Hypothesis Hk : plus q p <> zero.
  Let a := len q. Let b := len p. Let K := len (plus q p).
  Lemma ga : 0 < a. Proof. apply len_pos; assumption. Qed.
  Lemma gb : 0 < b. Proof. apply len_pos; assumption. Qed.
  Lemma gK : 0 < K. Proof. apply len_pos; assumption. Qed.

  Lemma tri1 : K <= a + b.
  Proof.
    pose proof ga; pose proof gb; pose proof gK.
    assert (E : dot q p <= a * b).
    { destruct (Rle_dec (dot q p) 0); [nra|]. pose proof (cs q p) as C. rewrite <- !len_sq in C. fold a b in C.
      apply Rsqr_incr_0_var; [|nra]. unfold Rsqr. nra. }
    pose proof (dot_law q p) as D. fold a b K in D. assert (K * K <= (a + b) * (a + b)) by nra.
    apply Rsqr_incr_0_var; [unfold Rsqr; assumption|lra].
  Qed.
  Lemma tri2 : a - b <= K /\ b - a <= K.
  Proof.
    pose proof ga; pose proof gb; pose proof gK.
    assert (E : - (a * b) <= dot q p).
    { destruct (Rle_dec 0 (dot q p)); [nra|]. pose proof (cs q p) as C. rewrite <- !len_sq in C. fold a b in C.
      assert (- dot q p <= a * b) by (apply Rsqr_incr_0_var; [unfold Rsqr; nra|nra]). lra. }
    pose proof (dot_law q p) as D. fold a b K in D. assert ((a - b) * (a - b) <= K * K) by nra.
    split; (apply Rnot_lt_le; intro; nra).
  Qed.
  Lemma cu_ge1 : 1 <= cu q p.
  Proof. pose proof gK; pose proof tri1. unfold cu. fold a b K. apply Rle_div_r; lra. Qed.
  Lemma cv_rng : -1 <= cv q p <= 1.
  Proof. pose proof gK; pose proof tri2. unfold cv. fold a b K. split; [apply Rle_div_r|apply Rle_div_l]; lra. Qed.

  Ltac go := unfold spt_F2, spt_G2, spt_S2, spt_alpha, cu, cv; rewrite ?dot_plus, ?(dot_law q p); rewrite <- ?(len_sq q), <- ?(len_sq p);
    fold a b K; pose proof ga; pose proof gb; pose proof gK.
  Lemma F2_std : F2 (cu q p) (cv q p) = spt_F2 q p.
  Proof. go. unfold F2. field. repeat split; try lra. nra. Qed.
  Lemma G2_std : G2 (cu q p) (cv q p) = spt_G2 q p.
  Proof. go. unfold G2. field. repeat split; try lra. nra. Qed.
  Lemma S2_std : S2 (cu q p) (cv q p) = spt_S2 q p.
  Proof. go. unfold S2. field. repeat split; try lra. nra. Qed.
  Lemma k11_std : k11 (cu q p) (cv q p) = spt_alpha q p.
  Proof. go. unfold k11. field. repeat split; try lra. Qed.
  Lemma d1 : cu q p - cv q p <> 0.
  Proof. go. replace ((a + b) / K - (b - a) / K) with (2 * (a / K)) by (field; lra). assert (0 < a / K) by (apply Rdiv_lt_0_compat; lra). lra. Qed.
  Lemma d2 : cu q p + cv q p <> 0.
  Proof. go. replace ((a + b) / K + (b - a) / K) with (2 * (b / K)) by (field; lra). assert (0 < b / K) by (apply Rdiv_lt_0_compat; lra). lra. Qed.
End geom.

(** every point of the integration domain is a triangle *)
Lemma triangle_exists K u v : 0 < K -> 1 <= u -> -1 <= v <= 1 -> v < u -> - v < u ->
  exists q p, plus q p = (0, 0, K) /\ q <> zero /\ p <> zero /\ cu q p = u /\ cv q p = v /\ len q = K / 2 * (u - v) /\ len p = K / 2 * (u + v).
Proof.
  intros HK Hu Hv H1 H2. set (a := K / 2 * (u - v)). set (b := K / 2 * (u + v)).
  assert (Ha : 0 < a) by (apply Rmult_lt_0_compat; lra). assert (Hb : 0 < b) by (apply Rmult_lt_0_compat; lra).
  set (c := (1 - u * v) / (u - v)).
  assert (Ec : c * (u - v) = 1 - u * v) by (unfold c; field; lra).
  assert (Hc : 0 <= 1 - c * c).
  { assert (0 <= (1 - c * c) * ((u - v) * (u - v))).
    { replace ((1 - c * c) * ((u - v) * (u - v))) with ((u - v) * (u - v) - (c * (u - v)) * (c * (u - v))) by ring. rewrite Ec.
      replace ((u - v) * (u - v) - (1 - u * v) * (1 - u * v)) with ((u * u - 1) * (1 - v * v)) by ring. apply Rmult_le_pos; nra. }
    assert (0 < (u - v) * (u - v)) by nra. apply Rmult_le_reg_r with ((u - v) * (u - v)); lra. }
  set (s := sqrt (1 - c * c)). assert (Es : s * s = 1 - c * c) by (apply sqrt_sqrt; exact Hc).
  exists (a * s, 0, a * c), (- (a * s), 0, K - a * c).
  assert (Lq : len (a * s, 0, a * c) = a).
  { unfold len. replace (dot (a * s, 0, a * c) (a * s, 0, a * c)) with (a * a); [apply sqrt_square; lra|].
    unfold dot. transitivity (a * a * (s * s + c * c)); [rewrite Es; ring|ring]. }
  assert (Lp : len (- (a * s), 0, K - a * c) = b).
  { unfold len. replace (dot (- (a * s), 0, K - a * c) (- (a * s), 0, K - a * c)) with (b * b); [apply sqrt_square; lra|].
    unfold dot. transitivity (a * a * (s * s) + (K - a * c) * (K - a * c)); [|ring]. rewrite Es.
    transitivity (a * a + K * K - 2 * K * (a * c)); [|ring].
    replace (a * c) with (K / 2 * (1 - u * v)) by (unfold a; rewrite <- Ec; ring). unfold a, b. field. }
  assert (Epl : plus (a * s, 0, a * c) (- (a * s), 0, K - a * c) = (0, 0, K)) by (unfold plus; f_equal; [f_equal|]; ring).
  assert (Lk : len (0, 0, K) = K).
  { unfold len. replace (dot (0, 0, K) (0, 0, K)) with (K * K) by (unfold dot; ring). apply sqrt_square; lra. }
  assert (L0 : len zero = 0) by (unfold len, zero, dot; replace (0 * 0 + 0 * 0 + 0 * 0) with 0 by ring; apply sqrt_0).
  split; [exact Epl|]. split; [intro E; rewrite E, L0 in Lq; lra|]. split; [intro E; rewrite E, L0 in Lp; lra|].
  unfold cu, cv. rewrite Epl, Lq, Lp, Lk. unfold a, b. repeat split; field; lra.
Qed.

(** ** products *)
Section prods.
  Variables u v : R. Hypothesis H1 : u - v <> 0. Hypothesis H2 : u + v <> 0.
  Lemma H3 : u * u - v * v <> 0.
  Proof. replace (u * u - v * v) with ((u - v) * (u + v)) by ring. apply Rmult_integral_contrapositive_currified; assumption. Qed.
  Ltac pf := pose proof H3; unfold F2, G2, h03, h04, k11; field; repeat split; assumption.
  Lemma f00_p : f00 u v = F2 u v * F2 u v. Proof. unfold f00; pf. Qed.
  Lemma f01_p : f01 u v = F2 u v * G2 u v. Proof. unfold f01; pf. Qed.
  Lemma f11_p : f11 u v = G2 u v * G2 u v. Proof. unfold f11; pf. Qed.
  Lemma f02_p : f02 u v = 2 * (F2 u v * h03 u v). Proof. unfold f02; pf. Qed.
  Lemma f12_p : f12 u v = 2 * (G2 u v * h03 u v). Proof. unfold f12; pf. Qed.
  Lemma f20_p : f20 u v = 2 * (F2 u v * h04 u v). Proof. unfold f20; pf. Qed.
  Lemma f21_p : f21 u v = 2 * (G2 u v * h04 u v). Proof. unfold f21; pf. Qed.
  Lemma f23_p : f23 u v = 12 * (h03 u v * h03 u v). Proof. unfold f23; pf. Qed.
  Lemma f10_p : f10 u v = F2 u v * k11 u v. Proof. unfold f10; pf. Qed.
  Lemma f22_p : f22 u v = G2 u v * k11 u v. Proof. unfold f22; pf. Qed.
End prods.

(** ** azimuthal averages *)
Lemma az_poly c0 c1 c2 c3 c4 :
  azimuthal (fun x => c0 + c1 * cos x + c2 * cos x ^ 2 + c3 * cos x ^ 3 + c4 * cos x ^ 4) = c0 + c2 / 2 + 3 * c4 / 8.
Proof.
  pose proof PI_RGT_0 as HPI. unfold azimuthal.
  set (F := fun x => c0 * x + c1 * sin x + c2 * (x / 2 + sin x * cos x / 2) + c3 * (sin x - sin x ^ 3 / 3)
                     + c4 * (3 / 8 * x + 3 / 8 * (sin x * cos x) + 1 / 4 * (sin x * cos x ^ 3))).
  assert (H : is_RInt (fun x => c0 + c1 * cos x + c2 * cos x ^ 2 + c3 * cos x ^ 3 + c4 * cos x ^ 4) 0 (2 * PI) (Hierarchy.minus (F (2 * PI)) (F 0))).
  { apply (is_RInt_derive F).
    - intros x _. unfold F. auto_derive; [exact I|].
      assert (Es : sin x * sin x = 1 - cos x * cos x) by (pose proof (sin2_cos2 x) as E; unfold Rsqr in E; lra).
      ring_simplify. replace (sin x ^ 2) with (1 - cos x * cos x) by (rewrite <- Es; ring). field_simplify. 
      repeat match goal with |- context [sin x ^ 2] => replace (sin x ^ 2) with (1 - cos x * cos x) by (rewrite <- Es; ring) end. field.
    - intros x _. apply (@ex_derive_continuous R_AbsRing R_NormedModule). auto_derive; exact I. }
  rewrite (is_RInt_unique _ _ _ _ H). unfold Hierarchy.minus, Hierarchy.plus, opp, F; simpl.
  rewrite sin_2PI, cos_2PI, sin_0, cos_0. field. lra.
Qed.
Lemma az_ext f g : (forall x, f x = g x) -> azimuthal f = azimuthal g.
Proof. intro H. unfold azimuthal. f_equal. apply RInt_ext. intros; apply H. Qed.

Section az.
  Variables K a c m : R.
  Hypothesis HK : 0 < K. Hypothesis Ha : 0 < a. Hypothesis Hc : -1 <= c <= 1. Hypothesis Hm : -1 <= m <= 1.
  Let s := sqrt (1 - c * c). Let t := sqrt (1 - m * m).
  Lemma ss : s * s = 1 - c * c. Proof. apply sqrt_sqrt; nra. Qed.
  Lemma tt2 : t * t = 1 - m * m. Proof. apply sqrt_sqrt; nra. Qed.
  Lemma nq phi : dot (los m) (qvec a c phi) = a * (c * m) + a * (s * t) * cos phi.
  Proof. unfold los, qvec, dot. fold s t. ring. Qed.
  Lemma np phi : dot (los m) (minus (kvec K) (qvec a c phi)) = K * m - (a * (c * m) + a * (s * t) * cos phi).
  Proof. unfold los, qvec, kvec, minus, dot. fold s t. ring. Qed.
  Lemma qq phi : dot (qvec a c phi) (qvec a c phi) = a * a.
  Proof. unfold qvec, dot. fold s. transitivity (a * a * (s * s * (sin phi * sin phi + cos phi * cos phi) + c * c)); [ring|].
    pose proof (sin2_cos2 phi) as E; unfold Rsqr in E. rewrite E, ss. ring. Qed.
  Lemma pp phi : dot (minus (kvec K) (qvec a c phi)) (minus (kvec K) (qvec a c phi)) = K * K + a * a - 2 * K * a * c.
  Proof. rewrite <- (qq phi). unfold qvec, kvec, minus, dot. fold s. ring. Qed.
  Lemma plus_k phi : S_Kernels.plus (qvec a c phi) (minus (kvec K) (qvec a c phi)) = kvec K.
  Proof. unfold qvec, kvec, minus, plus. f_equal; [f_equal|]; ring. Qed.
  Hypothesis Hne : 0 < K * K + a * a - 2 * K * a * c.
  Let b := sqrt (K * K + a * a - 2 * K * a * c).
  Lemma b_pos : 0 < b. Proof. apply sqrt_lt_R0, Hne. Qed.
  Lemma bb : b * b = K * K + a * a - 2 * K * a * c. Proof. apply sqrt_sqrt. lra. Qed.
  Lemma cu_az phi : cu (qvec a c phi) (minus (kvec K) (qvec a c phi)) = (a + b) / K.
  Proof.
    unfold cu. rewrite plus_k. unfold len. rewrite qq, pp. fold b. rewrite (sqrt_square a) by lra.
    replace (dot (kvec K) (kvec K)) with (K * K) by (unfold dot, kvec; ring). rewrite (sqrt_square K) by lra. reflexivity.
  Qed.
  Lemma cv_az phi : cv (qvec a c phi) (minus (kvec K) (qvec a c phi)) = (b - a) / K.
  Proof.
    unfold cv. rewrite plus_k. unfold len. rewrite qq, pp. fold b. rewrite (sqrt_square a) by lra.
    replace (dot (kvec K) (kvec K)) with (K * K) by (unfold dot, kvec; ring). rewrite (sqrt_square K) by lra. reflexivity.
  Qed.
  Lemma c_b : c = (K * K + a * a - b * b) / (2 * K * a). Proof. rewrite bb. field. lra. Qed.
  Let A := a * (c * m). Let B := a * (s * t).
  Lemma BB : B * B = a * a * (1 - c * c) * (1 - m * m).
  Proof. unfold B. rewrite <- ss, <- tt2. ring. Qed.

  Lemma az_11 : azimuthal (fun phi => dot (los m) (qvec a c phi) * dot (los m) (minus (kvec K) (qvec a c phi))
      / (dot (qvec a c phi) (qvec a c phi) * dot (minus (kvec K) (qvec a c phi)) (minus (kvec K) (qvec a c phi))))
    = (A * (K * m - A) - B * B / 2) / (a * a * (b * b)).
  Proof.
    pose proof b_pos.
    rewrite (az_ext _ (fun x => A * (K * m - A) / (a * a * (b * b)) + B * (K * m - 2 * A) / (a * a * (b * b)) * cos x + - (B * B) / (a * a * (b * b)) * cos x ^ 2 + 0 * cos x ^ 3 + 0 * cos x ^ 4)).
    - rewrite az_poly. field. lra.
    - intro x. rewrite nq, np, qq, pp, <- bb. fold A B. field. lra.
  Qed.
  Lemma az_12 : azimuthal (fun phi => dot (los m) (qvec a c phi) / dot (qvec a c phi) (qvec a c phi)
      * (dot (los m) (qvec a c phi) / dot (qvec a c phi) (qvec a c phi)
         + dot (los m) (minus (kvec K) (qvec a c phi)) / dot (minus (kvec K) (qvec a c phi)) (minus (kvec K) (qvec a c phi))))
    = (A * A + B * B / 2) / (a * a * (a * a)) + (A * (K * m - A) - B * B / 2) / (a * a * (b * b)).
  Proof.
    pose proof b_pos.
    rewrite (az_ext _ (fun x => (A * A / (a * a * (a * a)) + A * (K * m - A) / (a * a * (b * b))) + (2 * (A * B) / (a * a * (a * a)) + B * (K * m - 2 * A) / (a * a * (b * b))) * cos x
       + (B * B / (a * a * (a * a)) - (B * B) / (a * a * (b * b))) * cos x ^ 2 + 0 * cos x ^ 3 + 0 * cos x ^ 4)).
    - rewrite az_poly. field. lra.
    - intro x. rewrite nq, np, qq, pp, <- bb. fold A B. field. lra.
  Qed.
  Lemma az_21 : azimuthal (fun phi => (dot (los m) (qvec a c phi)) ^ 2 * dot (los m) (minus (kvec K) (qvec a c phi))
      / ((dot (qvec a c phi) (qvec a c phi)) ^ 2 * dot (minus (kvec K) (qvec a c phi)) (minus (kvec K) (qvec a c phi))))
    = (A * A * (K * m - A) + (B * B) * (K * m - 3 * A) / 2) / (a * a * (a * a) * (b * b)).
  Proof.
    pose proof b_pos.
    rewrite (az_ext _ (fun x => A * A * (K * m - A) / (a * a * (a * a) * (b * b)) + (2 * A * B * (K * m - A) - A * A * B) / (a * a * (a * a) * (b * b)) * cos x
      + (B * B * (K * m - A) - 2 * A * (B * B)) / (a * a * (a * a) * (b * b)) * cos x ^ 2 + - (B * B * B) / (a * a * (a * a) * (b * b)) * cos x ^ 3 + 0 * cos x ^ 4)).
    - rewrite az_poly. field. lra.
    - intro x. rewrite nq, np, qq, pp, <- bb. fold A B. field. lra.
  Qed.
  Lemma az_22 : azimuthal (fun phi => (dot (los m) (qvec a c phi) * dot (los m) (minus (kvec K) (qvec a c phi))
      / (dot (qvec a c phi) (qvec a c phi) * dot (minus (kvec K) (qvec a c phi)) (minus (kvec K) (qvec a c phi)))) ^ 2)
    = (A * A * (K * m - A) * (K * m - A) + (B * B) * ((K * m - 2 * A) * (K * m - 2 * A) - 2 * A * (K * m - A)) / 2 + 3 * ((B * B) * (B * B)) / 8) / (a * a * (b * b) * (a * a * (b * b))).
  Proof.
    pose proof b_pos.
    set (D := a * a * (b * b) * (a * a * (b * b))).
    rewrite (az_ext _ (fun x => A * A * (K * m - A) * (K * m - A) / D + 2 * A * (K * m - A) * B * (K * m - 2 * A) / D * cos x
      + (B * B) * ((K * m - 2 * A) * (K * m - 2 * A) - 2 * A * (K * m - A)) / D * cos x ^ 2 + -2 * (B * B * B) * (K * m - 2 * A) / D * cos x ^ 3 + (B * B * (B * B)) / D * cos x ^ 4)).
    - rewrite az_poly. unfold D. field. lra.
    - intro x. rewrite nq, np, qq, pp, <- bb. fold A B. unfold D. field. lra.
  Qed.
  Ltac fin := pose proof b_pos; rewrite BB; unfold A; rewrite c_b; clearbody b; field; repeat split; try lra; try nra.
  Lemma h_az : h03 ((a + b) / K) ((b - a) / K) + h04 ((a + b) / K) ((b - a) / K) * m ^ 2 = K ^ 2 * ((A * (K * m - A) - B * B / 2) / (a * a * (b * b))).
  Proof. unfold h03, h04. fin. Qed.
  Lemma f13_az : f31 ((a + b) / K) ((b - a) / K) + f13 ((a + b) / K) ((b - a) / K) * m ^ 2 = K ^ 2 * ((A * A + B * B / 2) / (a * a * (a * a)) + (A * (K * m - A) - B * B / 2) / (a * a * (b * b))).
  Proof. unfold f31, f13. fin. Qed.
  Lemma f30_az : f03 ((a + b) / K) ((b - a) / K) * m + f30 ((a + b) / K) ((b - a) / K) * m ^ 3 = -2 * (K ^ 3 * ((A * A * (K * m - A) + (B * B) * (K * m - 3 * A) / 2) / (a * a * (a * a) * (b * b)))).
  Proof. unfold f03, f30. fin. Qed.
  Lemma f33_az : f23 ((a + b) / K) ((b - a) / K) / 8 + f32 ((a + b) / K) ((b - a) / K) / 4 * m ^ 2 + f33 ((a + b) / K) ((b - a) / K) / 8 * m ^ 4
    = K ^ 4 * ((A * A * (K * m - A) * (K * m - A) + (B * B) * ((K * m - 2 * A) * (K * m - 2 * A) - 2 * A * (K * m - A)) / 2 + 3 * ((B * B) * (B * B)) / 8) / (a * a * (b * b) * (a * a * (b * b)))).
  Proof. unfold f23, f32, f33. fin. Qed.
End az.
