(** * Proofs about the two-loop integrals, continued *)
From Coq Require Import Reals List ZArith Lra Lia Psatz.
From Coquelicot Require Import Coquelicot.
From Verif Require Import M_Kernels S_Kernels S_Kernels2 P_Kernels P_KInt Props_Kernels Props_Kernels2 M_OneLoop S_OneLoop P_OneLoop.
Local Open Scope R_scope.

Lemma bipolar2_scal f P1 P2 Q1 Q2 a k : (forall q r, Q1 q * Q2 r = a * (P1 q * P2 r)) ->
  bipolar2 f Q1 Q2 k = a * bipolar2 f P1 P2 k /\ (bipolar2_exists f P1 P2 k -> bipolar2_exists f Q1 Q2 k).
Proof.
  intro H. assert (E : forall x v, both f Q1 Q2 k x v = a * both f P1 P2 k x v).
  { intros x v. unfold both. cbv zeta. match goal with |- ?u * ?q * ?r * ?p1 * ?p2 * ?g = _ => replace (u * q * r * p1 * p2 * g) with (u * q * r * (p1 * p2) * g) by ring end. rewrite H. ring. }
  assert (D : forall x, RInt (both f Q1 Q2 k x) (-1) 1 = a * RInt (both f P1 P2 k x) (-1) 1).
  { intro x. rewrite <- RInt_scal'. apply RInt_ext. intros v _. apply E. }
  split.
  - unfold bipolar2. rewrite (RInt_ext _ (fun x => a * RInt (both f P1 P2 k x) (-1) 1)) by (intros x _; apply D). rewrite RInt_scal'. ring.
  - intros [A B]. split.
    + intros x Hx. eapply ex_RInt_ext; [intros v _; symmetry; apply E|]. exact (ex_RInt_scal (both f P1 P2 k x) _ _ a (A x Hx)).
    + eapply ex_RInt_ext; [intros x _; symmetry; apply D|]. exact (ex_RInt_scal _ _ _ a B).
Qed.
Lemma full_sum f L A B n k : 0 < k <= 20 -> bipolar2_exists f L L k -> bipolar2_exists f L B k -> bipolar2_exists f A L k -> bipolar2_exists f A B k ->
  n ^ 2 * bipolar2 f L L k + n ^ 3 * (bipolar2 f L B k + bipolar2 f A L k) + n ^ 4 * bipolar2 f A B k
  = bipolar2 f (fun q => n * L q + n ^ 2 * A q) (fun r => n * L r + n ^ 2 * B r) k.
Proof.
  intros Hk E1 E2 E3 E4. set (nL := fun q => n * L q). set (nA := fun q => n ^ 2 * A q). set (nB := fun q => n ^ 2 * B q). set (T := fun r => n * L r + n ^ 2 * B r).
  destruct (bipolar2_scal f L L nL nL (n ^ 2) k) as [S1 X1]; [intros; unfold nL; ring|]. destruct (bipolar2_scal f L B nL nB (n ^ 3) k) as [S2 X2]; [intros; unfold nL, nB; ring|].
  destruct (bipolar2_scal f A L nA nL (n ^ 3) k) as [S3 X3]; [intros; unfold nL, nA; ring|]. destruct (bipolar2_scal f A B nA nB (n ^ 4) k) as [S4 X4]; [intros; unfold nB, nA; ring|].
  destruct (bipolar2_sum f nL nL nL nB nL T k Hk) as [Y1 V1]; [intros; unfold nL, nB, T; ring|exact (X1 E1)|exact (X2 E2)|].
  destruct (bipolar2_sum f nA nL nA nB nA T k Hk) as [Y2 V2]; [intros; unfold nL, nA, nB, T; ring|exact (X3 E3)|exact (X4 E4)|].
  destruct (bipolar2_sum f nL T nA T (fun q => n * L q + n ^ 2 * A q) T k Hk) as [_ V3]; [intros; unfold nL, nA; ring|exact Y1|exact Y2|].
  rewrite V3, V1, V2, S1, S2, S3, S4. ring.
Qed.

(** ** the kernels *)
Lemma il_same u v : il_h03 u v = h03 u v /\ il_h04 u v = h04 u v /\ il_f23 u v = f23 u v /\ il_f32 u v = f32 u v /\ il_f33 u v = f33 u v.
Proof. repeat match goal with |- _ /\ _ => split end; reflexivity. Qed.
Lemma az_qq a c m : 0 < a -> -1 <= c <= 1 -> -1 <= m <= 1 -> azimuthal (fun phi => vq a c m phi ^ 2) = (c ^ 2 * m ^ 2 + (1 - c ^ 2) * (1 - m ^ 2) / 2) / a ^ 2.
Proof.
  intros Ha Hc Hm. unfold vq.
  set (s := sqrt (1 - c * c)). set (t := sqrt (1 - m * m)).
  assert (Es : s * s = 1 - c * c) by (apply sqrt_sqrt; nra). assert (Et : t * t = 1 - m * m) by (apply sqrt_sqrt; nra).
  rewrite (az_ext _ (fun x => c ^ 2 * m ^ 2 / a ^ 2 + 2 * c * m * (s * t) / a ^ 2 * cos x + (s * s) * (t * t) / a ^ 2 * cos x ^ 2 + 0 * cos x ^ 3 + 0 * cos x ^ 4)).
  - rewrite az_poly, Es, Et. field. lra.
  - intro x. rewrite qq by exact Hc. unfold los, qvec, dot. fold s t. field. lra.
Qed.
Lemma qq_cfg K a c m : config K a c m ->
  il_h01 ((a + third_side K a c) / K) ((third_side K a c - a) / K) + il_h02 ((a + third_side K a c) / K) ((third_side K a c - a) / K) * m ^ 2 = K ^ 2 * azimuthal (fun phi => vq a c m phi ^ 2).
Proof.
  intros (HK & Ha & Hc & Hm & Hn). rewrite az_qq by assumption. set (b := third_side K a c).
  assert (Eb : b * b = K * K + a * a - 2 * K * a * c) by (apply sqrt_sqrt; lra).
  assert (Ec : c = (K * K + a * a - b * b) / (2 * K * a)) by (rewrite Eb; field; lra).
  clearbody b. subst c. unfold il_h01, il_h02. field. lra.
Qed.
Lemma qq_unique h0 h2 q r k : coefs_qq h0 h2 -> 0 < q -> 0 < r -> 0 < k -> k < q + r -> r - q < k -> q - r < k ->
  il_h01 ((q + r) / k) ((r - q) / k) = h0 q r k /\ il_h02 ((q + r) / k) ((r - q) / k) = h2 q r k.
Proof.
  intros H Hq Hr Hk H1 H2 H3. destruct (tri_c q r k Hq Hr Hk H1 H2 H3) as (Hc & Hn & Et). set (c := (k * k + q * q - r * r) / (2 * k * q)) in *. clearbody c.
  assert (C0 : config k q c 0) by (unfold config; do 3 (split; [assumption|]); split; [lra|assumption]). assert (C1 : config k q c 1) by (unfold config; do 3 (split; [assumption|]); split; [lra|assumption]).
  pose proof (H k q c 0 C0) as A0. pose proof (H k q c 1 C1) as A1. pose proof (qq_cfg k q c 0 C0) as B0. pose proof (qq_cfg k q c 1 C1) as B1.
  rewrite <- B0 in A0. rewrite <- B1 in A1. rewrite Et in A0, A1. split; lra.
Qed.

(** ** explicit values *)
Lemma bip2_val f P1 P2 k (g : R -> R) I : 0 < k <= 20 -> (forall x, 0 < x < ln (2 * 10 / k) -> is_RInt (both f P1 P2 k x) (-1) 1 (g x)) -> is_RInt g 0 (ln (2 * 10 / k)) I ->
  bipolar2_exists f P1 P2 k /\ bipolar2 f P1 P2 k = k / (8 * PI ^ 2) * I.
Proof.
  intros Hk HG HI. pose proof (umax20 k Hk) as Hu. assert (X : is_RInt (fun x => RInt (both f P1 P2 k x) (-1) 1) 0 (ln (2 * 10 / k)) I).
  { eapply is_RInt_ext; [|exact HI]. intros x Hx. rewrite Rmin_left, Rmax_right in Hx by exact Hu. symmetry. apply is_RInt_unique, HG, Hx. }
  split; [split; [intros x Hx; eexists; apply HG, Hx|eexists; exact X]|]. unfold bipolar2. rewrite (is_RInt_unique _ _ _ _ X). reflexivity.
Qed.
Lemma bip2_zero f P1 P2 k : 0 < k <= 20 -> (forall q r, P1 q * P2 r = 0) -> bipolar2_exists f P1 P2 k /\ bipolar2 f P1 P2 k = 0.
Proof.
  intros Hk H. destruct (bip2_val f P1 P2 k (fun _ => 0) 0 Hk) as [A B].
  - intros x _. apply (is_RInt_ext (fun _ => 0)).
    + intros v _. unfold both. cbv zeta. match goal with |- @eq _ 0 (?u * ?q * ?r * ?p1 * ?p2 * ?g) => transitivity (u * q * r * (p1 * p2) * g); [rewrite H|]; match goal with |- @eq _ ?a ?b => change (@eq R a b) end; ring end.
    + assert (X := @is_RInt_const R_NormedModule (-1) 1 0). match type of X with is_RInt _ _ _ ?e => replace e with 0 in X by (symmetry; apply Rmult_0_r) end. exact X.
  - assert (X := @is_RInt_const R_NormedModule 0 (ln (2 * 10 / k)) 0). match type of X with is_RInt _ _ _ ?e => replace e with 0 in X by (symmetry; apply Rmult_0_r) end. exact X.
  - split; [exact A|]. rewrite B. ring.
Qed.
(** polynomials in v *)
Lemma is_RInt_poly6 c0 c1 c2 c3 c4 c5 c6 : is_RInt (fun v => c0 + c1 * v + c2 * v ^ 2 + c3 * v ^ 3 + c4 * v ^ 4 + c5 * v ^ 5 + c6 * v ^ 6) (-1) 1 (2 * c0 + 2 / 3 * c2 + 2 / 5 * c4 + 2 / 7 * c6).
Proof.
  set (F := fun v => c0 * v + c1 * v ^ 2 / 2 + c2 * v ^ 3 / 3 + c3 * v ^ 4 / 4 + c4 * v ^ 5 / 5 + c5 * v ^ 6 / 6 + c6 * v ^ 7 / 7).
  replace (2 * c0 + 2 / 3 * c2 + 2 / 5 * c4 + 2 / 7 * c6) with (Hierarchy.minus (F 1) (F (-1))).
  2:{ change (F 1 + - F (-1) = 2 * c0 + 2 / 3 * c2 + 2 / 5 * c4 + 2 / 7 * c6). unfold F. field. }
  apply (is_RInt_derive F).
  - intros v _. unfold F. auto_derive; [exact I|]. field.
  - intros v _. apply (@ex_derive_continuous R_AbsRing R_NormedModule). auto_derive; exact I.
Qed.
Lemma exp_lnU : exp (ln (2 * 10 / 10)) = 2.
Proof. replace (2 * 10 / 10) with 2 by field. apply exp_ln. lra. Qed.
(** P(q) = q^3 at k = 10, where u goes up to 2 *)
Lemma f23_cube : bipolar2_exists (fun q r k => il_f23 ((q + r) / k) ((r - q) / k)) (fun q => q ^ 3) (fun q => q ^ 3) 10 /\
  0 < bipolar2 (fun q r k => il_f23 ((q + r) / k) ((r - q) / k)) (fun q => q ^ 3) (fun q => q ^ 3) 10.
Proof.
  set (G := fun x => 5 ^ 8 * 48 * (16 / 15) * (exp (5 * x) / 5 - 2 * exp (3 * x) / 3 + exp x)).
  destruct (bip2_val (fun q r k => il_f23 ((q + r) / k) ((r - q) / k)) (fun q => q ^ 3) (fun q => q ^ 3) 10
     (fun x => 5 ^ 8 * 48 * (16 / 15) * (exp x * (exp x ^ 2 - 1) ^ 2)) (Hierarchy.minus (G (ln (2 * 10 / 10))) (G 0)) ltac:(lra)) as [A B].
  - intros x Hx. assert (1 < exp x) by (rewrite <- exp_0; apply exp_increasing; lra). set (u := exp x) in *.
    set (c := 5 ^ 8 * 48 * (u * (u ^ 2 - 1) ^ 2)).
    assert (X := is_RInt_poly6 c 0 (- 2 * c) 0 c 0 0). replace (2 * c + 2 / 3 * (- 2 * c) + 2 / 5 * c + 2 / 7 * 0) with (5 ^ 8 * 48 * (16 / 15) * (u * (u ^ 2 - 1) ^ 2)) in X by (unfold c; field).
    eapply is_RInt_ext; [|exact X]. intros v Hv. rewrite Rmin_left, Rmax_right in Hv by lra. unfold both, il_f23, c. fold u. cbv zeta. clearbody u. match goal with |- @eq _ ?a ?b => change (@eq R a b) end. field. nra.
  - apply (is_RInt_derive G).
    + intros x _. unfold G. auto_derive; [exact I|]. replace (exp (5 * x)) with (exp x ^ 5) by (rewrite <- !exp_plus || (cbn [pow]; rewrite Rmult_1_r, <- !exp_plus; f_equal; ring)). replace (exp (3 * x)) with (exp x ^ 3) by (cbn [pow]; rewrite Rmult_1_r, <- !exp_plus; f_equal; ring). field.
    + intros v _. apply (@ex_derive_continuous R_AbsRing R_NormedModule). auto_derive; exact I.
  - split; [exact A|]. rewrite B. apply Rmult_lt_0_compat; [apply Rdiv_lt_0_compat; [lra|]; pose proof PI_RGT_0; nra|].
    change (0 < G (ln (2 * 10 / 10)) + - G 0). unfold G. replace (exp (5 * ln (2 * 10 / 10))) with (exp (ln (2 * 10 / 10)) ^ 5) by (cbn [pow]; rewrite Rmult_1_r, <- !exp_plus; f_equal; ring).
    replace (exp (3 * ln (2 * 10 / 10))) with (exp (ln (2 * 10 / 10)) ^ 3) by (cbn [pow]; rewrite Rmult_1_r, <- !exp_plus; f_equal; ring). rewrite exp_lnU, !Rmult_0_r, exp_0. lra.
Qed.
Lemma f32_cube : bipolar2_exists (fun q r k => il_f32 ((q + r) / k) ((r - q) / k)) (fun q => q ^ 3) (fun q => q ^ 3) 10 /\
  bipolar2 (fun q r k => il_f32 ((q + r) / k) ((r - q) / k)) (fun q => q ^ 3) (fun q => q ^ 3) 10 < 0.
Proof.
  set (G := fun x => 5 ^ 8 * 16 * (- 32 / 15) * (exp (3 * x) / 3 - exp x)).
  destruct (bip2_val (fun q r k => il_f32 ((q + r) / k) ((r - q) / k)) (fun q => q ^ 3) (fun q => q ^ 3) 10
     (fun x => 5 ^ 8 * 16 * (- 32 / 15) * (exp x * (exp x ^ 2 - 1))) (Hierarchy.minus (G (ln (2 * 10 / 10))) (G 0)) ltac:(lra)) as [A B].
  - intros x Hx. assert (1 < exp x) by (rewrite <- exp_0; apply exp_increasing; lra). set (u := exp x) in *.
    set (c := 5 ^ 8 * 16 * (u * (u ^ 2 - 1))).
    assert (X := is_RInt_poly6 (c * (-1 - 3 * u ^ 2)) 0 (c * (-3 + 15 * u ^ 2) - c * (-1 - 3 * u ^ 2)) 0 (- (c * (-3 + 15 * u ^ 2))) 0 0).
    match type of X with is_RInt _ _ _ ?e => replace e with (5 ^ 8 * 16 * (- 32 / 15) * (u * (u ^ 2 - 1))) in X by (unfold c; field) end.
    eapply is_RInt_ext; [|exact X]. intros v Hv. rewrite Rmin_left, Rmax_right in Hv by lra. unfold both, il_f32, c. fold u. cbv zeta. clearbody u. match goal with |- @eq _ ?a ?b => change (@eq R a b) end. field. nra.
  - apply (is_RInt_derive G).
    + intros x _. unfold G. auto_derive; [exact I|]. replace (exp (3 * x)) with (exp x ^ 3) by (cbn [pow]; rewrite Rmult_1_r, <- !exp_plus; f_equal; ring). field.
    + intros v _. apply (@ex_derive_continuous R_AbsRing R_NormedModule). auto_derive; exact I.
  - split; [exact A|]. rewrite B. assert (0 < 10 / (8 * PI ^ 2)) by (apply Rdiv_lt_0_compat; [lra|]; pose proof PI_RGT_0; nra).
    assert (G (ln (2 * 10 / 10)) - G 0 < 0). { unfold G. replace (exp (3 * ln (2 * 10 / 10))) with (exp (ln (2 * 10 / 10)) ^ 3) by (cbn [pow]; rewrite Rmult_1_r, <- !exp_plus; f_equal; ring). rewrite exp_lnU, !Rmult_0_r, exp_0. lra. }
    change (10 / (8 * PI ^ 2) * (G (ln (2 * 10 / 10)) - G 0) < 0). nra.
Qed.
