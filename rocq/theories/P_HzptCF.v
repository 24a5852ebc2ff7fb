From Coq Require Import Reals Lra.
From Coquelicot Require Import Coquelicot.
From Verif Require Import M_Hzpt S_Hzpt.
Local Open Scope R_scope.

Definition anti (m k r : R) : R := - exp (- m * r) * (m * sin (k*r) + k * cos (k*r)) / (m^2 + k^2).
Lemma anti_derive m k r : m^2 + k^2 <> 0 -> is_derive (anti m k) r (exp (- m * r) * sin (k*r)).
Proof. intros H. unfold anti. auto_derive; [exact I|]. match goal with |- @eq _ ?a ?b => change (@eq R a b) end. field. intro E. apply H. rewrite <- E. ring. Qed.
Lemma anti_cont m k r : continuous (fun r => exp (- m * r) * sin (k*r)) r.
Proof. apply (@ex_derive_continuous R_AbsRing R_NormedModule). auto_derive. exact I. Qed.
Lemma anti_int m k X : m^2 + k^2 <> 0 -> is_RInt (fun r => exp (- m * r) * sin (k*r)) 0 X (anti m k X - anti m k 0).
Proof.
  intros H. apply (is_RInt_derive (V := R_CompleteNormedModule) (anti m k)).
  - intros r _. apply anti_derive. exact H.
  - intros r _. apply anti_cont.
Qed.
Lemma exp_lim m : 0 < m -> is_lim (fun X => exp (- m * X)) p_infty 0.
Proof.
  intros Hm. apply (is_lim_comp exp (fun X => - m * X) p_infty 0 m_infty).
  - exact is_lim_exp_m.
  - replace m_infty with (Rbar_mult (- m) p_infty).
    + apply is_lim_scal_l. apply is_lim_id.
    + cbn. destruct (Rle_dec 0 (- m)); [exfalso; lra|reflexivity].
  - exists 0. intros x _. discriminate.
Qed.
Lemma anti_lim m k : 0 < m -> is_lim (anti m k) p_infty 0.
Proof.
  intros Hm. pose proof (exp_lim m Hm) as E.
  assert (D : 0 < m^2 + k^2) by (pose proof (pow2_ge_0 k); pose proof (pow_lt m 2 Hm); lra).
  set (M := (Rabs m + Rabs k) / (m^2 + k^2)).
  assert (L : is_lim (fun X => M * exp (- m * X)) p_infty 0).
  { replace (Finite 0) with (Rbar_mult M 0) by (cbn; f_equal; ring). apply is_lim_scal_l. exact E. }
  apply (is_lim_le_le_loc (fun X => - (M * exp (- m * X))) (fun X => M * exp (- m * X))).
  - exists 0. intros X _. assert (B : Rabs (anti m k X) <= M * exp (- m * X)).
    { unfold anti, M, Rdiv. rewrite Rabs_mult, Rabs_mult, Rabs_Ropp. rewrite (Rabs_pos_eq (exp _)) by (left; apply exp_pos).
      rewrite (Rabs_pos_eq (/ _)) by (left; apply Rinv_0_lt_compat; exact D).
      replace ((Rabs m + Rabs k) * / (m^2 + k^2) * exp (- m * X)) with (exp (- m * X) * (Rabs m + Rabs k) * / (m^2 + k^2)) by ring.
      apply Rmult_le_compat_r; [left; apply Rinv_0_lt_compat; exact D|]. apply Rmult_le_compat_l; [left; apply exp_pos|].
      eapply Rle_trans; [apply Rabs_triang|]. rewrite !Rabs_mult.
      assert (Rabs (sin (k*X)) <= 1) by (apply Rabs_le; apply SIN_bound). assert (Rabs (cos (k*X)) <= 1) by (apply Rabs_le; apply COS_bound).
      pose proof (Rabs_pos m). pose proof (Rabs_pos k). nra. }
    apply Rabs_le_between in B. exact B.
  - replace (Finite 0) with (Rbar_opp 0) by (cbn; f_equal; ring). apply is_lim_opp. exact L.
  - exact L.
Qed.
Lemma anti0 m k : anti m k 0 = - k / (m^2 + k^2).
Proof. unfold anti. rewrite !Rmult_0_r, exp_0, sin_0, cos_0. unfold Rdiv. ring. Qed.

(** the partial fractions *)
Lemma pade_fractions A0 a b p q k : 0 < a -> 0 < p -> 0 < q -> p <> q -> a <> p -> a <> q ->
  - A0 / (a * (1 - (p+q)/a + p*q/a^2)) *
   ((1 - b/a) * / (/ a + k^2)
    + (a*(-2*(p*q) + b*((p+q) - (q-p))) + p*q*((p+q) - (q-p)) + b*(- (p+q)^2 + 2*(p*q) + (p+q)*(q-p))) / (2*(p*q)*(q-p)) * / (/ q + k^2)
    + (p*q*((p+q) + (q-p)) - b*((p+q)^2 - 2*(p*q) + (p+q)*(q-p)) + a*(-2*(p*q) + b*((p+q) + (q-p)))) * -1 / (2*(p*q)*(q-p)) * / (/ p + k^2))
  = A0 * (k^2*a / (1 + k^2*a)) * ((1 + k^2*b) / (1 + k^2*(p+q) + k^4*(p*q))).
Proof.
  intros Ha Hp Hq H1 H2 H3. pose proof (pow2_ge_0 k) as Hk.
  assert (forall x, 0 < x -> 1 + k^2*x <> 0) as D by (intros x Hx; nra).
  assert (E : 1 + k^2*(p+q) + k^4*(p*q) = (1 + k^2*p)*(1 + k^2*q)) by ring. rewrite E.
  assert (F : 1 - (p+q)/a + p*q/a^2 = (a-p)*(a-q)/a^2) by (field; lra). rewrite F.
  assert (G : forall x, 0 < x -> / (/ x + k^2) = x / (1 + k^2*x)) by (intros x Hx; field; split; [pose proof (D x Hx); intro; apply (D x Hx); lra|lra]).
  rewrite (G a Ha), (G p Hp), (G q Hq). pose proof (D a Ha). pose proof (D p Hp). pose proof (D q Hq).
  field. repeat split; try lra; try assumption; try (intro; apply H1; lra); try (intro; apply H2; lra); try (intro; apply H3; lra).
Qed.
Section CF.
Context (A0 R_ R1 R1h R2h k : R) (HR : 0 < R_) (H2 : 0 < R2h) (HS : 4*R2h^4 < R1h^4) (Hd : 1 - (R1h/R_)^2 + (R2h/R_)^4 <> 0) (Hk : 0 < k).
Let S := sqrt (R1h^4 - 4*R2h^4).
Lemma S_sq : S^2 = R1h^4 - 4*R2h^4. Proof. unfold S. rewrite pow2_sqrt; lra. Qed.
Lemma S_pos : 0 < S. Proof. unfold S. apply sqrt_lt_R0. lra. Qed.
Lemma R2h4 : 0 < R2h^4. Proof. apply pow_lt. exact H2. Qed.
Lemma S_lt : S < R1h^2.
Proof. pose proof S_sq. pose proof S_pos. pose proof R2h4. pose proof (pow2_ge_0 R1h). assert (S^2 < (R1h^2)^2) by (replace ((R1h^2)^2) with (R1h^4) by ring; lra). nra. Qed.
Let p := (R1h^2 - S)/2.
Let q := (R1h^2 + S)/2.
Lemma p_pos : 0 < p. Proof. unfold p. pose proof S_lt. lra. Qed.
Lemma q_pos : 0 < q. Proof. unfold q. pose proof S_lt. pose proof S_pos. lra. Qed.
Lemma pq_sum : R1h^2 = p + q. Proof. unfold p, q. field. Qed.
Lemma pq_dif : S = q - p. Proof. unfold p, q. field. Qed.
Lemma pq_prod : R2h^4 = p * q.
Proof. unfold p, q. replace ((R1h^2 - S)/2 * ((R1h^2 + S)/2)) with ((R1h^4 - S^2)/4) by field. rewrite S_sq. field. Qed.
Let m1 := 1/R_.
Let m2 := sqrt (1/2*(R1h^2 - S)) / R2h^2.
Let m3 := sqrt (1/2*(R1h^2 + S)) / R2h^2.
Lemma m1_pos : 0 < m1. Proof. unfold m1. apply Rdiv_lt_0_compat; lra. Qed.
Lemma m2_pos : 0 < m2. Proof. unfold m2. pose proof S_lt. apply Rdiv_lt_0_compat; [apply sqrt_lt_R0; lra|apply pow_lt; exact H2]. Qed.
Lemma m3_pos : 0 < m3. Proof. unfold m3. pose proof S_lt. pose proof S_pos. apply Rdiv_lt_0_compat; [apply sqrt_lt_R0; lra|apply pow_lt; exact H2]. Qed.
Lemma m1_sq : m1^2 = / R_^2. Proof. unfold m1. field. lra. Qed.
Lemma m2_sq : m2^2 = / q.
Proof.
  unfold m2. unfold Rdiv at 1. rewrite Rpow_mult_distr. rewrite pow2_sqrt by (pose proof S_lt; lra).
  replace ((/ R2h^2)^2) with (/ R2h^4) by (field; lra). rewrite pq_prod. replace (1/2*(R1h^2 - S)) with p by (unfold p; field).
  field. pose proof p_pos. pose proof q_pos. split; lra.
Qed.
Lemma m3_sq : m3^2 = / p.
Proof.
  unfold m3. unfold Rdiv at 1. rewrite Rpow_mult_distr. rewrite pow2_sqrt by (pose proof S_lt; pose proof S_pos; lra).
  replace ((/ R2h^2)^2) with (/ R2h^4) by (field; lra). rewrite pq_prod. replace (1/2*(R1h^2 + S)) with q by (unfold q; field).
  field. pose proof p_pos. pose proof q_pos. split; lra.
Qed.
Let A := (R_^2*(-2*R2h^4 + R1^2*(R1h^2 - S)) + R2h^4*(R1h^2 - S) + R1^2*(- R1h^4 + 2*R2h^4 + R1h^2*S)) / (2*R2h^4*S).
Let B := (R2h^4*(R1h^2 + S) - R1^2*(R1h^4 - 2*R2h^4 + R1h^2*S) + R_^2*(-2*R2h^4 + R1^2*(R1h^2 + S))) * -1 / (2*R2h^4*S).
Let t1 := 1 - (R1/R_)^2.
Let denom := 1 - (R1h/R_)^2 + (R2h/R_)^4.
Let C := - A0 / (R_^2 * denom) / k.
Definition smooth (r : R) : R := C * (t1 * (exp (- m1*r) * sin (k*r)) + A * (exp (- m2*r) * sin (k*r)) + B * (exp (- m3*r) * sin (k*r))).
Lemma integrand r : 0 < r -> 4*PI*r^2*cf_broadband A0 R_ R1 R1h R2h r * (sin (k*r)/(k*r)) = smooth r.
Proof.
  intros Hr. unfold cf_broadband. cbv zeta. fold S. fold A. fold B. fold t1. fold denom. fold m1. fold m2. fold m3. unfold smooth.
  replace (exp (- r/R_)) with (exp (- m1*r)) by (f_equal; unfold m1; field; lra).
  replace (exp (- m2*r)) with (exp (- m1*r) * exp (r*(m1 - m2))) by (rewrite <- exp_plus; f_equal; ring).
  replace (exp (- m3*r)) with (exp (- m1*r) * exp (r*(m1 - m3))) by (rewrite <- exp_plus; f_equal; ring).
  unfold C. pose proof PI_RGT_0. generalize (exp (- m1*r)) (exp (r*(m1-m2))) (exp (r*(m1-m3))). intros x y z.
  assert (denom <> 0) by exact Hd. clearbody A B t1 denom.
  field. do 4 (split; [lra|]). lra.
Qed.
Definition smooth_anti (X : R) : R :=
  C * (t1 * (anti m1 k X - anti m1 k 0) + A * (anti m2 k X - anti m2 k 0) + B * (anti m3 k X - anti m3 k 0)).
Lemma smooth_int X : is_RInt smooth 0 X (smooth_anti X).
Proof.
  unfold smooth, smooth_anti.
  assert (D : forall m, 0 < m -> m^2 + k^2 <> 0) by (intros m Hm; pose proof (pow_lt m 2 Hm); pose proof (pow_lt k 2 Hk); lra).
  apply (is_RInt_scal (V := R_NormedModule)). apply (is_RInt_plus (V := R_NormedModule)); [apply (is_RInt_plus (V := R_NormedModule))|];
    apply (is_RInt_scal (V := R_NormedModule)); apply anti_int; apply D; [apply m1_pos|apply m2_pos|apply m3_pos].
Qed.
Lemma integral X : 0 <= X -> is_RInt (fun r => 4*PI*r^2*cf_broadband A0 R_ R1 R1h R2h r * (sin (k*r)/(k*r))) 0 X (smooth_anti X).
Proof.
  intros HX. apply (is_RInt_ext smooth); [|apply smooth_int].
  intros r Hr. rewrite Rmin_left, Rmax_right in Hr by exact HX. symmetry. apply integrand. lra.
Qed.
Lemma smooth_anti_lim : is_lim smooth_anti p_infty (C * (t1 * (0 - anti m1 k 0) + A * (0 - anti m2 k 0) + B * (0 - anti m3 k 0))).
Proof.
  unfold smooth_anti.
  assert (L : forall m w, 0 < m -> is_lim (fun X => w * (anti m k X - anti m k 0)) p_infty (w * (0 - anti m k 0))).
  { intros m w Hm. replace (Finite (w * (0 - anti m k 0))) with (Rbar_mult w (0 - anti m k 0)) by reflexivity. apply is_lim_scal_l.
    apply is_lim_minus'; [apply anti_lim; exact Hm|apply is_lim_const]. }
  match goal with |- is_lim _ _ (Finite (C * ?u)) => replace (Finite (C * u)) with (Rbar_mult C u) by reflexivity end.
  apply is_lim_scal_l. apply is_lim_plus'; [apply is_lim_plus'|]; apply L; [apply m1_pos|apply m2_pos|apply m3_pos].
Qed.
Lemma lim_value : C * (t1 * (0 - anti m1 k 0) + A * (0 - anti m2 k 0) + B * (0 - anti m3 k 0)) = pade_spec A0 R_ R1 R1h R2h k.
Proof.
  rewrite !anti0, m1_sq, m2_sq, m3_sq. pose proof p_pos as Hp. pose proof q_pos as Hq. pose proof S_pos as HS0.
  assert (Hpq : p <> q) by (unfold p, q; lra). assert (Ha : 0 < R_^2) by (apply pow_lt; exact HR).
  assert (Ed : denom = (R_^2 - p)*(R_^2 - q)/(R_^2)^2).
  { unfold denom. replace ((R1h/R_)^2) with (R1h^2/R_^2) by (field; lra). replace ((R2h/R_)^4) with (R2h^4/(R_^2)^2) by (field; lra). rewrite pq_sum, pq_prod. field. lra. }
  assert (Hap : R_^2 <> p) by (intro E; apply Hd; fold denom; rewrite Ed, E; unfold Rdiv; ring).
  assert (Haq : R_^2 <> q) by (intro E; apply Hd; fold denom; rewrite Ed, E; unfold Rdiv; ring).
  unfold pade_spec. replace ((k*R_)^2) with (k^2*R_^2) by ring. replace ((k*R1)^2) with (k^2*R1^2) by ring.
  replace ((k*R1h)^2) with (k^2*(p+q)) by (rewrite <- pq_sum; ring). replace ((k*R2h)^4) with (k^4*(p*q)) by (rewrite <- pq_prod; ring).
  rewrite <- (pade_fractions A0 (R_^2) (R1^2) p q k Ha Hp Hq Hpq Hap Haq).
  unfold C, A, B. replace (R1h^4) with ((p+q)^2) by (rewrite <- pq_sum; ring). rewrite !pq_sum, !pq_prod, !pq_dif.
  replace (1 - R1^2/R_^2) with t1 by (unfold t1; field; lra).
  replace denom with (1 - (p+q)/R_^2 + p*q/(R_^2)^2) by (rewrite Ed; field; lra).
  assert (Dn : 1 - (p+q)/R_^2 + p*q/(R_^2)^2 <> 0).
  { replace (1 - (p+q)/R_^2 + p*q/(R_^2)^2) with denom by (rewrite Ed; field; lra). exact Hd. }
  set (dn := 1 - (p+q)/R_^2 + p*q/(R_^2)^2) in *. clearbody dn.
  set (a := R_^2) in *. assert (P1 : 0 < / a + k^2) by (apply Rplus_lt_le_0_compat; [apply Rinv_0_lt_compat; exact Ha|apply pow2_ge_0]).
  assert (P2 : 0 < / q + k^2) by (apply Rplus_lt_le_0_compat; [apply Rinv_0_lt_compat; exact Hq|apply pow2_ge_0]).
  assert (P3 : 0 < / p + k^2) by (apply Rplus_lt_le_0_compat; [apply Rinv_0_lt_compat; exact Hp|apply pow2_ge_0]).
  set (x1 := / a + k^2) in *. set (x2 := / q + k^2) in *. set (x3 := / p + k^2) in *. clearbody x1 x2 x3 t1 a.
  match goal with |- _ * (_ + ?u * _ + ?v * _) = _ => set (uu := u); set (vv := v) end. clearbody uu vv.
  field. repeat split; try exact Dn; lra.
Qed.
Theorem cf_is_transform :
  (forall X, 0 <= X -> ex_RInt (fun r => 4*PI*r^2*cf_broadband A0 R_ R1 R1h R2h r * (sin (k*r)/(k*r))) 0 X) /\
  is_lim (fun X => RInt (fun r => 4*PI*r^2*cf_broadband A0 R_ R1 R1h R2h r * (sin (k*r)/(k*r))) 0 X) p_infty (pade_spec A0 R_ R1 R1h R2h k).
Proof.
  split; [intros X HX; eexists; apply integral; exact HX|].
  rewrite <- lim_value. apply (is_lim_ext_loc smooth_anti); [|exact smooth_anti_lim].
  exists 0. intros X HX. symmetry. apply is_RInt_unique. apply integral. lra.
Qed.
End CF.
