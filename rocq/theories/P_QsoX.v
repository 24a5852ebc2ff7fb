From Coq Require Import List Reals Lra Lia.
From Coquelicot Require Import Coquelicot.
From Verif Require Import M_AP M_Qso P_Gal P_AP P_GalC P_GalDeriv P_Qso.
Import ListNotations.
Open Scope R_scope.

Section Qso.
Variable g : fog.
Variables plin plin' alpha alpha' : R -> R.
Variable s80 : R.
Notation pow_ := (q_power g plin alpha s80).

Lemma ap_scale_N a b d u n : ap_scale a b d (u + n) = ap_scale a b d (u + 0) + ap_scale a b d n.
Proof. unfold ap_scale, Rdiv. ring. Qed.
Definition setN (n : R) (q : qso) : qso :=
  match q with mkQ b f nl p s e N x y d m => mkQ b f nl p s e n x y d m end.
Lemma pow_N a v q k mu : a <> Qpar -> a <> Qperp ->
  pow_ (qset a v q) k mu = pow_ (qset a v (setN 0 q)) k mu + ap_scale (q_perp q) (q_par q) (q_drag q) (q_N q).
Proof.
  intros H1 H2. rewrite !pow_split. destruct q, a; try congruence; cbn; apply ap_scale_N.
Qed.
(** the error made by the registered derivatives when the constant offset is not zero *)
Lemma dq_sigma_err q k mu :
  let kp := k_AP k mu (q_perp q) (q_par q) in let mup := mu_AP mu (q_perp q) (q_par q) in
  is_derive (fun v => pow_ (qset Qsigma v q) k mu) (qget Qsigma q)
    (dq_sigma g plin alpha s80 q k mu
     - 2 * FOG_sigma g kp mup (q_sigma q) / FOG g kp mup (q_sigma q) * ap_scale (q_perp q) (q_par q) (q_drag q) (q_N q)).
Proof.
  intros kp mup. eapply is_derive_ext; [intro v; symmetry; apply pow_N; discriminate|].
  pose proof (dq_sigma_ok g plin alpha s80 (setN 0 q) k mu) as H.
  assert (E : q_N (setN 0 q) = 0) by (destruct q; reflexivity). specialize (H E).
  replace (qget Qsigma (setN 0 q)) with (qget Qsigma q) in H by (destruct q; reflexivity).
  evar_last; [apply (is_derive_plus (K := R_AbsRing) (V := R_NormedModule)); [exact H|apply (is_derive_const (K := R_AbsRing) (V := R_NormedModule))]|].
  unfold plus, zero; cbn -[dq_sigma ap_scale]. unfold dq_sigma. cbv zeta.
  replace (q_perp (setN 0 q)) with (q_perp q) by (destruct q; reflexivity).
  replace (q_par (setN 0 q)) with (q_par q) by (destruct q; reflexivity).
  replace (q_sigma (setN 0 q)) with (q_sigma q) by (destruct q; reflexivity). fold kp mup.
  pose proof (kernel_range g (kp * mup * q_sigma q)) as Hr. fold (FOG g kp mup (q_sigma q)) in Hr.
  destruct (Req_EM_T _ 0) as [E0|E0]; [lra|].
  assert (EP : pow_ q k mu = pow_ (setN 0 q) k mu + ap_scale (q_perp q) (q_par q) (q_drag q) (q_N q)).
  { rewrite !pow_split. destruct q; cbn. apply ap_scale_N. }
  rewrite EP. field. exact E0.
Qed.
Lemma dq_s8_err q k mu : q_s8 q <> 0 ->
  is_derive (fun v => pow_ (qset Qs8 v q) k mu) (qget Qs8 q)
    (dq_s8 g plin alpha s80 q k mu - 2 * ap_scale (q_perp q) (q_par q) (q_drag q) (q_N q) / q_s8 q).
Proof.
  intro Hs. eapply is_derive_ext; [intro v; symmetry; apply pow_N; discriminate|].
  pose proof (dq_s8_ok g plin alpha s80 (setN 0 q) k mu) as H.
  assert (E : q_N (setN 0 q) = 0) by (destruct q; reflexivity).
  assert (E' : q_s8 (setN 0 q) <> 0) by (destruct q; exact Hs). specialize (H E E').
  replace (qget Qs8 (setN 0 q)) with (qget Qs8 q) in H by (destruct q; reflexivity).
  evar_last; [apply (is_derive_plus (K := R_AbsRing) (V := R_NormedModule)); [exact H|apply (is_derive_const (K := R_AbsRing) (V := R_NormedModule))]|].
  unfold plus, zero; cbn -[dq_s8 ap_scale]. unfold dq_s8.
  replace (q_s8 (setN 0 q)) with (q_s8 q) by (destruct q; reflexivity).
  assert (EP : pow_ q k mu = pow_ (setN 0 q) k mu + ap_scale (q_perp q) (q_par q) (q_drag q) (q_N q)).
  { rewrite !pow_split. destruct q; cbn. apply ap_scale_N. }
  rewrite EP. field. exact Hs.
Qed.
(** max_mu = 2: the mu^4 term is not in the power but is in the f-derivative *)
Lemma dq_f_err q k mu : q_m q = 1%nat -> q_f q <> 0 ->
  let kp := k_AP k mu (q_perp q) (q_par q) in let mup := mu_AP mu (q_perp q) (q_par q) in
  is_derive (fun v => pow_ (qset Qf v q) k mu) (qget Qf q)
    (dq_f g plin alpha s80 q k mu - rescaling q * FOG g kp mup (q_sigma q) ^ 2 * (2 * mup ^ 4 * Pmu plin alpha s80 q 2 kp) / q_f q).
Proof.
  intros Hm Hf kp mup.
  match goal with |- is_derive ?F _ _ => eapply is_derive_ext; [intro v; symmetry; rewrite pow_closed; [reflexivity|destruct q; cbn in *; lia]|] end.
  destruct q as [b f n p sg e N x y d m]. subst kp mup. unfold dq_f, rescaling, Pmu, npl; cbv zeta; rewrite ?btot_eq.
  cbn [qset qget q_b1 q_f q_fnl q_p q_sigma q_s8 q_N q_par q_perp q_drag q_m] in *.
  set (kp := k_AP k mu y x) in *; set (mup := mu_AP mu y x) in *; clearbody kp mup.
  destruct (Nat.eq_dec m 1) as [_|E]; [|lia].
  unfold ap_scale. generalize (FOG g kp mup sg) (plin kp) (e / s80) (b + 2 * (b - p) * n * delta_crit / alpha kp).
  unfold Rdiv. generalize (/ (y ^ 2 * x)).
  clear - Hf. intros iy G pl es bt. auto_derive; [auto|]. cbn [pow]. field. exact Hf.
Qed.
(** max_mu = 0: the mu^2 term is in the b1- and f_nl-derivatives but not in the power *)
Lemma pow_closed0 q k mu : q_m q = 0%nat ->
  pow_ q k mu =
  let kp := k_AP k mu (q_perp q) (q_par q) in let mup := mu_AP mu (q_perp q) (q_par q) in
  let bt := q_b1 q + 2 * (q_b1 q - q_p q) * q_fnl q * delta_crit / alpha kp in
  ap_scale (q_perp q) (q_par q) (q_drag q) (bt ^ 2 * ((q_s8 q / s80) ^ 2 * plin kp) * FOG g kp mup (q_sigma q) ^ 2 + q_N q).
Proof.
  intros H. unfold q_power, q_ap, q_power0. rewrite H. cbn [dm_power pow]. rewrite Rmult_1_l. unfold Pmu, npl. rewrite btot_eq. cbn [pow]. reflexivity.
Qed.
Lemma dq_b1_err q k mu : q_m q = 0%nat ->
  let kp := k_AP k mu (q_perp q) (q_par q) in let mup := mu_AP mu (q_perp q) (q_par q) in
  btot alpha q kp <> 0 ->
  is_derive (fun v => pow_ (qset Qb1 v q) k mu) (qget Qb1 q)
    (dq_b1 g plin alpha s80 q k mu
     - rescaling q * FOG g kp mup (q_sigma q) ^ 2 * (mup ^ 2 * Pmu plin alpha s80 q 1 kp) * (1 + 2 * q_fnl q * delta_crit / alpha kp) / btot alpha q kp).
Proof.
  intros Hm kp mup Hb. rewrite btot_eq in Hb.
  match goal with |- is_derive ?F _ _ => eapply is_derive_ext; [intro v; symmetry; rewrite pow_closed0; [reflexivity|destruct q; assumption]|] end.
  destruct q as [b f n p sg e N x y d m]. subst kp mup. unfold dq_b1, rescaling, Pmu, npl; cbv zeta; rewrite ?btot_eq.
  cbn [qset qget q_b1 q_f q_fnl q_p q_sigma q_s8 q_N q_par q_perp q_drag q_m] in *.
  set (kp := k_AP k mu y x) in *; set (mup := mu_AP mu y x) in *; clearbody kp mup.
  unfold ap_scale. generalize (FOG g kp mup sg) (plin kp) (e / s80).
  revert Hb. unfold Rdiv. generalize (/ alpha kp) delta_crit (/ (y ^ 2 * x)).
  clear. intros ia dc iy Hb G pl es. auto_derive; [auto|]. cbn [pow]. field. exact Hb.
Qed.
Lemma dq_fnl_err q k mu : q_m q = 0%nat ->
  let kp := k_AP k mu (q_perp q) (q_par q) in let mup := mu_AP mu (q_perp q) (q_par q) in
  btot alpha q kp <> 0 ->
  is_derive (fun v => pow_ (qset Qfnl v q) k mu) (qget Qfnl q)
    (dq_fnl g plin alpha s80 q k mu
     - rescaling q * FOG g kp mup (q_sigma q) ^ 2 * (mup ^ 2 * Pmu plin alpha s80 q 1 kp) * (2 * (q_b1 q - q_p q) * delta_crit / alpha kp) / btot alpha q kp).
Proof.
  intros Hm kp mup Hb. rewrite btot_eq in Hb.
  match goal with |- is_derive ?F _ _ => eapply is_derive_ext; [intro v; symmetry; rewrite pow_closed0; [reflexivity|destruct q; assumption]|] end.
  destruct q as [b f n p sg e N x y d m]. subst kp mup. unfold dq_fnl, rescaling, Pmu, npl; cbv zeta; rewrite ?btot_eq.
  cbn [qset qget q_b1 q_f q_fnl q_p q_sigma q_s8 q_N q_par q_perp q_drag q_m] in *.
  set (kp := k_AP k mu y x) in *; set (mup := mu_AP mu y x) in *; clearbody kp mup.
  unfold ap_scale. generalize (FOG g kp mup sg) (plin kp) (e / s80).
  revert Hb. unfold Rdiv. generalize (/ alpha kp) delta_crit (/ (y ^ 2 * x)).
  clear. intros ia dc iy Hb G pl es. auto_derive; [auto|]. cbn [pow]. field. exact Hb.
Qed.
End Qso.

Lemma deriv_neq f x l e : is_derive f x (l - e) -> e <> 0 -> ~ is_derive f x l.
Proof.
  intros H He K. apply He. apply is_derive_unique in H. apply is_derive_unique in K. lra.
Qed.

(** Witness: unit spectrum, no AP distortion. *)
Definition one : R -> R := fun _ => 1.
Definition xq (m : nat) (fnl sg N : R) : qso := mkQ 2 1 fnl 1 sg 1 N 1 1 1 m.
Lemma k1 : k_AP 1 1 1 1 = 1.
Proof. apply (ap_identity 1 1). Qed.
Lemma mu1 : mu_AP 1 1 1 = 1.
Proof. apply (ap_identity 1 1). Qed.

Lemma xq_s8 : ~ is_derive (fun v => q_power Gaussian one one 1 (qset Qs8 v (xq 2 0 0 1)) 1 1) 1 (dq_s8 Gaussian one one 1 (xq 2 0 0 1) 1 1).
Proof.
  eapply deriv_neq; [apply (dq_s8_err Gaussian one one 1 (xq 2 0 0 1)); cbn; lra|]. unfold ap_scale; cbn. lra.
Qed.
Lemma xq_sigma : ~ is_derive (fun v => q_power Gaussian one one 1 (qset Qsigma v (xq 2 0 1 1)) 1 1) 1 (dq_sigma Gaussian one one 1 (xq 2 0 1 1) 1 1).
Proof.
  eapply deriv_neq; [apply (dq_sigma_err Gaussian one one 1 (xq 2 0 1 1))|]. 
  cbn [xq q_perp q_par q_sigma q_drag q_N]. rewrite k1, mu1.
  pose proof (kernel_range Gaussian (1 * 1 * 1)) as Hr. fold (FOG Gaussian 1 1 1) in Hr.
  assert (FOG_sigma Gaussian 1 1 1 < 0).
  { unfold FOG_sigma, FOG, kernel, kernel'. cbn. match goal with |- context [exp ?e] => pose proof (exp_pos e) end. nra. }
  unfold ap_scale. intro K.
  assert (2 * FOG_sigma Gaussian 1 1 1 / FOG Gaussian 1 1 1 < 0).
  { assert (0 < / FOG Gaussian 1 1 1) by (apply Rinv_0_lt_compat; lra). unfold Rdiv. nra. }
  replace (1 ^ 3 * 1 / (1 ^ 2 * 1)) with 1 in K by field. lra.
Qed.
Lemma fog0 g k mu : FOG g k mu 0 = 1.
Proof. unfold FOG. destruct g; cbn; rewrite ?Rmult_0_r. all: try (rewrite <- exp_0; f_equal; field). all: field. Qed.
Lemma xq_f : ~ is_derive (fun v => q_power Gaussian one one 1 (qset Qf v (xq 1 0 0 0)) 1 1) 1 (dq_f Gaussian one one 1 (xq 1 0 0 0) 1 1).
Proof.
  eapply deriv_neq; [apply (dq_f_err Gaussian one one 1 (xq 1 0 0 0)); [reflexivity|cbn; lra]|].
  unfold rescaling, Pmu, npl, one. cbn [xq q_perp q_par q_sigma q_drag q_N q_f q_s8]. rewrite k1, mu1, fog0. lra.
Qed.
Lemma xq_b1 : ~ is_derive (fun v => q_power Gaussian one one 1 (qset Qb1 v (xq 0 0 0 0)) 1 1) 2 (dq_b1 Gaussian one one 1 (xq 0 0 0 0) 1 1).
Proof.
  eapply deriv_neq; [apply (dq_b1_err Gaussian one one 1 (xq 0 0 0 0)); [reflexivity|rewrite btot_eq; unfold one; cbn; lra]|].
  unfold rescaling, Pmu, npl. rewrite !btot_eq. unfold one. cbn [xq q_perp q_par q_sigma q_drag q_N q_f q_s8 q_fnl q_b1 q_p]. rewrite k1, mu1, fog0. unfold delta_crit. intro K. field_simplify in K; lra.
Qed.
Lemma xq_fnl : ~ is_derive (fun v => q_power Gaussian one one 1 (qset Qfnl v (xq 0 0 0 0)) 1 1) 0 (dq_fnl Gaussian one one 1 (xq 0 0 0 0) 1 1).
Proof.
  eapply deriv_neq; [apply (dq_fnl_err Gaussian one one 1 (xq 0 0 0 0)); [reflexivity|rewrite btot_eq; unfold one; cbn; lra]|].
  unfold rescaling, Pmu, npl. rewrite !btot_eq. unfold one. cbn [xq q_perp q_par q_sigma q_drag q_N q_f q_s8 q_fnl q_b1 q_p]. rewrite k1, mu1, fog0. unfold delta_crit. intro K. field_simplify in K; lra.
Qed.
