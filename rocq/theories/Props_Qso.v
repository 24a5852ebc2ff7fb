(** * Property theorems: multipole expansion, quasar gradient, HZPT (C24 quasar part, C25, C26, C72) *)
From Coq Require Import List Reals Lra Lia.
From Coquelicot Require Import Coquelicot.
From Verif Require Import M_AP M_Qso P_AP P_GalDeriv P_Qso P_QsoX.
Open Scope R_scope.

(** ** C72 *)
(** The undistorted power is the sum of mu^(2i) P_mu(2i)(k), i <= max_mu/2 ... *)
Theorem C72_power_is_the_expansion :
  forall (Pm : nat -> R -> R) m k mu, dm_power Pm m k mu = sum_f_R0 (fun i => mu ^ (2 * i) * Pm i k) m.
Proof. intros Pm m k mu. induction m as [|m IH]; cbn [dm_power sum_f_R0]; [reflexivity|]. rewrite IH. reflexivity. Qed.
(** ... and derivative_k, derivative_mu are its partial derivatives, for every max_mu. *)
Theorem C72_derivative_k :
  forall (Pm Pm' : nat -> R -> R) m k mu, (forall i, is_derive (Pm i) k (Pm' i k)) ->
  is_derive (fun x => dm_power Pm m x mu) k (dm_derivative_k Pm' m k mu).
Proof. exact (@dm_dk). Qed.
Theorem C72_derivative_mu :
  forall (Pm : nat -> R -> R) m k mu,
  is_derive (fun x => dm_power Pm m k x) mu (dm_derivative_mu Pm m k mu).
Proof. exact (@dm_dmu). Qed.
(** Both directions at once (differentiability along every curve). *)
Theorem C72_total_derivative :
  forall (Pm Pm' : nat -> R -> R) m (u v : R -> R) t du dv,
  (forall i, is_derive (Pm i) (u t) (Pm' i (u t))) -> is_derive u t du -> is_derive v t dv ->
  is_derive (fun t => dm_power Pm m (u t) (v t)) t
            (dm_derivative_k Pm' m (u t) (v t) * du + dm_derivative_mu Pm m (u t) (v t) * dv).
Proof. exact (@dm_curve). Qed.
(** The public power, which distorts every term separately, is the distorted sum. *)
Theorem C72_ap_of_the_sum :
  forall (Pm : nat -> R -> R) m aperp apar adrag k mu,
  dm_power_ap Pm m aperp apar adrag k mu =
  adrag ^ 3 / (aperp ^ 2 * apar) * (dm_power Pm m (k_AP k mu aperp apar) (mu_AP mu aperp apar)).
Proof. intros. rewrite dm_ap. unfold ap_scale, Rdiv. ring. Qed.
Theorem C72_quasar_derivative_k :
  forall g plin plin' alpha alpha' s80 q k mu,
  is_derive plin k (plin' k) -> q_fnl q = 0 \/ (is_derive alpha k (alpha' k) /\ alpha k <> 0) ->
  is_derive (fun x => q_power0 g plin alpha s80 q x mu) k (q_dk0 g plin plin' alpha alpha' s80 q k mu).
Proof. exact (@q_dk_ok). Qed.
Theorem C72_quasar_derivative_mu :
  forall g plin plin' alpha alpha' s80 q k mu,
  is_derive plin k (plin' k) -> q_fnl q = 0 \/ (is_derive alpha k (alpha' k) /\ alpha k <> 0) ->
  is_derive (fun x => q_power0 g plin alpha s80 q k x) mu (q_dmu0 g plin alpha s80 q k mu).
Proof. exact (@q_dmu_ok). Qed.
Print Assumptions C72_quasar_derivative_k.
Example C72_nonvacuous :
  is_derive (fun x => dm_power (fun i k => INR i * k) 3 x 2) 5 (dm_derivative_k (fun i _ => INR i) 3 5 2) /\
  dm_derivative_k (fun i _ => INR i) 3 5 2 = 2 ^ 2 + 2 * 2 ^ 4 + 3 * 2 ^ 6.
Proof.
  split.
  - apply dm_dk. intro i. auto_derive; auto. ring.
  - cbn. ring.
Qed.

(** ** C25: analytic quasar gradient *)
Section C25.
Variable g : fog.
Variables plin plin' alpha alpha' : R -> R.
Variable s80 : R.
Notation power := (q_power g plin alpha s80).
(** [is_partial a q k mu d]: d is the partial derivative of power(k,mu) in attribute a. *)
Definition q_partial (a : qpar) (q : qso) (k mu d : R) : Prop :=
  is_derive (fun v => power (qset a v q) k mu) (qget a q) d.

Theorem C25_b1_partial :
  forall q k mu, (1 <= q_m q)%nat -> btot alpha q (k_AP k mu (q_perp q) (q_par q)) <> 0 ->
  q_partial Qb1 q k mu (dq_b1 g plin alpha s80 q k mu).
Proof. exact (@dq_b1_ok g plin alpha s80). Qed.
Theorem C25_f_nl_partial :
  forall q k mu, (1 <= q_m q)%nat -> btot alpha q (k_AP k mu (q_perp q) (q_par q)) <> 0 ->
  q_partial Qfnl q k mu (dq_fnl g plin alpha s80 q k mu).
Proof. exact (@dq_fnl_ok g plin alpha s80). Qed.
Theorem C25_f_partial :
  forall q k mu, (2 <= q_m q)%nat -> q_f q <> 0 -> q_partial Qf q k mu (dq_f g plin alpha s80 q k mu).
Proof. exact (@dq_f_ok g plin alpha s80). Qed.
Theorem C25_sigma_fog_partial :
  forall q k mu, q_N q = 0 -> q_partial Qsigma q k mu (dq_sigma g plin alpha s80 q k mu).
Proof. exact (@dq_sigma_ok g plin alpha s80). Qed.
Theorem C25_sigma8_partial :
  forall q k mu, q_N q = 0 -> q_s8 q <> 0 -> q_partial Qs8 q k mu (dq_s8 g plin alpha s80 q k mu).
Proof. exact (@dq_s8_ok g plin alpha s80). Qed.
Theorem C24_quasar_alpha_par :
  forall q k mu, 0 < q_perp q -> 0 < q_par q -> -1 <= mu <= 1 ->
  let kp := k_AP k mu (q_perp q) (q_par q) in
  is_derive plin kp (plin' kp) -> q_fnl q = 0 \/ (is_derive alpha kp (alpha' kp) /\ alpha kp <> 0) ->
  q_partial Qpar q k mu (dq_par g plin plin' alpha alpha' s80 q k mu).
Proof. exact (@dq_par_ok g plin plin' alpha alpha' s80). Qed.
Theorem C24_quasar_alpha_perp :
  forall q k mu, 0 < q_perp q -> 0 < q_par q -> -1 <= mu <= 1 ->
  let kp := k_AP k mu (q_perp q) (q_par q) in
  is_derive plin kp (plin' kp) -> q_fnl q = 0 \/ (is_derive alpha kp (alpha' kp) /\ alpha kp <> 0) ->
  q_partial Qperp q k mu (dq_perp g plin plin' alpha alpha' s80 q k mu).
Proof. exact (@dq_perp_ok g plin plin' alpha alpha' s80). Qed.

(** Outside these hypotheses the registered functions are off by exactly: *)
Theorem C25_sigma_fog_error :
  forall q k mu,
  let kp := k_AP k mu (q_perp q) (q_par q) in let mup := mu_AP mu (q_perp q) (q_par q) in
  q_partial Qsigma q k mu
    (dq_sigma g plin alpha s80 q k mu
     - 2 * FOG_sigma g kp mup (q_sigma q) / FOG g kp mup (q_sigma q) * ap_scale (q_perp q) (q_par q) (q_drag q) (q_N q)).
Proof. exact (@dq_sigma_err g plin alpha s80). Qed.
Theorem C25_sigma8_error :
  forall q k mu, q_s8 q <> 0 ->
  q_partial Qs8 q k mu (dq_s8 g plin alpha s80 q k mu - 2 * ap_scale (q_perp q) (q_par q) (q_drag q) (q_N q) / q_s8 q).
Proof. exact (@dq_s8_err g plin alpha s80). Qed.
Theorem C25_f_error : (* max_mu = 2 *)
  forall q k mu, q_m q = 1%nat -> q_f q <> 0 ->
  let kp := k_AP k mu (q_perp q) (q_par q) in let mup := mu_AP mu (q_perp q) (q_par q) in
  q_partial Qf q k mu
    (dq_f g plin alpha s80 q k mu - rescaling q * FOG g kp mup (q_sigma q) ^ 2 * (2 * mup ^ 4 * Pmu plin alpha s80 q 2 kp) / q_f q).
Proof. exact (@dq_f_err g plin alpha s80). Qed.
Theorem C25_b1_error : (* max_mu = 0 *)
  forall q k mu, q_m q = 0%nat ->
  let kp := k_AP k mu (q_perp q) (q_par q) in let mup := mu_AP mu (q_perp q) (q_par q) in
  btot alpha q kp <> 0 ->
  q_partial Qb1 q k mu
    (dq_b1 g plin alpha s80 q k mu
     - rescaling q * FOG g kp mup (q_sigma q) ^ 2 * (mup ^ 2 * Pmu plin alpha s80 q 1 kp) * (1 + 2 * q_fnl q * delta_crit / alpha kp) / btot alpha q kp).
Proof. exact (@dq_b1_err g plin alpha s80). Qed.
Theorem C25_f_nl_error : (* max_mu = 0 *)
  forall q k mu, q_m q = 0%nat ->
  let kp := k_AP k mu (q_perp q) (q_par q) in let mup := mu_AP mu (q_perp q) (q_par q) in
  btot alpha q kp <> 0 ->
  q_partial Qfnl q k mu
    (dq_fnl g plin alpha s80 q k mu
     - rescaling q * FOG g kp mup (q_sigma q) ^ 2 * (mup ^ 2 * Pmu plin alpha s80 q 1 kp) * (2 * (q_b1 q - q_p q) * delta_crit / alpha kp) / btot alpha q kp).
Proof. exact (@dq_fnl_err g plin alpha s80). Qed.
End C25.
Print Assumptions C25_b1_partial.
Print Assumptions C24_quasar_alpha_par.

(** Witnesses: unit linear spectrum, no distortion, k = mu = 1. *)
Theorem C25_offset_refuted : (* N = 1: sigma8_z and sigma_fog *)
  ~ q_partial Gaussian one one 1 Qs8 (xq 2 0 0 1) 1 1 (dq_s8 Gaussian one one 1 (xq 2 0 0 1) 1 1) /\
  ~ q_partial Gaussian one one 1 Qsigma (xq 2 0 1 1) 1 1 (dq_sigma Gaussian one one 1 (xq 2 0 1 1) 1 1).
Proof. split; [exact xq_s8|exact xq_sigma]. Qed.
Theorem C25_max_mu_refuted : (* max_mu = 2: f; max_mu = 0: b1 and f_nl *)
  ~ q_partial Gaussian one one 1 Qf (xq 1 0 0 0) 1 1 (dq_f Gaussian one one 1 (xq 1 0 0 0) 1 1) /\
  ~ q_partial Gaussian one one 1 Qb1 (xq 0 0 0 0) 1 1 (dq_b1 Gaussian one one 1 (xq 0 0 0 0) 1 1) /\
  ~ q_partial Gaussian one one 1 Qfnl (xq 0 0 0 0) 1 1 (dq_fnl Gaussian one one 1 (xq 0 0 0 0) 1 1).
Proof. repeat split; [exact xq_f|exact xq_b1|exact xq_fnl]. Qed.
Example C25_nonvacuous :
  q_partial Gaussian one one 1 Qb1 (xq 2 0 0 0) 1 1 6 /\ q_partial Gaussian one one 1 Qf (xq 2 0 0 0) 1 1 6.
Proof.
  assert (E1 : dq_b1 Gaussian one one 1 (xq 2 0 0 0) 1 1 = 6).
  { unfold dq_b1, rescaling, Pmu, npl. cbv zeta. rewrite !btot_eq. unfold one.
    cbn [xq q_perp q_par q_sigma q_drag q_N q_f q_s8 q_fnl q_b1 q_p]. rewrite k1, mu1, fog0. field. }
  assert (E2 : dq_f Gaussian one one 1 (xq 2 0 0 0) 1 1 = 6).
  { unfold dq_f, rescaling, Pmu, npl. cbv zeta. rewrite !btot_eq. unfold one.
    cbn [xq q_perp q_par q_sigma q_drag q_N q_f q_s8 q_fnl q_b1 q_p]. rewrite k1, mu1, fog0. field. }
  split.
  - rewrite <- E1. apply C25_b1_partial; [cbn; lia|]. rewrite btot_eq. unfold one. cbn. lra.
  - rewrite <- E2. apply C25_f_partial; cbn; [lia|lra].
Qed.

(** ** C26 *)
(** [s8 t] is sigma8 at ln a = t, growing at rate f there. *)
Theorem C26_P01_is_the_log_derivative_of_P00 :
  forall h f (s8 : R -> R) t k, 0 < s8 t -> is_derive s8 t (f * s8 t) ->
  is_derive (fun t => P00_broadband h (s8 t) k) t (P01_broadband h f (s8 t) k).
Proof. exact (@hzpt_ok). Qed.
Print Assumptions C26_P01_is_the_log_derivative_of_P00.
Example C26_nonvacuous : let s8 := fun t => exp (t / 2) in 0 < s8 0 /\ is_derive s8 0 (1 / 2 * s8 0).
Proof. cbv zeta. split; [apply exp_pos|]. auto_derive; [auto|]. unfold Rdiv. ring. Qed.
