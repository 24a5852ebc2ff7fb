(** * Multipole expansion, quasar spectrum and its gradient, HZPT broadband

    /repo/pyRSD/rsd/power/dm/power_dm.py:1080-1158,
    /repo/pyRSD/rsd/power/qso, /repo/pyRSD/rsd/hzpt/__init__.py, hzpt/P01.py.
    Over the reals, one (k,mu) at a time; the spline interpolation of the
    [interpolated_function] decorator is replaced by the function itself and
    nan_to_num by the identity. *)
From Coq Require Import List Reals.
From Verif Require Import M_AP.
Import ListNotations.
Open Scope R_scope.

Section Dm.
(** P_mu0, P_mu2, P_mu4, P_mu6 (index i is the coefficient of mu^(2i)) and their
    k-derivatives (derivative=True). *)
Variables Pm Pm' : nat -> R -> R.

(** power_dm.py:1139-1158, power inside the AP lock: [max_mu] = 2*m. *)
Fixpoint dm_power (m : nat) (k mu : R) : R :=
  match m with
  | O => mu ^ 0 * Pm 0 k
  | S j => dm_power j k mu + mu ^ (2 * m) * Pm m k
  end.
(** power_dm.py:1107-1122 *)
Fixpoint dm_derivative_k (m : nat) (k mu : R) : R :=
  match m with
  | O => mu ^ 0 * Pm' 0 k
  | S j => dm_derivative_k j k mu + mu ^ (2 * m) * Pm' m k
  end.
(** power_dm.py:1124-1137 *)
Fixpoint dm_derivative_mu (m : nat) (k mu : R) : R :=
  match m with
  | O => 0
  | S j => dm_derivative_mu j k mu + 2 * INR m * mu ^ (2 * m - 1) * Pm m k
  end.

(** The public power: every _P_mu{2i} is AP-decorated separately and the rescaled
    results are added (power_dm.py:1080-1105, 1139-1158). *)
Fixpoint dm_power_ap (m : nat) (aperp apar adrag k mu : R) : R :=
  let term i := ap_scale aperp apar adrag (mu_AP mu aperp apar ^ (2 * i) * Pm i (k_AP k mu aperp apar)) in
  match m with
  | O => term O
  | S j => dm_power_ap j aperp apar adrag k mu + term m
  end.
End Dm.

(** QuasarSpectrum attributes, qso/power_qso.py. *)
Record qso := mkQ {
  q_b1 : R; q_f : R; q_fnl : R; q_p : R; q_sigma : R; q_s8 : R; q_N : R;
  q_par : R; q_perp : R; q_drag : R;
  q_m : nat  (* max_mu / 2 *) }.
Inductive qpar := Qb1 | Qf | Qfnl | Qsigma | Qs8 | Qpar | Qperp.
Definition qget (a : qpar) (q : qso) : R :=
  match a with Qb1 => q_b1 q | Qf => q_f q | Qfnl => q_fnl q | Qsigma => q_sigma q | Qs8 => q_s8 q
             | Qpar => q_par q | Qperp => q_perp q end.
Definition qset (a : qpar) (v : R) (q : qso) : qso :=
  match q with mkQ b f n p s e N x y d m =>
  match a with
  | Qb1 => mkQ v f n p s e N x y d m | Qf => mkQ b v n p s e N x y d m | Qfnl => mkQ b f v p s e N x y d m
  | Qsigma => mkQ b f n p v e N x y d m | Qs8 => mkQ b f n p s v N x y d m
  | Qpar => mkQ b f n p s e N v y d m | Qperp => mkQ b f n p s e N x v d m
  end end.

Section Qso.
Variable g : fog.
(** power_lin(k) and its derivative; cosmo.sigma8(); alpha_png(k) and derivative
    (sigma8_z cancels in its normalised transfer function). *)
Variables plin plin' alpha alpha' : R -> R.
Variable s80 : R.
Definition delta_crit : R := 1686 / 1000.

(** power_dm.py:570-577, 797-802 *)
Definition npl (q : qso) (k : R) : R := (q_s8 q / s80) ^ 2 * plin k.
Definition npl' (q : qso) (k : R) : R := (q_s8 q / s80) ^ 2 * plin' k.
(** power_qso.py delta_bias, btot *)
Definition delta_bias (q : qso) (k : R) : R :=
  if Req_EM_T (q_fnl q) 0 then k * 0 else 2 * (q_b1 q - q_p q) * q_fnl q * delta_crit / alpha k.
Definition btot (q : qso) (k : R) : R := q_b1 q + delta_bias q k.
Definition btot' (q : qso) (k : R) : R :=
  if Req_EM_T (q_fnl q) 0 then 0 else - (2 * (q_b1 q - q_p q) * q_fnl q * delta_crit) * alpha' k / alpha k ^ 2.
(** power_qso.py P_mu0, P_mu2, P_mu4, P_mu6; derivatives of these functions stand for
    the derivative of their splines. *)
Definition Pmu (q : qso) (i : nat) (k : R) : R :=
  match i with
  | 0%nat => btot q k ^ 2 * npl q k
  | 1%nat => 2 * q_f q * btot q k * npl q k
  | 2%nat => q_f q ^ 2 * npl q k
  | _ => k * 0
  end.
Definition Pmu' (q : qso) (i : nat) (k : R) : R :=
  match i with
  | 0%nat => 2 * btot q k * btot' q k * npl q k + btot q k ^ 2 * npl' q k
  | 1%nat => 2 * q_f q * (btot' q k * npl q k + btot q k * npl' q k)
  | 2%nat => q_f q ^ 2 * npl' q k
  | _ => 0
  end.

(** power_qso.py power / derivative_k / derivative_mu inside the AP lock *)
Definition q_power0 (q : qso) (k mu : R) : R :=
  dm_power (Pmu q) (q_m q) k mu * FOG g k mu (q_sigma q) ^ 2 + q_N q.
Definition q_dk0 (q : qso) (k mu : R) : R :=
  let G := FOG g k mu (q_sigma q) in
  G ^ 2 * dm_derivative_k (Pmu' q) (q_m q) k mu + 2 * G * FOG_k g k mu (q_sigma q) * dm_power (Pmu q) (q_m q) k mu.
Definition q_dmu0 (q : qso) (k mu : R) : R :=
  let G := FOG g k mu (q_sigma q) in
  G ^ 2 * dm_derivative_mu (Pmu q) (q_m q) k mu + 2 * G * FOG_mu g k mu (q_sigma q) * dm_power (Pmu q) (q_m q) k mu.

Definition q_ap (f : qso -> R -> R -> R) (q : qso) (k mu : R) : R :=
  ap_scale (q_perp q) (q_par q) (q_drag q) (f q (k_AP k mu (q_perp q) (q_par q)) (mu_AP mu (q_perp q) (q_par q))).
Definition q_power := q_ap q_power0.
Definition q_derivative_k := q_ap q_dk0.
Definition q_derivative_mu := q_ap q_dmu0.

Definition rescaling (q : qso) : R := q_drag q ^ 3 / (q_perp q ^ 2 * q_par q).

(** qso/derivatives/b1.py *)
Definition dq_b1 (q : qso) (k mu : R) : R :=
  let kp := k_AP k mu (q_perp q) (q_par q) in let mup := mu_AP mu (q_perp q) (q_par q) in
  let dbtot := 1 + 2 * q_fnl q * delta_crit / alpha kp in
  let G := FOG g kp mup (q_sigma q) in
  rescaling q * G ^ 2 * (2 * Pmu q 0 kp + mup ^ 2 * Pmu q 1 kp) * dbtot / btot q kp.
(** qso/derivatives/f.py *)
Definition dq_f (q : qso) (k mu : R) : R :=
  let kp := k_AP k mu (q_perp q) (q_par q) in let mup := mu_AP mu (q_perp q) (q_par q) in
  let G := FOG g kp mup (q_sigma q) in
  let mu2 := mup ^ 2 in
  rescaling q * G ^ 2 * mu2 * (Pmu q 1 kp + 2 * Pmu q 2 kp * mu2) / q_f q.
(** qso/derivatives/f_nl.py *)
Definition dq_fnl (q : qso) (k mu : R) : R :=
  let kp := k_AP k mu (q_perp q) (q_par q) in let mup := mu_AP mu (q_perp q) (q_par q) in
  let G := FOG g kp mup (q_sigma q) in
  let ddb := 2 * (q_b1 q - q_p q) * delta_crit / alpha kp in
  rescaling q * G ^ 2 * (2 * Pmu q 0 kp + Pmu q 1 kp * mup ^ 2) / btot q kp * ddb.
(** qso/derivatives/sigma_fog.py *)
Definition dq_sigma (q : qso) (k mu : R) : R :=
  let kp := k_AP k mu (q_perp q) (q_par q) in let mup := mu_AP mu (q_perp q) (q_par q) in
  let G := FOG g kp mup (q_sigma q) in let Gp := FOG_sigma g kp mup (q_sigma q) in
  if Req_EM_T G 0 then 0 else 2 * Gp * q_power q k mu / G.
(** qso/derivatives/sigma8_z.py *)
Definition dq_s8 (q : qso) (k mu : R) : R := 2 * q_power q k mu / q_s8 q.
(** qso/derivatives/alpha_par.py, alpha_perp.py *)
Definition dq_par (q : qso) (k mu : R) : R :=
  let aperp := q_perp q in let apar := q_par q in
  let F := apar / aperp in
  let N := 1 + mu ^ 2 * (1 / F ^ 2 - 1) in
  - q_power q k mu / apar
  + q_derivative_k q k mu * (- k * mu ^ 2 / (F * apar ^ 2) / sqrt N)
  + q_derivative_mu q k mu * (- mu * (1 - mu ^ 2) / (F * apar * (N * sqrt N))).
Definition dq_perp (q : qso) (k mu : R) : R :=
  let aperp := q_perp q in let apar := q_par q in
  let F := apar / aperp in
  let N := 1 + mu ^ 2 * (1 / F ^ 2 - 1) in
  -2 * q_power q k mu / aperp
  + q_derivative_k q k mu * (- k * (1 - mu ^ 2) / aperp ^ 2 / sqrt N)
  + q_derivative_mu q k mu * (mu * (1 - mu ^ 2) / (apar * (N * sqrt N))).
End Qso.

(** ** HZPT broadband, hzpt/__init__.py:120-256 and hzpt/P01.py:35-104 *)
Record hz := mkH { A0_amp : R; A0_al : R; R_amp : R; R_al : R; R1_amp : R; R1_al : R;
                   R1h_amp : R; R1h_al : R; R2h_amp : R; R2h_al : R }.
(** amp*(sigma8_z/0.8)**alpha; the base is positive (sigma8_z setter) *)
Definition hz_par (amp al s8 : R) : R := amp * Rpower (s8 / (8 / 10)) al.
Definition P00_broadband (h : hz) (s8 k : R) : R :=
  let A0 := hz_par (A0_amp h) (A0_al h) s8 in let R_ := hz_par (R_amp h) (R_al h) s8 in
  let R1 := hz_par (R1_amp h) (R1_al h) s8 in let R1h := hz_par (R1h_amp h) (R1h_al h) s8 in
  let R2h := hz_par (R2h_amp h) (R2h_al h) s8 in
  let F := 1 - 1 / (1 + (k * R_) ^ 2) in
  F * A0 * (1 + (k * R1) ^ 2) / (1 + (k * R1h) ^ 2 + (k * R2h) ^ 4).
Definition P01_broadband (h : hz) (f s8 k : R) : R :=
  let k2 := k ^ 2 in let k4 := k2 ^ 2 in
  let A0 := hz_par (A0_amp h) (A0_al h) s8 in let R_ := hz_par (R_amp h) (R_al h) s8 in
  let R1 := hz_par (R1_amp h) (R1_al h) s8 in let R1h := hz_par (R1h_amp h) (R1h_al h) s8 in
  let R2h := hz_par (R2h_amp h) (R2h_al h) s8 in
  let dA0 := f * A0_al h * A0 in let dR := f * R_al h * R_ in let dR1 := f * R1_al h * R1 in
  let dR1h := f * R1h_al h * R1h in let dR2h := f * R2h_al h * R2h in
  let N := 1 + k2 * R_ ^ 2 in
  let F := 1 - 1 / N in
  let numer := 1 + k2 * R1 ^ 2 in
  let denom := 1 + k2 * R1h ^ 2 + k4 * R2h ^ 4 in
  F * numer / denom * dA0
  + 2 * A0 * k2 * R_ * numer / N ^ 2 / denom * dR
  + 2 * A0 * k4 * R_ ^ 2 * R1 / N / denom * dR1
  + - (2) * A0 * k4 * R_ ^ 2 * numer * R1h / N / denom ^ 2 * dR1h
  + - (4) * A0 * k ^ 6 * R_ ^ 2 * numer * R2h ^ 3 / N / denom ^ 2 * dR2h.
