(** Model of the terms of the redshift-space power expansion for matter (rsd/power/dm/P00.py .. P22.py, rsd/power/dm/power_dm.py:797-884) and for
    two biased tracers (rsd/power/biased/P00.py .. P22.py, rsd/power/biased/power_biased.py, power_halo.py), at one wavenumber, with the
    normalisation of the perturbation theory integrals (rsd/pt_integrals.py:11-41).
    Floats are reals. The unnormalised integrals and spectra (pygcl), the HZPT models, the Jennings fits, loaded data, the Gaussian-process fits and the
    nonlinear bias functions are arbitrary numbers or functions. Caching, interpolation in k and AP distortion are the subject of other files. *)
From Coq Require Import Reals Bool Lra.
Local Open Scope R_scope.

Inductive kname := K00 | K00s | K10 | K10s | K11 | K11s | K20a | K20b | K20sa | K20sb.
Inductive lname := Ivvdd01 | Ivvdd02 | Idvdv03 | Idvdv04 | Ivvvv23 | Ivvvv32.

(** what the matter model reads at the wavenumber k *)
Record matter := {
  k : R; f : R; norm : R;                              (* _power_norm, power_dm.py:570-577 *)
  plin : R;                                            (* power_lin(k) *)
  Im : nat -> nat -> R; Jm : nat -> nat -> R; Km : kname -> R; Lm : lname -> R * R * R;   (* unnormalised integrals *)
  pdd0 : R; pdv0 : R; pvv0 : R; sigk0 : R; kurt0 : R;
  siglin0 : R;                                         (* _sigma_lin_unnormed *)
  two : bool;                                          (* include_2loop *)
  hz00 : option R; hz01 : option R; hz11 : option R;   (* values of the HZPT models when use_P.._model *)
  ld00 : option R; ld01 : option R; ld11a : option R; ld11b : option R;   (* loaded P00_mu0, P01_mu2, P11_mu2, P11_mu4 *)
  dvv : option R; vvv : option R;                      (* Pdv, Pvv from data or fits instead of one loop *)
  sigv : option R;                                     (* sigma_v when set; default sigma_lin *)
  sbv2 : R; sv2 : R; sbv4 : R; hH : R }.               (* small-scale velocities in km/s; cosmo.h()/conformalH *)

Section DM.
Variable m : matter.
(** power_dm.py:797-802 *)
Definition Plin : R := norm m * plin m.
(** pt_integrals.py:11-41 *)
Definition J a b : R := norm m * Jm m a b.
Definition I a b : R := norm m ^ 2 * Im m a b.
Definition K a : R := norm m ^ 2 * Km m a.
Definition L a : R := let '(x, y, z) := Lm m a in norm m ^ 2 * x + norm m ^ 3 * y + norm m ^ 4 * z.
Definition sigmasq_k : R := norm m * sigk0 m.
Definition kurtosis : R := norm m ^ 2 * kurt0 m.
(** power_dm.py:454-460, 579-585 *)
Definition sigma_v : R := match sigv m with Some s => s | None => sqrt (norm m) * siglin0 m end.
(** power_dm.py:848-884 *)
Definition Pdd : R := norm m * (plin m + norm m * pdd0 m).
Definition Pdv : R := match dvv m with Some p => p | None => - f m * norm m * (plin m + norm m * pdv0 m) end.
Definition Pvv : R := match vvv m with Some p => p | None => f m ^ 2 * norm m * (plin m + norm m * pvv0 m) end.
(** dm/P00.py:3-27 *)
Definition P00 : R := match ld00 m with Some p => p | None => match hz00 m with Some p => p | None => Plin + 2 * I 0 0 + 6 * k m ^ 2 * J 0 0 * Plin end end.
(** dm/P01.py:3-30 *)
Definition P01 : R := match ld01 m with Some p => p | None => match hz01 m with Some p => p | None => 2 * f m * (Plin + 4 * (I 0 0 + 3 * k m ^ 2 * J 0 0 * Plin)) end end.
(** dm/P11.py:3-66 *)
Definition P11_vec : R := match ld11a m with Some p => p | None => if two m then f m ^ 2 * (L Ivvdd01 + L Idvdv03) else f m ^ 2 * I 3 1 end.
Definition P11_scal : R :=
  let c := if two m then L Ivvdd02 + L Idvdv04 else I 1 3 in
  f m ^ 2 * (Plin + (2 * I 1 1 + 4 * I 2 2 + 6 * k m ^ 2 * (J 1 1 + 2 * J 1 0) * Plin) + c) - - P11_vec.
Definition P11_2 : R := P11_vec.
Definition P11_4 : R := match ld11b m with Some p => p | None => match hz11 m with Some p => p - f m ^ 2 * I 3 1 | None => P11_scal + - P11_vec end end.
(** sigma_lin**2 + sigma**2, dm/P02.py:27-29 and alike; f = 0 is a division by zero in the code and excluded in the theorems *)
Definition sigsq (s : R) : R := sigma_v ^ 2 + (s * hH m / f m) ^ 2.
(** dm/P02.py *)
Definition P02_2n : R := f m ^ 2 * (I 0 2 + 2 * k m ^ 2 * J 0 2 * Plin).
Definition P02_2v : R := if two m then - (f m * k m) ^ 2 * sigsq (sbv2 m) * P00 else - (f m * k m) ^ 2 * sigsq (sbv2 m) * Plin.
Definition P02_2 : R := P02_2v + P02_2n.
Definition P02_4 : R := f m ^ 2 * (I 2 0 + 2 * k m ^ 2 * J 2 0 * Plin).
(** dm/P12.py *)
Definition P12_4n : R := f m ^ 3 * (I 1 2 - I 0 3 + 2 * k m ^ 2 * J 0 2 * Plin).
Definition P12_4v : R := if two m then - (1/2) * (f m * k m) ^ 2 * sigsq (sbv2 m) * P01 else - f m * (f m * k m) ^ 2 * sigsq (sbv2 m) * Plin.
Definition P12_4 : R := P12_4v + P12_4n.
Definition P12_6 : R := f m ^ 3 * (I 2 1 - I 3 0 + 2 * k m ^ 2 * J 2 0 * Plin).
(** dm/P22.py *)
Definition P22_4n : R := if two m then 1/16 * f m ^ 4 * L Ivvvv23 else 1/16 * f m ^ 4 * I 2 3.
Definition P22_4 : R :=
  if two m then P22_4n + ((f m * k m) ^ 4 * Plin * J 0 2 ^ 2 + - (1/2) * (f m * k m) ^ 2 * sigsq (sbv2 m) * P02_2n + 1/4 * (f m * k m) ^ 4 * sigsq (sbv2 m) ^ 2 * P00 + 1/2 * (f m * k m) ^ 4 * P00 * sigmasq_k ^ 2)
  else P22_4n.
Definition P22_6n : R := if two m then 1/8 * f m ^ 4 * L Ivvvv32 else 1/8 * f m ^ 4 * I 3 2.
Definition P22_6 : R := if two m then P22_6n + (- (1/2) * (f m * k m) ^ 2 * sigsq (sbv2 m) * P02_4 + 2 * (f m * k m) ^ 4 * Plin * J 0 2 * J 2 0) else P22_6n.
(** dm/P03.py *)
Definition P03_4 : R := if two m then - (1/2) * (f m * k m) ^ 2 * sigsq (sv2 m) * P01 else - f m * (f m * k m) ^ 2 * sigsq (sv2 m) * Plin.
(** dm/P13.py; line 46 reads an attribute the term does not have *)
Definition P13_4 : R := if two m then - (f m * k m) ^ 2 * sigsq (sbv2 m) * P11_2 else 0.
Definition P13_6 : option R := if two m then Some (- (f m * k m) ^ 2 * sigsq (sv2 m) * P11_4) else None.
(** dm/P04.py *)
Definition P04_4 : R := if two m then 1/12 * (f m * k m) ^ 4 * P00 * kurtosis + (- (1/2) * (f m * k m) ^ 2 * sigsq (sbv4 m) * P02_2n + 1/4 * (f m * k m) ^ 4 * sigsq (sbv4 m) ^ 2 * P00) else 0.
Definition P04_6 : R := if two m then - (1/2) * (f m * k m) ^ 2 * sigsq (sbv4 m) * P02_4 else 0.
(** power_dm.py:811-846 *)
Definition dm_mu0 : R := P00.
Definition dm_mu2 : R := P01 + P11_2 + P02_2.
Definition dm_mu4 : R := let P := P11_4 + P02_4 + P12_4 + P22_4 + P03_4 in if two m then P + (P13_4 + P04_4) else P.
Definition dm_mu6 : option R := match P13_6 with None => None | Some p => let P := P12_6 + P22_6 + p in Some (if two m then P + P04_6 else P) end.
End DM.

(** the two tracers *)
Record tracers := {
  b1 : R; b1_bar : R;
  mean_bias : bool; tidal : bool;
  phm : option (R -> R);                 (* hzpt.Phm as a function of b1 when use_Phm_model *)
  veldisp : option (R -> R);             (* vel_disp_fitter when vel_disp_from_sims *)
  corr2 : option (R -> R); corr4 : option (R -> R);    (* the corrections, functions of the mean bias *)
  auto_st : R -> R; cross_st : R -> R -> R;
  b00a : R -> R; b00b : R -> R; b00c : R -> R; b00d : R -> R; b01a : R -> R; b01b : R -> R }.

Section Biased.
Variable m : matter.
Variable t : tracers.
(** power_biased.py:213-256 *)
Definition ib1 : R := if mean_bias t then sqrt (b1 t * b1_bar t) else b1 t.
Definition ib1b : R := if mean_bias t then sqrt (b1 t * b1_bar t) else b1_bar t.
Definition tidal_bias (b : R) : R := if tidal t then - (2/7) * (b - 1) else 0.
Definition bs : R := tidal_bias ib1.
Definition bsb : R := tidal_bias ib1b.
(** power_biased.py:267-285 *)
Definition sigh (b : R) : R := match veldisp t with Some g => g b | None => sigma_v m end.
Definition s2 : R := sigh ib1 ^ 2.
Definition s2b : R := sigh ib1b ^ 2.
(** power_biased.py:309-343 *)
Definition Phm (b bsx : R) : R := match phm t with Some g => g b | None => b * P00 m + b00a t b * K m K00 + bsx * K m K00s end.
(** power_biased.py:345-365 (the Gaussian processes; the spline in k is not modelled) *)
Definition stochasticity : R := if Req_EM_T ib1 ib1b then auto_st t ib1 else cross_st t (Rmin ib1 ib1b) (Rmax ib1 ib1b).
(** biased/P00.py:3-15 *)
Definition Phh (b2 : R -> R) : R := ib1 * ib1b * P00 m + (ib1 * b2 ib1b + ib1b * b2 ib1) * K m K00 + (bs * b2 ib1b + bsb * b2 ib1) * K m K00s.
(** biased/P00.py:17-37 *)
Definition H00n : R := (Phm ib1 bs / P00 m) * (Phm ib1b bsb / P00 m) * P00 m.
Definition H00 : R := H00n + stochasticity.
(** biased/P01.py *)
Definition H01 (b2 : R -> R) : R :=
  ib1 * ib1b * P01 m + - Pdv m * (ib1 * (1 - ib1b) + ib1b * (1 - ib1)) + f m * ((b2 ib1 + b2 ib1b) * K m K10 + (bs + bsb) * K m K10s)
  + f m * ((ib1b * b2 ib1 + ib1 * b2 ib1b) * K m K11 + (ib1b * bs + ib1 * bsb) * K m K11s).
(** biased/P11.py *)
Definition H11_2 : R := ib1 * ib1b * f m ^ 2 * (L m Ivvdd01 + L m Idvdv03).
Definition H11_4 : R := 1/2 * (ib1 + ib1b) * P11_4 m + - (1/2) * ((ib1 - 1) + (ib1b - 1)) * Pvv m + f m ^ 2 * (L m Ivvdd02 + L m Idvdv04) * (ib1 * ib1b - 1/2 * (ib1 + ib1b)).
(** biased/P02.py *)
Definition H02_2 : R :=
  1/2 * (ib1 + ib1b) * P02_2n m + - (1/2) * (f m * k m) ^ 2 * (s2 + s2b) * Phh (b00c t) + 1/2 * f m ^ 2 * ((b00c t ib1 + b00c t ib1b) * K m K20a + (bs + bsb) * K m K20sa).
Definition H02_4 : R := 1/2 * (ib1 + ib1b) * P02_4 m + 1/2 * f m ^ 2 * ((b00b t ib1 + b00b t ib1b) * K m K20b + (bs + bsb) * K m K20sb).
(** biased/P12.py *)
Definition H12_4 : R :=
  (P12_4n m - 1/2 * (f m * k m) ^ 2 * (1/2) * (s2 + s2b) * P01 m) + - (1/2) * ((ib1 - 1) + (ib1b - 1)) * f m ^ 3 * I m 0 3 + - (1/4) * (f m * k m) ^ 2 * (s2 + s2b) * (H01 (b01b t) - P01 m).
Definition H12_6 : R := f m ^ 3 * (I m 2 1 - 1/2 * (ib1 + ib1b) * I m 3 0 + 2 * k m ^ 2 * J m 2 0 * Plin m).
(** biased/P22.py *)
Definition H22_4 : R :=
  P22_4n m + 1/2 * (f m * k m) ^ 4 * (ib1 * ib1b * Pdd m) * sigmasq_k m ^ 2 + - (1/4) * (k m * f m) ^ 2 * (s2 + s2b) * (1/2 * (ib1 + ib1b) * P02_2n m)
  + 1/8 * (k m * f m) ^ 4 * (s2 ^ 2 + s2b ^ 2) * Phh (b00d t).
(** biased/P03.py, P13.py, P04.py *)
Definition H03_4 : R := - (1/4) * (f m * k m) ^ 2 * (s2 + s2b) * H01 (b01b t).
Definition H13_4 : R := 1/2 * - (f m * k m) ^ 2 * (s2 + s2b) * H11_2.
Definition H04_4 : R := - (1/8) * (ib1 + ib1b) * (f m * k m) ^ 2 * (s2 + s2b) * P02_2n m + 1/12 * (f m * k m) ^ 4 * Phh (b00d t) * (3 * (1/2) * (s2 ^ 2 + s2b ^ 2) + kurtosis m).
(** power_biased.py:460-525 *)
Definition correction (c : option (R -> R)) : R := match c with Some g => g (sqrt (ib1 * ib1b)) | None => 0 end.
Definition bi_mu0 : R := H00.
Definition bi_mu2 : R := (H01 (b01a t) + H11_2 + H02_2) + correction (corr2 t).
Definition bi_mu4 : R := (H11_4 + H02_4 + H12_4 + H03_4 + H22_4 + H13_4 + H04_4) + correction (corr4 t).
Definition bi_mu6 : R := H12_6 + 1/8 * f m ^ 4 * I m 3 2.
End Biased.
(** power_halo.py: b1_bar is b1, bs_bar is bs *)
Definition halo (t : tracers) (b : R) : tracers :=
  {| b1 := b; b1_bar := b; mean_bias := mean_bias t; tidal := tidal t; phm := phm t; veldisp := veldisp t; corr2 := corr2 t; corr4 := corr4 t;
     auto_st := auto_st t; cross_st := cross_st t; b00a := b00a t; b00b := b00b t; b00c := b00c t; b00d := b00d t; b01a := b01a t; b01b := b01b t |}.
(** power_dm.py:1139-1158 at unit AP factors: the terms up to mu^max_mu, max_mu//2 = h *)
Definition expansion (h : nat) (p0 p2 p4 p6 mu : R) : option R :=
  match h with
  | O => Some p0 | 1%nat => Some (p0 + mu ^ 2 * p2) | 2%nat => Some (p0 + mu ^ 2 * p2 + mu ^ 4 * p4)
  | 3%nat => Some (p0 + mu ^ 2 * p2 + mu ^ 4 * p4 + mu ^ 6 * p6)
  | _ => None
  end.
Definition dm_power (m : matter) (h : nat) (mu : R) : option R :=
  match h with 3%nat => match dm_mu6 m with Some p6 => expansion 3 (dm_mu0 m) (dm_mu2 m) (dm_mu4 m) p6 mu | None => None end | _ => expansion h (dm_mu0 m) (dm_mu2 m) (dm_mu4 m) 0 mu end.
Definition bi_power (m : matter) (t : tracers) (h : nat) (mu : R) : option R := expansion h (bi_mu0 m t) (bi_mu2 m t) (bi_mu4 m t) (bi_mu6 m t) mu.
