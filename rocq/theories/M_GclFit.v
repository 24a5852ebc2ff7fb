(** Model of two analytic fits of the transfer function (_gcl/cpp/Cosmology.cpp:246-267), as functions of the cosmology. Doubles are reals;
    M_E is exp 1. The full Eisenstein-Hu fit (Cosmology.cpp:203-243) is not modelled. *)
From Coq Require Import Reals Lra.
Local Open Scope R_scope.
(** Cosmology.cpp:246-258 GetNoWiggleTransfer; h, Om: ClassEngine; keq, s, ag: k_equality, s, alpha_gamma of SetEisensteinHuParameters *)
Definition no_wiggle (h Om keq s ag k0 : R) : R :=
  let k := k0 * h in let omh2 := Om * h ^ 2 in let ks := k * s / h in let q := k / (1341/100 * keq) in
  let gamma_eff := omh2 * (ag + (1 - ag) / (1 + (43/100 * ks) ^ 4)) in let q_eff := q * omh2 / gamma_eff in
  let L0 := ln (2 * exp 1 + 18/10 * q_eff) in let C0 := 142/10 + 731 / (1 + 625/10 * q_eff) in
  L0 / (L0 + C0 * q_eff ^ 2).
(** Cosmology.cpp:261-268 GetBBKSTransfer *)
Definition bbks (h Om Ob k : R) : R :=
  let gamma := Om * h in let q := k / gamma * exp (Ob + sqrt (2 * h) * Ob / Om) in
  ln (1 + 234/100 * q) / (234/100 * q) * Rpower (1 + 389/100 * q + (161/10 * q) ^ 2 + (547/100 * q) ^ 3 + (671/100 * q) ^ 4) (- (1/4)).
