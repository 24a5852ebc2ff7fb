(** * Alcock-Paczynski remapping and FOG kernels

    /repo/pyRSD/rsd/tools.py:49-75 and /repo/pyRSD/rsd/power/gal/fog_kernels.py,
    over the reals. *)
From Coq Require Import Reals.
Open Scope R_scope.

(** tools.py:49-62; [x**(0.5)] is [sqrt x]. *)
Definition k_AP (k mu aperp apar : R) : R :=
  let F := apar / aperp in
  if Req_EM_T F 1 then k / aperp
  else (k / aperp) * sqrt (1 + mu ^ 2 * (1 / F ^ 2 - 1)).

(** tools.py:64-73; [x**(-0.5)] is [/ sqrt x]. *)
Definition mu_AP (mu aperp apar : R) : R :=
  let F := apar / aperp in
  (mu / F) * / sqrt (1 + mu ^ 2 * (1 / F ^ 2 - 1)).

(** The rescaling of the result, tools.py:219-223. *)
Definition ap_scale (aperp apar adrag v : R) : R := v / (aperp ^ 2 * apar) * adrag ^ 3.

(** fog_kernels.py:41-91: the three kernels and their derivatives in x. *)
Inductive fog := ModifiedLorentzian | Lorentzian | Gaussian.

Definition kernel (g : fog) (x : R) : R :=
  match g with
  | ModifiedLorentzian => 1 / (1 + (1/2) * x ^ 2) ^ 2
  | Lorentzian => 1 / (1 + (1/2) * x ^ 2)
  | Gaussian => exp (- (1/2) * x ^ 2)
  end.
Definition kernel' (g : fog) (x : R) : R :=
  match g with
  | ModifiedLorentzian => - 2 * x / (1 + (1/2) * x ^ 2) ^ 3
  | Lorentzian => - x / (1 + (1/2) * x ^ 2) ^ 2
  | Gaussian => - x * exp (- (1/2) * x ^ 2)
  end.

(** fog_kernels.py:20-38 *)
Definition FOG (g : fog) (k mu sigma : R) : R := kernel g (k * mu * sigma).
Definition FOG_k (g : fog) (k mu sigma : R) : R := kernel' g (k * mu * sigma) * mu * sigma.
Definition FOG_mu (g : fog) (k mu sigma : R) : R := kernel' g (k * mu * sigma) * k * sigma.
Definition FOG_sigma (g : fog) (k mu sigma : R) : R := kernel' g (k * mu * sigma) * k * mu.
