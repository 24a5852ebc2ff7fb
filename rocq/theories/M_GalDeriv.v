(** * Analytic derivatives of the galaxy power: /repo/pyRSD/rsd/power/gal/derivatives *)
From Coq Require Import List String Bool Reals.
From Verif Require Import M_Cache M_Gal M_AP.
Import ListNotations.
Open Scope R_scope.

Section Deriv.
Variable g : fog.
Variables PW PW_k PW_mu : R -> R -> R -> R -> result R.
Notation fog_ := (FOG g).
Notation fogs := (FOG_sigma g).
Notation T f := (f (FOG g) (FOG_k g) (FOG_mu g) PW PW_k PW_mu).

(** The AP decorator entered with the lock free, tools.py:197-223. *)
Definition ap (f : R -> R -> M R) (k mu : R) : M R :=
  apar <- get_ alpha_par;; aperp <- get_ alpha_perp;; adrag <- get_ alpha_drag;;
  v <- f (k_AP k mu aperp apar) (mu_AP mu aperp apar);;
  ret (ap_scale aperp apar adrag v).

(** The public methods, power_gal.py:292-491 (flatten=False). *)
Definition m_power := ap (call (T Pgal)).
Definition m_derivative_k := ap (dk (T Pgal)).
Definition m_derivative_mu := ap (dmu (T Pgal)).
Definition Pgal_cc := ap (call (T Pcc)).
Definition Pgal_cAcA := ap (call (T PcAcA)).
Definition Pgal_cAcB := ap (call (T PcAcB)).
Definition Pgal_cBcB := ap (call (T PcBcB)).
Definition Pgal_cs := ap (call (T Pcs)).
Definition Pgal_cAsA := ap (call (T PcAsA)).
Definition Pgal_cAsB := ap (call (T PcAsB)).
Definition Pgal_cBsA := ap (call (T PcBsA)).
Definition Pgal_cBsB := ap (call (T PcBsB)).
Definition Pgal_ss := ap (call (T Pss)).
Definition Pgal_sAsA := ap (call (T PsAsA)).
Definition Pgal_sAsB := ap (call (T PsAsB)).
Definition Pgal_sBsB := ap (call (T PsBsB)).

(** [with m.preserve(): ...] ending normally restores every attribute (theorem
    C12_preserve_restores_values); an exception skips the restoring code. *)
Definition with_preserve {A} (m : M A) : M A := fun s =>
  match m s with
  | (Ok x, _) => (Ok x, s)
  | (Err e, s') => (Err e, s')
  end.

Definition kprime (k mu : R) : M R :=
  aperp <- get_ alpha_perp;; apar <- get_ alpha_par;; ret (k_AP k mu aperp apar).
Definition muprime (mu : R) : M R :=
  aperp <- get_ alpha_perp;; apar <- get_ alpha_par;; ret (mu_AP mu aperp apar).

(** derivatives/fs.py:11-17 *)
Definition d_fs (k mu : R) : M R :=
  f <- get_ fs;; cc <- Pgal_cc k mu;; cs <- Pgal_cs k mu;; ss <- Pgal_ss k mu;;
  ret (-2 * (1 - f) * cc + 2 * (1 - 2 * f) * cs + 2 * f * ss).

(** derivatives/fsB.py:12-16 *)
Definition d_fsB (k mu : R) : M R :=
  f <- get_ fs;; b <- get_ fsB;;
  pAA <- Pgal_sAsA k mu;; pAB <- Pgal_sAsB k mu;; pBB <- Pgal_sBsB k mu;;
  ret (f ^ 2 * (2 * (- (1 - b) * pAA + (1 - 2 * b) * pAB + b * pBB))).

(** derivatives/fcB.py:13-32 *)
Definition d_fcB (k mu : R) : M R :=
  f <- get_ fs;; c <- get_ fcB;; b <- get_ fsB;;
  aa <- Pgal_cAcA k mu;; ab <- Pgal_cAcB k mu;; bb <- Pgal_cBcB k mu;;
  let term1 := 2 * (- (1 - c) * aa + (1 - 2 * c) * ab + c * bb) in
  cAsA <- Pgal_cAsA k mu;; cBsA <- Pgal_cBsA k mu;; cAsB <- Pgal_cAsB k mu;; cBsB <- Pgal_cBsB k mu;;
  let term2 := (1 - b) * (- cAsA + cBsA) + b * (- cAsB + cBsB) in
  kp <- kprime k mu;; mup <- muprime mu;;
  u <- get_so;;
  sc <- get_ sigma_c;; sso <- get_ sigma_so;; so <- get_ f_so;; n <- get_ NcBs;;
  aperp <- get_ alpha_perp;; apar <- get_ alpha_par;;
  let G1 := fog_ kp mup sc in let G2 := fog_ kp mup sso in
  let term1' := if u then term1 * (((1 - so) * G1) ^ 2 + 2 * so * (1 - so) * G1 * G2 + (so * G2) ^ 2)
                          + 2 * G1 * G2 * so * n / (aperp ^ 2 * apar)
                else term1 in
  ret ((1 - f) ^ 2 * term1' + 2 * f * (1 - f) * term2).

(** derivatives/f_so.py:14-39 *)
Definition d_f_so (k mu : R) : M R :=
  u <- get_so;;
  if negb u then ret 0 else
  c <- get_ fcB;;
  aa <- Pgal_cAcA k mu;; ab <- Pgal_cAcB k mu;; bb <- Pgal_cBcB k mu;;
  let Pc := (1 - c) ^ 2 * aa + 2 * c * (1 - c) * ab + c ^ 2 * bb in
  kp <- kprime k mu;; mup <- muprime mu;;
  sc <- get_ sigma_c;; sso <- get_ sigma_so;; so <- get_ f_so;; n <- get_ NcBs;;
  aperp <- get_ alpha_perp;; apar <- get_ alpha_par;; f <- get_ fs;;
  let G1 := fog_ kp mup sc in let G2 := fog_ kp mup sso in
  ret ((1 - f) ^ 2 * (-2 * (1 - so) * G1 ^ 2 * Pc + 2 * (1 - 2 * so) * G1 * G2 * Pc
                      + 2 * so * G2 ^ 2 * Pc + 2 * G1 * G2 * c * n / aperp ^ 2 / apar)).

(** derivatives/NcBs.py:13-33 *)
Definition d_NcBs (k mu : R) : M R :=
  kp <- kprime k mu;; mup <- muprime mu;;
  sc <- get_ sigma_c;; ssA <- get_ sigma_sA;; ssB <- get_ sigma_sB;; sso <- get_ sigma_so;;
  f <- get_ fs;; c <- get_ fcB;; b <- get_ fsB;; so <- get_ f_so;;
  aperp <- get_ alpha_perp;; apar <- get_ alpha_par;;
  u <- get_so;;
  let Gc := fog_ kp mup sc in let GsA := fog_ kp mup ssA in let GsB := fog_ kp mup ssB in
  let G2 := fog_ kp mup sso in
  let t := 2 * f * (1 - f) * c * Gc * ((1 - b) * GsA + b * GsB) in
  let t' := if u then t + (1 - f) ^ 2 * 2 * Gc * G2 * so * c else t in
  ret (t' / (aperp ^ 2 * apar)).

(** derivatives/NsBsB.py:13-20 *)
Definition d_NsBsB (k mu : R) : M R :=
  kp <- kprime k mu;; mup <- muprime mu;;
  ssB <- get_ sigma_sB;; f <- get_ fs;; b <- get_ fsB;;
  aperp <- get_ alpha_perp;; apar <- get_ alpha_par;;
  ret ((f * b * fog_ kp mup ssB) ^ 2 / (aperp ^ 2 * apar)).

(** derivatives/sigma_c.py:13-41 *)
Definition d_sigma_c (k mu : R) : M R :=
  kp <- kprime k mu;; mup <- muprime mu;;
  sc <- get_ sigma_c;;
  let G := fog_ kp mup sc in let Gp := fogs kp mup sc in
  ts <- with_preserve (
    set_ sigma_c 0;;;
    u <- get_so;;
    t1 <- (if negb u then cc <- Pgal_cc k mu;; ret (2 * G * Gp * cc)
           else
             (fun s => (Ok tt, set_so false s));;;
             cc <- Pgal_cc k mu;;
             sso <- get_ sigma_so;; so <- get_ f_so;; c <- get_ fcB;; n <- get_ NcBs;;
             aperp <- get_ alpha_perp;; apar <- get_ alpha_par;;
             let G2 := fog_ kp mup sso in
             ret ((2 * G * (1 - so) ^ 2 * cc + 2 * so * (1 - so) * G2 * cc
                   + 2 * G2 * so * c * n / (aperp ^ 2 * apar)) * Gp));;
    cs <- Pgal_cs k mu;;
    ret (t1, Gp * cs));;
  f <- get_ fs;;
  let '(t1, t2) := ts in
  ret ((1 - f) ^ 2 * t1 + 2 * f * (1 - f) * t2).

(** derivatives/sigma_so.py:14-40 *)
Definition d_sigma_so (k mu : R) : M R :=
  u <- get_so;;
  if negb u then ret 0 else
  kp <- kprime k mu;; mup <- muprime mu;;
  sc <- get_ sigma_c;; sso <- get_ sigma_so;;
  let G := fog_ kp mup sc in let G2 := fog_ kp mup sso in let Gp := fogs kp mup sso in
  t <- with_preserve (
    (fun s => (Ok tt, set_so false s));;;
    set_ sigma_c 0;;;
    cc <- Pgal_cc k mu;;
    so <- get_ f_so;; c <- get_ fcB;; n <- get_ NcBs;;
    aperp <- get_ alpha_perp;; apar <- get_ alpha_par;;
    ret (2 * so * (1 - so) * G * cc + 2 * so ^ 2 * G2 * cc
         + 2 * G * so * c * n / (aperp ^ 2 * apar)));;
  f <- get_ fs;;
  ret ((1 - f) ^ 2 * (t * Gp)).

(** derivatives/alpha_par.py:12-34; [N**1.5] is [N * sqrt N] for N >= 0. *)
Definition d_alpha_par (k mu : R) : M R :=
  aperp <- get_ alpha_perp;; apar <- get_ alpha_par;;
  let F := apar / aperp in
  let N := 1 + mu ^ 2 * (1 / F ^ 2 - 1) in
  p <- m_power k mu;;
  pk <- m_derivative_k k mu;; pmu <- m_derivative_mu k mu;;
  let dk_da := - k * mu ^ 2 / (F * apar ^ 2) / sqrt N in
  let dmu_da := - mu * (1 - mu ^ 2) / (F * apar * (N * sqrt N)) in
  ret (- p / apar + pk * dk_da + pmu * dmu_da).

(** derivatives/alpha_perp.py:13-35 *)
Definition d_alpha_perp (k mu : R) : M R :=
  aperp <- get_ alpha_perp;; apar <- get_ alpha_par;;
  let F := apar / aperp in
  let N := 1 + mu ^ 2 * (1 / F ^ 2 - 1) in
  p <- m_power k mu;;
  pk <- m_derivative_k k mu;; pmu <- m_derivative_mu k mu;;
  let dk_da := - k * (1 - mu ^ 2) / aperp ^ 2 / sqrt N in
  let dmu_da := mu * (1 - mu ^ 2) / (apar * (N * sqrt N)) in
  ret (-2 * p / aperp + pk * dk_da + pmu * dmu_da).

End Deriv.
