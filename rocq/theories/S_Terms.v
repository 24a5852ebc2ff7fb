(** Specification vocabulary for the terms of the power expansion: exchanging tracers, the linear limit and perturbative order. *)
From Coq Require Import Reals.
From Verif Require Import M_Terms.
Local Open Scope R_scope.

(** the same pair of tracers, in the other order, everything else unchanged *)
Definition exchanged (t t' : tracers) : Prop :=
  b1 t' = b1_bar t /\ b1_bar t' = b1 t /\ mean_bias t' = mean_bias t /\ tidal t' = tidal t /\ phm t' = phm t /\ veldisp t' = veldisp t
  /\ corr2 t' = corr2 t /\ corr4 t' = corr4 t /\ auto_st t' = auto_st t /\ cross_st t' = cross_st t
  /\ b00a t' = b00a t /\ b00b t' = b00b t /\ b00c t' = b00c t /\ b00d t' = b00d t /\ b01a t' = b01a t /\ b01b t' = b01b t.
(** the same options with given biases and mean-bias switch *)
Definition rebias (t t' : tracers) (b b' : R) (mb : bool) : Prop :=
  b1 t' = b /\ b1_bar t' = b' /\ mean_bias t' = mb /\ tidal t' = tidal t /\ phm t' = phm t /\ veldisp t' = veldisp t
  /\ corr2 t' = corr2 t /\ corr4 t' = corr4 t /\ auto_st t' = auto_st t /\ cross_st t' = cross_st t
  /\ b00a t' = b00a t /\ b00b t' = b00b t /\ b00c t' = b00c t /\ b00d t' = b00d t /\ b01a t' = b01a t /\ b01b t' = b01b t.
(** the same matter model at another amplitude *)
Definition at_norm (m : matter) (n : R) : matter :=
  {| k := k m; f := f m; norm := n; plin := plin m; Im := Im m; Jm := Jm m; Km := Km m; Lm := Lm m; pdd0 := pdd0 m; pdv0 := pdv0 m; pvv0 := pvv0 m;
     sigk0 := sigk0 m; kurt0 := kurt0 m; siglin0 := siglin0 m; two := two m; hz00 := hz00 m; hz01 := hz01 m; hz11 := hz11 m;
     ld00 := ld00 m; ld01 := ld01 m; ld11a := ld11a m; ld11b := ld11b m; dvv := dvv m; vvv := vvv m; sigv := sigv m;
     sbv2 := sbv2 m; sv2 := sv2 m; sbv4 := sbv4 m; hH := hH m |}.
(** pure perturbation theory: no simulation-calibrated model, no loaded data, default velocity dispersion, no extra small-scale dispersion *)
Definition pure_spt (m : matter) : Prop :=
  hz00 m = None /\ hz01 m = None /\ hz11 m = None /\ ld00 m = None /\ ld01 m = None /\ ld11a m = None /\ ld11b m = None
  /\ dvv m = None /\ vvv m = None /\ sigv m = None /\ sbv2 m = 0 /\ sv2 m = 0 /\ sbv4 m = 0.
Definition no_sims (t : tracers) : Prop :=
  phm t = None /\ veldisp t = None /\ corr2 t = None /\ corr4 t = None /\ (forall b, auto_st t b = 0) /\ (forall b b', cross_st t b b' = 0).
(** Kaiser's linear redshift-space power spectrum for two tracers *)
Definition kaiser (b b' f mu p : R) : R := (b + f * mu ^ 2) * (b' + f * mu ^ 2) * p.
(** [P], a function of the amplitude, vanishes linearly with coefficient [c]: P(n)/n -> c as n -> 0+ *)
Definition linear_limit (P : R -> option R) (c : R) : Prop :=
  forall e, 0 < e -> exists d, 0 < d /\ forall n, 0 < n < d -> exists p, P n = Some p /\ Rabs (p / n - c) < e.
(** no second order bias anywhere at unit linear bias *)
Definition unit_bias (t : tracers) : Prop :=
  b1 t = 1 /\ b1_bar t = 1 /\ b00a t 1 = 0 /\ b00b t 1 = 0 /\ b00c t 1 = 0 /\ b00d t 1 = 0 /\ b01a t 1 = 0 /\ b01b t 1 = 0.
