(** Specification vocabulary for the Zel'dovich properties. *)
From Coq Require Import Reals List Lra.
From Verif Require Import M_Zel.
Import ListNotations.
Local Open Scope R_scope.
(** The last value the user gave (or the initial one). *)
Definition last8 (d : R) (l : list zop) : R := fold_left (fun d o => match o with ZSet8 s => s | _ => d end) l d.
Definition last_lowk (d : bool) (l : list zop) : bool := fold_left (fun d o => match o with ZLowK b => b | _ => d end) l d.
Definition last_trans (d : R) (l : list zop) : R := fold_left (fun d o => match o with ZTrans k => k | _ => d end) l d.
(** The cosmology is normalised to its sigma8 (as after construction or SetSigma8). *)
Definition normalised (N : numerics) (c : cosmology) : Prop := c_s8 c <> 0 /\ c_dH c = c_s8 c / sqrt (sigma2_un N c).
(** Everything that can be read off an object: the accessors of ZeldovichPS.h:38-45. *)
Definition same_accessors (a b : zel) : Prop :=
  z_s8z a = z_s8z b /\ z_approx a = z_approx b /\ z_k0 a = z_k0 b /\ z_sig2 a = z_sig2 b /\ z_X0 a = z_X0 b /\ z_XX a = z_XX b /\ z_YY a = z_YY b.
(** The transform is linear in the table (FFTLog and the interpolation at a fixed wavenumber are). *)
Fixpoint dotw (w : nat -> R) (l : list R) : R := match l with [] => 0 | x :: r => w O * x + dotw (fun i => w (S i)) r end.
Definition linear_transform (N : numerics) : Prop := exists w : nat -> R -> nat -> R, forall n k a, n_fft N n k a = dotw (w n k) a.
(** The integrator commutes with a constant factor. *)
Definition homogeneous (I : (R -> R) -> R -> R -> R) : Prop := forall c f g a b, (forall x, g x = c * f x) -> I g a b = c * I f a b.
