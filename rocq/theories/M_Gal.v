(** * Model of the galaxy power tree: /repo/pyRSD/rsd/power/gal

    Programs run on a mutable model object and may raise.  One (k,mu) pair at a
    time: numpy broadcasting over arrays acts elementwise.  Arithmetic is over the
    reals (rounding is not modelled). *)
From Coq Require Import List String Bool Reals.
From Verif Require Import M_Cache.
Import ListNotations.
Open Scope R_scope.

(** Numeric attributes of a GalaxySpectrum that the tree reads or writes:
    power_gal.py:130-263, power_biased.py:164-176, power_dm.py (alphas). *)
Inductive attr :=
| b1 | b1_bar | b1_cA | b1_cB | b1_sA | b1_sB
| sigma_c | sigma_sA | sigma_sB | sigma_so
| fs | fcB | fsB | f_so | NcBs | NsBsB | N_
| alpha_par | alpha_perp | alpha_drag.

(** The model object: the attribute values and the switch [use_so_correction]
    (a constructor keyword / parameter of power_gal.py). *)
Record gst := mkG {
  a_b1 : R; a_b1_bar : R; a_b1_cA : R; a_b1_cB : R; a_b1_sA : R; a_b1_sB : R;
  a_sigma_c : R; a_sigma_sA : R; a_sigma_sB : R; a_sigma_so : R;
  a_fs : R; a_fcB : R; a_fsB : R; a_f_so : R; a_NcBs : R; a_NsBsB : R; a_N : R;
  a_par : R; a_perp : R; a_drag : R;
  use_so : bool }.

(** getattr(model, name) *)
Definition geta (a : attr) (s : gst) : R :=
  match a with
  | b1 => a_b1 s | b1_bar => a_b1_bar s | b1_cA => a_b1_cA s | b1_cB => a_b1_cB s
  | b1_sA => a_b1_sA s | b1_sB => a_b1_sB s
  | sigma_c => a_sigma_c s | sigma_sA => a_sigma_sA s | sigma_sB => a_sigma_sB s
  | sigma_so => a_sigma_so s | fs => a_fs s | fcB => a_fcB s | fsB => a_fsB s
  | f_so => a_f_so s | NcBs => a_NcBs s | NsBsB => a_NsBsB s | N_ => a_N s
  | alpha_par => a_par s | alpha_perp => a_perp s | alpha_drag => a_drag s
  end.

(** setattr(model, name, v) *)
Definition seta (a : attr) (v : R) (s : gst) : gst :=
  match s with
  | mkG x1 x2 x3 x4 x5 x6 x7 x8 x9 x10 x11 x12 x13 x14 x15 x16 x17 x18 x19 x20 u =>
    match a with
    | b1 => mkG v x2 x3 x4 x5 x6 x7 x8 x9 x10 x11 x12 x13 x14 x15 x16 x17 x18 x19 x20 u
    | b1_bar => mkG x1 v x3 x4 x5 x6 x7 x8 x9 x10 x11 x12 x13 x14 x15 x16 x17 x18 x19 x20 u
    | b1_cA => mkG x1 x2 v x4 x5 x6 x7 x8 x9 x10 x11 x12 x13 x14 x15 x16 x17 x18 x19 x20 u
    | b1_cB => mkG x1 x2 x3 v x5 x6 x7 x8 x9 x10 x11 x12 x13 x14 x15 x16 x17 x18 x19 x20 u
    | b1_sA => mkG x1 x2 x3 x4 v x6 x7 x8 x9 x10 x11 x12 x13 x14 x15 x16 x17 x18 x19 x20 u
    | b1_sB => mkG x1 x2 x3 x4 x5 v x7 x8 x9 x10 x11 x12 x13 x14 x15 x16 x17 x18 x19 x20 u
    | sigma_c => mkG x1 x2 x3 x4 x5 x6 v x8 x9 x10 x11 x12 x13 x14 x15 x16 x17 x18 x19 x20 u
    | sigma_sA => mkG x1 x2 x3 x4 x5 x6 x7 v x9 x10 x11 x12 x13 x14 x15 x16 x17 x18 x19 x20 u
    | sigma_sB => mkG x1 x2 x3 x4 x5 x6 x7 x8 v x10 x11 x12 x13 x14 x15 x16 x17 x18 x19 x20 u
    | sigma_so => mkG x1 x2 x3 x4 x5 x6 x7 x8 x9 v x11 x12 x13 x14 x15 x16 x17 x18 x19 x20 u
    | fs => mkG x1 x2 x3 x4 x5 x6 x7 x8 x9 x10 v x12 x13 x14 x15 x16 x17 x18 x19 x20 u
    | fcB => mkG x1 x2 x3 x4 x5 x6 x7 x8 x9 x10 x11 v x13 x14 x15 x16 x17 x18 x19 x20 u
    | fsB => mkG x1 x2 x3 x4 x5 x6 x7 x8 x9 x10 x11 x12 v x14 x15 x16 x17 x18 x19 x20 u
    | f_so => mkG x1 x2 x3 x4 x5 x6 x7 x8 x9 x10 x11 x12 x13 v x15 x16 x17 x18 x19 x20 u
    | NcBs => mkG x1 x2 x3 x4 x5 x6 x7 x8 x9 x10 x11 x12 x13 x14 v x16 x17 x18 x19 x20 u
    | NsBsB => mkG x1 x2 x3 x4 x5 x6 x7 x8 x9 x10 x11 x12 x13 x14 x15 v x17 x18 x19 x20 u
    | N_ => mkG x1 x2 x3 x4 x5 x6 x7 x8 x9 x10 x11 x12 x13 x14 x15 x16 v x18 x19 x20 u
    | alpha_par => mkG x1 x2 x3 x4 x5 x6 x7 x8 x9 x10 x11 x12 x13 x14 x15 x16 x17 v x19 x20 u
    | alpha_perp => mkG x1 x2 x3 x4 x5 x6 x7 x8 x9 x10 x11 x12 x13 x14 x15 x16 x17 x18 v x20 u
    | alpha_drag => mkG x1 x2 x3 x4 x5 x6 x7 x8 x9 x10 x11 x12 x13 x14 x15 x16 x17 x18 x19 v u
    end
  end.

(** model.use_so_correction = b *)
Definition set_so (b : bool) (s : gst) : gst :=
  match s with
  | mkG x1 x2 x3 x4 x5 x6 x7 x8 x9 x10 x11 x12 x13 x14 x15 x16 x17 x18 x19 x20 _ =>
    mkG x1 x2 x3 x4 x5 x6 x7 x8 x9 x10 x11 x12 x13 x14 x15 x16 x17 x18 x19 x20 b
  end.

(** Programs on the object, with exceptions. *)
Definition M (A : Type) := gst -> result A * gst.
Definition ret {A} (x : A) : M A := fun s => (Ok x, s).
Definition bind {A B} (m : M A) (f : A -> M B) : M B := fun s =>
  match m s with
  | (Ok x, s') => f x s'
  | (Err e, s') => (Err e, s')
  end.
Definition get_ (a : attr) : M R := fun s => (Ok (geta a s), s).
Definition set_ (a : attr) (v : R) : M unit := fun s => (Ok tt, seta a v s).
Definition get_so : M bool := fun s => (Ok (use_so s), s).
Notation "x <- m ;; f" := (bind m (fun x => f)) (at level 61, m at next level, right associativity).
Notation "m ;;; f" := (bind m (fun _ => f)) (at level 61, right associativity).

(** ** Context managers *)

(** gal/__init__.py:4-16: N saved at construction, [__exit__] runs on every exit and
    returns None, so the exception propagates. *)
Definition zero_shot_noise {A} (m : M A) : M A := fun s =>
  let saved := geta N_ s in
  let '(r, s1) := m (seta N_ 0 s) in
  (r, seta N_ saved s1).

(** gal/Pcc/__init__.py:3-19 *)
Definition so_correction {A} (m : M A) : M A := fun s =>
  let saved := geta sigma_c s in
  let '(r, s1) := m (if use_so s then seta sigma_c 0 s else s) in
  (r, seta sigma_c saved s1).

(** gal/core.py:83-97: a generator context manager without try/finally -- an
    exception in the block skips the restoring lines. *)
Definition set_biases {A} (b1n b2n : attr) (m : M A) : M A := fun s =>
  let o1 := geta b1 s in let o2 := geta b1_bar s in
  let n1 := geta b1n s in let n2 := geta b2n s in
  let '(r, s1) := m (seta b1_bar n2 (seta b1 n1 s)) in
  match r with
  | Ok _ => (r, seta b1_bar o2 (seta b1 o1 s1))
  | Err _ => (r, s1)
  end.

Section Tree.
(** The FOG kernel object (fog_kernels.py) and its derivatives: k, mu, sigma. *)
Variables FOG FOG_k FOG_mu FOG_sigma : R -> R -> R -> R.
(** BiasedSpectrum.power / derivative_k / derivative_mu at (k,mu) as a function of
    the biases b1, b1_bar of the model (the cosmological state is fixed); may raise.
    Undistorted: inside the galaxy tree the AP lock is held (tools.py:205-229). *)
Variables PW PW_k PW_mu : R -> R -> R -> R -> result R.

Definition run_leaf (p : R -> R -> R -> R -> result R) (k mu : R) : M R :=
  x <- get_ b1;; y <- get_ b1_bar;; fun s => (p x y k mu, s).

(** A term of the tree: coefficient, value, k- and mu-derivative (core.py:126-189). *)
Record term := mkT {
  coef : M R;
  call : R -> R -> M R;
  dk   : R -> R -> M R;
  dmu  : R -> R -> M R }.

(** core.py:4-38 *)
Definition one_halo (name : attr) : term :=
  mkT (ret 1) (fun _ _ => get_ name) (fun _ _ => ret 0) (fun _ _ => ret 0).

(** core.py:40-124; [b2 = None] means the second bias defaults to the first. *)
Definition two_halo (b1n : attr) (b2n : option attr) : term :=
  let b2' := match b2n with Some b => b | None => b1n end in
  mkT (ret 1)
      (fun k mu => set_biases b1n b2' (run_leaf PW k mu))
      (fun k mu => set_biases b1n b2' (run_leaf PW_k k mu))
      (fun k mu => set_biases b1n b2' (run_leaf PW_mu k mu)).

(** core.py:163-189: sum(coeff * term(k,mu) for coeff, term in self); the
    coefficient is read before the term is evaluated. *)
Fixpoint wsum (f : term -> M R) (acc : R) (l : list term) : M R :=
  match l with
  | [] => ret acc
  | t :: l' => c <- coef t;; v <- f t;; wsum f (acc + c * v) l'
  end.

Definition power_term (cf : M R) (l : list term) : term :=
  mkT cf (fun k mu => wsum (fun t => call t k mu) 0 l)
         (fun k mu => wsum (fun t => dk t k mu) 0 l)
         (fun k mu => wsum (fun t => dmu t k mu) 0 l).

(** core.py:191-274 *)
Definition damped (cf : M R) (l : list term) (sigma1 : attr) (sigma2 : option attr) : term :=
  let inner := power_term cf l in
  let deriv (F : R -> R -> R -> R) (d : M R) (k mu : R) : M R :=
    s1 <- get_ sigma1;;
    let G1 := FOG k mu s1 in let G1p := F k mu s1 in
    GG <- match sigma2 with
          | None => ret (G1, G1p)
          | Some n => s2 <- get_ n;; ret (FOG k mu s2, F k mu s2)
          end;;
    let '(G2, G2p) := GG in
    dv <- d;;
    pw <- call inner k mu;;
    ret (G1 * G2 * dv + (G2 * G1p + G1 * G2p) * pw) in
  mkT cf
    (fun k mu =>
       s1 <- get_ sigma1;;
       let G1 := FOG k mu s1 in
       G2 <- match sigma2 with None => ret G1 | Some n => s2 <- get_ n;; ret (FOG k mu s2) end;;
       v <- call inner k mu;;
       n <- get_ N_;;
       ret (G1 * G2 * v + n))
    (fun k mu => deriv FOG_k (dk inner k mu) k mu)
    (fun k mu => deriv FOG_mu (dmu inner k mu) k mu).

(** gal/Pcc/PcAcA.py:27-37 and its siblings *)
Definition so_wrap (t : term) : term :=
  mkT (coef t)
      (fun k mu => so_correction (call t k mu))
      (fun k mu => so_correction (dk t k mu))
      (fun k mu => so_correction (dmu t k mu)).

(** gal/Pcc/PcAcA.py, PcAcB.py, PcBcB.py *)
Definition PcAcA : term :=
  so_wrap (damped (f <- get_ fcB;; ret ((1 - f) ^ 2)) [two_halo b1_cA None] sigma_c None).
Definition PcAcB : term :=
  so_wrap (damped (f <- get_ fcB;; ret (2 * (1 - f) * f)) [two_halo b1_cA (Some b1_cB)] sigma_c None).
Definition PcBcB : term :=
  so_wrap (damped (f <- get_ fcB;; ret (f ^ 2)) [two_halo b1_cB None] sigma_c None).

(** gal/Pcs/PcAsA.py, PcAsB.py, PcBsA.py, PcBsB.py *)
Definition PcAsA : term :=
  damped (f <- get_ fcB;; g <- get_ fsB;; ret ((1 - f) * (1 - g))) [two_halo b1_cA (Some b1_sA)] sigma_c (Some sigma_sA).
Definition PcAsB : term :=
  damped (f <- get_ fcB;; g <- get_ fsB;; ret ((1 - f) * g)) [two_halo b1_cA (Some b1_sB)] sigma_c (Some sigma_sB).
Definition PcBsA : term :=
  damped (f <- get_ fcB;; g <- get_ fsB;; ret (f * (1 - g)))
         [two_halo b1_cB (Some b1_sA); one_halo NcBs] sigma_c (Some sigma_sA).
Definition PcBsB : term :=
  damped (f <- get_ fcB;; g <- get_ fsB;; ret (f * g))
         [two_halo b1_cB (Some b1_sB); one_halo NcBs] sigma_c (Some sigma_sB).

(** gal/Pss/PsAsA.py, PsAsB.py, PsBsB.py *)
Definition PsAsA : term :=
  damped (g <- get_ fsB;; ret ((1 - g) ^ 2)) [two_halo b1_sA None] sigma_sA None.
Definition PsAsB : term :=
  damped (g <- get_ fsB;; ret (2 * (1 - g) * g)) [two_halo b1_sA (Some b1_sB)] sigma_sA (Some sigma_sB).
Definition PsBsB : term :=
  damped (g <- get_ fsB;; ret (g ^ 2)) [two_halo b1_sB None; one_halo NsBsB] sigma_sB None.

(** gal/Pcc/__init__.py:26-63 (call), 65-94 (derivative_k), 96-124 (derivative_mu:
    the same text with the other kernel derivative). *)
Definition Pcc_coef : M R := f <- get_ fs;; ret ((1 - f) ^ 2).
Definition Pcc_base : term := power_term Pcc_coef [PcAcA; PcAcB; PcBcB].
Definition Pcc_deriv (F : R -> R -> R -> R) (d : M R) (k mu : R) : M R :=
  dv <- d;;
  u <- get_so;;
  if negb u then ret dv else
  Pk <- call Pcc_base k mu;;
  sc <- get_ sigma_c;; sso <- get_ sigma_so;;
  let G1 := FOG k mu sc in let G2 := FOG k mu sso in
  let G1p := F k mu sc in let G2p := F k mu sso in
  f <- get_ f_so;; fc <- get_ fcB;; n <- get_ NcBs;;
  ret (((G1 * (1 - f)) ^ 2 + 2 * f * (1 - f) * G1 * G2 + (G2 * f) ^ 2) * dv
       + 2 * G1 * G1p * (1 - f) ^ 2 * Pk
       + 2 * f * (1 - f) * (G1p * G2 + G2p * G1) * Pk
       + 2 * G2 * G2p * f ^ 2 * Pk
       + 2 * f * fc * n * (G1p * G2 + G2p * G1)).
Definition Pcc : term :=
  mkT Pcc_coef
    (fun k mu =>
       Pk <- zero_shot_noise (call Pcc_base k mu);;
       u <- get_so;;
       if negb u then ret Pk else
       sc <- get_ sigma_c;; sso <- get_ sigma_so;;
       let G1 := FOG k mu sc in let G2 := FOG k mu sso in
       f <- get_ f_so;; fc <- get_ fcB;; n <- get_ NcBs;;
       ret ((G1 * (1 - f)) ^ 2 * Pk + 2 * f * (1 - f) * (G1 * G2) * Pk + (G2 * f) ^ 2 * Pk
            + 2 * G1 * G2 * f * fc * n))
    (fun k mu => Pcc_deriv FOG_k (dk Pcc_base k mu) k mu)
    (fun k mu => Pcc_deriv FOG_mu (dmu Pcc_base k mu) k mu).

(** gal/Pcs/__init__.py:8-29 *)
Definition Pcs_base : term := power_term (f <- get_ fs;; ret (2 * f * (1 - f))) [PcAsA; PcAsB; PcBsA; PcBsB].
Definition Pcs : term :=
  mkT (coef Pcs_base) (fun k mu => zero_shot_noise (call Pcs_base k mu)) (dk Pcs_base) (dmu Pcs_base).

(** gal/Pss/__init__.py *)
Definition Pss_base : term := power_term (f <- get_ fs;; ret (f ^ 2)) [PsAsA; PsAsB; PsBsB].
Definition Pss : term :=
  mkT (coef Pss_base) (fun k mu => zero_shot_noise (call Pss_base k mu)) (dk Pss_base) (dmu Pss_base).

(** gal/__init__.py:24-40 *)
Definition Pgal_base : term := power_term (ret 1) [Pcc; Pcs; Pss].
Definition Pgal : term :=
  mkT (ret 1) (fun k mu => zero_shot_noise (call Pgal_base k mu)) (dk Pgal_base) (dmu Pgal_base).

End Tree.
