(** * The one-loop spectra and the two-loop integrals: a model of pyRSD/_gcl/cpp/OneLoopPS.cpp, ImnOneLoop.cpp,
    the wrappers in pyRSD/pygcl.py and the normalization in pyRSD/rsd/pt_integrals.py
    Arithmetic is exact, the adaptive integrations are exact integrals (as in M_Kernels, M_Jmn), the splines are those of M_Spline.
    [error] aborts the process: None. The interpolated_function decorator of pt_integrals.py is modelled by its values at the nodes
    of the interpolation grid. *)
From Coq Require Import Reals List ZArith.
From Coquelicot Require Import Coquelicot.
From Verif Require Import M_Spline M_Disc M_Kernels M_Jmn.
Import ListNotations.
Local Open Scope R_scope.

(** OneLoopPS.cpp:11-13 *)
Definition KMIN : R := / 10 ^ 5.
Definition KMAX : R := 10.
Definition NUM_PTS : nat := 1000.
(** parray k_spline = parray::logspace(KMIN, KMAX, NUM_PTS) *)
Definition k_spline : option (list R) := p_logspace KMIN KMAX NUM_PTS.

(** The four concrete classes, OneLoopPS.h:45-110, and the base class *)
Inductive kind := Pdd | Pdv | Pvv | P22Bar.
Record oneloop := { ol_kind : option kind; ol_lin : R -> R; ol_eps : R; ol_power : list R; ol_spline : spline }.
Definition ob {A B} (x : option A) (f : A -> option B) : option B := match x with Some a => f a | None => None end.
(** the entry of oneloop_power at the node k: OneLoopPS.cpp:54-69 (Pdd), 83-98 (Pdv), 113-128 (Pvv), 161-180 (P22Bar) *)
Definition entry (K : kind) (P : R -> R) (k : R) : option R :=
  match K with
  | Pdd => ob (I_eval P k 0 0) (fun i => ob (J_eval P k 0 0) (fun j => Some (2 * i + 6 * k * k * j * P k)))
  | Pdv => ob (I_eval P k 0 1) (fun i => ob (J_eval P k 0 1) (fun j => Some (2 * i + 6 * k * k * j * P k)))
  | Pvv => ob (I_eval P k 1 1) (fun i => ob (J_eval P k 1 1) (fun j => Some (2 * i + 6 * k * k * j * P k)))
  | P22Bar => ob (I_eval P k 2 3) (fun a => ob (I_eval P k 3 2) (fun b => ob (I_eval P k 3 3) (fun c => Some (a + 2 / 3 * b + 1 / 5 * c))))
  end.
Fixpoint entries (K : kind) (P : R -> R) (ks : list R) : option (list R) :=
  match ks with [] => Some [] | k :: t => ob (entry K P k) (fun v => ob (entries K P t) (fun l => Some (v :: l))) end.
(** the constructors with a spline table, OneLoopPS.cpp:48-52 (and 76-80, 106-110, 136-140); [w0]: the uninitialised working
    arrays of the cubic spline; too short a table fails the spline's assertion *)
Definition with_power (w0 : work) (K : kind) (P : R -> R) (eps : R) (power : list R) : option oneloop :=
  ob k_spline (fun ks => ob (cubic_spline w0 ks power) (fun s =>
    Some {| ol_kind := Some K; ol_lin := P; ol_eps := eps; ol_power := power; ol_spline := s |})).
(** the constructors from a linear spectrum *)
Definition make (w0 : work) (K : kind) (P : R -> R) (eps : R) : option oneloop :=
  ob k_spline (fun ks => ob (entries K P ks) (fun power => with_power w0 K P eps power)).
(** OneLoopPS.cpp:15-19: the base class, whose spline stays the default one (Spline.cpp:309-312) *)
Definition make_base (P : R -> R) (eps : R) (power : list R) : oneloop :=
  {| ol_kind := None; ol_lin := P; ol_eps := eps; ol_power := power; ol_spline := NullS |}.
(** OneLoopPS::Evaluate, OneLoopPS.cpp:28-33 *)
Definition ol_evaluate (o : oneloop) (k : R) : option R :=
  if Rlt_dec k KMIN then Some 0 else if Rlt_dec KMAX k then Some 0 else evaluate (ol_spline o) k.
(** OneLoopPS::EvaluateFull, OneLoopPS.cpp:21-26, overridden for P22Bar, 143-148 *)
Definition ol_full (o : oneloop) (k : R) : option R :=
  if Rlt_dec KMAX k then Some 0 else
  match ol_kind o with Some P22Bar => ol_evaluate o k | _ => ob (ol_evaluate o k) (fun v => Some (v + ol_lin o k)) end.
(** pygcl.py:193-202 (and 207-241): __getstate__ and __setstate__, the arguments of the constructor with a table *)
Definition getstate (o : oneloop) : (R -> R) * R * list R := (ol_lin o, ol_eps o, ol_power o).
Definition setstate (w0 : work) (K : kind) (s : (R -> R) * R * list R) : option oneloop :=
  let '(P, eps, power) := s in with_power w0 K P eps power.
(** a spectrum as a C++ function of k: no value is undefined behaviour, which the theorems exclude *)
Definition fn (o : oneloop) (k : R) : R := match ol_evaluate o k with Some v => v | None => 0 end.
Definition fn_full (o : oneloop) (k : R) : R := match ol_full o k with Some v => v | None => 0 end.
(** OneLoopP22Bar::VelocityKurtosis, OneLoopPS.cpp:182-188; Integrate<ExpSub> as in M_Quad.sub_x *)
Definition velocity_kurtosis0 (o : oneloop) : R :=
  let f q := fn_full o q / (q * q) in
  1 / 4 / (2 * PI * PI) * RInt (fun t => f (exp t) * exp t) (ln (/ 10 ^ 5)) (ln KMAX).

(** ** ImnOneLoop.cpp:38-75: its own copies of the kernels *)
Definition il_h01 (u v : R) : R := - ((2 * (-1 + u * u) * (-1 + v * v)) / (u - v) ^ 4).
Definition il_h02 (u v : R) : R := (6 - 8 * u * v - 2 * v * v + u * u * (-2 + 6 * v * v)) / (u - v) ^ 4.
Definition il_h03 (u v : R) : R := let u2 := u * u in let v2 := v * v in (2 * (-1 + u2) * (-1 + v2)) / (u2 - v2) ^ 2.
Definition il_h04 (u v : R) : R := let u2 := u * u in let v2 := v * v in (2 * (1 + v2 + u2 * (1 - 3 * v2))) / (u2 - v2) ^ 2.
Definition il_f23 (u v : R) : R := let u2 := u * u in let v2 := v * v in (48 * (-1 + u2) ^ 2 * (-1 + v2) ^ 2) / (u2 - v2) ^ 4.
Definition il_f32 (u v : R) : R := let u2 := u * u in let v2 := v * v in
  - ((16 * (-1 + u2) * (-1 + v2) * (-1 - 3 * v2 + 3 * u2 * (-1 + 5 * v2))) / (u2 - v2) ^ 4).
Definition il_f33 (u v : R) : R :=
  (16 * (3 + 2 * v * v + 3 * v ^ 4 + u * u * (2 + 12 * v * v - 30 * v ^ 4) + u ^ 4 * (3 - 30 * v * v + 35 * v ^ 4))) / (u * u - v * v) ^ 4.
(** ImnOneLoop.cpp:78-83 *)
Definition il_integrand (f : R -> R -> R) (P1 P2 : R -> R) (k logu v : R) : R :=
  let u := exp logu in let q := (k / 2) * (u - v) in let r := (k / 2) * (u + v) in u * q * r * P1 q * P2 r * f u v.
(** ImnOneLoop.cpp:85-96; QMAX = 1e1, line 12 *)
Definition il_integral (f : R -> R -> R) (P1 P2 : R -> R) (k : R) : R :=
  if Rle_dec k 0 then 0 else
  let umax := 2 * 10 / k in let V := k / (8 * PI * PI) in
  V * Integrate2 (il_integrand f P1 P2 k) (ln 1) (-1) (ln umax) 1.
(** ImnOneLoop.h:44-49 and the constructors, ImnOneLoop.cpp:16-29: the linear spectrum is that of the first one *)
Record imn1 := { i_1 : R -> R; i_2 : R -> R; i_L : R -> R; i_equal : bool }.
Definition imn1_auto (o : oneloop) : imn1 := {| i_1 := fn o; i_2 := fn o; i_L := ol_lin o; i_equal := true |}.
Definition imn1_cross (o1 o2 : oneloop) : imn1 := {| i_1 := fn o1; i_2 := fn o2; i_L := ol_lin o1; i_equal := false |}.
(** ImnOneLoop::EvaluateLinear, ImnOneLoop.cpp:99-119 *)
Definition il_linear (I : imn1) (k : R) (m n : Z) : option R :=
  match (2 * m + n)%Z with
  | 1%Z => Some (il_integral il_h01 (i_L I) (i_L I) k)
  | 2%Z => Some (il_integral il_h02 (i_L I) (i_L I) k)
  | 3%Z => Some (il_integral il_h03 (i_L I) (i_L I) k)
  | 4%Z => Some (il_integral il_h04 (i_L I) (i_L I) k)
  | 7%Z => Some (il_integral il_f23 (i_L I) (i_L I) k)
  | 8%Z => Some (il_integral il_f23 (i_L I) (i_L I) k)
  | 9%Z => Some (il_integral il_f33 (i_L I) (i_L I) k)
  | _ => None
  end.
(** ImnOneLoop::EvaluateCross, ImnOneLoop.cpp:130-179 *)
Definition il_cross_of (f : R -> R -> R) (I : imn1) (k : R) : R :=
  let part1 := il_integral f (i_L I) (i_2 I) k in
  if i_equal I then 2 * part1 else part1 + il_integral f (i_1 I) (i_L I) k.
Definition il_cross (I : imn1) (k : R) (m n : Z) : option R :=
  match (2 * m + n)%Z with
  | 1%Z => Some (il_cross_of il_h01 I k)
  | 2%Z => Some (il_cross_of il_h02 I k)
  | 3%Z => Some (il_cross_of il_h03 I k)
  | 4%Z => Some (il_cross_of il_h04 I k)
  | 7%Z => Some (il_cross_of il_f23 I k)
  | 8%Z => Some (il_cross_of il_f32 I k)
  | 9%Z => Some (il_cross_of il_f33 I k)
  | _ => None
  end.
(** ImnOneLoop::EvaluateOneLoop, ImnOneLoop.cpp:190-210 *)
Definition il_oneloop (I : imn1) (k : R) (m n : Z) : option R :=
  match (2 * m + n)%Z with
  | 1%Z => Some (il_integral il_h01 (i_1 I) (i_2 I) k)
  | 2%Z => Some (il_integral il_h02 (i_1 I) (i_2 I) k)
  | 3%Z => Some (il_integral il_h03 (i_1 I) (i_2 I) k)
  | 4%Z => Some (il_integral il_h04 (i_1 I) (i_2 I) k)
  | 7%Z => Some (il_integral il_f23 (i_1 I) (i_2 I) k)
  | 8%Z => Some (il_integral il_f23 (i_1 I) (i_2 I) k)
  | 9%Z => Some (il_integral il_f33 (i_1 I) (i_2 I) k)
  | _ => None
  end.

(** ** pt_integrals.py:30-40, 305-425: normalize_ImnOneLoop applied to the three terms, at norm = _power_norm *)
Definition pt_norm (norm : R) (terms : option (R * R * R)) : option R :=
  ob terms (fun t => let '(a, b, c) := t in Some (norm ^ 2 * a + norm ^ 3 * b + norm ^ 4 * c)).
Definition pt_terms (I : imn1) (k : R) (m n : Z) : option (R * R * R) :=
  ob (il_linear I k m n) (fun a => ob (il_cross I k m n) (fun b => ob (il_oneloop I k m n) (fun c => Some (a, b, c)))).
(** the spectra the mixin builds: pt_integrals.py:63-89, at the default accuracy 1e-4 (OneLoopPS.h) *)
Definition pt_spectrum (w0 : work) (P : R -> R) (K : kind) : option oneloop := make w0 K P (/ 10 ^ 4).
(** pt_integrals.py:111-138, the three drivers *)
Definition Ivvdd (w0 : work) (P : R -> R) (norm k : R) (m n : Z) : option R :=
  ob (pt_spectrum w0 P Pvv) (fun vv => ob (pt_spectrum w0 P Pdd) (fun dd => pt_norm norm (pt_terms (imn1_cross vv dd) k m n))).
Definition Idvdv (w0 : work) (P : R -> R) (norm k : R) (m n : Z) : option R :=
  ob (pt_spectrum w0 P Pdv) (fun dv => pt_norm norm (pt_terms (imn1_auto dv) k m n)).
Definition Ivvvv (w0 : work) (P : R -> R) (norm k : R) (m n : Z) : option R :=
  ob (pt_spectrum w0 P Pvv) (fun vv => pt_norm norm (pt_terms (imn1_auto vv) k m n)).
(** pt_integrals.py:428-440 *)
Definition pt_kurtosis (w0 : work) (P : R -> R) (norm : R) : option R :=
  ob (pt_spectrum w0 P P22Bar) (fun o => Some (norm ^ 2 * velocity_kurtosis0 o)).
(** power_dm.py:846-886: Pdd, Pdv and Pvv without a model or loaded data *)
Definition dm_Pdd (w0 : work) (P : R -> R) (norm k : R) : option R :=
  ob (pt_spectrum w0 P Pdd) (fun o => ob (ol_evaluate o k) (fun v => Some (norm * (P k + norm * v)))).
Definition dm_Pdv (w0 : work) (P : R -> R) (f norm k : R) : option R :=
  ob (pt_spectrum w0 P Pdv) (fun o => ob (ol_evaluate o k) (fun v => Some (- f * norm * (P k + norm * v)))).
Definition dm_Pvv (w0 : work) (P : R -> R) (f norm k : R) : option R :=
  ob (pt_spectrum w0 P Pvv) (fun o => ob (ol_evaluate o k) (fun v => Some (f ^ 2 * norm * (P k + norm * v)))).
