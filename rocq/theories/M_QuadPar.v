(** Model of parallel integrations sharing the workspace manager (_gcl/cpp/Quadrature.cpp:246-276, include/Quadrature.inl:186-248) from the
    OpenMP loops of the library ("#pragma omp parallel for ... out[i] = Evaluate(k[i])", e.g. PowerSpectrum.cpp:44-53, ZeldovichPS.cpp:84-94).
    Simplifications: get_gk_workspace (a critical section) and release_gk_workspace are atomic steps -- the second is NOT protected in the code, so
    its data race with an insertion into the map is not modelled; one round of the bisection loop is one step; integrands do not integrate
    themselves (none in the library does); memory for a new workspace is always available. *)
From Coq Require Import Reals List Arith Sorted.
From Verif Require Import M_Quad.
Import ListNotations.
Local Open Scope R_scope.

(** The arguments of one call of Integrate. *)
Record req := { r_f : R -> R; r_a : R; r_b : R; r_rel : R; r_abs : R }.
(** What a loop body does: any number of calls of Integrate one after the other, each depending on the earlier answers, then a value. *)
Inductive prog := Ret (v : R) | Call (r : req) (k : answer -> prog).

(** Where a thread is inside Integrate (Quadrature.inl:221-227): not in it; got a workspace; in the loop, with its local variables
    (the field l_ws of the locals is not used: the workspace is in shared memory); about to release. *)
Inductive pc := POut | PHave (id : nat) | PLoop (id : nat) (s : lst) | PRel (id : nat) (ans : answer).
(** A thread: the iterations still assigned to it (slot and program), the first being the current one. *)
Record thread := { t_jobs : list (nat * prog); t_pc : pc }.
(** Shared state: the map of workspaces (address, in use), the memory, the threads, the output array. *)
Record glob := { g_map : list (nat * bool); g_heap : nat -> ws; g_thr : nat -> thread; g_out : nat -> option R }.

(** Quadrature.cpp:257-263: the first entry not in use *)
Fixpoint first_free (m : list (nat * bool)) : option nat := match m with [] => None | (i, u) :: t => if u then first_free t else Some i end.
(** std::map: keys in increasing order; operator[] *)
Fixpoint map_set (m : list (nat * bool)) (i : nat) (u : bool) : list (nat * bool) :=
  match m with
  | [] => [(i, u)]
  | (j, v) :: t => if Nat.eqb i j then (i, u) :: t else if Nat.ltb i j then (i, u) :: (j, v) :: t else (j, v) :: map_set t i u
  end.
Definition keys (m : list (nat * bool)) : list nat := map fst m.
(** Quadrature.cpp:273-276 *)
Definition release (m : list (nat * bool)) (i : nat) : list (nat * bool) := if in_dec Nat.eq_dec i (keys m) then map_set m i false else m.

Definition with_ws (w : ws) (s : lst) : lst := {| l_ws := w; l_area := l_area s; l_errsum := l_errsum s; l_iter := l_iter s; l_code := l_code s; l_tol := l_tol s; l_neval := l_neval s |}.
(** Quadrature.inl:79-96, 162-173: refusal, order of the limits, final sums *)
Definition refuses (r : req) : bool := andb (rleb (r_abs r) 0) (orb (rltb (r_rel r) (50 * DBL_EPSILON)) (rltb (r_rel r) (5 / 10 ^ 29))).
Definition lo_of (r : req) : R := if rltb (r_b r) (r_a r) then r_b r else r_a r.
Definition hi_of (r : req) : R := if rltb (r_b r) (r_a r) then r_a r else r_b r.
Definition answer_of (r : req) (s : lst) : answer :=
  let w' := l_ws s in let abserr := sum_n (size w') (el w') in
  {| q_val := (if rltb (r_b r) (r_a r) then -1 else 1) * sum_n (size w') (rl w'); q_err := Some abserr; q_neval := Some (l_neval s);
     q_warn := if rltb (l_tol s) abserr then report (l_code s) else [] |}.

Definition put_thr (g : glob) (t : nat) (x : thread) : nat -> thread := set (g_thr g) t x.
(** One step of thread t. L: the size of the workspaces (GK_LIMIT). *)
Inductive step (L : nat) : glob -> glob -> Prop :=
| s_ret g t i v js : g_thr g t = {| t_jobs := (i, Ret v) :: js; t_pc := POut |} ->
    step L g {| g_map := g_map g; g_heap := g_heap g; g_thr := put_thr g t {| t_jobs := js; t_pc := POut |}; g_out := set (g_out g) i (Some v) |}
| s_reuse g t i r k js id : g_thr g t = {| t_jobs := (i, Call r k) :: js; t_pc := POut |} -> first_free (g_map g) = Some id ->
    step L g {| g_map := map_set (g_map g) id true; g_heap := g_heap g; g_thr := put_thr g t {| t_jobs := (i, Call r k) :: js; t_pc := PHave id |}; g_out := g_out g |}
| s_new g t i r k js id w : g_thr g t = {| t_jobs := (i, Call r k) :: js; t_pc := POut |} -> first_free (g_map g) = None ->
    ~ In id (keys (g_map g)) -> limit w = L ->
    step L g {| g_map := map_set (g_map g) id true; g_heap := set (g_heap g) id w; g_thr := put_thr g t {| t_jobs := (i, Call r k) :: js; t_pc := PHave id |}; g_out := g_out g |}
| s_refuse g t i r k js id : g_thr g t = {| t_jobs := (i, Call r k) :: js; t_pc := PHave id |} -> refuses r = true ->
    step L g {| g_map := g_map g; g_heap := g_heap g; g_out := g_out g;
      g_thr := put_thr g t {| t_jobs := (i, Call r k) :: js; t_pc := PRel id {| q_val := 0; q_err := None; q_neval := None; q_warn := [1%nat] |} |} |}
| s_init g t i r k js id : g_thr g t = {| t_jobs := (i, Call r k) :: js; t_pc := PHave id |} -> refuses r = false ->
    let s := first (g_heap g id) (gk15 (r_f r)) (lo_of r) (hi_of r) in
    step L g {| g_map := g_map g; g_heap := set (g_heap g) id (l_ws s); g_thr := put_thr g t {| t_jobs := (i, Call r k) :: js; t_pc := PLoop id s |}; g_out := g_out g |}
| s_round g t i r k js id s0 : g_thr g t = {| t_jobs := (i, Call r k) :: js; t_pc := PLoop id s0 |} ->
    let s := body (gk15 (r_f r)) (r_rel r) (r_abs r) (with_ws (g_heap g id) s0) in
    step L g {| g_map := g_map g; g_heap := set (g_heap g) id (l_ws s); g_out := g_out g;
      g_thr := put_thr g t {| t_jobs := (i, Call r k) :: js; t_pc := if continue s then PLoop id s else PRel id (answer_of r s) |} |}
| s_rel g t i r k js id ans : g_thr g t = {| t_jobs := (i, Call r k) :: js; t_pc := PRel id ans |} ->
    step L g {| g_map := release (g_map g) id; g_heap := g_heap g; g_thr := put_thr g t {| t_jobs := (i, k ans) :: js; t_pc := POut |}; g_out := g_out g |}.
(** Runs of n steps. *)
Inductive runs (L : nat) : nat -> glob -> glob -> Prop :=
| runs_0 g : runs L 0 g g
| runs_S n g g' g'' : step L g g' -> runs L n g' g'' -> runs L (S n) g g''.
(** The start of a parallel region: every thread before its first iteration, no result yet. What earlier regions left in the manager stays. *)
Definition starts (L : nat) (g : glob) : Prop := (forall t, t_pc (g_thr g t) = POut) /\ (forall i, g_out g i = None) /\ StronglySorted lt (keys (g_map g)) /\
  (forall id u, In (id, u) (g_map g) -> u = false /\ limit (g_heap g id) = L).
