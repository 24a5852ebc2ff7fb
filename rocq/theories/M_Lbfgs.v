(** * Model of pyRSD/rsdfit/solvers/lbfgs.py
    Arrays of floats are lists of reals; rounding and overflow are not modelled. The objective [f], its
    gradient [fprime] and scipy's Armijo line search are arbitrary functions (oracles); exceptions raised
    inside them, logging and the unscaler (used for logging only) are not modelled. *)
From Coq Require Import Reals List Arith ZArith Lia Lra Bool.
Import ListNotations.
Set Implicit Arguments.
Local Open Scope R_scope.

Definition vec := list R.
Fixpoint map2 (h : R -> R -> R) (u v : vec) : vec := match u, v with a :: u', b :: v' => h a b :: map2 h u' v' | _, _ => [] end.
Definition vadd : vec -> vec -> vec := map2 Rplus.
Definition vsub : vec -> vec -> vec := map2 Rminus.
Definition vscale (c : R) (v : vec) : vec := map (Rmult c) v.
(** np.dot of two 1-d arrays *)
Fixpoint dot (u v : vec) : R := match u, v with a :: u', b :: v' => a * b + dot u' v' | _, _ => 0 end.
(** np.linalg.norm *)
Definition norm (v : vec) : R := sqrt (dot v v).
Definition zeros (N : nat) : vec := repeat 0 N.

(** State, lbfgs.py:22-94 *)
Record state := mkState { X : vec; F : R; G : vec; Gnorm : R }.
(** State.__init__ / State.update with Gnorm=None *)
Definition new_state (x : vec) (fx : R) (g : vec) : state := mkState x fx g (norm g).

(** LimitedMemoryInverseHessian, lbfgs.py:96-105: three parallel arrays with M rows *)
Record memory := mkMem { H0k : R; ms : list vec; my : list vec; mrho : list R }.
Definition fresh (M N : nat) : memory := mkMem 1 (repeat (zeros N) M) (repeat (zeros N) M) (repeat 0 M).
(** np.roll(a, 1, axis=0) *)
Definition roll (A : Type) (l : list A) : list A := match l with [] => [] | a :: _ => last l a :: removelast l end.
(** a[0] = v *)
Definition set0 (A : Type) (l : list A) (v : A) : list A := match l with [] => [] | _ :: l' => v :: l' end.
(** rhok, lines 130-139: 1/(y.s), or 1000 when the division overflows (y.s = 0) *)
Definition rhok (sk yk : vec) : R := if Req_EM_T (dot yk sk) 0 then 1000 else 1 / dot yk sk.
(** LimitedMemoryInverseHessian.update, lines 116-149; [false] = LBFGSStepError, raised after the arrays
    have been rolled *)
Definition mem_update (H : memory) (sk yk : vec) : memory * bool :=
  let s := roll (ms H) in
  let y := roll (my H) in
  let rho := roll (mrho H) in
  let yy := norm yk * norm yk in
  if Req_EM_T yy 0 then (mkMem (H0k H) s y rho, false)
  else (mkMem (1 / (rhok sk yk * yy)) (set0 s sk) (set0 y yk) (set0 rho (rhok sk yk)), true).

(** compute_LBFGS_step, lines 365-405. First loop, i = 0..k-1: a[i] = rho[i] * s[i].q;  q -= a[i]*y[i]. *)
Fixpoint loop1 (k : nat) (s y : list vec) (rho : list R) (q : vec) : vec * list R :=
  match k, s, y, rho with
  | S k', si :: s', yi :: y', ri :: rho' =>
      let ai := ri * dot si q in
      let '(q', a) := loop1 k' s' y' rho' (vsub q (vscale ai yi)) in (q', ai :: a)
  | _, _, _, _ => (q, [])
  end.
(** Second loop, i = k-1..0: beta = rho[i] * y[i].z;  z += s[i]*(a[i]-beta). *)
Fixpoint loop2 (idx : list nat) (s y : list vec) (rho a : list R) (z : vec) : vec :=
  match idx with
  | [] => z
  | i :: idx' =>
      let beta := nth i rho 0 * dot (nth i y []) z in
      loop2 idx' s y rho a (vadd z (vscale (nth i a 0 - beta) (nth i s [])))
  end.
Definition compute_step (M : nat) (H : memory) (g : vec) (gnorm : R) (it : nat) : vec :=
  let k := Nat.min M it in
  let '(q, a) := loop1 k (ms H) (my H) (mrho H) g in
  let z := vscale (H0k H) q in
  let z := if (it =? 0)%nat then vscale (/ gnorm) z else z in
  loop2 (rev (seq 0 k)) (ms H) (my H) (mrho H) a z.

(** options, lines 252-260. eps is np.finfo(float).eps. *)
Record options := mkOpt { factr : option R; gtol : option R; max_iter : Z; test_conv : bool; eps : R }.
(** self.data and self.history (of F) *)
Record data := mkData { curr : state; prev : state; hess : memory; iter : nat; status : Z; hist : list R }.
(** max over the array of the absolute values, np.amax(np.abs(G)) *)
Fixpoint amax_abs (g : vec) : R := match g with [] => 0 | [a] => Rabs a | a :: g' => Rmax (Rabs a) (amax_abs g') end.

(** check_convergence, lines 281-324: the new status *)
Definition check_convergence (o : options) (d : data) : Z :=
  if (iter d =? 0)%nat then 0%Z
  else if (max_iter o <=? Z.of_nat (iter d))%Z then (-1)%Z
  else if negb (test_conv o) then 0%Z
  else
    let stop_f := match factr o with
                  | Some fa => if Rle_dec (Rabs (F (curr d) - F (prev d)) / Rmax (Rmax (F (curr d)) (F (prev d))) 1) (fa * eps o) then true else false
                  | None => false end in
    if stop_f then 2%Z
    else
      let stop_g := match gtol o with Some t => if Rle_dec (amax_abs (G (curr d))) t then true else false | None => false end in
      if stop_g then 3%Z else 0%Z.

Section Run.
Variables (M N : nat) (f : vec -> R) (fprime : vec -> vec).
(** scipy.optimize.linesearch.line_search_armijo(f, X, pk, G, F): [None] when alpha is None,
    otherwise (alpha, newF) *)
Variable line_search : vec -> vec -> vec -> R -> option (R * R).
(** do_linesearch, lines 421-455; [None] = LineSearchError *)
Definition do_linesearch (s : state) (pk : vec) : option (vec * R) :=
  match line_search (X s) pk (G s) (F s) with
  | None => None
  | Some (alpha, newF) => Some (vadd (X s) (vscale alpha pk), newF)
  end.
Definition vneg (v : vec) : vec := vscale (-1) v.

(** __init__, lines 196-217 (M > 0 is checked there) *)
Definition init (p0 : vec) : data :=
  let s := new_state p0 (f p0) (fprime p0) in mkData s s (fresh M N) 0 0 [].

Inductive event := Yield (d : data) | Stop (d : data) | NaN (d : data).
Definition with_status (d : data) (H : memory) (h : list R) (z : Z) : data := mkData (curr d) (prev d) H (iter d) z h.

(** the search direction chosen at the start of an iteration (lines 485-505): the step z, whether the
    gradient was substituted for it, and the Hessian after a possible reset. The comparison with 0.01 is
    false when |z| = 0 (NaN). *)
Definition choose_direction (d : data) : vec * bool * memory :=
  let s := curr d in
  let z := compute_step M (hess d) (G s) (Gnorm s) (iter d) in
  let steepest := if Req_EM_T (norm z) 0 then false
                  else if Rlt_dec (dot z (G s) / norm z / Gnorm s) (1 / 100) then true else false in
  if steepest then (vscale (/ Gnorm s) (G s), true, fresh M N) else (z, false, hess d).
(** lines 507-525: new point, its objective, and the Hessian; [None] = status -4 *)
Definition search (d : data) : option (vec * R * memory) * memory :=
  let s := curr d in
  let '(z, steepest, H) := choose_direction d in
  match do_linesearch s (vneg z) with
  | Some (x, fx) => (Some (x, fx, H), H)
  | None =>
      if steepest then (None, H)
      else match do_linesearch s (vneg (vscale (/ Gnorm s) (G s))) with
           | Some (x, fx) => (Some (x, fx, fresh M N), H)
           | None => (None, H)
           end
  end.
(** one pass of the while loop of minimize, lines 473-544. A zero gradient makes the code divide by zero and
    continue with NaN directions; this is outside the model: the outcome is [NaN]. *)
Definition iterate (o : options) (d : data) : event :=
  let st := check_convergence o d in
  if negb (st =? 0)%Z then Stop (with_status d (hess d) (hist d) st)
  else
    let h := hist d ++ [F (curr d)] in
    if Req_EM_T (Gnorm (curr d)) 0 then NaN (with_status d (hess d) h 0%Z)
    else match search d with
    | (None, H) => Stop (with_status d H h (-4)%Z)
    | (Some (newX, newF, H), _) =>
        let p := curr d in
        let c := new_state newX newF (fprime newX) in
        let sk := vsub (X c) (X p) in
        let yk := vsub (G c) (G p) in
        match mem_update H sk yk with
        | (H', false) => Stop (mkData c p H' (iter d) (-5)%Z h)
        | (H', true) => Yield (mkData c p H' (S (iter d)) 0%Z h)
        end
    end.
(** minimize / run_nlopt, lines 407-419, 457-548: the data at every yield, and the end (None: not ended
    within [fuel] passes). run_nlopt returns d['curr_state'], the object every yield returns. *)
Fixpoint run (fuel : nat) (o : options) (d : data) : list data * option event :=
  match fuel with
  | O => ([], None)
  | S fuel' => match iterate o d with
               | Yield d' => let '(ys, e) := run fuel' o d' in (d' :: ys, e)
               | e => ([], Some e)
               end
  end.
End Run.
(** lbfgs_solver.py:122-145: continuing from a previous result: a fresh minimiser at the stored values,
    whose iteration counter is then set to the previous count. *)
Definition restart (M N : nat) (f : vec -> R) (fprime : vec -> vec) (p0 : vec) (n : nat) : data :=
  let d := init M N f fprime p0 in mkData (curr d) (prev d) (hess d) n (status d) (hist d).
