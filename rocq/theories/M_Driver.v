(** * The fitting driver: chi2, lnprob, minus_lnlike, their gradients, Fisher matrix

    /repo/pyRSD/rsdfit/driver.py:735-1156, /repo/pyRSD/rsdfit/theory/base.py:269-308, 436-452, 527-556.
    Reals for floats.  The theory prediction is an oracle [pred]: the flattened model vector
    as a function of the free values the model was last updated with ([None]: the evaluation
    raises or contains NaN).  That the model's answer depends on those values only, and that
    set_free_parameters updates the model with exactly [th] or changes nothing, is what C01..C09
    and C50 prove about the more detailed models.  Logging and the MPI pool are left out. *)
From Coq Require Import Reals List Bool Arith.
From Verif Require Import M_Prior M_Lbfgs.
Import ListNotations.
Open Scope R_scope.

(** [fp]: the free parameters' values as assigned (user_value);
    [mdl]: the values the model was last updated with *)
Record dstate := mkD { fp : list R; mdl : list R }.
(** A call returns a value, or raises. *)
Inductive res (A : Type) := Ret (a : A) | Raise.
Arguments Raise {A}. Arguments Ret {A} a.

Section Driver.
Variable ss : list pspec.                       (* the free parameters, in order *)
Variable pred : list R -> option (list R).      (* combined_model, driver.py:719-733 *)
Variable d : list R.                            (* data.combined_power *)
Variable Cinv : list (list R).                  (* data.covariance_matrix.inverse, rows *)

(** numpy.dot(matrix, vector) *)
Definition matvec (A : list (list R)) (v : vec) : vec := map (fun r => dot r v) A.
(** base.py:287 all(p.within_bounds(theta[i]) for i,p in enumerate(self.free)) *)
Definition all_within (th : list R) : bool := forallb (fun sx => within_bounds (fst sx) (snd sx)) (combine ss th).
(** base.py:269-308 *)
Definition set_free_parameters (st : dstate) (th : list R) : bool * dstate :=
  if all_within th then (true, mkD th th) else (false, st).
(** base.py:527-548: sum of the free parameters' lnprior, read from user_value *)
Fixpoint lnprior_sum (ps : list (pspec * R)) : lnR :=
  match ps with [] => Some 0 | (s, x) :: l => ladd (lnprior s x) (lnprior_sum l) end.
Definition lnprior_at (xs : list R) : lnR := lnprior_sum (combine ss xs).
(** base.py:550-555 *)
Definition dlnprior_at (xs : list R) : vec := map (fun sx => dlnprior (fst sx) (snd sx)) (combine ss xs).
(** base.py:436-452 preserve(theta): the body sees the parameters at [th] (the model is not
    updated); on exit the saved (clipped) free values are put back. *)
Definition with_preserve {A} (st : dstate) (th : list R) (body : dstate -> A) : A * dstate :=
  (body (mkD th (mdl st)), mkD (map (fun sx => clampR (fst sx) (snd sx)) (combine ss (fp st))) (mdl st)).

(** driver.py:783-788 chi2 without theta *)
Definition chi2_now (st : dstate) : option R :=
  match pred (mdl st) with
  | None => None
  | Some m => let diff := vsub m d in Some (dot diff (matvec Cinv diff))
  end.
(** driver.py:766-788 chi2 / 796-808 lnlike; the flag returned by set_free_parameters is not used *)
Definition chi2 (st : dstate) (theta : option (list R)) : res R * dstate :=
  let st := match theta with None => st | Some th => snd (set_free_parameters st th) end in
  (match chi2_now st with Some c => Ret c | None => Raise end, st).
Definition lnlike (st : dstate) (theta : option (list R)) : res R * dstate :=
  match chi2 st theta with (Ret c, st) => (Ret (- / 2 * c), st) | (Raise, st) => (Raise, st) end.
(** driver.py:810-854 lnprob *)
Definition lnprob (st : dstate) (theta : option (list R)) : res lnR * dstate :=
  let '(inb, st) := match theta with
                    | Some th => set_free_parameters st th
                    | None => (all_within (fp st), st)
                    end in
  if negb inb then (Ret None, st)
  else match lnprior_at (fp st) with
       | None => (Ret None, st)
       | Some lp => match lnlike st None with
                    | (Ret l, st) => (Ret (Some (lp + l)), st)
                    | (Raise, st) => (Raise, st)
                    end
       end.
(** driver.py:737-749 *)
Definition null_lnlike : R := - / 2 * dot d (matvec Cinv d).
(** a - lnprior, where [None] is now +inf *)
Definition msub (a : R) (l : lnR) : option R := match l with Some x => Some (a - x) | None => None end.
(** driver.py:856-897 minus_lnlike; [None] as a returned value is +inf *)
Definition minus_lnlike (st : dstate) (theta : option (list R)) (use_priors : bool) : res (option R) * dstate :=
  let value (st : dstate) :=
    match lnlike st None with
    | (Raise, st) => (Raise, st)
    | (Ret l, st) => (Ret (if use_priors then msub (- l) (lnprior_at (fp st)) else Some (- l)), st)
    end in
  match theta with
  | None => value st
  | Some th =>
    let '(inb, st) := set_free_parameters st th in
    if inb then value st
    else let '(v, st) := with_preserve st th (fun b => msub (- null_lnlike) (lnprior_at (fp b))) in (Ret v, st)
  end.

(** *** Gradient of minus_lnlike, driver.py:902-990 *)
(** the transposed product np.dot(v, G.T): one entry per free parameter *)
Definition grad_rows (G : list (list R)) (v : vec) : vec := map (fun g => dot v g) G.
(** driver.py:958-970, the analytic path; [jac st] is grad_model_callable: row i is the derivative
    of the prediction with respect to free parameter i *)
Definition grad_analytic (jac : list R -> option (list (list R))) (st : dstate) (use_priors : bool) : res vec :=
  match jac (mdl st), pred (mdl st) with
  | Some G, Some m =>
    let diff := vsub d m in
    let g := vscale (-1) (grad_rows G (matvec Cinv diff)) in
    Ret (if use_priors then vadd g (vscale (-1) (dlnprior_at (fp st))) else g)
  | _, _ => Raise
  end.
(** driver.py:946-953, the path [numerical_from_lnlike]: evaluate minus_lnlike (no priors) at
    theta + eps e_i for all i, then at theta - eps e_i for all i, in that order, carrying the state along *)
Fixpoint bump (th : list R) (i : nat) (h : R) : list R :=
  match th, i with [], _ => [] | x :: l, O => (x + h) :: l | x :: l, S i => x :: bump l i h end.
Fixpoint eval_tasks (st : dstate) (tasks : list (list R)) : res (list (option R)) * dstate :=
  match tasks with
  | [] => (Ret [], st)
  | t :: ts =>
    match minus_lnlike st (Some t) false with
    | (Raise, st) => (Raise, st)
    | (Ret v, st) => match eval_tasks st ts with
                     | (Ret vs, st) => (Ret (v :: vs), st)
                     | (Raise, st) => (Raise, st)
                     end
    end
  end.
Definition fd_tasks (th : list R) (eps : R) : list (list R) :=
  map (fun i => bump th i eps) (seq 0 (length th)) ++ map (fun i => bump th i (- eps)) (seq 0 (length th)).
(** the difference quotients; an infinite value makes the check of l.972-982 raise *)
Fixpoint quotients (eps : R) (a b : list (option R)) : option vec :=
  match a, b with
  | [], [] => Some []
  | Some x :: a, Some y :: b => match quotients eps a b with Some r => Some ((x - y) / (2 * eps) :: r) | None => None end
  | _, _ => None
  end.
Definition grad_from_lnlike (st : dstate) (th : list R) (eps : R) (use_priors : bool) : res vec * dstate :=
  match eval_tasks st (fd_tasks th eps) with
  | (Raise, st) => (Raise, st)
  | (Ret vs, st) =>
    match quotients eps (firstn (length th) vs) (skipn (length th) vs) with
    | None => (Raise, st)
    | Some g => (Ret (if use_priors then vadd g (vscale (-1) (dlnprior_at (fp st))) else g), st)
    end
  end.
(** l.933-954: theta given or current (clipped) values; out of bounds: minus the derivative of the prior there *)
Definition grad_minus_lnlike (jac : list R -> option (list (list R))) (st : dstate) (theta : option (list R))
           (eps : R) (use_priors from_lnlike : bool) : res vec * dstate :=
  let go (st : dstate) (th : list R) :=
    if from_lnlike then grad_from_lnlike st th eps use_priors else (grad_analytic jac st use_priors, st) in
  match theta with
  | None => go (mkD (map (fun sx => clampR (fst sx) (snd sx)) (combine ss (fp st))) (mdl st))
               (map (fun sx => clampR (fst sx) (snd sx)) (combine ss (fp st)))
  | Some th =>
    let '(inb, st) := set_free_parameters st th in
    if inb then go st th
    else let '(v, st) := with_preserve st th (fun b => vscale (-1) (dlnprior_at (fp b))) in (Ret v, st)
  end.

(** *** Fisher matrix, driver.py:992-1108 *)
(** l.1085-1090: the double loop writes F[i,j] for j >= i and mirrors it *)
Definition fisher_entry (G : list (list R)) (i j : nat) : R :=
  dot (nth i G []) (matvec Cinv (nth j G [])).
Definition fisher_core (G : list (list R)) (i j : nat) : R :=
  if (i <=? j)%nat then fisher_entry G i j else fisher_entry G j i.
(** l.1092-1103: None = an exception: a zero scale, the `raise NotImplemented(...)` branch (also a parameter without prior: par.prior is
    None and has no name, AttributeError) *)
Definition prior_info (s : pspec) : option R :=
  match pprior s with Norm _ sg => if Req_EM_T sg 0 then None else Some (/ (sg ^ 2)) | Unif _ _ => Some 0 | NoPrior => None end.
Fixpoint seq_opt (l : list (option R)) : option (list R) :=
  match l with [] => Some [] | None :: _ => None | Some x :: l => match seq_opt l with Some r => Some (x :: r) | None => None end end.
Definition fisher_assemble (G : list (list R)) (use_priors : bool) : option (nat -> nat -> R) :=
  match (if use_priors then seq_opt (map prior_info ss) else Some (zeros (length ss))) with
  | None => None
  | Some p => Some (fun i j => fisher_core G i j + (if (i =? j)%nat then nth i p 0 else 0))
  end.
(** l.1057: the attribute self.pkmu_gradient is looked up on the driver, where no class in the
    hierarchy defines it (it is a property of the theory object): AttributeError, so the assembly above
    is never reached through [fisher].  [pkmu_gradient = None] models the missing attribute. *)
Definition fisher (pkmu_gradient : option (list R -> list (list R))) (st : dstate) (theta : option (list R))
           (use_priors : bool) : res (nat -> nat -> R) * dstate :=
  let run (st : dstate) (th : list R) :=
    match pkmu_gradient with
    | None => Raise
    | Some f => match fisher_assemble (f th) use_priors with Some F => Ret F | None => Raise end
    end in
  match theta with
  | None => (run st (fp st), st)
  | Some th => let '(inb, st) := set_free_parameters st th in
               if inb then (run st th, st) else (Raise, st)
  end.
(** the driver class as shipped *)
Definition driver_pkmu_gradient : option (list R -> list (list R)) := None.
End Driver.
