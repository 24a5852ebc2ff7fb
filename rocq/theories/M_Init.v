(** Model of the initialisation of the walkers from the priors: rsdfit/solvers/tools.py:15-101 (univariate_init), 104-178 (multivariate_init),
    rsdfit/solvers/emcee_solver.py:324-336 (which of them is used), rsdfit/theory/base.py:310-343 (check),
    rsdfit/parameters/parameter.py:340-356 (priors), 385-390, 409-425, 445-456, 502-510.
    Simplifications: floats are reals; -inf log priors are [None]; the random draws are an arbitrary sequence of rows (one value per free parameter),
    consumed in order; the first block of draws is the matrix [p0]; messages are not modelled. *)
From Coq Require Import Reals List Bool Arith.
Import ListNotations.
Local Open Scope R_scope.

(** parameter.py:331-356; the analytic flag is off for MCMC (driver.py:580-583) *)
Inductive prior := NoPrior | Uniform (lower upper : R) | Normal (mu sigma : R).
Record par := { pmin : option R; pmax : option R; pri : prior }.
Definition leb (x y : R) : bool := if Rle_dec x y then true else false.
(** parameter.py:385-390 *)
Definition bounded (p : par) : bool := match pmin p, pmax p with None, None => false | _, _ => true end.
Definition above (p : par) (x : R) : bool := match pmin p with Some l => leb l x | None => true end.
Definition below (p : par) (x : R) : bool := match pmax p with Some u => leb x u | None => true end.
(** parameter.py:445-456 *)
Definition within_bounds (p : par) (x : R) : bool :=
  (match pri p with Uniform l u => leb l x && leb x u | _ => true end) && (above p x && below p x).
(** distributions.py:40-45, 229-235, 450-460 (scipy.stats.uniform.logpdf); parameter.py:409-425 *)
Definition log_pdf (q : prior) (x : R) : option R :=
  match q with
  | NoPrior => Some 0
  | Uniform l u => if leb l x && leb x u then Some (- ln (u - l)) else None
  | Normal mu s => Some (- (1/2) * ln (2 * PI * s ^ 2) - 1/2 * ((x - mu) / s) ^ 2)
  end.
Definition lnprior (p : par) (x : R) : option R := if above p x && below p x then log_pdf (pri p) x else None.
Definition has_prior (p : par) : bool := match pri p with NoPrior => false | _ => true end.
(** base.py:310-343: one free parameter *)
Definition check1 (p : par) (x : R) : bool :=
  if bounded p && negb (within_bounds p x) then false
  else if has_prior p && match lnprior p x with None => true | Some _ => false end then false
  else true.
Fixpoint check (ps : list par) (w : list R) : bool :=
  match ps, w with p :: ps, x :: w => check1 p x && check ps w | _, _ => true end.

(** tools.py:52-80, one walker: keep [w] if it checks out or if the tries are used up, else draw again *)
Fixpoint settle (fuel : nat) (ps : list par) (draws : nat -> list R) (tries : nat) (w : list R) (i : nat) : list R * nat * nat :=
  match fuel with
  | O => (w, tries, i)
  | S fuel => if check ps w || Nat.ltb 100 tries then (w, tries, i) else settle fuel ps draws (S tries) (draws i) (S i)
  end.
Record outcome := { rows : list (list R); exceeded : nat; difficult : nat; next_draw : nat }.
(** tools.py:48-80: the loop over the walkers *)
Fixpoint init_rows (ps : list par) (draws : nat -> list R) (p0 : list (list R)) (i : nat) : outcome :=
  match p0 with
  | [] => {| rows := []; exceeded := 0; difficult := 0; next_draw := i |}
  | w :: p0 =>
    let '(w', t, i') := settle 102 ps draws 0 w i in
    let o := init_rows ps draws p0 i' in
    {| rows := w' :: rows o;
       exceeded := (if Nat.ltb 100 t then 1 else 0) + exceeded o;
       difficult := (if Nat.ltb 100 t then 0 else if Nat.ltb 50 t then 1 else 0) + difficult o;
       next_draw := next_draw o |}
  end.
Inductive result := Init (o : outcome) | ValueError | AttributeError | NameError.
Inductive source := FromPrior | FromPosterior | FromOther.
(** tools.py:34-44: par.has_posterior does not exist; drawing needs a prior (parameter.py:506-508); the draw function of any other
    source is that of the prior *)
Definition univariate_init (ps : list par) (src : source) (p0 : list (list R)) (draws : nat -> list R) : result :=
  match src with
  | FromPosterior => match ps with [] => Init (init_rows ps draws p0 0) | _ => AttributeError end
  | _ => if forallb has_prior ps then Init (init_rows ps draws p0 0) else ValueError
  end.
(** tools.py:104-178: getattr(par, 'posterior') does not exist; a prior is None, uniform or normal, never a trace *)
Definition multivariate_init (ps : list par) (src : source) : result :=
  match ps with
  | [] => NameError   (* not modelled: no free parameters *)
  | p :: _ => match src with FromPrior => ValueError | _ => AttributeError end
  end.
(** emcee_solver.py:327-336 *)
Definition from_scratch (ps : list par) (src : source) (p0 : list (list R)) (draws : nat -> list R) : result :=
  match multivariate_init ps src with ValueError => univariate_init ps src p0 draws | e => e end.
