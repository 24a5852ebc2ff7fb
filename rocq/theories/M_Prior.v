(** * Bounds, priors, scaling of one parameter, and set_free_parameters

    /repo/pyRSD/rsdfit/parameters/parameter.py, distributions.py;
    /repo/pyRSD/rsdfit/theory/base.py:269-316, 346-368.
    Reals for floats.  An infinite bound is [None]; -inf is [None] in [lnR].
    The pickling of the flags and callable uniform limits are not modelled. *)
From Coq Require Import List Arith Bool Reals.
From Verif Require Import M_Prep M_ParamVal.
Import ListNotations.
Open Scope R_scope.

Inductive prior := NoPrior | Unif (lower upper : R) | Norm (mu sigma : R).
(** [pana]: the [analytic] flag held by the bound and uniform distributions *)
Record pspec := mkS { pmin : option R; pmax : option R; pprior : prior; pana : bool }.
Definition lnR := option R.   (* None is -inf *)
Definition ladd (a b : lnR) : lnR := match a, b with Some a, Some b => Some (a + b) | _, _ => None end.
Definition Rltb (a b : R) : bool := if Rlt_dec a b then true else false.
Definition Rleb (a b : R) : bool := if Rle_dec a b then true else false.
(** np.logaddexp(0, a) *)
Definition logaddexp0 (a : R) : R := ln (1 + exp a).

(** distributions.py:41-47 BoundDistribution.log_pdf, sign = 1 / -1, k = 1000;
    an infinite bound gives 0 in both branches *)
Definition bound_log (ana : bool) (sign : R) (b : option R) (x : R) : lnR :=
  match b with
  | None => Some 0
  | Some v => let y := sign * (x - v) in
    if ana then Some (- logaddexp0 (- 2 * 1000 * y)) else if Rltb y 0 then None else Some 0
  end.
(** :49-52 deriv_log_pdf -- no test of the flag *)
Definition bound_deriv (sign : R) (b : option R) (x : R) : R :=
  match b with
  | None => 0
  | Some v => let y := sign * (x - v) in
    2 * 1000 * sign * exp (- 2 * 1000 * y - logaddexp0 (- 2 * 1000 * y))
  end.
(** :326-339, 404-414 Uniform.log_pdf / _analytic_log_pdf;
    scipy.stats.uniform.logpdf(x, loc, scale) is -ln(scale) on [loc, loc+scale], -inf outside *)
Definition unif_y (l u x : R) : R := (x - / 2 * (l + u)) / (u - l).
Definition prior_log (ana : bool) (p : prior) (x : R) : lnR :=
  match p with
  | NoPrior => Some 0
  | Unif l u =>
    if ana then let y_ := / 4 - unif_y l u x ^ 2 in Some (- ln (u - l) - logaddexp0 (- 2 * 1000 * y_))
    else if Rleb 0 ((x - l) / (u - l)) && Rleb ((x - l) / (u - l)) 1 then Some (- ln (u - l)) else None
  | Norm mu sg => let y := (x - mu) / sg in Some (- / 2 * ln (2 * PI * sg ^ 2) - / 2 * y ^ 2)
  end.
(** :341-350, 416-421; Normal.deriv_log_pdf :228-233 *)
Definition prior_deriv (p : prior) (x : R) : R :=
  match p with
  | NoPrior => 0
  | Unif l u => let y := unif_y l u x in let y_ := / 4 - y ^ 2 in
      1 / (u - l) * (- 4 * y * 1000 * exp (- 2 * 1000 * y_ - logaddexp0 (- 2 * 1000 * y_)))
  | Norm mu sg => (mu - x) / sg ^ 2
  end.
(** parameter.py:408-425 lnprior; :427-441 dlnprior (x = user_value) *)
Definition lnprior (s : pspec) (x : R) : lnR :=
  let l := ladd (bound_log (pana s) 1 (pmin s) x) (bound_log (pana s) (-1) (pmax s) x) in
  match pprior s with NoPrior => l | p => ladd l (prior_log (pana s) p x) end.
Definition dlnprior (s : pspec) (x : R) : R :=
  let l := bound_deriv 1 (pmin s) x + bound_deriv (-1) (pmax s) x in
  match pprior s with NoPrior => l | p => l + prior_deriv p x end.
(** :443-455 within_bounds *)
Definition within_bounds (s : pspec) (x : R) : bool :=
  (match pprior s with Unif l u => Rleb l x && Rleb x u | _ => true end) &&
  ((match pmin s with None => true | Some b => Rleb b x end) && (match pmax s with None => true | Some b => Rleb x b end)).
(** :191-197 clipping of a varied or constrained value: first max, then min *)
Definition clampR (s : pspec) (v : R) : R :=
  let v := match pmax s with Some b => if Rltb b v then b else v | None => v end in
  match pmin s with Some b => if Rltb v b then b else v | None => v end.
(** the value read from a parameter that was assigned [v]; [vary] or constrained: clipped *)
Definition read_value (s : pspec) (active : bool) (v : R) : R := if active then clampR s v else v.

(** parameter.py:535-565 scale, loc *)
Definition pscale (s : pspec) : option R :=
  match pprior s with NoPrior => None | Unif l u => Some (/ 2 * (u - l)) | Norm _ sg => Some (2 * sg) end.
Definition ploc (s : pspec) : option R :=
  match pprior s with NoPrior => None | Unif l u => Some (/ 2 * (u + l)) | Norm mu _ => Some mu end.
Fixpoint seqo {A} (l : list (option A)) : option (list A) :=
  match l with [] => Some [] | Some a :: l => match seqo l with Some r => Some (a :: r) | None => None end | None :: _ => None end.
(** parameterset.py:475-493 *)
Definition scales (ss : list pspec) : option (list R) := seqo (map pscale ss).
Definition locs (ss : list pspec) : option (list R) := seqo (map ploc ss).
(** base.py:346-368; numpy arrays of equal length *)
Fixpoint map3 (f : R -> R -> R -> R) (a b c : list R) : list R :=
  match a, b, c with x :: a, y :: b, z :: c => f x y z :: map3 f a b c | _, _, _ => [] end.
Definition scale_theta (ss : list pspec) (th : list R) : option (list R) :=
  match locs ss, scales ss with Some l, Some c => Some (map3 (fun t l c => (t - l) / c) th l c) | _, _ => None end.
Definition inverse_scale (ss : list pspec) (th : list R) : option (list R) :=
  match locs ss, scales ss with Some l, Some c => Some (map3 (fun t l c => t * c + l) th l c) | _, _ => None end.
Definition scale_gradient (ss : list pspec) (g : list R) : option (list R) :=
  match scales ss with Some c => Some (map (fun x => fst x * snd x) (combine g c)) | None => None end.

(** *** parameterset.py:432-440, 458-463: free_names (sorted), constrained_names.
    Names are numbers here; Python's sorted on str is a stable sort for a total order. *)
Fixpoint insert (x : nat) (l : list nat) : list nat :=
  match l with [] => [x] | y :: l => if Nat.leb x y then x :: y :: l else y :: insert x l end.
Fixpoint sort (l : list nat) : list nat := match l with [] => [] | x :: l => insert x (sort l) end.
Definition free_names (names : list nat) (vary con : nat -> bool) : list nat :=
  filter (fun k => vary k && negb (con k)) (sort names).
Definition constrained_names (names : list nat) (con : nat -> bool) : list nat := filter con names.

(** *** base.py:269-316 set_free_parameters.
    The model is the list of (name, value) pairs it was last updated with. *)
Section SetFree.
Variable expr : nat -> option (list nat).
Variable vary : nat -> bool.
Variable fexp : nat -> list R -> R.
Variable spec : nat -> pspec.
Variable kids : nat -> nat -> bool.
Variable fuel : nat.
Notation getval := (getval expr vary fexp (fun n => clampR (spec n)) kids fuel).

(** parameterset.py:353-377 update_values *)
Fixpoint update_values (st : vst R) (kv : list (nat * R)) : option (vst R) :=
  match kv with
  | [] => Some st
  | (k, v) :: kv =>
    match getval st k with
    | None => None
    | Some (cur, st) => update_values (if Req_EM_T v cur then st else setv kids st k v) kv
    end
  end.
(** base.py:262-267 to_dict: values of the model parameters, in sorted order *)
Fixpoint to_dict (st : vst R) (ks : list nat) : option (list (nat * R) * vst R) :=
  match ks with
  | [] => Some ([], st)
  | k :: ks =>
    match getval st k with
    | None => None
    | Some (v, st) => match to_dict st ks with Some (d, st) => Some ((k, v) :: d, st) | None => None end
    end
  end.
Definition model := nat -> option R.
Definition update_model (m : model) (d : list (nat * R)) : model :=
  fold_left (fun m kv => upd m (fst kv) (Some (snd kv))) d m.
Definition set_free (free mps : list nat) (st : vst R) (m : model) (th : list R) : option (bool * vst R * model) :=
  if negb (forallb (fun kv => within_bounds (spec (fst kv)) (snd kv)) (combine free th)) then Some (false, st, m)
  else match update_values st (combine free th) with
       | None => None
       | Some st => match to_dict st mps with
                    | None => None
                    | Some (d, st) => Some (true, st, update_model m d)
                    end
       end.
End SetFree.
