(** * Results of fits

    /repo/pyRSD/rsdfit/results/emcee_results.py:10-211 (EmceeParameter), 219-261 (EmceeResults.__init__),
    349-405 (verify_param_ordering, __add__), 417-469 (_make_constrained_chain, _save_results), 495-509 (burnin),
    528-549 (maximum probability); /repo/pyRSD/rsdfit/results/lbfgs_results.py:36-60, 131-142.
    Arrays are nested lists: a chain is walkers x iterations x parameters.  Autocorrelation times, acceptance fractions,
    fiducial values and meta data are not modelled; np.percentile and the density estimate are oracles. *)
From Coq Require Import String List Bool Arith.
Import ListNotations.
Open Scope list_scope.

Inductive res (A : Type) := Ok (a : A) | ValueError | AttributeError | KeyError | IndexError.
Arguments Ok {A} a. Arguments ValueError {A}. Arguments AttributeError {A}. Arguments KeyError {A}. Arguments IndexError {A}.

Section Build.
Variable V : Type.
Variable zero : V.
Variable iszero : V -> bool.
(** emcee's sampler.chain after m of the requested iterations: the rest of the array is zero *)
Definition allocated (ndim pad : nat) (w : list (list V)) : list (list V) := w ++ repeat (repeat zero ndim) pad.
(** a.reshape((rows, -1)): rows of equal length *)
Fixpoint rows {A} (fuel len : nat) (l : list A) : list (list A) :=
  match fuel with O => [] | S f => firstn len l :: rows f len (skipn len l) end.
(** x[np.nonzero(x)].reshape((walkers, -1, ndim)), emcee_results.py:229-230; the shape is refused when it does not fit *)
Definition nonzero_chain (walkers ndim : nat) (x : list (list (list V))) : res (list (list (list V))) :=
  let flat := filter (fun v => negb (iszero v)) (concat (concat x)) in
  if (walkers * ndim =? 0)%nat then ValueError
  else if (length flat mod (walkers * ndim) =? 0)%nat then
    let niter := length flat / (walkers * ndim) in
    Ok (map (rows niter ndim) (rows walkers (niter * ndim) flat))
  else ValueError.
(** emcee_results.py:233-234 *)
Definition nonzero_lnprobs (walkers : nat) (x : list (list V)) : res (list (list V)) :=
  let flat := filter (fun v => negb (iszero v)) (concat x) in
  if (walkers =? 0)%nat then ValueError
  else if (length flat mod walkers =? 0)%nat then Ok (rows walkers (length flat / walkers) flat) else ValueError.

(** _make_constrained_chain, :417-441: the parameter set is set to each sample in turn.  PS is its state,
    [assign] sets the free values and updates the constraints, [read] gives the constrained values. *)
Section Constrained.
Variable PS : Type.
Variable assign : PS -> list V -> PS.
Variable read : PS -> list V.
(** for nwalker, theta in enumerate(chain[:, niter, :]) *)
Fixpoint con_walkers (st : PS) (thetas : list (list V)) : PS * list (list V) :=
  match thetas with
  | [] => (st, [])
  | th :: thetas => let st := assign st th in let '(st', r) := con_walkers st thetas in (st', read st :: r)
  end.
(** for niter in range(iterations); the result is indexed by iteration first *)
Fixpoint con_iters (st : PS) (chain : list (list (list V))) (niters : list nat) : PS * list (list (list V)) :=
  match niters with
  | [] => (st, [])
  | n :: niters =>
    let '(st, r) := con_walkers st (map (fun w => nth n w []) chain) in
    let '(st', rs) := con_iters st chain niters in (st', r :: rs)
  end.
(** constrained_chain[w][n] *)
Definition constrained_chain (st : PS) (chain : list (list (list V))) : list (list (list V)) :=
  let niter := length (hd [] chain) in
  let byiter := snd (con_iters st chain (seq 0 niter)) in
  map (fun w => map (fun n => nth w (nth n byiter []) []) (seq 0 niter)) (seq 0 (length chain)).
End Constrained.
End Build.

Section Results.
Variable V : Type.
Variable default : V.
Definition trace := list (list V).          (* walkers x iterations *)
Record results := {
  free : list string; con : list string;
  chain : list (list (list V));
  cchain : option (list (string * trace));  (* structured array: one field per name; None without constrained parameters *)
  lnprobs : list (list V);
  burnin : nat;
  table : list (string * (trace * nat)) }.  (* _results: trace and burnin of every parameter *)

Fixpoint assoc {A} (l : list (string * A)) (k : string) : option A :=
  match l with [] => None | (k', a) :: l => if String.eqb k' k then Some a else assoc l k end.
(** list.index *)
Fixpoint index (k : string) (l : list string) : nat :=
  match l with [] => 0 | x :: l => if String.eqb x k then 0 else S (index k l) end.
(** sorted(a) == sorted(b): the same names with the same multiplicities *)
Fixpoint remove1 (k : string) (l : list string) : option (list string) :=
  match l with
  | [] => None
  | x :: l => if String.eqb x k then Some l else match remove1 k l with Some r => Some (x :: r) | None => None end
  end.
Fixpoint same_names (a b : list string) : bool :=
  match a with
  | [] => match b with [] => true | _ => false end
  | x :: a => match remove1 x b with Some b => same_names a b | None => false end
  end.
Definition list_eqb (a b : list string) : bool := if list_eq_dec string_dec a b then true else false.
(** chain[..., i] *)
Definition column (i : nat) (ch : list (list (list V))) : trace := map (map (fun s => nth i s default)) ch.
(** _save_results, :456-469; every EmceeParameter starts with burnin 0 *)
Fixpoint free_table (i : nat) (names : list string) (ch : list (list (list V))) : list (string * (trace * nat)) :=
  match names with [] => [] | k :: names => (k, (column i ch, 0)) :: free_table (S i) names ch end.
Fixpoint con_table (names : list string) (cc : list (string * trace)) : option (list (string * (trace * nat))) :=
  match names with
  | [] => Some []
  | k :: names => match assoc cc k, con_table names cc with Some t, Some r => Some ((k, (t, 0)) :: r) | _, _ => None end
  end.
Definition save_results (r : results) : res results :=
  let ft := free_table 0 (free r) (chain r) in
  match cchain r with
  | None => Ok {| free := free r; con := con r; chain := chain r; cchain := None; lnprobs := lnprobs r; burnin := burnin r; table := ft |}
  | Some cc => match con_table (con r) cc with
               | None => ValueError   (* no field of that name *)
               | Some ct => Ok {| free := free r; con := con r; chain := chain r; cchain := Some cc; lnprobs := lnprobs r;
                                  burnin := burnin r; table := ct ++ ft |}
               end
  end.
(** the burnin setter, :503-509 *)
Definition iterations (r : results) : nat := length (hd [] (chain r)).
Definition walkers (r : results) : nat := length (chain r).
Definition set_burnin (r : results) (b : nat) : results :=
  let b := if (iterations r <? b)%nat then 0 else b in
  {| free := free r; con := con r; chain := chain r; cchain := cchain r; lnprobs := lnprobs r; burnin := b;
     table := map (fun e => (fst e, (fst (snd e), b))) (table r) |}.
(** results[name].trace() and .flat_trace, :75-81, 194-203, 341-347 *)
Definition trace_of (r : results) (k : string) : option trace := option_map fst (assoc (table r) k).
Definition flat_trace (r : results) (k : string) : option (list V) :=
  option_map (fun e => concat (map (skipn (snd e)) (fst e))) (assoc (table r) k).

(** verify_param_ordering, :349-374 *)
Definition reorder (old new : list string) (s : list V) : list V := map (fun k => nth (index k old) s default) new.
Definition verify_ordering (r : results) (f c : list string) : res results :=
  if negb (same_names (free r) f) then ValueError
  else if negb (same_names (con r) c) then ValueError
  else
    let ch := if list_eqb (free r) f then chain r else map (map (reorder (free r) f)) (chain r) in
    if list_eqb (free r) f && list_eqb (con r) c then Ok r
    else save_results {| free := f; con := c; chain := ch; cchain := cchain r; lnprobs := lnprobs r; burnin := burnin r; table := table r |}.
(** np.concatenate((a, b), axis=1) *)
Fixpoint glue {A} (a b : list (list A)) : list (list A) :=
  match a, b with x :: a, y :: b => (x ++ y) :: glue a b | _, _ => [] end.
(** :395-397, the constrained chain field by field *)
Fixpoint fields (cb l : list (string * trace)) : option (list (string * trace)) :=
  match l with
  | [] => Some []
  | (k, t) :: l => match assoc cb k, fields cb l with Some u, Some r => Some ((k, glue t u) :: r) | _, _ => None end
  end.
(** __add__, :376-405; the second component is what [other] has become *)
Definition add (a b : results) : res (results * results) :=
  if negb (walkers a =? walkers b)%nat then ValueError
  else match verify_ordering b (free a) (con a) with
       | Ok b' =>
         match cchain a, cchain b' with
         | Some ca, Some cb =>
           match fields cb ca with
           | None => ValueError
           | Some cc =>
             match save_results {| free := free a; con := con a; chain := glue (chain a) (chain b'); cchain := Some cc;
                                   lnprobs := glue (lnprobs a) (lnprobs b'); burnin := burnin a; table := [] |} with
             | Ok c => Ok (c, b') | ValueError => ValueError | AttributeError => AttributeError | KeyError => KeyError | IndexError => IndexError
             end
           end
         | None, _ => AttributeError    (* None.dtype *)
         | _, None => AttributeError
         end
       | ValueError => ValueError | AttributeError => AttributeError | KeyError => KeyError | IndexError => IndexError
       end.

(** lbfgs_results.py:36-60, 131-142 *)
Record lbfgs := { lfree : list string; lcon : list string; lvalues : list V; lcvalues : list V }.
Definition lverify (r : lbfgs) (f c : list string) : res lbfgs :=
  if negb (same_names (lfree r) f) then ValueError
  else if negb (same_names (lcon r) c) then ValueError
  else
    let vs := if list_eqb (lfree r) f then lvalues r else reorder (lfree r) f (lvalues r) in
    if list_eqb (lfree r) f && list_eqb (lcon r) c then Ok r
    else Ok {| lfree := f; lcon := c; lvalues := vs; lcvalues := lcvalues r |}.
Definition mem (k : string) (l : list string) : bool := existsb (String.eqb k) l.
Definition lget (r : lbfgs) (k : string) : res V :=
  if mem k (lfree r) then match nth_error (lvalues r) (index k (lfree r)) with Some v => Ok v | None => IndexError end
  else if mem k (lcon r) then match nth_error (lcvalues r) (index k (lcon r)) with Some v => Ok v | None => IndexError end
  else AttributeError.
End Results.
Arguments free {V} r. Arguments con {V} r. Arguments chain {V} r. Arguments cchain {V} r. Arguments lnprobs {V} r.
Arguments burnin {V} r. Arguments table {V} r. Arguments iterations {V} r. Arguments walkers {V} r. Arguments trace_of {V} r k.
Arguments flat_trace {V} r k. Arguments set_burnin {V} r b.
Arguments lfree {V} l. Arguments lcon {V} l. Arguments lvalues {V} l. Arguments lcvalues {V} l. Arguments lget {V} r k.

(** EmceeParameter's cached summaries, :48-192 (computing the peak also stores the median, not shown) *)
Section Summaries.
Variables V R : Type.
Inductive summary := Median | OneSigma | TwoSigma | ThreeSigma | Peak.
Definition is_sigma (s : summary) : bool := match s with OneSigma | TwoSigma | ThreeSigma => true | _ => false end.
Variable stat : summary -> list V -> option R -> V.   (* from the flat trace and, for the error intervals, the rescaling *)
Record param := { ptrace : list (list V); pburn : nat; presc : R; cache : summary -> option V }.
Definition pflat (p : param) : list V := concat (map (skipn (pburn p)) (ptrace p)).
Inductive pop := Get (s : summary) | SetBurnin (b : nat) | SetRescaling (r : R).
Definition popstep (p : param) (o : pop) : param * option V :=
  match o with
  | Get s => match cache p s with
             | Some v => (p, Some v)
             | None => let v := stat s (pflat p) (if is_sigma s then Some (presc p) else None) in
                       ({| ptrace := ptrace p; pburn := pburn p; presc := presc p;
                           cache := fun q => match s, q with
                                             | Median, Median | OneSigma, OneSigma | TwoSigma, TwoSigma
                                             | ThreeSigma, ThreeSigma | Peak, Peak => Some v
                                             | _, _ => cache p q end |}, Some v)
             end
  | SetBurnin b => ({| ptrace := ptrace p; pburn := b; presc := presc p;      (* :55-58; _peak is kept *)
                       cache := fun q => match q with Peak => cache p Peak | _ => None end |}, None)
  | SetRescaling r => ({| ptrace := ptrace p; pburn := pburn p; presc := r;   (* :70-73 *)
                          cache := fun q => if is_sigma q then None else cache p q |}, None)
  end.
Fixpoint prun (p : param) (os : list pop) : param := match os with [] => p | o :: os => prun (fst (popstep p o)) os end.
Definition new_param (t : list (list V)) (b : nat) (one : R) : param := {| ptrace := t; pburn := b; presc := one; cache := fun _ => None |}.
End Summaries.
