(** * Results of a chain kept in a file

    /repo/pyRSD/rsdfit/results/emcee_results.py:261-294 (to_npz, from_npz; numpy's savez and load), with _save_results and the burnin setter of M_Results.
    A file is the dictionary of its arrays.  numpy stores None and dictionaries as arrays of objects, which np.load refuses unless allow_pickle is true
    (its default before numpy 1.16.3; the code does not pass it).  [fid] is EmceeParameter.fiducial (:34-46), [resc] the private _error_rescaling (:511-526);
    acceptance fractions, autocorrelation times and version strings are not modelled: they are plain arrays, read back as they are.  A constrained chain of
    None is read as a 0-dimensional array, over whose (missing) names _save_results does not loop: here None. *)
From Coq Require Import String List Bool Arith.
From Verif Require Import M_Results.
Import ListNotations.
Open Scope list_scope.

Section Npz.
Variable V : Type.
Variable default : V.
Variable A : Type.            (* attributes *)
Variable one : V.             (* the default of error_rescaling *)
(** attrs.update(meta) *)
Fixpoint update1 (k : string) (a : A) (l : list (string * A)) : list (string * A) :=
  match l with [] => [(k, a)] | (k', b) :: l => if String.eqb k' k then (k', a) :: l else (k', b) :: update1 k a l end.
Fixpoint update (l meta : list (string * A)) : list (string * A) :=
  match meta with [] => l | (k, a) :: meta => update (update1 k a l) meta end.
Record eresults := { base : results V; attrs : list (string * A); fid : string -> option V; resc : V }.
Inductive item := Names (l : list string) | Chain (c : list (list (list V))) | Lnprobs (l : list (list V)) | Fields (c : list (string * trace V)) | Number (n : nat)
                | NoneObject | Attrs (a : list (string * A)).
Definition pickled (i : item) : bool := match i with NoneObject | Attrs _ => true | _ => false end.
Definition file := list (string * item).
(** :261-276; the second component is what the results have become *)
Definition to_npz (r : eresults) (meta : list (string * A)) : file * eresults :=
  let a := update (attrs r) meta in
  let b := base r in
  ([("free_names", Names (free b)); ("constrained_names", Names (con b)); ("chain", Chain (chain b)); ("lnprobs", Lnprobs (lnprobs b));
    ("constrained_chain", match cchain b with Some c => Fields c | None => NoneObject end); ("burnin", Number (burnin b)); ("attrs", Attrs a)]%string,
   {| base := b; attrs := a; fid := fid r; resc := resc r |}).
(** :277-299 *)
Definition from_npz (allow_pickle : bool) (f : file) : res eresults :=
  if negb allow_pickle && existsb (fun e => pickled (snd e)) f then ValueError else
  match assoc f "free_names"%string, assoc f "constrained_names"%string, assoc f "chain"%string, assoc f "lnprobs"%string,
        assoc f "constrained_chain"%string with
  | Some (Names fn), Some (Names cn), Some (Chain c), Some (Lnprobs l), Some cc =>
    match save_results V default {| free := fn; con := cn; chain := c; cchain := match cc with Fields x => Some x | _ => None end;
                                    lnprobs := l; burnin := 0; table := [] |} with
    | Ok b => match assoc f "burnin"%string with
              | Some (Number n) => Ok {| base := set_burnin b n; attrs := match assoc f "attrs"%string with Some (Attrs a) => a | _ => [] end;
                                         fid := fun _ => None; resc := one |}
              | _ => KeyError
              end
    | ValueError => ValueError | AttributeError => AttributeError | KeyError => KeyError | IndexError => IndexError
    end
  | _, _, _, _, _ => AttributeError
  end.
End Npz.
Arguments base {V A} e. Arguments attrs {V A} e. Arguments fid {V A} e. Arguments resc {V A} e.
