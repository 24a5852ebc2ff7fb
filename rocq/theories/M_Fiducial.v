(** Model of the fiducial values of constrained parameters: /repo/pyRSD/rsdfit/parameters/parameterset.py:323-343 (update_fiducial), called when a folder is analysed
    (analysis/tools.py:199-203), on the parameter values of M_ParamVal (parameter.py:163-203, 265-289).  valuesdict is lmfit's dict of all values, read in order;
    update_values() without arguments does nothing (parameterset.py:359-368).  [inf] is np.inf, [finite] is np.isfinite (and not None).  A fiducial is None or a value;
    it is a cached attribute without effect on the value (parameter.py:312-318). *)
From Coq Require Import List Arith Bool.
From Verif Require Import M_Prep M_ParamVal.
Import ListNotations.

Section Fiducial.
Context {V : Type}.
Variable names : list nat.
Variable expr : nat -> option (list nat).
Variable vary : nat -> bool.
Variable fexp : nat -> list V -> V.
Variable clamp : nat -> V -> V.
Variable kids : nat -> nat -> bool.
Variable inf : V.
Variable finite : V -> bool.

(** {p.name: p.value for p in ...} *)
Fixpoint read_all (fuel : nat) (st : vst V) (ns : list nat) : option (list (nat * V) * vst V) :=
  match ns with
  | [] => Some ([], st)
  | n :: ns => match getval expr vary fexp clamp kids fuel st n with
               | None => None
               | Some (v, st) => match read_all fuel st ns with Some (vs, st) => Some ((n, v) :: vs, st) | None => None end
               end
  end.
(** the assignments to the parameters without expression; parameterset.py:329-332, 341-343 *)
Fixpoint assign_unconstrained (st : vst V) (l : list (nat * V)) : vst V :=
  match l with [] => st | (n, v) :: l => assign_unconstrained (match expr n with None => setv kids st n v | Some _ => st end) l end.
(** 335-339 *)
Fixpoint store_fiducials (fuel : nat) (fid : nat -> option V) (st : vst V) (ns : list nat) : option ((nat -> option V) * vst V) :=
  match ns with
  | [] => Some (fid, st)
  | n :: ns => match expr n with
               | None => store_fiducials fuel fid st ns
               | Some _ => match getval expr vary fexp clamp kids fuel st n with
                           | None => None
                           | Some (v, st) => store_fiducials fuel (upd fid n (if finite v then Some v else None)) st ns
                           end
               end
  end.
Definition start_value (fid : nat -> option V) (n : nat) : V := match fid n with Some v => v | None => inf end.
Definition update_fiducial (fuel : nat) (fid : nat -> option V) (st : vst V) : option ((nat -> option V) * vst V) :=
  match read_all fuel st names with
  | None => None
  | Some (vs, st) =>
    let st := assign_unconstrained st (map (fun n => (n, start_value fid n)) names) in
    match store_fiducials fuel fid st names with
    | None => None
    | Some (fid, st) => Some (fid, assign_unconstrained st vs)
    end
  end.
End Fiducial.
