(** * From statistics to the combined model vector

    /repo/pyRSD/rsdfit/driver.py:359-425 (_get_theory_callables),
    /repo/pyRSD/rsdfit/data/power_measurement.py:723-820 (calculate_transfer),
    /repo/pyRSD/rsdfit/theory/base.py:665-803 (get_model_callable, apply_transfers).

    The prediction is symbolic: [Sym mp x k] stands for the theory value of the bin identifier [x]
    (multipole number) at wavenumber [k] with the statistic-specific parameters of [mp] ([None]: the
    defaults).  Names, identifiers and wavenumbers are natural numbers: only their equality and order
    matter.  Not modelled: gridded transfers, wedges (the smooth wedge transfer cannot be constructed, see DESIGN.md), the equality
    test between per-statistic windows. *)
From Coq Require Import List Arith Bool.
From Verif Require Import M_Prior.
Import ListNotations.

Inductive cell := Sym (mp : option nat) (x k : nat) | NaN | Dec (stat : nat) (cs : list cell).
(** [stats]: data.statistics; [ks]: the k of data.measurements; [xs]: data.ells, one or
    several identifiers per statistic; [window]: using_window_function() *)
Record pdata := mkP { stats : list nat; ks : list (list nat); xs : list (list nat); window : bool }.

Definition memn (x : nat) (l : list nat) : bool := existsb (Nat.eqb x) l.
(** list.index *)
Fixpoint index (s : nat) (l : list nat) : option nat :=
  match l with [] => None | y :: l => if Nat.eqb s y then Some 0 else match index s l with Some i => Some (S i) | None => None end end.
(** power_measurement.py:801, base.py:775: self.measurements[self.statistics.index(stat)].k;
    [None]: ValueError / IndexError *)
Definition meas_k (D : pdata) (s : nat) : option (list nat) :=
  match index s (stats D) with None => None | Some i => nth_error (ks D) i end.
(** :749 x = [xx for i, xx in enumerate(x) if self.statistics[i] in statistics]; [sel] runs over statistics *)
Fixpoint select (x : list (list nat)) (sts g : list nat) : option (list (list nat)) :=
  match x, sts with
  | [], _ => Some []
  | _ :: _, [] => None
  | xx :: x, s :: sts => match select x sts g with
                         | None => None
                         | Some r => Some (if memn s g then xx :: r else r)
                         end
  end.
(** :791-806 smooth transfers: one per statistic of the group, with the i-th selected identifier *)
Fixpoint smooth_transfers (D : pdata) (g : list nat) (x : list (list nat)) : option (list (list nat * list nat)) :=
  match g with
  | [] => Some []
  | s :: g => match meas_k D s, x with
              | Some k, xx :: x => match smooth_transfers D g x with Some r => Some ((k, xx) :: r) | None => None end
              | _, _ => None
              end
  end.
(** :723-808; transfers are [None] for the window transfer *)
Definition calculate_transfer (D : pdata) (g : list nat) : option (option (list (list nat * list nat)) * list (nat * list nat)) :=
  if negb (forallb (fun s => memn s (stats D)) g) then None   (* the assert *)
  else match select (xs D) (stats D) g with
       | None => None
       | Some x =>
         if window D then Some (None, combine g x)
         else match smooth_transfers D g x with Some t => Some (Some t, combine g x) | None => None end
       end.

(** xr.concat: equal k indexes are kept, otherwise the outer join sorts their union *)
Definition eqln (a b : list nat) : bool := if list_eq_dec Nat.eq_dec a b then true else false.
Fixpoint dedup (l : list nat) : list nat :=
  match l with [] => [] | x :: l => if memn x l then dedup l else x :: dedup l end.
Definition joined_k (ts : list (list nat * list nat)) : list nat :=
  match ts with
  | [] => []
  | (k, _) :: r => if forallb (fun t => eqln (fst t) k) r then k else M_Prior.sort (dedup (concat (map fst ts)))
  end.
(** result.sel(ell=x): the column of the first transfer with that identifier, NaN where it has no value *)
Definition sel_column (mp : option nat) (ts : list (list nat * list nat)) (x : nat) : option (list cell) :=
  match find (fun t => memn x (snd t)) ts with
  | None => None
  | Some t => Some (map (fun k => if memn k (fst t) then Sym mp x k else NaN) (joined_k ts))
  end.
(** base.py:778-786 one array per identifier *)
Definition columns (mp : option nat) (ts : option (list (list nat * list nat))) (k : list nat) : list nat -> option (list (list cell)) :=
  fix go (binval : list nat) :=
  match binval with
  | [] => Some []
  | bb :: l => match (match ts with None => Some (map (Sym mp bb) k) | Some t => sel_column mp t bb end), go l with
               | Some c, Some r => Some (c :: r)
               | _, _ => None
               end
  end.
(** base.py:789-795: the decorator combines the arrays element by element; without one there must be exactly one array *)
Definition decorate (dec : nat -> bool) (s : nat) (cols : list (list cell)) : option (list cell) :=
  if dec s then match cols with
                | [] => None
                | c :: _ => Some (map (fun j => Dec s (map (fun a => nth j a NaN) cols)) (seq 0 (length c)))
                end
  else match cols with [c] => Some c | _ => None end.
(** base.py:740-803, for each (stat, identifiers) of the group's dict *)
Fixpoint apply_transfers (D : pdata) (mp : option nat) (dec : nat -> bool) (ts : option (list (list nat * list nat)))
         (ids : list (nat * list nat)) : option (list cell) :=
  match ids with
  | [] => Some []
  | (s, x) :: ids =>
    match meas_k D s with
    | None => None
    | Some k =>
      match (match columns mp ts k x with Some c => decorate dec s c | None => None end), apply_transfers D mp dec ts ids with
      | Some th, Some r => Some (th ++ r)
      | _, _ => None
      end
    end
  end.
(** driver.py:373-381 the groups; [order]: the arbitrary iteration order of the set difference *)
Definition groups (specific order : list nat) : list (list nat) :=
  map (fun s => [s]) specific ++ (match order with [] => [] | _ => [order] end).
(** driver.py:395-412 model parameters of a group *)
Definition group_params (specific : list nat) (ids : list (nat * list nat)) : option nat :=
  match ids with [(s, _)] => if memn s specific then Some s else None | _ => None end.
Fixpoint combined_model (D : pdata) (specific : list nat) (dec : nat -> bool) (gs : list (list nat)) : option (list cell) :=
  match gs with
  | [] => Some []
  | g :: gs =>
    match calculate_transfer D g with
    | None => None
    | Some (ts, ids) =>
      match apply_transfers D (group_params specific ids) dec ts ids, combined_model D specific dec gs with
      | Some a, Some b => Some (a ++ b)
      | _, _ => None
      end
    end
  end.
(** [order] is some ordering of set(statistics) - set(specific) *)
Definition set_difference (sts specific order : list nat) : Prop :=
  NoDup order /\ forall s, In s order <-> In s sts /\ ~ In s specific.
