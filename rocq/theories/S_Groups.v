(** * What the combined model vector should be *)
From Coq Require Import List Arith.
From Verif Require Import M_Groups.
Import ListNotations.

(** One measurement: name, bin identifiers (several only if it is decorated), wavenumbers. *)
Record meas := mkMeas { mname : nat; mid : list nat; mk : list nat }.
(** data built from the list of its measurements: everything in the same order *)
Definition data_of (w : bool) (ms : list meas) : pdata := mkP (map mname ms) (map mk ms) (map mid ms) w.
(** the prediction of the measurement m at k: its own identifier, its own parameters if it has some *)
Definition wanted_cell (specific : list nat) (dec : nat -> bool) (m : meas) (k : nat) : cell :=
  let c x := Sym (if in_dec Nat.eq_dec (mname m) specific then Some (mname m) else None) x k in
  if dec (mname m) then Dec (mname m) (map c (mid m)) else match mid m with x :: _ => c x | [] => NaN end.
(** in the order of the data vector: measurement by measurement, k by k *)
Definition wanted (specific : list nat) (dec : nat -> bool) (ms : list meas) : list cell :=
  flat_map (fun m => map (wanted_cell specific dec m) (mk m)) ms.
(** names and identifiers are distinct *)
Definition distinct (ms : list meas) : Prop := NoDup (map mname ms) /\ NoDup (concat (map mid ms)).
(** a measurement has at least one identifier, and exactly one unless a decorator combines them *)
Definition well_posed (dec : nat -> bool) (ms : list meas) : Prop :=
  Forall (fun m => mid m <> [] /\ (dec (mname m) = false -> length (mid m) = 1)) ms.
