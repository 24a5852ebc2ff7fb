(** * Concrete schemas used as non-vacuity examples and as counterexamples.

    Fragments of the real classes; values are rationals wrapped in [pyval]. *)
From Coq Require Import List String Bool Arith QArith.
From Verif Require Import M_Cache S_Cache M_Preserve.
Import ListNotations.
Open Scope string_scope.
Open Scope list_scope.

Definition num (f : Q -> comp pyval) (v : pyval) : comp pyval :=
  match v with VNum q => f q | _ => Ret (Err "TypeError") end.
Definition rd (a : string) (f : Q -> comp pyval) : comp pyval := Read a (num f).
Definition ret (q : Q) : comp pyval := Ret (Ok (VNum (Qred q))).
Definition ok_any (_ : string) (v : pyval) : result pyval := Ok v.
Definition no_extra (_ _ : string) : bool := false.

(** power_dm.py:381-419 (z, sigma8_z), 558-575 (_power_norm, sigma_lin: here a
    product), 461-467 (sigma_v defaulting to sigma_lin), and a term reading them. *)
Definition ex_sch : schema pyval := fun a =>
  if String.eqb a "z" then KParam DNone else
  if String.eqb a "sigma8_z" then KParam DNone else
  if String.eqb a "sigma_v" then KParam (DAttr "sigma_lin") else
  if String.eqb a "alpha_drag" then KParam (DVal (VNum 1)) else
  if String.eqb a "sigma_lin" then KProp false ["sigma8_z"] else
  if String.eqb a "P02" then KProp true ["z"; "sigma_v"; "sigma_lin"] else
  if String.eqb a "rs" then KProp false ["alpha_drag"] else KOther.
Definition ex_body (a : string) : comp pyval :=
  if String.eqb a "sigma_lin" then rd "sigma8_z" (fun s => ret (s * 6)) else
  if String.eqb a "P02" then rd "z" (fun z => rd "sigma_v" (fun s => ret (z + s * s))) else
  if String.eqb a "rs" then rd "alpha_drag" (fun s => ret (s * 150)) else Ret (Err "no").

(** Quasar model, power_qso.py:178-211: D, alpha_png, delta_bias, btot with the
    parents declared there (k and the cosmology left out). *)
Definition qso_sch : schema pyval := fun a =>
  if String.eqb a "z" then KParam DNone else
  if String.eqb a "b1" then KParam DNone else
  if String.eqb a "p" then KParam DNone else
  if String.eqb a "f_nl" then KParam DNone else
  if String.eqb a "D" then KProp false ["z"] else
  if String.eqb a "alpha_png" then KProp true ["D"] else
  if String.eqb a "delta_bias" then KProp true ["b1"; "f_nl"; "p"] else
  if String.eqb a "btot" then KProp true ["b1"; "delta_bias"] else KOther.
Definition qso_body (a : string) : comp pyval :=
  if String.eqb a "D" then rd "z" (fun z => ret (1 / (1 + z))) else
  if String.eqb a "alpha_png" then rd "D" (fun d => ret (2 * d)) else
  if String.eqb a "delta_bias" then
    rd "f_nl" (fun f => if Qeq_bool f 0 then ret 0 else
    rd "b1" (fun b => rd "p" (fun p => rd "alpha_png" (fun al => ret (2 * (b - p) * f * (1686 # 1000) / al))))) else
  if String.eqb a "btot" then rd "b1" (fun b => rd "delta_bias" (fun d => ret (b + d))) else Ret (Err "no").

(** Loaded power term: power/dm/P00.py and sim_loader.py:46-73. *)
Definition sim_sch : schema pyval := fun a =>
  if String.eqb a "P00_mu0_loaded" then KParam DNone else
  if String.eqb a "_loaded_data" then KParam DNone else
  if String.eqb a "P00" then KProp false ["P00_mu0_loaded"] else KOther.
Definition sim_body (a : string) : comp pyval :=
  if String.eqb a "P00" then rd "P00_mu0_loaded" (fun l => if Qeq_bool l 0 then ret 7 else
                             rd "_loaded_data" (fun d => ret d)) else Ret (Err "no").

Definition start (l : list (string * Q)) : state pyval :=
  init (fun a => match find (fun kv => String.eqb (fst kv) a) l with
                 | Some (_, q) => Some (VNum q) | None => None end).
