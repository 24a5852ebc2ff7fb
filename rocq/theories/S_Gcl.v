(** What users see of a compiled Cosmology object, and the histories considered. *)
From Coq Require Import String Reals List Lra.
From Verif Require Import M_Gcl.
Import ListNotations.
Local Open Scope R_scope.

(** same observable physics: parameters, CLASS results, sigma8, normalisation, fit, transfer function; for CLASS also the tables *)
Definition alike (c d : cosmo) : Prop :=
  c_pars c = c_pars d /\ c_eng c = c_eng d /\ sigma8 c = sigma8 d /\ c_dH c = c_dH d /\ c_fit c = c_fit d /\ transfer c = transfer d /\
  (c_fit c = CLASS -> c_k c = c_k d /\ c_T c = c_T d).
(** objects made by the constructors and by any sequence of the public operations (except the raw NormalizeTransferFunction) *)
Inductive made (E : env) : cosmo -> Prop :=
| M_new : forall p f c, new E p f = Some c -> made E c
| M_new5 : forall p f s k T c, new5 E p f s k T = Some c -> made E c
| M_power : forall p k P c, from_power E p k P = Some c -> made E c
| M_set8 : forall c s d, made E c -> set_sigma8 E c s = Some d -> made E d
| M_fit : forall c f d, made E c -> set_fit E c f = Some d -> made E d
| M_update : forall c kw d, made E c -> update E c kw = Some d -> made E d
| M_copy : forall c d, made E c -> copy E c = Some d -> made E d
| M_pickle : forall c d, made E c -> pickled E c = Some d -> made E d
| M_clone : forall c f d, made E c -> clone E c f = Some d -> made E d.
(** parameter names are distinct; the numbers survive printing with 16 digits; the two parameters from_dict would add are there *)
Definition keys_distinct (p : pars) : Prop := NoDup (map fst p).
Definition printable (E : env) (p : pars) : Prop := forall k v, In (k, v) p -> v_num E v = v.
Definition has_defaults (p : pars) : Prop := pget p "P_k_max_h/Mpc"%string <> None /\ pget p "z_max_pk"%string <> None.
(** histories in which parameters are only updated while the fit is CLASS, and FromArrays is never chosen *)
Inductive plain (E : env) : cosmo -> Prop :=
| P_new : forall p f c, keys_distinct p -> f <> FromArrays -> new E p f = Some c -> plain E c
| P_set8 : forall c s d, plain E c -> set_sigma8 E c s = Some d -> plain E d
| P_fit : forall c f d, plain E c -> f <> FromArrays -> set_fit E c f = Some d -> plain E d
| P_update : forall c kw d, plain E c -> c_fit c = CLASS -> keys_distinct kw -> update E c kw = Some d -> plain E d
| P_pickle : forall c d, plain E c -> pickled E c = Some d -> plain E d
| P_clone : forall c f d, plain E c -> f <> Some FromArrays -> clone E c f = Some d -> plain E d.
(** the integrator is homogeneous, as the integral is *)
Definition homogeneous (J : (R -> R) -> R) : Prop := forall a f g, (forall k, g k = a * f k) -> J g = a * J f.

(** the variance of a spectrum in a sphere of 8 Mpc/h, as the code's integrator computes it: integral of k^2/(2 pi^2) P(k) W(8k)^2 *)
From Verif Require M_Kaiser.
Definition variance (E : env) (P : R -> R) : R := v_int E (fun k => k * k / (2 * PI * PI) * P k * (M_Kaiser.W_cosmo (8 * k)) ^ 2).
Definition exact_j1 (E : env) : Prop := forall x, 1/10000 <= x -> v_j1 E x = sin x / x ^ 2 - cos x / x.
(** the value a parameter has after an update with keywords kw, as the wrapper forms it *)
Definition after_update (c : cosmo) (kw : pars) (k : string) : option string :=
  match pget kw k with
  | Some v => Some v
  | None => if String.eqb k "P_k_max_h/Mpc" then Some "20"%string else if String.eqb k "z_max_pk" then Some "2"%string else pget (c_pars c) k
  end.
