(** * Model of the dict-like cosmology: /repo/pyRSD/rsd/cosmology.py:109-361 (class Cosmology)

    Numbers are exact rationals.  astropy's cosmology classes (the "engine") are
    modelled by their documented constructors: LambdaCDM / wCDM keep the parameters
    they are given, the Flat versions compute Ode0 = 1 - Om0 - (radiation) and have
    Ok0 = 0; [rad] is the (unspecified) radiation density as a function of
    H0, Tcmb0, Neff and the neutrino mass.  Units are dropped ([removeunits]). *)
From Coq Require Import String QArith Qabs Bool List.
Import ListNotations.
Open Scope string_scope.
Open Scope list_scope.

Inductive cval := CNum (q : Q) | CFlag (b : bool) | CStr (s : string) | CNone.

(** A Python dict: assignment replaces or appends. *)
Definition pdict := list (string * cval).
Fixpoint dget (d : pdict) (k : string) : option cval :=
  match d with
  | [] => None
  | (k', v) :: d' => if String.eqb k k' then Some v else dget d' k
  end.
Fixpoint dset (d : pdict) (k : string) (v : cval) : pdict :=
  match d with
  | [] => [(k, v)]
  | (k', v') :: d' => if String.eqb k k' then (k', v) :: d' else (k', v') :: dset d' k v
  end.
Fixpoint dupdate (d e : pdict) : pdict :=
  match e with
  | [] => d
  | (k, v) :: e' => dupdate (dset d k v) e'
  end.

Section Cosmo.
Variable rad : Q -> Q -> Q -> Q -> Q.   (* H0, Tcmb0, Neff, m_nu *)

(** The astropy object stored as [self.engine], cosmology.py:178-196. *)
Record engine := mkEngine {
  e_flat : bool;   (* a Flat... class *)
  e_wcdm : bool;   (* ...wCDM: has an attribute w0 *)
  e_H0 : Q; e_Om0 : Q; e_Ob0 : Q; e_Ode0 : Q; e_w0 : Q; e_Tcmb0 : Q; e_Neff : Q; e_mnu : Q;
  e_name : cval
}.

(** [getattr(engine, k)] for the constructor parameters; [None]: no such attribute.
    The engines have no attributes [flat], [n_s], [sigma8]; [w0] only for wCDM. *)
Definition eattr (e : engine) (k : string) : option cval :=
  if String.eqb k "H0" then Some (CNum (e_H0 e)) else
  if String.eqb k "Om0" then Some (CNum (e_Om0 e)) else
  if String.eqb k "Ob0" then Some (CNum (e_Ob0 e)) else
  if String.eqb k "Ode0" then Some (CNum (e_Ode0 e)) else
  if String.eqb k "w0" then (if e_wcdm e then Some (CNum (e_w0 e)) else None) else
  if String.eqb k "Tcmb0" then Some (CNum (e_Tcmb0 e)) else
  if String.eqb k "Neff" then Some (CNum (e_Neff e)) else
  if String.eqb k "m_nu" then Some (CNum (e_mnu e)) else
  if String.eqb k "name" then Some (e_name e) else None.

(** astropy: curvature; the flat classes set it to 0. *)
Definition e_Ok0 (e : engine) : Q :=
  if e_flat e then 0 else 1 - e_Om0 e - e_Ode0 e - rad (e_H0 e) (e_Tcmb0 e) (e_Neff e) (e_mnu e).

Record cosmo := mkCosmo { eng : engine; items : pdict }.

(** Keyword arguments: value or default (numbers only; a wrong type is outside the model
    and reported as an error). *)
Definition num_arg (kw : pdict) (k : string) (default : Q) : option Q :=
  match dget kw k with None => Some default | Some (CNum q) => Some q | Some _ => None end.
Definition flag_arg (kw : pdict) (k : string) (default : bool) : option bool :=
  match dget kw k with None => Some default | Some (CFlag b) => Some b | Some _ => None end.

Definition arg_names : list string :=
  ["H0"; "Om0"; "Ob0"; "Ode0"; "w0"; "Tcmb0"; "Neff"; "m_nu"; "n_s"; "sigma8"; "flat"; "name"].
Definition inb (k : string) (l : list string) : bool := existsb (String.eqb k) l.

(** The engine built at cosmology.py:178-196: [w0 == -1.0] selects LambdaCDM, [flat]
    selects the flat classes, whose Ode0 is derived. *)
Definition build_engine (H0 Om0 Ob0 Ode0 w0 Tcmb0 Neff mnu : Q) (flat : bool) (name : cval) : engine :=
  let wcdm := negb (Qeq_bool w0 (-1)) in
  mkEngine flat wcdm H0 Om0 Ob0 (if flat then 1 - Om0 - rad H0 Tcmb0 Neff mnu else Ode0)
           w0 Tcmb0 Neff mnu name.

(** The entries handed to [dict.__init__], cosmology.py:198-204: [flat], [w0], then every
    astropy keyword still in [kws] (w0 popped for LambdaCDM, Ode0 popped for flat). *)
Definition entries (e : engine) (w0 ns s8 : Q) : pdict :=
  [("H0", CNum (e_H0 e)); ("Om0", CNum (e_Om0 e)); ("sigma8", CNum s8); ("n_s", CNum ns);
   ("flat", CFlag (e_flat e)); ("w0", CNum w0); ("name", e_name e); ("Ob0", CNum (e_Ob0 e));
   ("Tcmb0", CNum (e_Tcmb0 e)); ("Neff", CNum (e_Neff e)); ("m_nu", CNum (e_mnu e))]
  ++ (if e_flat e then [] else [("Ode0", CNum (e_Ode0 e))]).

(** [Cosmology.__init__( **kw)] run on an object whose dict already holds [old]
    (cosmology.py:143-204; [dict.__init__] updates, it does not clear).  [None]: TypeError. *)
Definition init (kw old : pdict) : option cosmo :=
  if negb (forallb (fun kv => inb (fst kv) arg_names) kw) then None else
  match num_arg kw "H0" (676 # 10), num_arg kw "Om0" (31 # 100), num_arg kw "Ob0" (486 # 10000),
        num_arg kw "Ode0" (69 # 100), num_arg kw "w0" (-1), num_arg kw "Tcmb0" (27255 # 10000),
        num_arg kw "Neff" (304 # 100), num_arg kw "m_nu" 0, num_arg kw "n_s" (9667 # 10000),
        num_arg kw "sigma8" (8159 # 10000), flag_arg kw "flat" false with
  | Some H0, Some Om0, Some Ob0, Some Ode0, Some w0, Some Tcmb0, Some Neff, Some mnu, Some ns, Some s8, Some flat =>
    let name := match dget kw "name" with Some n => n | None => CNone end in
    let e := build_engine H0 Om0 Ob0 Ode0 w0 Tcmb0 Neff mnu flat name in
    Some (mkCosmo e (dupdate old (entries e w0 ns s8)))
  | _, _, _, _, _, _, _, _, _, _, _ => None
  end.

(** [Cosmology( **kw)] *)
Definition construct (kw : pdict) : option cosmo := init kw [].

(** [cosmo[k]], cosmology.py:283-300 ([__getitem__] with [__missing__]). [None]: KeyError. *)
Definition getitem (c : cosmo) (k : string) : option cval :=
  match dget (items c) k with
  | Some v => Some v
  | None => eattr (eng c) k
  end.

(** [cosmo.k], cosmology.py:302-324: engine first, then the dict. [None]: AttributeError. *)
Definition getattr (c : cosmo) (k : string) : option cval :=
  match eattr (eng c) k with
  | Some v => Some v
  | None => getitem c k
  end.

(** cosmology.py:212-213 *)
Definition copy (c : cosmo) : option cosmo := construct (items c).

(** [pickle.loads(pickle.dumps(c))], cosmology.py:232-239: [__reduce__] gives the class,
    no arguments and the dict as state: a default object is built, then [__init__] is
    called again on it. *)
Definition unpickle (c : cosmo) : option cosmo :=
  match construct [] with
  | Some d => init (items c) (items d)
  | None => None
  end.

(** [engine.clone( **kw)] of astropy: same class, constructor parameters replaced; an
    argument the class does not have (Ode0 of a flat class) is a TypeError. *)
Definition eclone (e : engine) (kw : pdict) : option engine :=
  if e_flat e && (match dget kw "Ode0" with Some _ => true | None => false end) then None else
  if negb (e_wcdm e) && (match dget kw "w0" with Some _ => true | None => false end) then None else
  match num_arg kw "H0" (e_H0 e), num_arg kw "Om0" (e_Om0 e), num_arg kw "Ob0" (e_Ob0 e),
        num_arg kw "Ode0" (e_Ode0 e), num_arg kw "w0" (e_w0 e), num_arg kw "Tcmb0" (e_Tcmb0 e),
        num_arg kw "Neff" (e_Neff e), num_arg kw "m_nu" (e_mnu e) with
  | Some H0, Some Om0, Some Ob0, Some Ode0, Some w0, Some Tcmb0, Some Neff, Some mnu =>
    Some (mkEngine (e_flat e) (e_wcdm e) H0 Om0 Ob0
           (if e_flat e then 1 - Om0 - rad H0 Tcmb0 Neff mnu else Ode0) w0 Tcmb0 Neff mnu
           (match dget kw "name" with Some n => n | None => e_name e end))
  | _, _, _, _, _, _, _, _ => None
  end.

(** [Cosmology.from_astropy(engine, **extras)], cosmology.py:250-274: engine attributes
    are added to the keywords, [flat] is recomputed as [Ok0 == 0], [name] only if absent;
    n_s and sigma8 default. *)
Definition from_astropy (e : engine) (extras : pdict) : option cosmo :=
  let valid := ["H0"; "Om0"; "Ob0"; "Ode0"; "w0"; "Tcmb0"; "Neff"; "m_nu"] in
  let kw := dupdate extras (flat_map (fun k => match eattr e k with Some v => [(k, v)] | None => [] end) valid) in
  let kw := dset kw "flat" (CFlag (Qeq_bool (e_Ok0 e) 0)) in
  let kw := match dget kw "name" with Some _ => kw | None => dset kw "name" (e_name e) end in
  construct kw.

(** [clone( **kwargs)], cosmology.py:326-361 *)
Definition clone (c : cosmo) (kw : pdict) : option cosmo :=
  let is_eng k := match eattr (eng c) k with Some _ => true | None => false end in
  let extras := filter (fun kv => negb (is_eng (fst kv))) (items c) in
  let extras := dupdate extras (filter (fun kv => negb (is_eng (fst kv))) kw) in
  match eclone (eng c) (filter (fun kv => is_eng (fst kv)) kw) with
  | Some e => from_astropy e extras
  | None => None
  end.

(** [cosmo[k] = v], cosmology.py:276-281: always raises ([None]). *)
Definition setitem (c : cosmo) (k : string) (v : cval) : option cosmo := None.
(** [cosmo.update({k: v})]: dict.update is not overridden and does not call [__setitem__]. *)
Definition update (c : cosmo) (kw : pdict) : cosmo := mkCosmo (eng c) (dupdate (items c) kw).

(** The mutating dict methods of the object.  [pop]: dict.pop / del, not overridden. *)
Inductive mutation := MSet (k : string) (v : cval) | MUpdate (kw : pdict) | MPop (k : string).
Definition drop (d : pdict) (k : string) : pdict := filter (fun kv => negb (String.eqb k (fst kv))) d.
Definition mutate (c : cosmo) (m : mutation) : cosmo :=
  match m with
  | MSet k v => match setitem c k v with Some c' => c' | None => c end
  | MUpdate kw => update c kw
  | MPop k => mkCosmo (eng c) (drop (items c) k)
  end.
Fixpoint mutate_all (c : cosmo) (l : list mutation) : cosmo :=
  match l with [] => c | m :: l' => mutate_all (mutate c m) l' end.

(** numpy.isclose(a, b, rtol=1e-4) with atol = 1e-8. *)
Definition isclose4 (a b : Q) : bool := Qle_bool (Qabs (a - b)) ((1 # 100000000) + (1 # 10000) * Qabs b).
Definition numeq (x y : option cval) : bool :=
  match x, y with Some (CNum a), Some (CNum b) => isclose4 a b | _, _ => false end.
Definition flageq (x y : option cval) : bool :=
  match x, y with Some (CFlag a), Some (CFlag b) => Bool.eqb a b | _, _ => false end.
(** [self == other] for two different objects, cosmology.py:215-230.  [flat] is compared
    by identity, which for True/False is equality. *)
Definition cosmo_eq (c d : cosmo) : bool :=
  flageq (getattr c "flat") (getattr d "flat") &&
  numeq (getattr c "m_nu") (getattr d "m_nu") &&
  forallb (fun k => numeq (getattr c k) (getattr d k))
          ["H0"; "Om0"; "Ob0"; "Ode0"; "w0"; "Tcmb0"; "Neff"; "n_s"; "sigma8"].
End Cosmo.
