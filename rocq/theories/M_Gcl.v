(** Model of the compiled Cosmology class (_gcl/cpp/Cosmology.cpp, _gcl/include/Cosmology.h, _gcl/cpp/ClassParams.cpp), of its Python layer
    (_gcl/python/Cosmology.i, _gcl/python/ClassParams.i, pygcl.py:48-97) and of LinearPS (_gcl/cpp/LinearPS.cpp).
    Doubles are reals. The external Boltzmann code CLASS is an arbitrary function of the parameters; the integrator is an arbitrary functional.
    Operations return None when an assertion fails, memory or members that were never initialised are used, or no such overload exists.
    Not modelled: exceptions raised by CLASS itself, messages. *)
From Coq Require Import String Ascii Reals ZArith Bool Arith Lra.
From Coq Require Import List.
From Verif Require Import M_Spline.
From Verif Require M_Disc.
Import ListNotations.
Local Open Scope R_scope.

(** ** Parameters (ClassParams.h: a map from strings to strings) *)
Definition pars := list (string * string).
Fixpoint pget (p : pars) (k : string) : option string :=
  match p with [] => None | (a, v) :: t => if String.eqb a k then Some v else pget t k end.
(** ClassParams.cpp:76-101 add *)
Fixpoint pset (p : pars) (k v : string) : pars :=
  match p with [] => [(k, v)] | (a, w) :: t => if String.eqb a k then (a, v) :: t else (a, w) :: pset t k v end.
(** ClassParams.cpp:48-52 update *)
Fixpoint pupdate (p q : pars) : pars := match q with [] => p | (k, v) :: t => pupdate (pset p k v) t end.

(** std::string::find *)
Fixpoint has (needle s : string) : bool :=
  orb (String.prefix needle s) (match s with EmptyString => false | String _ t => has needle t end).
Local Open Scope string_scope.
(** Cosmology.cpp:372-384 VerifyCLASSOutput *)
Definition verify (p : pars) : pars :=
  match pget p "output" with
  | None => pset p "output" "dTk, mPk"
  | Some o => let o1 := if has "dTk" o then o else o ++ ", dTk" in let o2 := if has "mPk" o1 then o1 else o1 ++ ", mPk" in pset p "output" o2
  end.
(** ClassParams.i: from_dict; the values are those of the dict, the two defaults are added when missing *)
Definition setdefault (p : pars) (k v : string) : pars := match pget p k with Some _ => p | None => pset p k v end.
Definition from_dict (d : pars) : pars := pupdate [] (setdefault (setdefault d "P_k_max_h/Mpc" "20") "z_max_pk" "2").
Local Close Scope string_scope.

(** ** What CLASS gives for a set of parameters (ClassEngine.h) *)
Record engine := {
  e_s8 : R; e_s8z : R -> R; e_ns : R; e_As : R;   (* sigma8(), Sigma8_z(z), n_s(), A_s() *)
  e_kmin : R; e_kmax : R; e_Tk : R -> R;          (* k_min(), k_max(), GetTk(k, 0) *)
  e_nw : R -> R; e_eh : R -> R; e_bbks : R -> R   (* the three fits (Cosmology.cpp:203-267), functions of h, Omega0_m, Omega0_b, Tcmb *) }.
Record env := {
  v_class : pars -> engine;
  v_int : (R -> R) -> R;            (* Integrate<ExpSub>(f, 1e-5, 1e2, 1e-5, 1e-12) *)
  v_j1 : R -> R;                    (* SphericalBesselJ1 *)
  v_w0 : work;                      (* uninitialised memory of the spline *)
  v_num : string -> string          (* float(value) followed by operator<< with 16 digits; other strings are unchanged *) }.

Inductive fit := CLASS | EH | EH_NoWiggle | BBKS | FromArrays.
Definition fit_eqb (a b : fit) : bool :=
  match a, b with CLASS, CLASS | EH, EH | EH_NoWiggle, EH_NoWiggle | BBKS, BBKS | FromArrays, FromArrays => true | _, _ => false end.
(** Cosmology.h:82-84: the spline and the six numbers at its ends *)
Record table := { t_spl : spline; t_k0 : R; t_k1 : R; t_T0 : R; t_T1 : R; t_n0 : R; t_n1 : R }.
(** Cosmology.h:75-91 *)
Record cosmo := {
  c_pars : pars; c_eng : option engine;   (* None: ready is false *)
  c_s8 : R; c_dH : R; c_fit : fit; c_k : list R; c_T : list R; c_tab : option table (* None: never initialised *) }.

Section Env.
Variable E : env.

Definition value (o : option R) : R := match o with Some v => v | None => 0 end.
(** Cosmology.cpp:187-200 GetSplineTransfer *)
Definition spline_transfer (g : engine) (t : table) (k : R) : R :=
  if Rle_dec k 0 then 0
  else if Rle_dec k (t_k0 t) then t_T0 t * e_nw g k / t_n0 t
  else if Rle_dec (t_k1 t) k then t_T1 t * e_nw g k / t_n1 t
  else value (evaluate (t_spl t) k).
(** Cosmology.cpp:151-166 EvaluateTransfer: a function, or undefined *)
Definition transfer (c : cosmo) : option (R -> R) :=
  match c_eng c with
  | None => None
  | Some g =>
    match c_fit c with
    | CLASS | FromArrays => option_map (fun t => spline_transfer g t) (c_tab c)
    | EH => Some (e_eh g) | EH_NoWiggle => Some (e_nw g) | BBKS => Some (e_bbks g)
    end
  end.
(** Cosmology.cpp:168-173 *)
Definition f_sigma (T : R -> R) (ns : R) (k : R) : R :=
  let kr := k * 8 in let j := if Rlt_dec kr (1/10000) then 1/3 - kr * kr / 30 else v_j1 E kr / kr in
  k * k / (2 * PI * PI) * Rpower k ns * (T k) ^ 2 * (3 * j) ^ 2.
Definition sigma2 (T : R -> R) (ns : R) : R := v_int E (f_sigma T ns).
(** Cosmology.cpp:175-184 NormalizeTransferFunction (public; sigma8_ is not changed) *)
Definition normalize (c : cosmo) (s : R) : option cosmo :=
  match c_eng c, transfer c with
  | Some g, Some T => Some {| c_pars := c_pars c; c_eng := c_eng c; c_s8 := c_s8 c; c_dH := s / sqrt (sigma2 T (e_ns g)); c_fit := c_fit c; c_k := c_k c; c_T := c_T c; c_tab := c_tab c |}
  | _, _ => None
  end.
Definition with_s8 (c : cosmo) (s : R) : cosmo :=
  {| c_pars := c_pars c; c_eng := c_eng c; c_s8 := s; c_dH := c_dH c; c_fit := c_fit c; c_k := c_k c; c_T := c_T c; c_tab := c_tab c |}.
(** Cosmology.h:53 *)
Definition set_sigma8 (c : cosmo) (s : R) : option cosmo := normalize (with_s8 c s) s.
(** ClassEngine.cpp:22-29 compute after VerifyCLASSOutput *)
Definition run_class (c : cosmo) : cosmo :=
  {| c_pars := verify (c_pars c); c_eng := Some (v_class E (verify (c_pars c))); c_s8 := c_s8 c; c_dH := c_dH c; c_fit := c_fit c; c_k := c_k c; c_T := c_T c; c_tab := c_tab c |}.
(** Cosmology.cpp:270-291 ComputeCLASSTransferFunction *)
Definition compute_class (c : cosmo) : option cosmo :=
  let g := v_class E (verify (c_pars c)) in
  match M_Disc.p_logspace (e_kmin g) (e_kmax g) 500 with
  | None => None
  | Some ki => Some {| c_pars := verify (c_pars c); c_eng := Some g; c_s8 := c_s8 c; c_dH := c_dH c; c_fit := c_fit c; c_k := ki; c_T := map (e_Tk g) ki; c_tab := c_tab c |}
  end.
(** Cosmology.cpp:307-317: the spline of the tables *)
Definition make_table (g : engine) (k T : list R) : option table :=
  match cubic_spline (v_w0 E) k T with
  | None => None
  | Some s => let k0 := nth 0 k 0 in let k1 := nth (length k - 1) k 0 in
      Some {| t_spl := s; t_k0 := k0; t_k1 := k1; t_T0 := nth 0 T 0; t_T1 := nth (length k - 1) T 0; t_n0 := e_nw g k0; t_n1 := e_nw g k1 |}
  end.
(** Cosmology.cpp:294-322 Initialize: the spline is made for CLASS only *)
Definition initialize (c : cosmo) : option cosmo :=
  let c := match c_eng c with None => run_class c | Some _ => c end in
  match c_eng c with
  | None => None
  | Some g =>
    let tab := match c_fit c with CLASS => make_table g (c_k c) (c_T c) | _ => c_tab c end in
    match c_fit c, tab with
    | CLASS, None => None
    | _, _ => set_sigma8 {| c_pars := c_pars c; c_eng := c_eng c; c_s8 := c_s8 c; c_dH := c_dH c; c_fit := c_fit c; c_k := c_k c; c_T := c_T c; c_tab := tab |} (e_s8 g)
    end
  end.
Definition bind {A B} (o : option A) (f : A -> option B) : option B := match o with Some a => f a | None => None end.
Definition class_then_init (c : cosmo) : option cosmo := bind (match c_fit c with CLASS => compute_class c | _ => Some c end) initialize.
Definition blank (p : pars) (f : fit) (k T : list R) : cosmo :=
  {| c_pars := p; c_eng := None; c_s8 := 0; c_dH := 1; c_fit := f; c_k := k; c_T := T; c_tab := None |}.
(** Cosmology.cpp:24-81: the constructors from parameters or a parameter file *)
Definition new (p : pars) (f : fit) : option cosmo := class_then_init (blank p f [] []).
(** Cosmology.cpp:13-22: from parameters, fit, sigma8 and tables *)
Definition new5 (p : pars) (f : fit) (s : R) (k T : list R) : option cosmo := bind (initialize (blank p f k T)) (fun c => set_sigma8 c s).
(** Cosmology.cpp:325-333 SetTransferFunction *)
Definition set_fit (c : cosmo) (f : fit) : option cosmo :=
  if fit_eqb f (c_fit c) then Some c
  else class_then_init {| c_pars := c_pars c; c_eng := c_eng c; c_s8 := c_s8 c; c_dH := c_dH c; c_fit := f; c_k := c_k c; c_T := c_T c; c_tab := c_tab c |}.
(** Cosmology.cpp:387-395 update, with the Python wrapper of Cosmology.i (from_dict of the keywords) *)
Definition update_raw (c : cosmo) (q : pars) : option cosmo :=
  class_then_init {| c_pars := pupdate (c_pars c) q; c_eng := c_eng c; c_s8 := c_s8 c; c_dH := c_dH c; c_fit := c_fit c; c_k := c_k c; c_T := c_T c; c_tab := c_tab c |}.
Definition update (c : cosmo) (kw : pars) : option cosmo := match kw with [] => None (* ValueError *) | _ => update_raw c (from_dict kw) end.
(** Cosmology.cpp:123-135: the copy constructor *)
Definition copy (c : cosmo) : option cosmo := class_then_init {| c_pars := c_pars c; c_eng := None; c_s8 := c_s8 c; c_dH := c_dH c; c_fit := c_fit c; c_k := []; c_T := []; c_tab := None |}.
(** Cosmology.cpp:84-118 FromPower: parray.pow works in place, on a local copy of ki; fmax over the table *)
Definition lmax (l : list R) : R := match l with [] => 0 | x :: t => fold_left Rmax t x end.
Definition from_power (p : pars) (k Pk : list R) : option cosmo :=
  bind (new p CLASS) (fun c =>
  match c_eng c with
  | None => None
  | Some g =>
    if Nat.ltb (length Pk) (length k) then None else
    let T := map (fun q => Rpower (snd q / Rpower (fst q) (e_ns g)) (1/2)) (combine k Pk) in
    initialize {| c_pars := c_pars c; c_eng := c_eng c; c_s8 := c_s8 c; c_dH := c_dH c; c_fit := FromArrays; c_k := k; c_T := map (fun t => t / lmax T * 10000000) T; c_tab := c_tab c |}
  end).
(** pygcl.py:59-79: the pickled state (parameter strings go through Python numbers), and clone *)
Definition numbers (p : pars) : pars := map (fun kv => (fst kv, v_num E (snd kv))) p.
Definition pickled (c : cosmo) : option cosmo := new5 (from_dict (numbers (c_pars c))) (c_fit c) (c_s8 c) (c_k c) (c_T c).
Definition clone (c : cosmo) (f : option fit) : option cosmo :=
  match f with None => pickled c | Some f => bind (pickled c) (fun d => set_fit d f) end.
(** pygcl.py:87-89 from_file: Cosmology(filename, k, Tk): there is no such constructor *)
Definition from_file (p : pars) (k T : list R) : option cosmo := None.

(** Cosmology.h:54-62 *)
Definition sigma8 (c : cosmo) : R := c_s8 c.
Definition Sigma8_z (c : cosmo) (z : R) : option R := match c_eng c with Some g => Some (e_s8z g z * (c_s8 c / e_s8 g)) | None => None end.
Definition A_s (c : cosmo) : option R := match c_eng c with Some g => Some (e_As g * (c_s8 c / e_s8 g) ^ 2) | None => None end.
(** LinearPS.cpp:5-16: sigma8(z) is taken at construction, the cosmology is kept by reference *)
Definition lin_new (c : cosmo) (z : R) : option R := Sigma8_z c z.
Definition lin_eval (c : cosmo) (s8z : R) (k : R) : option R :=
  match c_eng c, transfer c with
  | Some g, Some T => Some ((c_dH c) ^ 2 * (s8z / c_s8 c) ^ 2 * Rpower k (e_ns g) * (T k) ^ 2)
  | _, _ => None
  end.
End Env.
