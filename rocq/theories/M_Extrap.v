(** Model of ExtrapolatedPowerSpectrum (pyRSD/rsd/power_extrapolator.py): validation of the parameters, the cached fits and the
    piecewise evaluation. Doubles are reals. The underlying spectrum `model.Pgal` is a function of (k, mu) that the user can
    change; the two fits (scipy curve_fit for 100 values of mu, then a spline) are arbitrary functions of the tabulated spectrum
    and of the parameters they read. *)
From Coq Require Import Reals List.
Import ListNotations.
Local Open Scope R_scope.
Definition spec := R -> R -> R.
(** the fitted slopes: (alpha, beta) at high k (lines 171-204) and alpha at low k (lines 206-228), as functions of mu; arguments: the
    tabulated spectrum with its k range, the joining wavenumber and the cut *)
Record fits := { fit_hi : spec -> R * R -> R -> R -> R -> R * R; fit_lo : spec -> R * R -> R -> R -> R -> R }.

(** Parameters and caches: model_kmin, model_kmax, k_lo, k_hi, kcut_lo, kcut_hi; `_power_spline` (None: not cached; here the spectrum
    it was made from and its k range), `_high_k_splines`, `_low_k_splines`. *)
Record xps := { x_kmin : R; x_kmax : R; x_lo : R; x_hi : R; x_clo : R; x_chi : R; x_func : nat;
                x_tab : option (spec * (R * R)); x_fhi : option (R -> R * R); x_flo : option (R -> R) }.
Inductive xpar := Kmin | Kmax | Klo | Khi | Clo | Chi.
(** lines 89-150: the setters, and what each invalidates by the declared dependencies (lines 155-230): the range invalidates the
    grid, the table and both fits; k_hi and kcut_hi the high-k fit; k_lo and kcut_lo the low-k fit. None: ValueError. *)
Definition x_assign (q : xpar) (v : R) (x : xps) : option xps :=
  match q with
  | Kmin => Some {| x_kmin := v; x_kmax := x_kmax x; x_lo := x_lo x; x_hi := x_hi x; x_clo := x_clo x; x_chi := x_chi x; x_func := x_func x; x_tab := None; x_fhi := None; x_flo := None |}
  | Kmax => Some {| x_kmin := x_kmin x; x_kmax := v; x_lo := x_lo x; x_hi := x_hi x; x_clo := x_clo x; x_chi := x_chi x; x_func := x_func x; x_tab := None; x_fhi := None; x_flo := None |}
  | Khi => if Rlt_dec (x_kmax x * (95/100)) v then None else
      Some {| x_kmin := x_kmin x; x_kmax := x_kmax x; x_lo := x_lo x; x_hi := v; x_clo := x_clo x; x_chi := x_chi x; x_func := x_func x; x_tab := x_tab x; x_fhi := None; x_flo := x_flo x |}
  | Klo => if Rlt_dec v (x_kmin x * (105/100)) then None else
      Some {| x_kmin := x_kmin x; x_kmax := x_kmax x; x_lo := v; x_hi := x_hi x; x_clo := x_clo x; x_chi := x_chi x; x_func := x_func x; x_tab := x_tab x; x_fhi := x_fhi x; x_flo := None |}
  | Chi => if Rle_dec (x_hi x) v then None else
      Some {| x_kmin := x_kmin x; x_kmax := x_kmax x; x_lo := x_lo x; x_hi := x_hi x; x_clo := x_clo x; x_chi := v; x_func := x_func x; x_tab := x_tab x; x_fhi := None; x_flo := x_flo x |}
  | Clo => if Rle_dec v (x_lo x) then None else
      Some {| x_kmin := x_kmin x; x_kmax := x_kmax x; x_lo := x_lo x; x_hi := x_hi x; x_clo := v; x_chi := x_chi x; x_func := x_func x; x_tab := x_tab x; x_fhi := x_fhi x; x_flo := None |}
  end.
Definition x_get (q : xpar) (x : xps) : R :=
  match q with Kmin => x_kmin x | Kmax => x_kmax x | Klo => x_lo x | Khi => x_hi x | Clo => x_clo x | Chi => x_chi x end.
(** _cache.py:223-239: an equal value invalidates nothing. *)
Definition x_set (q : xpar) (v : R) (x : xps) : option xps :=
  match x_assign q v x with None => None | Some y => if Req_EM_T v (x_get q x) then Some x else Some y end.
Definition bind {A B} (o : option A) (f : A -> option B) : option B := match o with Some a => f a | None => None end.
(** lines 60-77: the constructor; kwargs.get with the defaults model.kmax, model.kmin, 0.5*k_hi, 5*k_lo. *)
Definition dflt (o : option R) (d : R) : R := match o with Some v => v | None => d end.
Definition x_new (kmin kmax : R) (func : nat) (khi klo chi clo : option R) : option xps :=
  bind (x_assign Khi (dflt khi kmax) {| x_kmin := kmin; x_kmax := kmax; x_lo := 0; x_hi := 0; x_clo := 0; x_chi := 0; x_func := func; x_tab := None; x_fhi := None; x_flo := None |}) (fun x =>
  bind (x_assign Klo (dflt klo kmin) x) (fun x =>
  bind (x_assign Chi (dflt chi (1/2 * x_hi x)) x) (fun x => x_assign Clo (dflt clo (5 * x_lo x)) x))).
(** lines 17-31: x^(alpha + beta*log10(x)) *)
Definition power_law (x alpha beta : R) : R := Rpower x (alpha + beta * (ln x / ln 10)).
(** lines 162-169, 171-228: the cached properties (computed from the current spectrum when absent). [Pgal]: always model.Pgal,
    whatever model_func says (lines 165, 280, 286, 292). *)
Definition get_tab (P : spec) (x : xps) : spec * (R * R) := match x_tab x with Some t => t | None => (P, (x_kmin x, x_kmax x)) end.
Definition get_hi (F : fits) (P : spec) (x : xps) : R -> R * R :=
  match x_fhi x with Some f => f | None => fit_hi F (fst (get_tab P x)) (snd (get_tab P x)) (x_hi x) (x_chi x) end.
Definition get_lo (F : fits) (P : spec) (x : xps) : R -> R :=
  match x_flo x with Some f => f | None => fit_lo F (fst (get_tab P x)) (snd (get_tab P x)) (x_lo x) (x_clo x) end.
(** lines 272-295, one (k, mu); the high-k assignment is the last one *)
Definition x_point (F : fits) (P : spec) (x : xps) (k mu : R) : R :=
  if Rlt_dec (x_hi x) k then let '(al, be) := get_hi F P x mu in P (x_hi x) mu * power_law (k / x_hi x) al be
  else if Rlt_dec k (x_lo x) then P (x_lo x) mu * power_law (k / x_lo x) (get_lo F P x mu) 0
  else P k mu.
(** the caches filled by an evaluation over an array of points *)
Definition x_eval (F : fits) (P : spec) (x : xps) (ks : list (R * R)) : xps * list R :=
  let lo := existsb (fun p => if Rlt_dec (fst p) (x_lo x) then true else false) ks in
  let hi := existsb (fun p => if Rlt_dec (x_hi x) (fst p) then true else false) ks in
  ({| x_kmin := x_kmin x; x_kmax := x_kmax x; x_lo := x_lo x; x_hi := x_hi x; x_clo := x_clo x; x_chi := x_chi x; x_func := x_func x;
      x_tab := if orb lo hi then Some (get_tab P x) else x_tab x;
      x_fhi := if hi then Some (get_hi F P x) else x_fhi x; x_flo := if lo then Some (get_lo F P x) else x_flo x |},
   map (fun p => x_point F P x (fst p) (snd p)) ks).
(** What a user can do; [XModel P]: change the parameters of the underlying model so that its spectrum becomes P. A setter that raises
    leaves the object as it was. *)
Inductive xop := XSet (q : xpar) (v : R) | XModel (P : spec) | XEval (ks : list (R * R)).
Definition x_step (F : fits) (w : spec * xps) (o : xop) : spec * xps :=
  match o with
  | XSet q v => (fst w, match x_set q v (snd w) with Some x => x | None => snd w end)
  | XModel P => (P, snd w)
  | XEval ks => (fst w, fst (x_eval F (fst w) (snd w) ks))
  end.
Definition x_run (F : fits) (w : spec * xps) (l : list xop) : spec * xps := fold_left (x_step F) l w.
