(** Model of the Halo-Zel'dovich (HZPT) models of pyRSD/rsd/hzpt: the container InterpolatedHZPTModels with its lazily created
    models and interpolation tables (interpolated.py), the base class (hzpt/__init__.py), the broadband terms of P11 and Phm
    (P11.py, Phm.py), the correlation-function broadband (P00.py:43-71, Phm.py:243-271) and the Jennings formulae that evaluate
    P00 at another sigma8 (power_dm.py:675-718). Doubles are reals; the Zel'dovich drivers are those of M_Zel, whose NaN state
    is [None]; the P00 and P01 broadbands are those of M_Qso. *)
From Coq Require Import Reals List Lra Bool.
From Verif Require Import M_Zel M_Interp M_Qso.
Import ListNotations.
Local Open Scope R_scope.

Inductive term := T00 | T01 | T11 | Thm.
Definition teqb (a b : term) : bool :=
  match a, b with T00, T00 | T01, T01 | T11, T11 | Thm, Thm => true | _, _ => false end.

(** One model object: HaloZeldovichBase with its _driver, sigma8_z and (P01, P11) f. *)
Record hmodel := { hm_drv : option zel; hm_s8 : R; hm_f : R }.
(** InterpolatedHZPTModels (interpolated.py:78-107): the base Zel'dovich object, sigma8_z, f, interpolate, the models created so
    far (`_P00_driver` ... in __dict__) and the tables built so far. *)
Record hzs := { h_base : option zel; h_s8 : R; h_f : R; h_int : bool;
                h_mod : term -> option hmodel; h_tab : term -> option (list nat -> R) }.

Definition upd {A} (g : term -> A) (t : term) (x : A) : term -> A := fun u => if teqb u t then x else g u.

(** interpolated.py:27-29: np.linspace(0.3, 1.0, 100), np.logspace(log10(5e-6), log10(1.0), 300); rsd/__init__.py:3-4. *)
Definition s8_grid : list R := map (fun i => 3/10 + INR i * ((1 - 3/10) / 99)) (seq 0 100).
Definition k_grid : list R :=
  let lo := ln (5/1000000) / ln 10 in map (fun i => Rpower 10 (lo + INR i * ((0 - lo) / 299))) (seq 0 300).
Definition hz_grid : gridT := [s8_grid; k_grid].

(** Broadband parameters: [hz] for P00/P01 (hzpt/__init__.py:61-86), and amp, alpha, beta (P11.py:35-63) and amp, alpha, beta, run
    (Phm.py:28-69) of the others. *)
Record law3 := { l3_amp : R; l3_al : R; l3_be : R }.
Record law4 := { l4_amp : R; l4_al : R; l4_be : R; l4_run : R }.
Record hpars := { hp_00 : hz; hp_A0 : law3; hp_R : law3; hp_R1h : law3;
                  hm_A0 : law4; hm_R : law4; hm_R1 : law4; hm_R1h : law4; hm_R2h : law4 }.
Definition default_pars : hpars :=
  {| hp_00 := mkH (7078/10) (3654/1000) (3176/100) (1257/10000) (3243/1000) (3729/10000) (3768/1000) (-(1043/10000)) (1699/1000) (4224/10000);
     hp_A0 := {| l3_amp := 6589/10; l3_al := 391/100; l3_be := 1917/1000 |};
     hp_R := {| l3_amp := 1895/100; l3_al := -(3657/10000); l3_be := -(2585/10000) |};
     hp_R1h := {| l3_amp := 8473/10000; l3_al := -(1524/10000); l3_be := 7769/10000 |};
     hm_A0 := {| l4_amp := 7519/10; l4_al := 1657/1000; l4_be := 3752/1000; l4_run := 0 |};
     hm_R := {| l4_amp := 169/10; l4_al := -(1185/10000); l4_be := -(1067/1000); l4_run := 0 |};
     hm_R1 := {| l4_amp := 5192/1000; l4_al := -(5739/10000); l4_be := 1616/10000; l4_run := 0 |};
     hm_R1h := {| l4_amp := 8253/1000; l4_al := -(8421/10000); l4_be := -(1345/10000); l4_run := 0 |};
     hm_R2h := {| l4_amp := 3053/1000; l4_al := -(103/100); l4_be := -(3596/10000); l4_run := 0 |} |}.
(** P11.py:100-105 _powerlaw; sigma8_z and f positive *)
Definition powerlaw3 (l : law3) (s8 f : R) : R := l3_amp l * Rpower (s8/(8/10)) (l3_al l) * Rpower (f/(1/2)) (l3_be l).
(** Phm.py:213-218 _powerlaw; b1 positive (numpy returns NaN otherwise) *)
Definition powerlaw4 (l : law4) (s8 b1 : R) : R := l4_amp l * Rpower b1 (l4_al l + l4_run l * ln b1) * Rpower (s8/(8/10)) (l4_be l).
(** hzpt/__init__.py:236-256 (inherited by Phm) *)
Definition pade (A0 R_ R1 R1h R2h k : R) : R :=
  let F := 1 - 1/(1 + (k*R_)^2) in F*A0*(1 + (k*R1)^2) / (1 + (k*R1h)^2 + (k*R2h)^4).
(** P11.py:107-118 *)
Definition P11_broadband (P : hpars) (f s8 k : R) : R :=
  let F := 1 - 1/(1 + (k * powerlaw3 (hp_R P) s8 f)^2) in F * powerlaw3 (hp_A0 P) s8 f / (1 + (k * powerlaw3 (hp_R1h P) s8 f)^2).
Definition Phm_broadband (P : hpars) (b1 s8 k : R) : R :=
  pade (powerlaw4 (hm_A0 P) s8 b1) (powerlaw4 (hm_R P) s8 b1) (powerlaw4 (hm_R1 P) s8 b1) (powerlaw4 (hm_R1h P) s8 b1) (powerlaw4 (hm_R2h P) s8 b1) k.
Definition broadband (P : hpars) (t : term) (b1 f s8 k : R) : R :=
  match t with T00 => P00_broadband (hp_00 P) s8 k | T01 => P01_broadband (hp_00 P) f s8 k
             | T11 => P11_broadband P f s8 k | Thm => Phm_broadband P b1 s8 k end.
(** interpolated.py:215, 230, 245, 261: what multiplies the Zel'dovich term. *)
Definition coef (t : term) (b1 f : R) : R := match t with T00 => 1 | T01 => 2*f | T11 => f^2 | Thm => b1 end.
(** interpolated.py:165, 177, 189, 201: the Zel'dovich class copied from the base. *)
Definition kind_of (t : term) : kind := match t with T00 | Thm => P00 | T01 => P01 | T11 => P11 end.

(** hzpt/__init__.py:130-137: the setter of a model raises on a non-positive value before it touches the driver (None). *)
Definition model_set8 (s : R) (m : hmodel) : option hmodel :=
  if Rle_dec s 0 then None else Some {| hm_drv := zel_set8 s (hm_drv m); hm_s8 := s; hm_f := hm_f m |}.
(** from_zeldovich (hzpt/__init__.py:39-64) on the copy of the base object: sigma8_z, then f, then SetLowKApprox. *)
Definition model_new (st : hzs) : option hmodel :=
  option_map (fun m => {| hm_drv := option_map (zel_lowk true) (hm_drv m); hm_s8 := hm_s8 m; hm_f := hm_f m |})
    (model_set8 (h_s8 st) {| hm_drv := h_base st; hm_s8 := h_s8 st; hm_f := h_f st |}).
Definition put_model (st : hzs) (t : term) (m : hmodel) : hzs :=
  {| h_base := h_base st; h_s8 := h_s8 st; h_f := h_f st; h_int := h_int st; h_mod := upd (h_mod st) t (Some m); h_tab := h_tab st |}.
(** interpolated.py:157-203: the model of a term, created on first use; None: the creation raised ValueError. *)
Definition get_model (st : hzs) (t : term) : option (hzs * hmodel) :=
  match h_mod st t with
  | Some m => Some (st, m)
  | None => match model_new st with Some m => Some (put_model st t m, m) | None => None end
  end.

(** interpolated.py:118-135: sigma8_z setter of the container. The own value and the base object change first; the models are then
    updated in the order P00, P01, P11, Phm, and the first one that raises stops the loop. The flag: raised. *)
Fixpoint set_models (s : R) (ts : list term) (g : term -> option hmodel) : (term -> option hmodel) * bool :=
  match ts with
  | [] => (g, false)
  | t :: ts' => match g t with
                | None => set_models s ts' g
                | Some m => match model_set8 s m with Some m' => set_models s ts' (upd g t (Some m')) | None => (g, true) end
                end
  end.
Definition set_s8 (s : R) (st : hzs) : hzs * bool :=
  let '(g, r) := set_models s [T00; T01; T11; Thm] (h_mod st) in
  ({| h_base := zel_set8 s (h_base st); h_s8 := s; h_f := h_f st; h_int := h_int st; h_mod := g; h_tab := h_tab st |}, r).
(** interpolated.py:137-152 *)
Definition set_mf (f : R) (o : option hmodel) : option hmodel := option_map (fun m => {| hm_drv := hm_drv m; hm_s8 := hm_s8 m; hm_f := f |}) o.
Definition set_f (f : R) (st : hzs) : hzs :=
  {| h_base := h_base st; h_s8 := h_s8 st; h_f := f; h_int := h_int st;
     h_mod := fun t => match t with T01 | T11 => set_mf f (h_mod st t) | _ => h_mod st t end; h_tab := h_tab st |}.
(** interpolated.py:111-116 *)
Definition set_int (b : bool) (st : hzs) : hzs :=
  {| h_base := h_base st; h_s8 := h_s8 st; h_f := h_f st; h_int := b; h_mod := h_mod st; h_tab := h_tab st |}.
(** interpolated.py:83-106 *)
Definition hz_new (N : numerics) (c : cosmology) (s8 f : R) (interp : bool) : hzs :=
  {| h_base := zel_set8 s8 (Some (zel_new N c 0 false)); h_s8 := s8; h_f := f; h_int := interp; h_mod := fun _ => None; h_tab := fun _ => None |}.

(** hzpt/__init__.py:258-268: nan_to_num of the driver *)
Definition zeldovich (N : numerics) (c : cosmology) (q : kind) (o : option zel) (k : R) : R :=
  match zel_eval N q c o k with Some x => x | None => 0 end.
(** interpolated.py:206-208: synchronise the driver with the model's sigma8_z. *)
Definition sync (m : hmodel) : hmodel :=
  match hm_drv m with
  | Some d => if Req_EM_T (z_s8z d) (hm_s8 m) then m else {| hm_drv := zel_set8 (hm_s8 m) (Some d); hm_s8 := hm_s8 m; hm_f := hm_f m |}
  | None => m
  end.
(** interpolated.py:58-64: the rows of the table and the driver left behind. *)
Fixpoint table_rows (N : numerics) (c : cosmology) (q : kind) (ss : list R) (d : option zel) : list (list R) * option zel :=
  match ss with
  | [] => ([], d)
  | s :: ss' => let d' := zel_set8 s d in
                let '(rows, d'') := table_rows N c q ss' d' in (map (zeldovich N c q d') k_grid :: rows, d'')
  end.
Definition table_fun (rows : list (list R)) (idx : list nat) : R :=
  match idx with [i; j] => nth j (nth i rows []) 0 | _ => 0 end.
(** interpolated.py:34-71 *)
Definition build_table (N : numerics) (c : cosmology) (t : term) (m : hmodel) : (list nat -> R) * option hmodel :=
  let '(rows, d) := table_rows N c (kind_of t) s8_grid (hm_drv m) in
  (table_fun rows, model_set8 (hm_s8 m) {| hm_drv := d; hm_s8 := hm_s8 m; hm_f := hm_f m |}).
Definition put_table (st : hzs) (t : term) (v : list nat -> R) : hzs :=
  {| h_base := h_base st; h_s8 := h_s8 st; h_f := h_f st; h_int := h_int st; h_mod := h_mod st; h_tab := upd (h_tab st) t (Some v) |}.
(** interpolated.py:8-20: any point outside the table makes the whole array be computed directly. *)
Definition from_table (N : numerics) (c : cosmology) (t : term) (v : list nat -> R) (m : hmodel) (ks : list R) : list (option R) :=
  match call hz_grid v Linear true None (map (fun k => [hm_s8 m; k]) ks) with
  | IOk l => l
  | _ => map (fun k => Some (zeldovich N c (kind_of t) (hm_drv m) k)) ks
  end.
Fixpoint combine_bb (bb : R -> R) (cf : R) (ks : list R) (zs : list (option R)) : list (option R) :=
  match ks, zs with k :: ks', z :: zs' => option_map (fun x => bb k + cf * x) z :: combine_bb bb cf ks' zs' | _, _ => [] end.
(** interpolated.py:206-262: P00(k), P01(k), P11(k), Phm(b1, k). None: ValueError was raised; an entry None is NaN. *)
Definition hz_eval (N : numerics) (c : cosmology) (P : hpars) (st : hzs) (t : term) (b1 : R) (ks : list R) : hzs * option (list (option R)) :=
  match get_model st t with
  | None => (st, None)
  | Some (st1, m0) =>
    let m := sync m0 in
    let st2 := put_model st1 t m in
    if h_int st then
      match h_tab st t with
      | Some v => (st2, Some (combine_bb (broadband P t b1 (hm_f m) (hm_s8 m)) (coef t b1 (hm_f m)) ks (from_table N c t v m ks)))
      | None =>
        let '(v, om) := build_table N c t m in
        match om with
        | None => (st2, None)
        | Some m' => (put_table (put_model st2 t m') t v,
            Some (combine_bb (broadband P t b1 (hm_f m') (hm_s8 m')) (coef t b1 (hm_f m')) ks (from_table N c t v m' ks)))
        end
      end
    else (st2, Some (combine_bb (broadband P t b1 (hm_f m) (hm_s8 m)) (coef t b1 (hm_f m)) ks
                       (map (fun k => Some (zeldovich N c (kind_of t) (hm_drv m) k)) ks)))
  end.

(** What a user can do. [HModel8 t s]: `hzpt._P00.sigma8_z = s` and the like. *)
Inductive hop := HSet8 (s : R) | HSetF (f : R) | HInterp (b : bool) | HModel8 (t : term) (s : R) | HEval (t : term) (b1 : R) (ks : list R).
Definition hstep (N : numerics) (c : cosmology) (P : hpars) (st : hzs) (o : hop) : hzs :=
  match o with
  | HSet8 s => fst (set_s8 s st)
  | HSetF f => set_f f st
  | HInterp b => set_int b st
  | HModel8 t s => match get_model st t with
                   | None => st
                   | Some (st1, m) => match model_set8 s m with Some m' => put_model st1 t m' | None => st1 end
                   end
  | HEval t b1 ks => fst (hz_eval N c P st t b1 ks)
  end.
Definition hrun (N : numerics) (c : cosmology) (P : hpars) (st : hzs) (l : list hop) : hzs := fold_left (hstep N c P) l st.

(** power_dm.py:675-718: both Jennings formulae; [sgn] = (a0, a1, a2, a3); D the growth function; s8 the model's own sigma8_z.
    Returns the container afterwards and toret without the final factor (-f or f^2). *)
Definition jennings_core (a0 a1 a2 a3 D p0 p : R) : R :=
  let zs := 3 / (D + D^2 + D^3) in
  let g := (a0 * sqrt p0 + a1 * p0^2) / (a2 + a3 * p0) in (g - p0) / zs^2 + p.
Fixpoint zip_core (F : R -> R -> R) (a b : list (option R)) : list (option R) :=
  match a, b with x :: a', y :: b' => (match x, y with Some u, Some v => Some (F u v) | _, _ => None end) :: zip_core F a' b' | _, _ => [] end.
Definition jennings (N : numerics) (c : cosmology) (P : hpars) (a : R * R * R * R) (D s8 : R) (st : hzs) (ks : list R) : hzs * option (list (option R)) :=
  let '(a0, a1, a2, a3) := a in
  let st1 := hstep N c P st (HModel8 T00 (s8 / D)) in
  let '(st2, r0) := hz_eval N c P st1 T00 1 ks in
  let st3 := hstep N c P st2 (HModel8 T00 s8) in
  let '(st4, r) := hz_eval N c P st3 T00 1 ks in
  (st4, match r0, r with Some x, Some y => Some (zip_core (jennings_core a0 a1 a2 a3 D) x y) | _, _ => None end).
(** power_dm.py:680, 702 *)
Definition pdv_consts : R * R * R * R := (-(124838/10), 2554/1000, 138129/100, 2540/1000).
Definition pvv_consts : R * R * R * R := (-(124805/10), 1824/1000, 216587/100, 1796/1000).
Definition Pdv_jennings (N : numerics) (c : cosmology) (P : hpars) (D s8 f : R) (st : hzs) (ks : list R) : hzs * option (list (option R)) :=
  let '(st', r) := jennings N c P pdv_consts D s8 st ks in (st', option_map (map (option_map (fun x => - f * x))) r).
Definition Pvv_jennings (N : numerics) (c : cosmology) (P : hpars) (D s8 f : R) (st : hzs) (ks : list R) : hzs * option (list (option R)) :=
  let '(st', r) := jennings N c P pvv_consts D s8 st ks in (st', option_map (map (option_map (fun x => f^2 * x))) r).

(** P00.py:43-71 = Phm.py:243-271: the correlation-function broadband. *)
Definition cf_broadband (A0 R_ R1 R1h R2h r : R) : R :=
  let S := sqrt (R1h^4 - 4*R2h^4) in
  let norm := - A0 * exp (- r/R_) / (4*PI*r*R_^2) in
  let A := (R_^2*(-2*R2h^4 + R1^2*(R1h^2 - S)) + R2h^4*(R1h^2 - S) + R1^2*(- R1h^4 + 2*R2h^4 + R1h^2*S)) / (2*R2h^4*S) in
  let B := (R2h^4*(R1h^2 + S) - R1^2*(R1h^4 - 2*R2h^4 + R1h^2*S) + R_^2*(-2*R2h^4 + R1^2*(R1h^2 + S))) * -1 / (2*R2h^4*S) in
  let t1 := 1 - (R1/R_)^2 in
  let t2 := A * exp (r*(1/R_ - sqrt (1/2*(R1h^2 - S)) / R2h^2)) in
  let t3 := B * exp (r*(1/R_ - sqrt (1/2*(R1h^2 + S)) / R2h^2)) in
  let denom := 1 - (R1h/R_)^2 + (R2h/R_)^4 in
  norm * (t1 + t2 + t3) / denom.
