(** * Halo mass and velocity dispersion from bias: a model of pyRSD/rsd/tools.py:393-720 and of
    bias_to_sigma_relation / sigmav_from_bias of pyRSD/rsd/power/biased/power_biased.py:120-140, 258-306
    Scalars are reals. A cosmology is given by the five numbers and functions these classes read from it
    (mean density, sigma8(), Sigma(R) of the z = 0 linear spectrum, H(z), H0). scipy.optimize.brentq is a
    parameter [brentq]: None stands for the ValueError it raises when the objective has the same sign at both
    ends; its iteration is not modelled (the theorems assume its contract, with an arbitrary tolerance).
    The spline of Sigma built for the table is an arbitrary function of Sigma and the radius. *)
From Coq Require Import Reals List Arith Bool.
Import ListNotations.
From Verif Require Import M_Interp.
Local Open Scope R_scope.

Record cosmology := { rho_bar : R; sigma8 : R; Sigma : R -> R; H_z : R -> R; H0 : R }.

(** tools.py:690-710 (bias_Tinker): np.log10, np.exp and ** of positive numbers. *)
Definition log10 (x : R) : R := ln x / ln 10.
Definition bias_Tinker (sigmas delta_c delta_halo : R) : R :=
  let y := log10 delta_halo in
  let A := 1 + 24/100 * y * exp (- (4 / y) ^ 4) in
  let a := 44/100 * y - 88/100 in
  let B := 183/1000 in
  let b := 3/2 in
  let C := 19/1000 + 107/1000 * y + 19/100 * exp (- (4 / y) ^ 4) in
  let c := 24/10 in
  let nu := delta_c / sigmas in
  1 - A * Rpower nu a / (Rpower nu a + Rpower delta_c a) + B * Rpower nu b + C * Rpower nu c.
(** the default delta_c, tools.py:690. *)
Definition delta_c : R := 1686/1000.

(** mass_norm and the lambda mass_to_radius, tools.py:454-456, 516-518, 672-673. *)
Definition mass_norm : R := 10 ^ 13.
Definition mass_to_radius (mean_dens M : R) : R := Rpower (3 * M * mass_norm / (4 * PI * mean_dens)) (1/3).

Inductive outcome := Value (m : R) | ValueErr | NameErr.

Section WithSolver.
Variable brentq : (R -> R) -> R -> R -> option R.
(** RSDSpline(R_interp, sigmas, bounds_error=True), tools.py:460-462: a function of Sigma and R inside [1e-3, 1e4]. *)
Variable spline : (R -> R) -> R -> R.

(** compute_fresh, tools.py:513-526: the bracket is 1e-8 .. 1e3 in units of 1e13. *)
Definition compute_fresh (cosmo : cosmology) (delta_halo sigma8_z b1 : R) : outcome :=
  let rescaling := sigma8_z / sigma8 cosmo in
  match brentq (fun mass => bias_Tinker (rescaling * Sigma cosmo (mass_to_radius (rho_bar cosmo) mass)) delta_c delta_halo - b1) (/ 10 ^ 8) (10 ^ 3) with
  | Some m => Value (m * mass_norm)
  | None => ValueErr
  end.

(** mass_from_bias, tools.py:645-687; [Dz] = 1 when the redshifts agree, else the ratio of growth factors
    D(z)/D(z_Plin); the mean density there is crit_dens * Omega0_m, here rho_bar. *)
Definition mass_from_bias (cosmo : cosmology) (Dz bias : R) : outcome :=
  match brentq (fun mass => bias_Tinker (Dz * Sigma cosmo (mass_to_radius (rho_bar cosmo) mass)) delta_c 200 - bias) (/ 10 ^ 5) (10 ^ 5) with
  | Some m => Value (m * mass_norm)
  | None => ValueErr
  end.

(** np.linspace; the class attribute interpolation_grid, tools.py:399-401. *)
Definition linspace (a b : R) (n : nat) : list R := map (fun i => a + INR i * ((b - a) / INR (n - 1))) (seq 0 n).
Definition grid_sigma8 : list R := linspace (3/10) 1 100.
Definition grid_b1 : list R := linspace (9/10) 8 70.
Definition grid : gridT := [grid_sigma8; grid_b1].

(** one entry of interpolation_table, tools.py:464-492. The spline raises when the radius of an end of the
    bracket is outside [1e-3, 1e4] and brentq when there is no sign change; the handler evaluates the undefined
    name s8, so either way a NameError escapes: None. bias_Tinker is called without delta_halo. *)
Definition radius_in_spline (r : R) : bool := (if Rle_dec (/ 10 ^ 3) r then true else false) && (if Rle_dec r (10 ^ 4) then true else false).
Definition table_entry (cosmo : cosmology) (s8_z b1 : R) : option R :=
  if radius_in_spline (mass_to_radius (rho_bar cosmo) (/ 10 ^ 10)) && radius_in_spline (mass_to_radius (rho_bar cosmo) (10 ^ 4)) then
    let rescaling := s8_z / sigma8 cosmo in
    match brentq (fun mass => bias_Tinker (rescaling * spline (Sigma cosmo) (mass_to_radius (rho_bar cosmo) mass)) delta_c 200 - b1) (/ 10 ^ 10) (10 ^ 4) with
    | Some m => Some (m * mass_norm)
    | None => None
    end
  else None.
(** the double loop over itertools.product(sigma8s, b1s); the first failure aborts it. *)
Fixpoint row_entries (cosmo : cosmology) (s8 : R) (bs : list R) : option (list R) :=
  match bs with
  | [] => Some []
  | b :: bs' => match table_entry cosmo s8 b, row_entries cosmo s8 bs' with Some m, Some l => Some (m :: l) | _, _ => None end
  end.
Fixpoint all_rows (cosmo : cosmology) (ss bs : list R) : option (list (list R)) :=
  match ss with
  | [] => Some []
  | s :: ss' => match row_entries cosmo s bs, all_rows cosmo ss' bs with Some r, Some l => Some (r :: l) | _, _ => None end
  end.
Definition interpolation_table (cosmo : cosmology) : option (list (list R)) := all_rows cosmo grid_sigma8 grid_b1.
Definition as_table (t : list (list R)) : table := fun idx => match idx with [i; j] => nth j (nth i t []) 0 | _ => 0 end.

(** A BiasToSigmaRelation, tools.py:403-418, 546-560: its parameters and the cached table. The table is
    @cached_property() without parents (tools.py:446): no parameter change removes it. *)
Record relation := { r_z : R; r_cosmo : cosmology; r_interp : bool; r_delta_halo : R; r_sigmav_0 : option R; r_M_0 : option R; r_table : option (list (list R)) }.
Definition new_relation (z : R) (cosmo : cosmology) (interp : bool) (sv0 m0 : option R) : relation :=
  {| r_z := z; r_cosmo := cosmo; r_interp := interp; r_delta_halo := 200; r_sigmav_0 := sv0; r_M_0 := m0; r_table := None |}.
(** the parameter setters, tools.py:423-444. *)
Definition set_z (z : R) (r : relation) := {| r_z := z; r_cosmo := r_cosmo r; r_interp := r_interp r; r_delta_halo := r_delta_halo r; r_sigmav_0 := r_sigmav_0 r; r_M_0 := r_M_0 r; r_table := r_table r |}.
Definition set_cosmo (c : cosmology) (r : relation) := {| r_z := r_z r; r_cosmo := c; r_interp := r_interp r; r_delta_halo := r_delta_halo r; r_sigmav_0 := r_sigmav_0 r; r_M_0 := r_M_0 r; r_table := r_table r |}.
Definition set_interp (b : bool) (r : relation) := {| r_z := r_z r; r_cosmo := r_cosmo r; r_interp := b; r_delta_halo := r_delta_halo r; r_sigmav_0 := r_sigmav_0 r; r_M_0 := r_M_0 r; r_table := r_table r |}.
Definition set_delta_halo (d : R) (r : relation) := {| r_z := r_z r; r_cosmo := r_cosmo r; r_interp := r_interp r; r_delta_halo := d; r_sigmav_0 := r_sigmav_0 r; r_M_0 := r_M_0 r; r_table := r_table r |}.
Definition with_table (t : list (list R)) (r : relation) := {| r_z := r_z r; r_cosmo := r_cosmo r; r_interp := r_interp r; r_delta_halo := r_delta_halo r; r_sigmav_0 := r_sigmav_0 r; r_M_0 := r_M_0 r; r_table := Some t |}.

(** reading self.interpolation_table: the cached one, else build and keep it. *)
Definition get_table (r : relation) : option (list (list R)) * relation :=
  match r_table r with
  | Some t => (Some t, r)
  | None => match interpolation_table (r_cosmo r) with Some t => (Some t, with_table t r) | None => (None, r) end
  end.
(** BiasToMassRelation.__call__, tools.py:499-536; only InterpolationDomainError is caught. *)
Definition mass (r : relation) (sigma8_z b1 : R) : outcome * relation :=
  if r_interp r then
    match get_table r with
    | (Some t, r') => match call grid (as_table t) Linear true None [[sigma8_z; b1]] with
                      | IOk (Some m :: _) => (Value m, r')
                      | DomainError => (compute_fresh (r_cosmo r') (r_delta_halo r') sigma8_z b1, r')
                      | _ => (ValueErr, r')
                      end
    | (None, r') => (NameErr, r')
    end
  else (compute_fresh (r_cosmo r) (r_delta_halo r) sigma8_z b1, r).

(** Ez, Hz and evrard_sigmav, tools.py:579-615. *)
Definition evrard_sigmav (r : relation) (m : R) : R :=
  let Hz := H_z (r_cosmo r) (r_z r) in
  let Ez := Hz / H0 (r_cosmo r) in
  10829/10 * Rpower (Ez * m / 10 ^ 15) (336/1000) / sqrt 3 * (1 + r_z r) / Hz.
(** BiasToSigmaRelation.__call__, tools.py:629-650. *)
Definition sigmav (r : relation) (sigma8_z b1 : R) : outcome * relation :=
  match mass r sigma8_z b1 with
  | (Value m, r') => (Value (match r_sigmav_0 r', r_M_0 r' with
                             | Some s0, Some m0 => s0 * Rpower (m / m0) (1/3)
                             | _, _ => evrard_sigmav r' m end), r')
  | (e, r') => (e, r')
  end.

(** The part of the power model that owns a relation, power_biased.py:120-140, 258-306 and power_dm.py:280-287, 509:
    [g_rel] is the cached bias_to_sigma_relation (@cached_property() without parents). *)
Record gal := { g_z : R; g_cosmo : cosmology; g_interp : bool; g_rel : option relation }.
(** setting z calls _update_models('z', [.., 'bias_to_sigma_relation'], val). *)
Definition gal_set_z (z : R) (g : gal) : gal := {| g_z := z; g_cosmo := g_cosmo g; g_interp := g_interp g; g_rel := option_map (set_z z) (g_rel g) |}.
(** setting params (or transfer_fit, linear_power_file) replaces cosmo; nothing updates the relation. *)
Definition gal_set_cosmo (c : cosmology) (g : gal) : gal := {| g_z := g_z g; g_cosmo := c; g_interp := g_interp g; g_rel := g_rel g |}.
(** setting interpolate updates hzpt only. *)
Definition gal_set_interp (b : bool) (g : gal) : gal := {| g_z := g_z g; g_cosmo := g_cosmo g; g_interp := b; g_rel := g_rel g |}.
Definition get_rel (g : gal) : relation := match g_rel g with Some r => r | None => new_relation (g_z g) (g_cosmo g) (g_interp g) None None end.
Definition keep (g : gal) (r : relation) : gal := {| g_z := g_z g; g_cosmo := g_cosmo g; g_interp := g_interp g; g_rel := Some r |}.
(** sigmav_from_bias, power_biased.py:288-306: np.amin / np.amax of the b1 grid are 0.9 and 8. *)
Definition sigmav_from_bias (g : gal) (s8_z bias : R) : outcome * gal :=
  match sigmav (get_rel g) s8_z bias with
  | (Value v, r) => (Value v, keep g r)
  | (_, r) => if Rlt_dec bias (9/10) then let (o, r') := sigmav r s8_z (9/10) in (o, keep g r')
              else if Rlt_dec 8 bias then let (o, r') := sigmav r s8_z 8 in (o, keep g r')
              else (Value 0, keep g r)
  end.
End WithSolver.
