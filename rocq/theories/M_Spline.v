(** Model of the splines of the compiled library (_gcl/cpp/Spline.cpp), used for the transfer function and everywhere in pygcl.
    Doubles are reals; arrays are functions from indices with point updates, loops are iterations over explicit index ranges. *)
From Coq Require Import Reals List ZArith Lra.
Import ListNotations.
Local Open Scope R_scope.

Definition arr := nat -> R.
Definition upd (a : arr) (i : nat) (v : R) : arr := fun j => if Nat.eqb j i then v else a j.

(** Spline.cpp:28-39: the search loop. [fuel] bounds the number of iterations; None: it ran out (or left the array). *)
Fixpoint lookup_loop (fuel : nat) (x : R) (X : arr) (ilo ihi i : Z) : option Z :=
  match fuel with
  | O => None
  | S f =>
    if Z.ltb i 0 then None else
    if Rlt_dec x (X (Z.to_nat i)) then let ihi' := (i - 1)%Z in lookup_loop f x X ilo ihi' (Z.quot (ilo + ihi') 2)
    else if Rlt_dec (X (Z.to_nat (i + 1))) x then let ilo' := (i + 1)%Z in lookup_loop f x X ilo' ihi (Z.quot (ilo' + ihi) 2)
    else Some i
  end.
(** Spline.cpp:11-41. None also when the assertion fails. *)
Definition lookup (fuel : nat) (x : R) (N : nat) (X : arr) : option Z :=
  if andb (Nat.leb 2 N) (andb (if Rle_dec (X 0%nat) x then true else false) (if Rle_dec x (X (N - 1)%nat) then true else false)) then
    if Req_EM_T x (X (N - 1)%nat) then Some (Z.of_nat N - 2)%Z
    else lookup_loop fuel x X 0 (Z.of_nat N - 2) (Int_part (INR (N - 1) * (x - X 0%nat) / (X (N - 1)%nat - X 0%nat)))
  else None.

(** Spline.cpp:58-94: linear splines. *)
Definition lin_y (X Y : arr) (i : nat) (x : R) : R := Y i + (Y (S i) - Y i) * (x - X i) / (X (S i) - X i).
Definition lin_dy (X Y : arr) (i : nat) : R := (Y (S i) - Y i) / (X (S i) - X i).

(** Spline.cpp:185-192: the working arrays of the cubic spline. *)
Record work := { w_b : arr; w_c : arr; w_d : arr }.
Definition set_b i v w := {| w_b := upd (w_b w) i v; w_c := w_c w; w_d := w_d w |}.
Definition set_c i v w := {| w_b := w_b w; w_c := upd (w_c w) i v; w_d := w_d w |}.
Definition set_d i v w := {| w_b := w_b w; w_c := w_c w; w_d := upd (w_d w) i v |}.
(** for(i = i0; i < i0 + n; i++) body *)
Fixpoint for_up (n : nat) (i0 : nat) (body : nat -> work -> work) (w : work) : work :=
  match n with O => w | S m => for_up m (S i0) body (body i0 w) end.
(** for(i = n - 1; i >= 0; i--) body *)
Fixpoint for_down (n : nat) (body : nat -> work -> work) (w : work) : work :=
  match n with O => w | S m => for_down m body (body m w) end.

(** Spline.cpp:213-220 *)
Definition setup_step (X Y : arr) (i : nat) (w : work) : work :=
  let w := set_d i (X (S i) - X i) w in
  let w := set_b i (2 * (w_d w (i - 1)%nat + w_d w i)) w in
  let w := set_c (S i) ((Y (S i) - Y i) / w_d w i) w in
  set_c i (w_c w (S i) - w_c w i) w.
Definition setup (N : nat) (X Y : arr) (w : work) : work :=
  let w := set_d 0 (X 1%nat - X 0%nat) w in
  let w := set_c 1 ((Y 1%nat - Y 0%nat) / w_d w 0%nat) w in
  for_up (N - 2) 1 (setup_step X Y) w.
(** Spline.cpp:222-232 *)
Definition ends (N : nat) (X : arr) (w : work) : work :=
  let w := set_b 0 (- w_d w 0%nat) w in
  let w := set_b (N - 1) (- w_d w (N - 2)%nat) w in
  let w := set_c 0 0 w in
  let w := set_c (N - 1) 0 w in
  if Nat.ltb 3 N then
    let w := set_c 0 (w_c w 2%nat / (X 3%nat - X 1%nat) - w_c w 1%nat / (X 2%nat - X 0%nat)) w in
    let w := set_c (N - 1) (w_c w (N - 2)%nat / (X (N - 1)%nat - X (N - 3)%nat) - w_c w (N - 3)%nat / (X (N - 2)%nat - X (N - 4)%nat)) w in
    let w := set_c 0 (w_c w 0%nat * w_d w 0%nat * w_d w 0%nat / (X 3%nat - X 0%nat)) w in
    set_c (N - 1) (- w_c w (N - 1)%nat * w_d w (N - 2)%nat * w_d w (N - 2)%nat / (X (N - 1)%nat - X (N - 4)%nat)) w
  else w.
(** Spline.cpp:234-239 *)
Definition forward_step (i : nat) (w : work) : work :=
  let t := w_d w (i - 1)%nat / w_b w (i - 1)%nat in
  let w := set_b i (w_b w i - t * w_d w (i - 1)%nat) w in
  set_c i (w_c w i - t * w_c w (i - 1)%nat) w.
Definition forward (N : nat) (w : work) : work := for_up (N - 1) 1 forward_step w.
(** Spline.cpp:241-246: ib = 0 .. N-2, i = N - ib - 2 *)
Definition back_step (i : nat) (w : work) : work := set_c i ((w_c w i - w_d w i * w_c w (S i)) / w_b w i) w.
Definition back (N : nat) (w : work) : work :=
  for_down (N - 1) back_step (set_c (N - 1) (w_c w (N - 1)%nat / w_b w (N - 1)%nat) w).
(** Spline.cpp:248-256 *)
Definition coef_step (Y : arr) (i : nat) (w : work) : work :=
  let w := set_b i ((Y (S i) - Y i) / w_d w i - w_d w i * (w_c w (S i) + 2 * w_c w i)) w in
  let w := set_d i ((w_c w (S i) - w_c w i) / w_d w i) w in
  set_c i (3 * w_c w i) w.
Definition coefs (N : nat) (Y : arr) (w : work) : work :=
  let w := set_b (N - 1) ((Y (N - 1)%nat - Y (N - 2)%nat) / w_d w (N - 2)%nat + w_d w (N - 2)%nat * (w_c w (N - 2)%nat + 2 * w_c w (N - 1)%nat)) w in
  let w := for_up (N - 1) 0 (coef_step Y) w in
  let w := set_c (N - 1) (3 * w_c w (N - 1)%nat) w in
  set_d (N - 1) (w_d w (N - 2)%nat) w.
(** Spline.cpp:194-258; the freshly allocated arrays have arbitrary contents [w0]. *)
Definition cubic_work (N : nat) (X Y : arr) (w0 : work) : work :=
  if Nat.eqb N 2 then
    let s := (Y 1%nat - Y 0%nat) / (X 1%nat - X 0%nat) in
    set_d 0 0 (set_d 1 0 (set_c 0 0 (set_c 1 0 (set_b 0 s (set_b 1 s w0)))))
  else coefs N Y (back N (forward N (ends N X (setup N X Y w0)))).
(** Spline.cpp:268-280 *)
Definition cub_y (X Y : arr) (w : work) (i : nat) (x : R) : R :=
  let u := x - X i in Y i + w_b w i * u + w_c w i * u * u + w_d w i * u * u * u.
Definition cub_dy (X : arr) (w : work) (i : nat) (x : R) : R :=
  let u := x - X i in w_b w i + 2 * w_c w i * u + 3 * w_d w i * u * u.

(** The spline objects: the tables given by the user (vectors) and, for the cubic ones, the coefficients. *)
Inductive spline := LinearS (xs ys : list R) | CubicS (xs ys : list R) (w : work) | ShiftS (xs ys : list R) (tau : R) | NullS.
Definition at_ (l : list R) : arr := fun i => nth i l 0.
(** Spline.cpp:123-126, 291-294: None when the assertion fails (for the linear spline an empty table is undefined behaviour). *)
Definition linear_spline (xs ys : list R) : option spline :=
  if andb (Nat.leb (length xs) (length ys)) (Nat.leb 1 (length xs)) then Some (LinearS xs ys) else None.
Definition cubic_spline (w0 : work) (xs ys : list R) : option spline :=
  if andb (Nat.leb (length xs) (length ys)) (Nat.leb 2 (length xs)) then Some (CubicS xs ys (cubic_work (length xs) (at_ xs) (at_ ys) w0)) else None.
(** Spline.cpp:142-162: the tables of the shifted linear spline, one point longer than the data. *)
Definition sh_X (xs : list R) (tau : R) : arr := fun j =>
  let T := at_ xs 1%nat - at_ xs 0%nat in match j with O => at_ xs 0%nat - (1 - tau) * T | S i => at_ xs i + tau * T end.
Fixpoint sh_Y (ys : list R) (tau : R) (j : nat) : R :=
  match j with O => at_ ys 0%nat | S i => - tau / (1 - tau) * sh_Y ys tau i + 1 / (1 - tau) * at_ ys i end.
(** Spline.cpp:169-172: fewer than two points read xx[1] out of bounds (None). *)
Definition shifted_spline (xs ys : list R) (tau : R) : option spline :=
  if andb (Nat.leb (length xs) (length ys)) (Nat.leb 2 (length xs)) then Some (ShiftS xs ys tau) else None.
(** Spline.cpp:362-367, 378-383. The search is given as much fuel as there are points; None: no value is returned. *)
Definition outside (xs : list R) (x : R) : bool :=
  if Rlt_dec x (at_ xs 0%nat) then true else if Rlt_dec (at_ xs (length xs - 1)%nat) x then true else false.
Definition evaluate (s : spline) (x : R) : option R :=
  match s with
  | NullS => Some 0
  | LinearS xs ys => if outside xs x then Some 0 else
      option_map (fun i => lin_y (at_ xs) (at_ ys) (Z.to_nat i) x) (lookup (length xs) x (length xs) (at_ xs))
  | ShiftS xs ys tau => if outside xs x then Some 0 else
      option_map (fun i => lin_y (sh_X xs tau) (sh_Y ys tau) (Z.to_nat i) x) (lookup (S (length xs)) x (S (length xs)) (sh_X xs tau))
  | CubicS xs ys w => if outside xs x then Some 0 else
      option_map (fun i => cub_y (at_ xs) (at_ ys) w (Z.to_nat i) x) (lookup (length xs) x (length xs) (at_ xs))
  end.
Definition derivative (s : spline) (x : R) : option R :=
  match s with
  | NullS => Some 0
  | LinearS xs ys => if outside xs x then Some 0 else
      option_map (fun i => lin_dy (at_ xs) (at_ ys) (Z.to_nat i)) (lookup (length xs) x (length xs) (at_ xs))
  | ShiftS xs ys tau => if outside xs x then Some 0 else
      option_map (fun i => lin_dy (sh_X xs tau) (sh_Y ys tau) (Z.to_nat i)) (lookup (S (length xs)) x (S (length xs)) (sh_X xs tau))
  | CubicS xs ys w => if outside xs x then Some 0 else
      option_map (fun i => cub_dy (at_ xs) w (Z.to_nat i) x) (lookup (length xs) x (length xs) (at_ xs))
  end.
