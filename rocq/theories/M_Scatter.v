(** Model of the scattered start of a minimisation: /repo/pyRSD/rsdfit/solvers/lbfgs_solver.py:29-42 (InitializeWithScatter), 49-66 (run: which start is used),
    with parameter.py:265-289 (the value setter stores the value as it is), 445-456 (within_bounds of the stored value: M_Init).  Floats are reals; the standard normal
    draws are an arbitrary sequence of rows; np.random.normal refuses a negative scale.  Not modelled: the driver never passes init_from = 'prior' to this solver
    (driver.py:565-566). *)
From Coq Require Import Reals List Bool.
From Verif Require Import M_Init.
Import ListNotations.
Local Open Scope R_scope.

Fixpoint zip {A B C} (g : A -> B -> C) (l : list A) (m : list B) : list C := match l, m with a :: l, b :: m => g a b :: zip g l m | _, _ => [] end.
Definition negb_real (x : R) : bool := if Rlt_dec x 0 then true else false.
(** x + np.random.normal(scale=scatter*x), for the deviates [z] *)
Definition proposal (scatter : R) (x z : list R) : list R := zip (fun a b => a + scatter * a * b) x z.
(** all(p.within_bounds() for p in params), each parameter holding its value *)
Definition all_within (ps : list par) (p0 : list R) : bool := forallb (fun b => b) (zip within_bounds ps p0).
(** [Start]: the starting point and the values of the parameters; [Running]: not ended after [fuel] draws *)
Inductive started := Start (p0 values : list R) | ValueError | Running.
Fixpoint redraw (fuel : nat) (ps : list par) (scatter : R) (x : list R) (draws : nat -> list R) (i : nat) : started :=
  match fuel with
  | O => Running
  | S fuel => let p0 := proposal scatter x (draws i) in if all_within ps p0 then Start p0 p0 else redraw fuel ps scatter x draws (S i)
  end.
Definition with_scatter (fuel : nat) (ps : list par) (scatter : R) (x : list R) (draws : nat -> list R) : started :=
  if existsb (fun a => negb_real (scatter * a)) x then ValueError else redraw fuel ps scatter x draws 0.
Inductive init_from := Fiducial | Result | Nlopt | PreviousRun.
Definition start (fuel : nat) (from : init_from) (ps : list par) (scatter : R) (x held : list R) (draws : nat -> list R) : started :=
  match from with
  | Fiducial | Result => if Rlt_dec 0 scatter then with_scatter fuel ps scatter x draws else Start x held
  | _ => Start x held
  end.
