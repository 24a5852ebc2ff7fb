(** Model of a whole rsdfit run as seen from the result folder: rsdfit/rsdfit.py:11-44 (find_init_result), 108-183 (initialize_algorithm, the part about
    start_from), 231-280 (RSDFitDriver.run, main); rsdfit/driver.py:455-494 (set_restart), 512-622 (run, finalize_fit); rsdfit/util/rsd_logging.py:50-105
    (FileLogger), rsdfit/util/mpi_manager.py:99-122 (MPIManager.__exit__); rsdfit/util/rsd_io.py:69-113 (create_output_file).
    Several chains run at once on one folder; each is a program of file operations, interleaved by an arbitrary schedule; a crash is the end of the schedule.
    A complete result is the list of the iterations it went through. A file name is the part before "__" (date, tag and chain) and the number after it; the
    exact strings are in M_Ranks. The solver, the loading of models, signals during the exit handlers and partial directory listings are not modelled. *)
From Coq Require Import String Reals Arith Bool.
From Coq Require Import List.
Import ListNotations.

Definition name := (string * nat)%type.
Definition name_eqb (a b : name) : bool := String.eqb (fst a) (fst b) && Nat.eqb (snd a) (snd b).
(** Empty: touched only. Partial: np.savez has opened it. Full: a complete archive. *)
Inductive content := Empty | Partial | Full (c : list nat).
Definition fs := list (name * content).
Fixpoint lookup (n : name) (f : fs) : option content := match f with [] => None | (m, c) :: f => if name_eqb n m then Some c else lookup n f end.
Fixpoint remove (n : name) (f : fs) : fs := match f with [] => [] | (m, c) :: f => if name_eqb n m then remove n f else (m, c) :: remove n f end.
Definition put (n : name) (c : content) (f : fs) : fs := (n, c) :: remove n f.
(** open(name, 'a').close() *)
Definition touch (n : name) (f : fs) : fs := match lookup n f with Some _ => f | None => (n, Empty) :: f end.
(** rsd_io.py:96-108: one more than the largest number in use (the probing loop then stops at once) *)
Fixpoint largest (b : string) (f : fs) : nat := match f with [] => 0 | (m, _) :: f => if String.eqb b (fst m) then Nat.max (snd m) (largest b f) else largest b f end.
Definition fresh (b : string) (f : fs) : name := (b, S (largest b f)).

Inductive exc := Interrupt | Failure.
(** what the solver does: emcee_solver.run and lbfgs_solver.run raise before they start, return results and perhaps an exception, or (L-BFGS only) no results *)
Inductive outcome := Raises | NoResults | Returns (new : list nat) (e : option exc).
Record job := { j_restart : option name; j_base : string; j_solver : outcome;
  j_name_ok : bool; (* create_output_file does not raise *) j_save_ok : bool; (* to_npz does not raise *) j_summary_ok : bool; j_logs_ok : bool (* the folder logs (and the old log) exist *) }.
Inductive pc := Loading | Solving (old : list nat) | Choosing (r : list nat) (e : option exc) | Touching (n : name) (r : list nat) (e : option exc)
  | Opening (n : name) (r : list nat) (e : option exc) | Writing (n : name) (r : list nat) (e : option exc) | Summarizing (n : name) (r : list nat) (e : option exc)
  | Leaving (out : option name) (raised : bool) | Done (out : option name) (raised log : bool).
Definition is_some {A} (o : option A) : bool := match o with Some _ => true | None => false end.
(** one atomic action of one chain *)
Definition step1 (j : job) (p : pc) (f : fs) : pc * fs :=
  match p with
  | Loading => (* set_restart: self.results = restart_file *)
      match j_restart j with
      | None => (Solving [], f)
      | Some r => match lookup r f with Some (Full c) => (Solving c, f) | _ => (Leaving None true, f) end
      end
  | Solving old => match j_solver j with Raises => (Leaving None true, f) | NoResults => (Leaving None true, f) | Returns new e => (Choosing (old ++ new) e, f) end
  | Choosing r e => if j_name_ok j then (Touching (fresh (j_base j) f) r e, f) else (Leaving None true, f)
  | Touching n r e => (Opening n r e, touch n f)
  | Opening n r e => (Writing n r e, put n Partial f)
  | Writing n r e => if j_save_ok j then (Summarizing n r e, put n (Full r) f) else (Leaving (Some n) true, f)
  | Summarizing n r e => (* finalize_fit, then raise logger.exception *)
      match e with
      | Some Failure => (Leaving (Some n) true, f)
      | _ => (Leaving (Some n) (if j_summary_ok j then is_some e else true), f)
      end
  | Leaving out raised => (* FileLogger.__exit__: copy_log needs the name of the output; the old results go only if nothing was raised *)
      (Done out raised (is_some out && j_logs_ok j), if raised then f else match j_restart j with Some r => remove r f | None => f end)
  | Done out raised log => (Done out raised log, f)
  end.
Record state := { pcs : list pc; files : fs }.
Fixpoint set_pc (i : nat) (p : pc) (l : list pc) : list pc := match l, i with [], _ => [] | _ :: t, O => p :: t | a :: t, S i => a :: set_pc i p t end.
Definition step (jobs : list job) (s : state) (i : nat) : state :=
  match nth_error jobs i, nth_error (pcs s) i with
  | Some j, Some p => let q := step1 j p (files s) in {| pcs := set_pc i (fst q) (pcs s); files := snd q |}
  | _, _ => s
  end.
Fixpoint exec (jobs : list job) (s : state) (schedule : list nat) : state := match schedule with [] => s | i :: t => exec jobs (step jobs s i) t end.
Definition start (jobs : list job) (f : fs) : state := {| pcs := map (fun _ => Loading) jobs; files := f |}.
(** rsdfit.py:264-275: both context managers return True, so run() returns and main calls os._exit(0) *)
Definition exit_status (p : pc) : option nat := match p with Done _ _ _ => Some 0 | _ => None end.

(** ** find_init_result and init_from = 'result' *)
Local Open Scope R_scope.
(** a .npz file: emcee results (largest ln prob, free names and values there), L-BFGS results (objective at the minimum, names, values), anything else *)
Inductive npz := Emcee (lnprob : R) (best : list (string * R)) | Lbfgs (F : R) (best : list (string * R)) | Unreadable.
Definition score (x : npz) : option R := match x with Emcee l _ => Some l | Lbfgs F _ => Some (- F) | Unreadable => None end.
Definition best_of (x : npz) : option (list (string * R)) := match x with Emcee _ b => Some b | Lbfgs _ b => Some b | Unreadable => None end.
Fixpoint scores (l : list (string * npz)) : option (list (string * R)) :=
  match l with [] => Some [] | (n, x) :: t => match score x, scores t with Some s, Some r => Some ((n, s) :: r) | _, _ => None end end.
(** max(enumerate(..), key=itemgetter(1)): the first of the largest *)
Fixpoint maxi (b : string * R) (l : list (string * R)) : string * R := match l with [] => b | x :: t => maxi (if Rlt_dec (snd b) (snd x) then x else b) t end.
(** the .npz files of a folder in the order of glob; None: an exception *)
Definition find_init (l : list (string * npz)) : option string :=
  match scores l with Some (x :: t) => Some (fst (maxi x t)) | _ => None end.
Record world := { w_dir : string -> option (list (string * npz)); w_file : string -> npz }.
(** the driver has its own attribute start_from, read from the parameter file, and the parameter set: only the latter is changed here (rsdfit.py:158-170) *)
Record drv := { d_attr : option string; d_par : option string }.
Definition new_driver (p : option string) : drv := {| d_attr := p; d_par := p |}.
Definition initialize (w : world) (folder : string) (d : drv) : option drv :=
  let found := match d_par d with
    | None => match w_dir w folder with Some l => find_init l | None => None end
    | Some p => match w_dir w p with Some l => find_init l | None => Some p end
    end in
  match found with Some s => Some {| d_attr := d_attr d; d_par := Some s |} | None => None end.
(** driver.py:538-561. A float array: None is NaN. The outer None: an exception. *)
Fixpoint assoc (k : string) (l : list (string * R)) : option R := match l with [] => None | (a, v) :: t => if String.eqb k a then Some v else assoc k t end.
(** dict(zip(..)): the last pair counts *)
Definition start_values (best : list (string * R)) (free : list (string * option R)) : list (option R) :=
  map (fun kf => match assoc (fst kf) (rev best) with Some v => Some v | None => snd kf end) free.
Definition run_start (w : world) (d : drv) (free : list (string * option R)) : option (list (option R)) :=
  match d_attr d with
  | None => None
  | Some p => match w_dir w p with Some _ => None | None => option_map (fun b => start_values b free) (best_of (w_file w p)) end
  end.
