(** Model of the command line of rsdfit and of the start of its processes: /repo/pyRSD/rsdfit/util/rsd_parser.py:31-63 (existing_file, positive_int), 66-112,
    114-150, 152-190 (the subparsers mcmc, nlopt, restart), 343-405 (verify_arguments); rsdfit/rsdfit.py:69-94 (create), 103-181 (initialize_algorithm),
    183-204 (preprocess); rsdfit/driver.py:268-322 (from_directory), 496-510 (to_file); rsdfit/util/mpi_manager.py is in M_Ranks, the run itself in M_Run.
    Python's int() on texts, os.path.abspath and dirname are oracles. A path is its text: two texts for one file are two paths. os.makedirs makes the
    path itself (creation of parents and permissions are not modelled). The analyze subcommand, --silent, --debug and the loggers are not modelled. *)
From Coq Require Import ZArith Bool Ascii String Arith.
From Coq Require Import List.
Import ListNotations.
Local Open Scope string_scope.

Inductive kind := File | Dir.
Definition fs := string -> option kind.
Definition isfile (f : fs) p := match f p with Some File => true | _ => false end.
Definition isdir (f : fs) p := match f p with Some Dir => true | _ => false end.
Definition exists_ (f : fs) p := match f p with Some _ => true | None => false end.
Definition set (f : fs) p k : fs := fun q => if q =? p then Some k else f q.
Definition starts_slash (s : string) : bool := match s with String c _ => if Ascii.eqb c "/"%char then true else false | EmptyString => false end.
Fixpoint ends_slash (s : string) : bool := match s with EmptyString => false | String c EmptyString => if Ascii.eqb c "/"%char then true else false | String _ s => ends_slash s end.
(** posixpath.join *)
Definition join (a b : string) : string := if starts_slash b then b else if (a =? "") || ends_slash a then a ++ b else a ++ "/" ++ b.
(** rsdfit/__init__.py:1-2 *)
Definition params_filename := "params.dat".
Definition model_filename := "model.npy".

Inductive mode := Mcmc | Nlopt | Restart.
(** what is typed *)
Record command := { c_mode : mode; c_model : option string; c_params : option string; c_folder : option string; c_walkers : option string; c_iterations : option string;
  c_nchains : option string; c_burnin : option string; c_files : list string; c_no_save : bool }.
(** the namespace *)
Record ns := { n_mode : mode; n_model : option string; n_params : string; n_folder : string; n_walkers : option Z; n_iterations : Z; n_nchains : Z; n_burnin : option Z;
  n_files : list string; n_no_save : bool }.
(** SystemExit of argparse, ConfigurationError, OSError of makedirs with the files at that point *)
Inductive parsed := Rejected | ConfigError | MkdirError (f : fs) | Accepted (n : ns) (f : fs).

Section Cli.
Variable int_of : string -> option Z.
Variable folder_of : string -> string.          (* os.path.abspath(os.path.dirname(.)) *)

(** rsd_parser.py:44-63 *)
Definition positive_int (s : string) : option Z := match int_of s with Some v => if (v <=? 0)%Z then None else Some v | None => None end.
(** an option with a type, and whether it is required; None = argparse exits *)
Definition opt {A} (conv : string -> option A) (required : bool) (v : option string) : option (option A) :=
  match v with None => if required then None else Some None | Some s => option_map Some (conv s) end.
Definition existing (f : fs) (p : string) : option string := if isfile f p then Some p else None.
Definition makedirs (f : fs) (p : string) : option fs := if exists_ f p then None else Some (set f p Dir).
(** rsd_parser.py:396-403 *)
Definition with_logs (f : fs) (n : ns) : parsed :=
  let l := join (n_folder n) "logs" in
  if exists_ f l then Accepted n f else match makedirs f l with Some f' => Accepted n f' | None => MkdirError f end.
(** rsd_parser.py:349-362: restart; the model is a required option *)
Definition parse_restart (f : fs) (c : command) : parsed :=
  match opt (existing f) true (c_model c), opt positive_int true (c_iterations c), opt positive_int false (c_burnin c), c_files c with
  | Some m, Some (Some i), Some b, r :: rs =>
    if forallb (isfile f) (r :: rs) then
      let folder := folder_of r in
      let params := join folder params_filename in
      if negb (exists_ f params) then ConfigError else
      let m' := match m with Some p => Some p | None => Some (join folder model_filename) end in
      with_logs f {| n_mode := Restart; n_model := m'; n_params := params; n_folder := folder; n_walkers := None; n_iterations := i;
                     n_nchains := Z.of_nat (length (r :: rs)); n_burnin := b; n_files := r :: rs; n_no_save := false |}
    else Rejected
  | _, _, _, _ => Rejected
  end.
(** rsd_parser.py:364-394 *)
Definition parse_new (f : fs) (c : command) : parsed :=
  match opt (existing f) false (c_model c), opt (existing f) false (c_params c), c_folder c, opt positive_int (match c_mode c with Mcmc => true | _ => false end) (c_walkers c),
        opt positive_int true (c_iterations c), opt positive_int false (c_nchains c) with
  | Some m, Some p, Some folder, Some w, Some (Some i), Some n =>
    let args m p := {| n_mode := c_mode c; n_model := m; n_params := p; n_folder := folder; n_walkers := w; n_iterations := i;
                       n_nchains := match n with Some n => n | None => 1%Z end; n_burnin := None; n_files := []; n_no_save := c_no_save c |} in
    if isdir f folder then
      let params_path := join folder params_filename in
      let model_path := join folder model_filename in
      let m' := if exists_ f model_path then match m with None => Some model_path | m => m end else m in
      if exists_ f params_path then with_logs f (args m' params_path)
      else match p with None => ConfigError | Some p => with_logs f (args m' p) end
    else match p with
         | None => ConfigError
         | Some p => match makedirs f folder with None => MkdirError f | Some f' => with_logs f' (args m p) end
         end
  | _, _, _, _, _, _ => Rejected
  end.
Definition parse (f : fs) (c : command) : parsed := match c_mode c with Restart => parse_restart f c | _ => parse_new f c end.

(** where the model comes from *)
Inductive source := Load (p : string) | Init | NoModel.
(** driver.py:290-322, without a results file; None = ConfigurationError *)
Definition from_directory (f : fs) (dir : string) (model_file : option string) (init_model : bool) : option (string * source) :=
  if negb (isdir f dir) then None else
  let params_path := join dir params_filename in
  match model_file with
  | Some m => if negb (exists_ f m) then None else if negb (exists_ f params_path) then None else Some (params_path, Load m)
  | None => if negb (exists_ f params_path) then None else Some (params_path, if init_model then Init else NoModel)
  end.
Variable model_dir : string -> option string.   (* driver.model_dir in a parameter file *)
(** rsdfit.py:112-135 and 166-171: the parameter file that is read, the model, and the file the model is saved to *)
Definition initialize (f : fs) (n : ns) : option (string * source * option string) :=
  match n_mode n with
  | Restart => option_map (fun r => (r, None)) (from_directory f (n_folder n) (n_model n) true)
  | _ =>
    let params_file := join (n_folder n) params_filename in
    if isdir f (n_folder n) && (n_params n =? params_file) && exists_ f params_file then option_map (fun r => (r, None)) (from_directory f (n_folder n) (n_model n) true)
    else match n_model n with
         | Some m => Some (n_params n, Load m, None)
         | None => Some (n_params n, Init, if n_no_save n then None
                                           else Some (join (match model_dir (n_params n) with Some d => d | None => n_folder n end) model_filename))
         end
  end.
(** open(path, 'w') or np.save: None if the path is a directory *)
Definition write (f : fs) (p : string) : option fs := if isdir f p then None else Some (set f p File).
(** A run of one process: what it uses (None: it raised) and the files after its start; rsdfit.py:137-139 writes the parameter file of the folder *)
Definition start (f : fs) (c : command) : option (string * source) * fs :=
  match parse f c with
  | Accepted n f =>
    match initialize f n with
    | Some (p, s, save) =>
      match (match save with Some m => write f m | None => Some f end) with
      | None => (None, f)
      | Some f => match n_mode n with
                  | Restart => (Some (p, s), f)
                  | _ => match write f (join (n_folder n) params_filename) with Some f => (Some (p, s), f) | None => (None, f) end
                  end
      end
    | None => (None, f)
    end
  | MkdirError f => (None, f)
  | _ => (None, f)
  end.
Fixpoint starts (f : fs) (cs : list command) : fs := match cs with [] => f | c :: cs => starts (snd (start f c)) cs end.
End Cli.

(** The processes of a run up to their common start.  rsdfit.py:77-85: rank 0 parses and broadcasts; 192-193: every rank checks nchains; then every rank reads the
    parameter file, rank 0 rewrites the file of the folder (driver.py:505-510: opened with 'w', then four blocks are appended), and all wait for each other.
    What rank 0 writes is taken to be what it read (see M_ParamWrite); a rank reads the file at once. *)
Section Ranks.
Variable block : Type.
Inductive pc := Parsing | Waiting_bcast | Reading | Writing (own : list block) (todo : list block) | At_barrier (own : list block) | Failed.
Record world := { ranks : list pc; target : list block (* <folder>/params.dat *); sent : bool }.
(** What is fixed: whether the command line is accepted, whether nchains fits, and the file to read: None = the file of the folder *)
Record job := { accepted : bool; fits : bool; other : option (list block) }.
Fixpoint upd (l : list pc) (i : nat) (p : pc) : list pc := match l, i with [], _ => [] | _ :: l, O => p :: l | q :: l, S i => q :: upd l i p end.
Definition after_create (j : job) : pc := if fits j then Reading else Failed.
(** one step of rank i; None: it cannot move *)
Definition step (j : job) (w : world) (i : nat) : option world :=
  match nth_error (ranks w) i with
  | None => None
  | Some p =>
    match p with
    | Parsing => if accepted j then Some {| ranks := upd (ranks w) i (after_create j); target := target w; sent := true |}
                 else Some {| ranks := upd (ranks w) i Failed; target := target w; sent := sent w |}
    | Waiting_bcast => if sent w then Some {| ranks := upd (ranks w) i (after_create j); target := target w; sent := sent w |} else None
    | Reading => let c := match other j with Some c => c | None => target w end in
                 match i with
                 | O => Some {| ranks := upd (ranks w) i (Writing c c); target := [] ; sent := sent w |}
                 | S _ => Some {| ranks := upd (ranks w) i (At_barrier c); target := target w; sent := sent w |}
                 end
    | Writing c [] => Some {| ranks := upd (ranks w) i (At_barrier c); target := target w; sent := sent w |}
    | Writing c (b :: bs) => Some {| ranks := upd (ranks w) i (Writing c bs); target := (target w ++ [b])%list; sent := sent w |}
    | At_barrier _ => None
    | Failed => None
    end
  end.
Fixpoint exec (j : job) (w : world) (sched : list nat) : world :=
  match sched with [] => w | i :: sched => exec j (match step j w i with Some w' => w' | None => w end) sched end.
(** n + 1 processes *)
Definition world0 (n : nat) (file : list block) : world := {| ranks := Parsing :: repeat Waiting_bcast n; target := file; sent := false |}.
End Ranks.
