(** * Specification of the command line *)
From Coq Require Import ZArith Bool String.
From Coq Require Import List.
From Verif Require Import M_Cli.
Import ListNotations.
Local Open Scope string_scope.

Section Spec.
Variable int_of : string -> option Z.
Variable folder_of : string -> string.
(** a typed option that names a regular file, if it is given *)
Definition names_file (f : fs) (o : option string) : Prop := forall p, o = Some p -> f p = Some File.
Definition positive (o : option string) : Prop := forall s, o = Some s -> exists v, int_of s = Some v /\ (0 < v)%Z.
Definition given {A} (o : option A) : Prop := o <> None.
(** the command lines that mcmc and nlopt take in a directory f *)
Definition acceptable_new (f : fs) (c : command) : Prop :=
  names_file f (c_model c) /\ names_file f (c_params c) /\ positive (c_walkers c) /\ positive (c_iterations c) /\ positive (c_nchains c) /\
  given (c_folder c) /\ given (c_iterations c) /\ (c_mode c = Mcmc -> given (c_walkers c)) /\
  (* a parameter file is given, or there is one in the folder *)
  (given (c_params c) \/ exists d, c_folder c = Some d /\ f d = Some Dir /\ f (join d "params.dat") <> None).
Definition acceptable_restart (f : fs) (c : command) : Prop :=
  given (c_model c) /\ names_file f (c_model c) /\ given (c_iterations c) /\ positive (c_iterations c) /\ positive (c_burnin c) /\
  (exists r rs, c_files c = r :: rs /\ f (join (folder_of r) "params.dat") <> None) /\ (forall r, In r (c_files c) -> f r = Some File).
Definition acceptable f c := match c_mode c with Restart => acceptable_restart f c | _ => acceptable_new f c end.
(** which parameter file is used: that of the folder if there is one, else the one given *)
Inductive params_used (f : fs) (c : command) (d : string) : string -> Prop :=
| P_folder : f d = Some Dir -> f (join d "params.dat") <> None -> params_used f c d (join d "params.dat")
| P_given p : ~ (f d = Some Dir /\ f (join d "params.dat") <> None) -> c_params c = Some p -> params_used f c d p.
(** which model file is used: the one given, else that of the folder if there is one *)
Inductive model_used (f : fs) (c : command) (d : string) : option string -> Prop :=
| M_given m : c_model c = Some m -> model_used f c d (Some m)
| M_folder : c_model c = None -> f d = Some Dir -> f (join d "model.npy") <> None -> model_used f c d (Some (join d "model.npy"))
| M_none : c_model c = None -> ~ (f d = Some Dir /\ f (join d "model.npy") <> None) -> model_used f c d None.
(** f' is f with directories made at the places listed *)
Definition made (f f' : fs) (ps : list string) : Prop := (forall p, In p ps -> f' p <> None) /\ (forall p, f p <> None -> f' p = f p) /\ (forall p, ~ In p ps -> f' p = f p) /\
  forall p, f p = None -> f' p <> None -> f' p = Some Dir.
Definition value_of (o : option string) : option Z := match o with Some s => int_of s | None => None end.
(** What an accepted command line selects *)
Definition selects (f : fs) (c : command) (n : ns) (f' : fs) : Prop :=
  n_mode n = c_mode c /\ value_of (c_iterations c) = Some (n_iterations n) /\ made f f' (match c_mode c with Restart => [join (n_folder n) "logs"] | _ => [n_folder n; join (n_folder n) "logs"] end) /\
  match c_mode c with
  | Restart => (exists r rs, c_files c = r :: rs /\ n_folder n = folder_of r) /\ n_files n = c_files c /\ n_model n = c_model c /\ n_params n = join (n_folder n) "params.dat" /\
               n_nchains n = Z.of_nat (length (c_files c)) /\ n_burnin n = value_of (c_burnin c)
  | _ => c_folder c = Some (n_folder n) /\ params_used f c (n_folder n) (n_params n) /\ model_used f c (n_folder n) (n_model n) /\
         n_walkers n = value_of (c_walkers c) /\ (c_nchains c = None -> n_nchains n = 1%Z) /\ (given (c_nchains c) -> value_of (c_nchains c) = Some (n_nchains n)) /\ f' (n_folder n) = Some Dir /\ n_no_save n = c_no_save c
  end.
(** the outcome of a command line *)
Definition describes (f : fs) (c : command) (r : parsed) : Prop :=
  match r with
  | Accepted n f' => acceptable f c /\ selects f c n f'
  | Rejected | ConfigError => ~ acceptable f c
  | MkdirError f' => acceptable f c /\ f' = f /\ c_mode c <> Restart /\ exists d, c_folder c = Some d /\ f d = Some File
  end.
End Spec.
