(** Model of the analysis of chains: rsdfit/analysis/tools.py:14-23 (thin_chains), 50-163 (remove_burnin), 215-243 (recover_folder_and_files, the
    result files of a folder), 245-366 (extract_parameter_names: the order of the names), rsdfit/analysis/driver.py:189-218 (error_rescaling,
    min_minus_lkl). Values are reals. The results objects are those of M_Results. Shapes are assumed rectangular.
    Not modelled: messages, file names, plots, tables, fiducial values; burnin fractions below 0; vector parameters. *)
From Coq Require Import String Reals ZArith Bool Arith Lra.
From Coq Require Import List.
From Verif Require Import M_Results.
Import ListNotations.
Local Open Scope R_scope.

Inductive outcome (A : Type) := Done (a : A) | AnalyzeError | Raised.
Arguments Done {A} a. Arguments AnalyzeError {A}. Arguments Raised {A}.

Fixpoint total (l : list R) : R := match l with [] => 0 | x :: l => x + total l end.
(** -result.lnprobs.mean(axis=0)[i] *)
Definition minus_lkl (r : results R) (i : nat) : R := - (total (map (fun w => nth i w 0) (lnprobs r)) / INR (length (lnprobs r))).
(** driver.py:206-218: the smallest over all results and iterations *)
Definition rmin (l : list R) : R := match l with [] => 0 | x :: t => fold_right Rmin x t end.
Definition min_minus_lkl (rs : list (results R)) : R := rmin (map (fun r => rmin (map (minus_lkl r) (seq 0 (iterations r)))) rs).

(** numpy's boolean indexing *)
Fixpoint select {A} (m : list bool) (l : list A) : list A :=
  match m, l with b :: m, x :: l => if b then x :: select m l else select m l | _, _ => [] end.
(** tools.py:99-103; burn: the fraction, int() truncates *)
Definition burn_count (burn : option R) (n : nat) : nat := match burn with None => O | Some b => Z.to_nat (Int_part (b * INR n)) end.
Definition inds (mn cutoff : R) (burn : option R) (r : results R) : list bool :=
  map (fun i => (if Rlt_dec (minus_lkl r i) (mn + cutoff) then true else false) && negb (Nat.ltb i (burn_count burn (iterations r)))) (seq 0 (iterations r)).
(** tools.py:126-128: the arrays are replaced, the parameter objects (table) are not *)
Definition on_iterations (f : forall A, list A -> list A) (r : results R) : results R :=
  {| free := free r; con := con r; chain := map (f _) (chain r); cchain := option_map (map (fun e => (fst e, map (f _) (snd e)))) (cchain r);
     lnprobs := map (f _) (lnprobs r); burnin := burnin r; table := table r |}.
Definition trim (m : list bool) (r : results R) : results R := on_iterations (fun A => @select A m) r.
(** tools.py:116-122: [:, i::3] *)
Definition phase (i n : nat) : list bool := map (fun j => Nat.eqb (Nat.modulo j 3) i) (seq 0 n).
Definition third (i : nat) (r : results R) : results R := on_iterations (fun A l => select (phase i (length l)) l) r.
(** tools.py:80-129: the new results; without constrained parameters the constrained chain is None and cannot be indexed *)
Fixpoint survivors (rs : list (results R)) (single : bool) (mn cutoff : R) (burn : option R) : outcome (list (results R)) :=
  match rs with
  | [] => Done []
  | r :: rs =>
    let m := inds mn cutoff burn r in
    if existsb (fun b => b) m then
      match cchain r with
      | None => Raised
      | Some _ =>
        match survivors rs single mn cutoff burn with
        | Done l => Done (if single then [third 0 (trim m r); third 1 (trim m r); third 2 (trim m r)] ++ l else trim m r :: l)
        | o => o
        end
      end
    else survivors rs single mn cutoff burn
  end.
(** sorted(): by code points *)
Definition str_leb (a b : string) : bool := match String.compare a b with Gt => false | _ => true end.
Fixpoint insert (k : string) (l : list string) : list string := match l with [] => [k] | x :: t => if str_leb k x then k :: l else x :: insert k t end.
Fixpoint sorted_names (l : list string) : list string := match l with [] => [] | x :: t => insert x (sorted_names t) end.
(** tools.py:135-143: one row per walker and iteration; free values in the order of the chain, then the constrained names given *)
Fixpoint columns (names : list string) (cc : list (string * list (list R))) : option (list (list R)) :=
  match names with
  | [] => Some []
  | k :: t => match assoc cc k, columns t cc with Some c, Some r => Some (concat c :: r) | _, _ => None end
  end.
Definition matrix (cn : list string) (r : results R) : outcome (list (list R)) :=
  match cchain r with
  | None => Raised
  | Some cc => match cn, columns cn cc with
               | [], _ => Raised                     (* np.vstack of nothing *)
               | _, None => Raised
               | _, Some cs => Done (map (fun p => snd p ++ map (fun c => nth (fst p) c 0) cs) (combine (seq 0 (length (concat (chain r)))) (concat (chain r))))
               end
  end.
(** tools.py:347-350: info.param_indices *)
Definition param_index (fn cn : list string) (k : string) : nat := if mem k fn then index k fn else (length fn + index k cn)%nat.
Fixpoint scale_at (i : nat) (c : R) (row : list R) : list R :=
  match row, i with [], _ => [] | x :: t, O => x * c :: t | x :: t, S i => x :: scale_at i c t end.
(** tools.py:147-151, for the names given *)
Fixpoint rescale (fn cn : list string) (scales : string -> R) (names : list string) (row : list R) : list R :=
  match names with [] => row | k :: t => rescale fn cn scales t (scale_at (param_index fn cn k) (1 / scales k) row) end.
Fixpoint matrices (fn cn : list string) (scales : string -> R) (rs : list (results R)) : outcome (list (list (list R))) :=
  match rs with
  | [] => Done []
  | r :: t => match matrix cn r, matrices fn cn scales t with
              | Done m, Done l => Done (map (rescale fn cn scales (fn ++ cn)) m :: l)
              | AnalyzeError, _ | _, AnalyzeError => AnalyzeError
              | _, _ => Raised
              end
  end.
(** tools.py:155-158: the sum of the results; the sum makes new parameter objects, a single result keeps its own *)
Fixpoint combine_all (acc : results R) (rs : list (results R)) : outcome (results R) :=
  match rs with [] => Done (set_burnin acc 0) | r :: t => match add R 0 acc r with Ok (c, _) => combine_all c t | _ => Raised end end.
(** tools.py:228-243: the results found in the folder, put in the order of the first *)
Fixpoint align (r0 : results R) (rs : list (results R)) : outcome (list (results R)) :=
  match rs with [] => Done [] | r :: t => match verify_ordering R 0 r (free r0) (con r0), align r0 t with Ok r', Done l => Done (r' :: l) | _, _ => Raised end end.
Record report := { p_free : list string; p_con : list string; p_mats : list (list (list R)); p_comb : results R }.
(** tools.prepare and remove_burnin *)
Definition analyse (found : list (results R)) (cutoff : R) (burn : option R) (scales : string -> R) : outcome report :=
  match found with
  | [] => Raised
  | r0 :: rest =>
    match align r0 rest with
    | Done rest =>
      let rs := r0 :: rest in let fn := sorted_names (free r0) in let cn := sorted_names (con r0) in
      match survivors rs (Nat.eqb (length rs) 1) (min_minus_lkl rs) cutoff burn with
      | Done [] => AnalyzeError
      | Done (a :: l) =>
        match matrices fn cn scales (a :: l), combine_all a l with
        | Done ms, Done c => Done {| p_free := fn; p_con := cn; p_mats := ms; p_comb := c |}
        | AnalyzeError, _ | _, AnalyzeError => AnalyzeError
        | _, _ => Raised
        end
      | AnalyzeError => AnalyzeError
      | Raised => Raised
      end
    | _ => Raised
    end
  end.
(** tools.py:213-243: the arguments are the files asked for; the folder of the first is read whole *)
Definition files_read (asked : list string) (folder_of : string -> string) (in_folder : string -> list string) : list string :=
  match asked with [] => [] | f :: _ => in_folder (folder_of f) end.
(** tools.py:14-23: the constrained chain has two axes and is indexed with three *)
Definition thin (t : nat) (r : results R) : res (results R) := match cchain r with None => @ValueError _ (* None is not subscriptable *) | Some _ => @IndexError _ end.
(** driver.py:189-203 *)
Definition error_rescaling (Nb Ns Np : R) : R :=
  let A := 2 / (Ns - Nb - 1) / (Ns - Nb - 4) in let B := (Ns - Nb - 2) / (Ns - Nb - 1) / (Ns - Nb - 4) in
  sqrt ((1 + B * (Nb - Np)) / (1 + A + B * (Np + 1))).
