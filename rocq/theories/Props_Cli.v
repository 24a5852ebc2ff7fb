(** * Properties C198-C202: the command line and the start of a run *)
From Coq Require Import ZArith Bool Ascii String Lia Arith.
From Coq Require Import List.
From Verif Require Import M_Cli S_Cli P_Cli P_Cli2.
Import ListNotations.

Section Cli.
Local Open Scope string_scope.
Variable int_of : string -> option Z.
Variable folder_of : string -> string.
Variable model_dir : string -> option string.

(** ** C198 A command line is accepted exactly if its options are acceptable; then it selects the parameter file, the model, the folder and the numbers that the
    specification says, and creates the folder and its logs; otherwise nothing is created.  An acceptable one can only fail on a folder that is a regular file. *)
Theorem C198_selection : forall f c, describes int_of folder_of f c (parse int_of folder_of f c).
Proof. intros f c. apply parse_describes. Qed.
(** the converse reading *)
Theorem C198_accepted_iff : forall f c, (forall d, c_folder c = Some d -> f d <> Some File) ->
  ((exists n f', parse int_of folder_of f c = Accepted n f') <-> acceptable int_of folder_of f c).
Proof.
  intros f c Hd. assert (D := parse_describes int_of folder_of f c). destruct (parse int_of folder_of f c) as [| |f1|n f1]; cbn in D; split.
  - intros (n & f' & E). discriminate. - tauto.
  - intros (n & f' & E). discriminate. - tauto.
  - intros (n & f' & E). discriminate. - intros _. destruct D as (_ & _ & _ & d & D1 & D2). exfalso. apply (Hd d); auto.
  - tauto. - intros _. eauto.
Qed.

(** ** C199 A folder keeps its parameters and its model: after any commands whatever, every fit in a folder with a parameter file uses that file, whatever -p says,
    and the model given with -m, else the model file of the folder. *)
Theorem C199_folder_keeps : forall f cs c d p s, c_mode c <> Restart -> c_folder c = Some d -> f d = Some Dir -> f (join d "params.dat") <> None ->
  fst (start int_of folder_of model_dir (starts int_of folder_of model_dir f cs) c) = Some (p, s) ->
  p = join d "params.dat" /\ (forall m, c_model c = Some m -> s = Load m) /\ (c_model c = None -> f (join d "model.npy") <> None -> s = Load (join d "model.npy")).
Proof.
  intros f cs c d p s Hm Hd H1 H2 H. assert (G := starts_grows int_of folder_of model_dir cs f).
  destruct (start_uses int_of folder_of model_dir _ c d p s Hm Hd (G _ _ H1) (grows_some _ _ _ G H2) H) as (A & B & C & _).
  split; auto. split; auto. intros Q1 Q2. apply C; auto. eapply grows_some; eauto.
Qed.

(** ** C200 A model that had to be initialised is saved and used again.  Proved: the first fit of a new folder without -m saves it there (unless it is told not to,
    or the parameter file names another folder), and every later fit without -m loads it. *)
Theorem C200_new_folder_partial : forall f c d p0 cs c2 p s,
  c_mode c <> Restart -> c_folder c = Some d -> f d = None -> c_model c = None -> c_params c = Some p0 -> model_dir p0 = None -> c_no_save c = false -> join d "model.npy" <> d -> p0 <> join d "params.dat" ->
  fst (start int_of folder_of model_dir f c) <> None ->
  c_mode c2 <> Restart -> c_folder c2 = Some d -> c_model c2 = None ->
  fst (start int_of folder_of model_dir (starts int_of folder_of model_dir (snd (start int_of folder_of model_dir f c)) cs) c2) = Some (p, s) -> s = Load (join d "model.npy").
Proof.
  intros f c d p0 cs c2 p s Hm Hd Hf HM HP Hmd Hns ND NP Hok Hm2 Hd2 HM2.
  assert (K : let g := snd (start int_of folder_of model_dir f c) in g d = Some Dir /\ g (join d "params.dat") <> None /\ g (join d "model.npy") <> None).
  { revert Hok. unfold start. assert (D := parse_describes int_of folder_of f c). destruct (parse int_of folder_of f c) as [| |f1|n f1]; cbn [fst snd]; try congruence.
    destruct D as (_ & Hn & _ & M & S).
    assert (S' : c_folder c = Some (n_folder n) /\ params_used f c (n_folder n) (n_params n) /\ model_used f c (n_folder n) (n_model n) /\ f1 (n_folder n) = Some Dir /\ n_no_save n = c_no_save c)
      by (destruct (c_mode c); try congruence; tauto).
    clear S. destruct S' as (S1 & S2 & S3 & S4 & S5). rewrite Hd in S1. injection S1 as S1. subst d.
    assert (P : n_params n = p0) by (inversion S2; congruence). assert (MM : n_model n = None) by (inversion S3; congruence).
    assert (IN : initialize model_dir f1 n = Some (p0, Init, Some (join (n_folder n) "model.npy"))).
    { unfold initialize. rewrite Hn, P, MM, S5, Hns, Hmd. apply String.eqb_neq in NP. unfold params_filename, model_filename. rewrite NP, andb_false_r. cbn [andb]. destruct (c_mode c); congruence. }
    rewrite IN. destruct (write f1 (join (n_folder n) "model.npy")) as [f2|] eqn:W; [|cbn; congruence].
    destruct (write f2 (join (n_folder n) params_filename)) as [f3|] eqn:W2; [|destruct (n_mode n); cbn; congruence].
    intros _. assert (Q : snd (match n_mode n with Restart => (Some (p0, Init), f2) | _ => (Some (p0, Init), f3) end) = f3).
    { assert (NR : n_mode n <> Restart) by congruence. destruct (n_mode n); auto; contradiction NR; reflexivity. }
    rewrite Q. assert (G1 := write_grows _ _ _ W). assert (G2 := write_grows _ _ _ W2).
    assert (K2 : f2 (join (n_folder n) "model.npy") <> None).
    { unfold write in W. destruct (isdir f1 (join (n_folder n) "model.npy")); inversion W. rewrite set_same. discriminate. }
    split; [apply G2, G1; auto|]. split; [|eapply grows_some; eauto].
    unfold write, params_filename in W2. destruct (isdir f2 (join (n_folder n) "params.dat")); inversion W2. rewrite set_same. discriminate. }
  destruct K as (K1 & K2 & K3). intros H. destruct (C199_folder_keeps _ cs c2 d p s Hm2 Hd2 K1 K2 H) as (_ & _ & Q). auto.
Qed.
(** Refuted: a folder with a parameter file but no model file never gets one, whatever the runs: each initialises the model again. *)
Theorem C200_never_saved_refuted : forall f d cs c p s, f d = Some Dir -> f (join d "params.dat") <> None -> f (join d "model.npy") = None -> join d "model.npy" <> d ->
  (forall c, In c cs -> c_mode c <> Restart /\ c_folder c = Some d) -> c_mode c <> Restart -> c_folder c = Some d -> c_model c = None ->
  fst (start int_of folder_of model_dir (starts int_of folder_of model_dir f cs) c) = Some (p, s) -> s = Init.
Proof.
  intros f d cs c p s H1 H2 H3 ND Hcs Hm Hd HM H.
  assert (K : (starts int_of folder_of model_dir f cs) (join d "model.npy") = None).
  { clear H. revert f H1 H2 H3. induction cs as [|c' cs IH]; intros f H1 H2 H3; cbn [starts]; auto. destruct (Hcs c' (or_introl eq_refl)) as [A B].
    assert (G := start_grows int_of folder_of model_dir f c'). apply IH; auto.
    - intros; apply Hcs; right; auto. - eapply grows_some; eauto. - apply (start_no_model int_of folder_of model_dir f c' d); auto. }
  assert (G := starts_grows int_of folder_of model_dir cs f).
  destruct (start_uses int_of folder_of model_dir _ c d p s Hm Hd (G _ _ H1) (grows_some _ _ _ G H2) H) as (_ & _ & _ & Q). auto.
Qed.
(** Refuted: from_directory, documented to load a model file that exists in the directory, initialises a new model (or none). *)
Theorem C200_from_directory_refuted : forall f d init, f d = Some Dir -> f (join d "params.dat") <> None -> f (join d "model.npy") = Some File ->
  from_directory f d None init = Some (join d "params.dat", if init then Init else NoModel).
Proof.
  intros f d init H1 H2 H3. unfold from_directory. assert (E1 : isdir f d = true) by (apply isdir_iff; auto). assert (E2 : exists_ f (join d params_filename) = true) by (apply exists_iff; auto).
  rewrite E1, E2. destruct init; reflexivity.
Qed.
End Cli.

Section Processes.
Context {block : Type}.
Notation final j n file sched := (exec block j (world0 block n file) sched).

(** ** C201 A bad command line ends every process.  Proved: with an accepted command line, or with one process, whoever cannot move has ended, all in the same way. *)
Theorem C201_all_end_partial : forall j n file sched, accepted block j = true \/ n = 0 -> stuck j (final j n file sched) ->
  length (ranks block (final j n file sched)) = S n /\
  forall i p, nth_error (ranks block (final j n file sched)) i = Some p -> ended p /\ (p = Failed block <-> accepted block j = false \/ fits block j = false).
Proof. intros j n file sched H. apply no_deadlock. exact H. Qed.
(** Refuted: with several processes and a rejected command line, all but the first wait for ever. *)
Theorem C201_wait_forever_refuted : forall j n file sched i, accepted block j = false -> 0 < i <= n ->
  nth_error (ranks block (final j n file sched)) i = Some (Waiting_bcast block) /\ ~ ended (Waiting_bcast block).
Proof. intros j n file sched i H1 H2. split; [apply rejected_waits; auto|]. intros []. Qed.

(** ** C202 All processes of a run have the same parameters.  Proved: for a parameter file that the run does not write, or one process, under every schedule. *)
Theorem C202_same_partial : forall j n file c sched i own, other block j = Some c \/ (n = 0 /\ other block j = None /\ c = file) ->
  nth_error (ranks block (final j n file sched)) i = Some (At_barrier block own) -> own = c.
Proof. intros j n file c sched i own H K. eapply same_parameters; eauto. Qed.
(** Refuted: in a folder that is used again, the first process rewrites the parameter file while the others still have to read it: another process can find it empty,
    and the run goes on. *)
Theorem C202_race_refuted : forall j n file, accepted block j = true -> fits block j = true -> other block j = None -> 1 <= n ->
  exists sched, nth_error (ranks block (final j n file sched)) 0 = Some (At_barrier block file) /\ nth_error (ranks block (final j n file sched)) 1 = Some (At_barrier block []) /\
    target block (final j n file sched) = file.
Proof.
  intros j n file Ha Hf Ho Hn. destruct n as [|n]; [lia|].
  assert (EA : forall s1 s2 w, exec block j w (s1 ++ s2) = exec block j (exec block j w s1) s2).
  { induction s1 as [|i s1 IH]; intros s2 w; cbn [app exec]; auto. }
  assert (W : forall todo done q r, exec block j {| ranks := Writing block (done ++ todo) todo :: q :: r; target := done; sent := true |} (repeat 0 (S (length todo))) =
       {| ranks := At_barrier block (done ++ todo) :: q :: r; target := done ++ todo; sent := true |}).
  { induction todo as [|b todo IH]; intros done q r.
    - cbn. rewrite app_nil_r. reflexivity.
    - change (repeat 0 (S (length (b :: todo)))) with (0 :: repeat 0 (S (length todo))). cbn [exec step nth_error ranks target sent upd]. 
      replace (done ++ b :: todo) with ((done ++ [b]) ++ todo) by (rewrite <- app_assoc; reflexivity). apply IH. }
  exists ([0; 1; 0; 1] ++ repeat 0 (S (length file))).
  rewrite EA. assert (F4 : exec block j (world0 block (S n) file) [0; 1; 0; 1] = {| ranks := Writing block file file :: At_barrier block [] :: repeat (Waiting_bcast block) n; target := []; sent := true |}).
  { cbn. unfold step. cbn. rewrite Ha. cbn. unfold after_create. rewrite Hf. cbn. rewrite Ho. cbn. rewrite ?Ho. reflexivity. }
  rewrite F4. assert (WW := W file [] (At_barrier block []) (repeat (Waiting_bcast block) n)). cbn [app] in WW. rewrite WW. cbn. auto.
Qed.
End Processes.

(** Non-vacuity *)
Section Examples.
Local Open Scope string_scope.
Definition ex_int (s : string) : option Z := if s =? "10" then Some 10%Z else if s =? "0" then Some 0%Z else None.
Definition ex_folder (s : string) := "/r".
Definition ex_fs : fs := fun p => if p =? "my.params" then Some File else if p =? "/r" then Some Dir else if p =? "/r/params.dat" then Some File else None.
Definition mcmc (folder : string) (walkers : option string) : command :=
  {| c_mode := Mcmc; c_model := None; c_params := Some "my.params"; c_folder := Some folder; c_walkers := walkers; c_iterations := Some "10"; c_nchains := None; c_burnin := None; c_files := []; c_no_save := false |}.
Example C198_accepts : exists n f, parse ex_int ex_folder ex_fs (mcmc "new" (Some "10")) = Accepted n f /\ n_params n = "my.params" /\ f "new" = Some Dir /\ f "new/logs" = Some Dir /\ n_nchains n = 1%Z.
Proof. eexists _, _. repeat split; reflexivity. Qed.
Example C198_rejects : parse ex_int ex_folder ex_fs (mcmc "new" (Some "0")) = Rejected /\ parse ex_int ex_folder ex_fs (mcmc "new" None) = Rejected /\
  exists f, parse ex_int ex_folder ex_fs (mcmc "my.params" (Some "10")) = MkdirError f.
Proof. repeat split; try reflexivity. eexists. reflexivity. Qed.
(** -p is ignored in a folder with a parameter file, and its model is initialised in every run *)
Example C199_nonvacuous : fst (start ex_int ex_folder (fun _ => None) (starts ex_int ex_folder (fun _ => None) ex_fs [mcmc "/r" (Some "10"); mcmc "new" (Some "10")]) (mcmc "/r" (Some "10")))
  = Some ("/r/params.dat", Init).
Proof. reflexivity. Qed.
(** a new folder: initialised once, then loaded *)
Example C200_nonvacuous : fst (start ex_int ex_folder (fun _ => None) ex_fs (mcmc "new" (Some "10"))) = Some ("my.params", Init) /\
  fst (start ex_int ex_folder (fun _ => None) (snd (start ex_int ex_folder (fun _ => None) ex_fs (mcmc "new" (Some "10")))) (mcmc "new" (Some "10"))) = Some ("new/params.dat", Load "new/model.npy").
Proof. split; reflexivity. Qed.
(** three processes, an accepted command line: all at the barrier *)
Example C201_nonvacuous : ranks nat (exec nat {| accepted := true; fits := true; other := Some [7] |} (world0 nat 2 []) [0; 1; 2; 0; 0; 0; 1; 2]) = [At_barrier nat [7]; At_barrier nat [7]; At_barrier nat [7]].
Proof. reflexivity. Qed.
End Examples.
Print Assumptions C198_selection.
Print Assumptions C198_accepted_iff.
Print Assumptions C199_folder_keeps.
Print Assumptions C200_new_folder_partial.
Print Assumptions C200_never_saved_refuted.
Print Assumptions C200_from_directory_refuted.
Print Assumptions C201_all_end_partial.
Print Assumptions C201_wait_forever_refuted.
Print Assumptions C202_same_partial.
Print Assumptions C202_race_refuted.
