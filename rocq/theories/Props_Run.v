(** Properties C189-C194: whole runs, restarts and starting from earlier results. *)
From Coq Require Import String Reals Arith Bool Lia Lra.
From Coq Require Import List.
From Verif Require Import M_Run S_Run P_Run.
Import ListNotations.

(** C189: no schedule and no crash point loses the iterations of a run that is being restarted. *)
Theorem C189_restarts_never_lose_results : forall jobs f0 schedule, NoDup (map j_base jobs) ->
  (forall i k a b r, nth_error jobs i = Some a -> nth_error jobs k = Some b -> j_restart a = Some r -> j_restart b = Some r -> i = k) ->
  (forall j r, In j jobs -> j_restart j = Some r -> exists c, lookup r f0 = Some (Full c)) ->
  forall j r c, In j jobs -> j_restart j = Some r -> lookup r f0 = Some (Full c) -> preserved c (files (exec jobs (start jobs f0) schedule)).
Proof.
  intros jobs f0 schedule HB HR HP j r c HJ Hr Hc. destruct (reach jobs f0 HB HR HP schedule) as (L & O & K). set (s := exec jobs (start jobs f0) schedule) in *.
  apply In_nth_error in HJ. destruct HJ as [i HJ]. destruct (nth_error (pcs s) i) as [p|] eqn:EP. 2: { apply nth_error_None in EP. assert (i < length jobs)%nat by (apply nth_error_Some; congruence). lia. }
  assert (OC : orig f0 j = c) by (unfold orig; rewrite Hr, Hc; reflexivity).
  destruct p as [|old|x e|n x e|n x e|n x e|n x e|o ra|o [|] lo]; try (destruct (K i j _ r HJ EP Hr) as [A _]; [cbn; tauto|]; exists r, []; rewrite app_nil_r, <- OC; exact A).
  pose proof (O i j _ HJ EP) as [A _]. destruct o as [n|]; cbn [okexit] in A; [|destruct A; discriminate]. destruct A as (_ & _ & new & e & _ & R1 & _ & R3). exists n, new. rewrite <- OC. apply R3. apply R1. reflexivity.
Qed.
Print Assumptions C189_restarts_never_lose_results.
(** Every chain ends after eight of its own actions, whatever the others do. *)
Definition left_ (p : pc) : nat := match p with Loading => 8 | Solving _ => 7 | Choosing _ _ => 6 | Touching _ _ _ => 5 | Opening _ _ _ => 4 | Writing _ _ _ => 3 | Summarizing _ _ _ => 2 | Leaving _ _ => 1 | Done _ _ _ => 0 end.
Lemma step1_left j p f : (left_ (fst (step1 j p f)) <= left_ p - 1)%nat.
Proof.
  destruct p as [|old|x e|n x e|n x e|n x e|n x e|o ra|o ra lo]; cbn [step1].
  - destruct (j_restart j); [destruct (lookup n f) as [[| |]|]|]; cbn; lia.
  - destruct (j_solver j); cbn; lia.
  - destruct (j_name_ok j); cbn; lia.
  - cbn; lia. - cbn; lia.
  - destruct (j_save_ok j); cbn; lia.
  - destruct e as [[|]|]; cbn; lia.
  - cbn; lia. - cbn; lia.
Qed.
Lemma exec_left jobs i : forall schedule s p, nth_error (pcs s) i = Some p -> (i < length jobs)%nat ->
  exists q, nth_error (pcs (exec jobs s schedule)) i = Some q /\ (left_ q <= left_ p - actions i schedule)%nat.
Proof.
  induction schedule as [|k t IH]; intros s p HP HL; [exists p; split; [exact HP|cbn; lia]|]. cbn [exec]. unfold actions. cbn [count_occ].
  destruct (nth_error jobs k) as [j|] eqn:EJ; [destruct (nth_error (pcs s) k) as [a|] eqn:EA|].
  - unfold step. rewrite EJ, EA. cbv zeta. destruct (Nat.eq_dec k i) as [->|NE].
    + rewrite HP in EA. injection EA as <-. edestruct (IH {| pcs := set_pc i (fst (step1 j p (files s))) (pcs s); files := snd (step1 j p (files s)) |}) as (q & A & B); [cbn [pcs]; apply nth_set_same; apply nth_error_Some; congruence|exact HL|].
      exists q. split; [exact A|]. pose proof (step1_left j p (files s)). unfold actions in B. lia.
    + apply IH; [|exact HL]. cbn [pcs]. rewrite nth_set_other by exact NE. exact HP.
  - unfold step. rewrite EJ, EA. destruct (Nat.eq_dec k i) as [->|NE]; [congruence|]. apply IH; assumption.
  - unfold step. rewrite EJ. destruct (Nat.eq_dec k i) as [->|NE]; [apply nth_error_None in EJ; lia|]. apply IH; assumption.
Qed.
Theorem C191_every_run_ends : forall jobs f0 schedule i, (i < length jobs)%nat -> (8 <= actions i schedule)%nat ->
  exists p, nth_error (pcs (exec jobs (start jobs f0) schedule)) i = Some p /\ finished p.
Proof.
  intros jobs f0 schedule i HI HA. destruct (nth_error (pcs (start jobs f0)) i) as [p|] eqn:E.
  2: { apply nth_error_None in E. unfold start in E. cbn [pcs] in E. rewrite map_length in E. lia. }
  assert (p = Loading). { unfold start in E. cbn [pcs] in E. apply nth_error_In, in_map_iff in E. destruct E as (x & <- & _). reflexivity. } subst p.
  destruct (exec_left jobs i schedule _ _ E HI) as (q & A & B). exists q. split; [exact A|]. cbn [left_] in B. destruct q; cbn [left_] in B; try lia. exists out, raised, log. reflexivity.
Qed.
Print Assumptions C191_every_run_ends.
(** C191: a run whose solver returned results has saved them, also after an exception; the old file goes only if nothing was raised. *)
Theorem C191_results_saved : forall jobs f0 schedule, NoDup (map j_base jobs) ->
  (forall i k a b r, nth_error jobs i = Some a -> nth_error jobs k = Some b -> j_restart a = Some r -> j_restart b = Some r -> i = k) ->
  (forall j r, In j jobs -> j_restart j = Some r -> exists c, lookup r f0 = Some (Full c)) ->
  forall i j new e out raised log c, nth_error jobs i = Some j -> nth_error (pcs (exec jobs (start jobs f0) schedule)) i = Some (Done out raised log) ->
  match j_restart j with Some r => lookup r f0 = Some (Full c) | None => c = [] end ->
  j_solver j = Returns new e -> quiet j ->
  let f := files (exec jobs (start jobs f0) schedule) in
  (exists n, out = Some n /\ fst n = j_base j /\ lookup n f = Some (Full (c ++ new))) /\ (raised = false <-> e = None) /\ log = j_logs_ok j /\
  (forall r, j_restart j = Some r -> e <> None -> lookup r f = Some (Full c)).
Proof.
  intros jobs f0 schedule HB HR HP i j new e out raised log c HJ HD Hc ES (QN & QS & QM) f. destruct (reach jobs f0 HB HR HP schedule) as (L & O & K). fold f in O, K. 
  assert (OC : orig f0 j = c). { unfold orig. destruct (j_restart j); [rewrite Hc; reflexivity|symmetry; exact Hc]. }
  pose proof (O i j _ HJ HD) as [A LG]. assert (RE : raised = false <-> e = None).
  { destruct out as [n|]; cbn [okexit] in A.
    - destruct A as (_ & _ & new' & e' & ES' & R1 & R2 & _). rewrite ES in ES'. injection ES' as <- <-. split; [intros H; apply R1, H|]. intros ->. destruct raised; [|reflexivity]. destruct (R2 eq_refl) as [H|[H|H]]; congruence.
    - rewrite ES in A. destruct A as [_ [H|[]]]. congruence. }
  split; [|split; [exact RE|split]].
  - destruct out as [n|]; cbn [okexit] in A.
    + destruct A as (B & _ & new' & e' & ES' & _ & _ & R3). rewrite ES in ES'. injection ES' as <- <-. exists n. split; [reflexivity|]. split; [exact B|]. rewrite <- OC. apply R3, QS.
    + rewrite ES in A. destruct A as [_ [H|[]]]. congruence.
  - destruct out as [n|]; [exact LG|]. cbn [okexit] in A. rewrite ES in A. destruct A as [_ [H|[]]]. congruence.
  - intros r Hr He. destruct (K i j _ r HJ HD Hr) as [X _]; [|rewrite <- OC; exact X]. cbn. destruct raised; [tauto|]. exfalso. apply He, RE. reflexivity.
Qed.
Print Assumptions C191_results_saved.
(** A single completed restart: the new file replaces the old one and nothing else changes. *)
Lemma one j p f t q g : step1 j p f = (q, g) -> exec [j] {| pcs := [p]; files := f |} (0%nat :: t) = exec [j] {| pcs := [q]; files := g |} t.
Proof. intros E. cbn [exec]. unfold step. cbn [nth_error pcs files]. rewrite E. reflexivity. Qed.
Theorem C191_restart_replaces : forall j f r c new e, j_restart j = Some r -> lookup r f = Some (Full c) -> j_solver j = Returns new e -> quiet j -> e <> Some Failure ->
  let f' := files (exec [j] (start [j] f) (repeat 0%nat 8)) in
  exists n, fst n = j_base j /\ lookup n f = None /\ lookup n f' = Some (Full (c ++ new)) /\ lookup r f' = match e with None => None | Some _ => Some (Full c) end /\
    forall m, m <> n -> m <> r -> lookup m f' = lookup m f.
Proof.
  intros j f r c new e HR HL HS (QN & QS & QM) HE. cbv zeta. unfold start. cbn [map repeat].
  rewrite (one j Loading f _ (Solving c) f) by (cbn [step1]; rewrite HR, HL; reflexivity). rewrite (one j (Solving c) f _ (Choosing (c ++ new) e) f) by (cbn [step1]; rewrite HS; reflexivity).
  set (n := fresh (j_base j) f). rewrite (one j (Choosing (c ++ new) e) f _ (Touching n (c ++ new) e) f) by (cbn [step1]; rewrite QN; reflexivity).
  rewrite (one j (Touching n (c ++ new) e) f _ (Opening n (c ++ new) e) (touch n f)) by reflexivity. rewrite (one j (Opening n (c ++ new) e) _ _ (Writing n (c ++ new) e) (put n Partial (touch n f))) by reflexivity.
  rewrite (one j (Writing n (c ++ new) e) _ _ (Summarizing n (c ++ new) e) (put n (Full (c ++ new)) (put n Partial (touch n f)))) by (cbn [step1]; rewrite QS; reflexivity).
  set (g := put n (Full (c ++ new)) (put n Partial (touch n f))).
  rewrite (one j (Summarizing n (c ++ new) e) g _ (Leaving (Some n) (is_some e)) g) by (cbn [step1]; rewrite QM; destruct e as [[|]|]; reflexivity).
  rewrite (one j (Leaving (Some n) (is_some e)) g _ (Done (Some n) (is_some e) (j_logs_ok j)) (if is_some e then g else remove r g)) by (cbn [step1]; rewrite HR; reflexivity). cbn [exec files].
  assert (NR : n <> r). { intros E. pose proof (lookup_fresh (j_base j) f) as X. fold n in X. rewrite E in X. congruence. }
  exists n. split; [reflexivity|]. split; [apply lookup_fresh|].
  assert (P : forall m, m <> n -> lookup m g = lookup m f). { intros m Hm. unfold g. rewrite !lookup_put by exact Hm. apply lookup_touch. exact Hm. }
  assert (PN : lookup n g = Some (Full (c ++ new))) by apply lookup_put_same.
  destruct e as [[|]|]; [|contradiction HE; reflexivity|]; cbn [is_some].
  - split; [exact PN|]. split; [rewrite P by congruence; exact HL|]. intros m Hm _. apply P, Hm.
  - split; [rewrite lookup_remove by exact NR; exact PN|]. split; [apply lookup_remove_same|]. intros m Hm Hr. rewrite lookup_remove by exact Hr. apply P, Hm.
Qed.
Print Assumptions C191_restart_replaces.

(** C190: with equal labels (same date, tag and original chain) two restarts can take the same name; the results of one are then in no file at all. *)
Definition ready (r : name) (b : string) (new : list nat) : job := {| j_restart := Some r; j_base := b; j_solver := Returns new None; j_name_ok := true; j_save_ok := true; j_summary_ok := true; j_logs_ok := true |}.
Lemma two0 a b p p1 f t q g : step1 a p f = (q, g) -> exec [a; b] {| pcs := [p; p1]; files := f |} (0%nat :: t) = exec [a; b] {| pcs := [q; p1]; files := g |} t.
Proof. intros E. cbn [exec]. unfold step. cbn [nth_error pcs files]. rewrite E. reflexivity. Qed.
Lemma two1 a b p0 p f t q g : step1 b p f = (q, g) -> exec [a; b] {| pcs := [p0; p]; files := f |} (1%nat :: t) = exec [a; b] {| pcs := [p0; q]; files := g |} t.
Proof. intros E. cbn [exec]. unfold step. cbn [nth_error pcs files]. rewrite E. reflexivity. Qed.
Definition race : list nat := [0; 0; 0; 1; 1; 1; 0; 0; 0; 0; 0; 1; 1; 1; 1; 1]%nat.
Theorem C190_same_label_loses_results_refuted : forall b r0 r1 c0 c1 new0 new1, r0 <> r1 ->
  let f0 := [(r0, Full c0); (r1, Full c1)] in let f := files (exec [ready r0 b new0; ready r1 b new1] (start [ready r0 b new0; ready r1 b new1] f0) race) in
  exists n, f = [(n, Full (c1 ++ new1))] /\ (~ (exists x, c1 ++ new1 = c0 ++ x) -> ~ preserved c0 f).
Proof.
  intros b r0 r1 c0 c1 new0 new1 NR f0. cbv zeta. set (j0 := ready r0 b new0). set (j1 := ready r1 b new1). set (n := fresh b f0).
  assert (L0 : lookup r0 f0 = Some (Full c0)). { unfold f0. cbn [lookup]. destruct (name_eqb_spec r0 r0); [reflexivity|contradiction]. }
  assert (L1 : lookup r1 f0 = Some (Full c1)). { unfold f0. cbn [lookup]. destruct (name_eqb_spec r1 r0); [congruence|]. destruct (name_eqb_spec r1 r1); [reflexivity|contradiction]. }
  assert (N0 : n <> r0). { intros E. pose proof (lookup_fresh b f0) as X. fold n in X. rewrite E in X. congruence. }
  assert (N1 : n <> r1). { intros E. pose proof (lookup_fresh b f0) as X. fold n in X. rewrite E in X. congruence. }
  assert (E0 : name_eqb n r0 = false) by (destruct (name_eqb_spec n r0); [contradiction|reflexivity]). assert (E1 : name_eqb n r1 = false) by (destruct (name_eqb_spec n r1); [contradiction|reflexivity]).
  assert (E2 : name_eqb r0 n = false) by (destruct (name_eqb_spec r0 n); [congruence|reflexivity]). assert (E3 : name_eqb r1 n = false) by (destruct (name_eqb_spec r1 n); [congruence|reflexivity]).
  assert (E4 : name_eqb r0 r1 = false) by (destruct (name_eqb_spec r0 r1); [contradiction|reflexivity]). assert (E5 : name_eqb r1 r0 = false) by (destruct (name_eqb_spec r1 r0); [congruence|reflexivity]).
  assert (R0 : name_eqb r0 r0 = true) by (destruct (name_eqb_spec r0 r0); [reflexivity|contradiction]). assert (R1 : name_eqb r1 r1 = true) by (destruct (name_eqb_spec r1 r1); [reflexivity|contradiction]). assert (RN : name_eqb n n = true) by (destruct (name_eqb_spec n n); [reflexivity|contradiction]).
  assert (F : files (exec [j0; j1] (start [j0; j1] f0) race) = [(n, Full (c1 ++ new1))]).
  { unfold start, race. cbn [map].
    rewrite (two0 j0 j1 Loading _ f0 _ (Solving c0) f0) by (cbn [step1 j0 ready j_restart]; rewrite L0; reflexivity). rewrite (two0 j0 j1 (Solving c0) _ f0 _ (Choosing (c0 ++ new0) None) f0) by reflexivity. rewrite (two0 j0 j1 (Choosing (c0 ++ new0) None) _ f0 _ (Touching n (c0 ++ new0) None) f0) by reflexivity.
    rewrite (two1 j0 j1 _ Loading f0 _ (Solving c1) f0) by (cbn [step1 j1 ready j_restart]; rewrite L1; reflexivity). rewrite (two1 j0 j1 _ (Solving c1) f0 _ (Choosing (c1 ++ new1) None) f0) by reflexivity. rewrite (two1 j0 j1 _ (Choosing (c1 ++ new1) None) f0 _ (Touching n (c1 ++ new1) None) f0) by reflexivity.
    clearbody n. unfold f0.
    rewrite (two0 j0 j1 (Touching n (c0 ++ new0) None) _ _ _ (Opening n (c0 ++ new0) None) [(n, Empty); (r0, Full c0); (r1, Full c1)]) by (cbn [step1]; unfold touch; cbn [lookup]; rewrite E0, E1; reflexivity).
    rewrite (two0 j0 j1 (Opening n (c0 ++ new0) None) _ _ _ (Writing n (c0 ++ new0) None) [(n, Partial); (r0, Full c0); (r1, Full c1)]) by (cbn [step1]; unfold put; cbn [remove]; rewrite RN, E0, E1; reflexivity).
    rewrite (two0 j0 j1 (Writing n (c0 ++ new0) None) _ _ _ (Summarizing n (c0 ++ new0) None) [(n, Full (c0 ++ new0)); (r0, Full c0); (r1, Full c1)]) by (cbn [step1 j0 ready j_save_ok]; unfold put; cbn [remove]; rewrite RN, E0, E1; reflexivity).
    rewrite (two0 j0 j1 (Summarizing n (c0 ++ new0) None) _ _ _ (Leaving (Some n) false) [(n, Full (c0 ++ new0)); (r0, Full c0); (r1, Full c1)]) by reflexivity.
    rewrite (two0 j0 j1 (Leaving (Some n) false) _ _ _ (Done (Some n) false true) [(n, Full (c0 ++ new0)); (r1, Full c1)]) by (cbn [step1 j0 ready j_restart remove]; rewrite E2, R0, E4; reflexivity).
    rewrite (two1 j0 j1 _ (Touching n (c1 ++ new1) None) _ _ (Opening n (c1 ++ new1) None) [(n, Full (c0 ++ new0)); (r1, Full c1)]) by (cbn [step1]; unfold touch; cbn [lookup]; rewrite RN; reflexivity).
    rewrite (two1 j0 j1 _ (Opening n (c1 ++ new1) None) _ _ (Writing n (c1 ++ new1) None) [(n, Partial); (r1, Full c1)]) by (cbn [step1]; unfold put; cbn [remove]; rewrite RN, E1; reflexivity).
    rewrite (two1 j0 j1 _ (Writing n (c1 ++ new1) None) _ _ (Summarizing n (c1 ++ new1) None) [(n, Full (c1 ++ new1)); (r1, Full c1)]) by (cbn [step1 j1 ready j_save_ok]; unfold put; cbn [remove]; rewrite RN, E1; reflexivity).
    rewrite (two1 j0 j1 _ (Summarizing n (c1 ++ new1) None) _ _ (Leaving (Some n) false) [(n, Full (c1 ++ new1)); (r1, Full c1)]) by reflexivity.
    rewrite (two1 j0 j1 _ (Leaving (Some n) false) _ _ (Done (Some n) false true) [(n, Full (c1 ++ new1))]) by (cbn [step1 j1 ready j_restart remove]; rewrite E3, R1; reflexivity). reflexivity. }
  exists n. fold j0 j1. rewrite F. split; [reflexivity|]. intros HX (m & x & HM). cbn [lookup] in HM. destruct (name_eqb m n); [|discriminate]. injection HM as HM. apply HX. exists x. exact HM.
Qed.
Print Assumptions C190_same_label_loses_results_refuted.

(** C192: a failed or interrupted run. (a) after an interrupted restart the iterations of the old file are in two files. *)
Theorem C192_interrupted_restart_duplicates_refuted : forall j f r c new, j_restart j = Some r -> lookup r f = Some (Full c) -> j_solver j = Returns new (Some Interrupt) -> quiet j ->
  exists n, n <> r /\ lookup r (files (exec [j] (start [j] f) (repeat 0%nat 8))) = Some (Full c) /\ lookup n (files (exec [j] (start [j] f) (repeat 0%nat 8))) = Some (Full (c ++ new)).
Proof.
  intros j f r c new HR HL HS HQ. destruct (C191_restart_replaces j f r c new _ HR HL HS HQ) as (n & _ & A & B & D & _); [discriminate|]. exists n. split; [congruence|]. split; [exact D|exact B].
Qed.
Print Assumptions C192_interrupted_restart_duplicates_refuted.
(** (b) a run whose solver raises exits with status 0, its log is removed without having been kept anywhere, and no result is written. *)
Theorem C192_failure_not_reported_refuted : forall j f, j_solver j = Raises -> 
  exists p, pcs (exec [j] (start [j] f) (repeat 0%nat 8)) = [p] /\ p = Done None true false /\ exit_status p = Some 0%nat /\ files (exec [j] (start [j] f) (repeat 0%nat 8)) = f.
Proof.
  intros j f HS. exists (Done None true false). unfold start. cbn [map repeat].
  assert (D : forall t g, exec [j] {| pcs := [Done None true false]; files := g |} (repeat 0%nat t) = {| pcs := [Done None true false]; files := g |}) by (induction t as [|t IH]; intros g; [reflexivity|]; cbn [repeat]; rewrite (one j _ g _ (Done None true false) g) by reflexivity; apply IH).
  assert (V : forall t, exec [j] {| pcs := [Leaving None true]; files := f |} (repeat 0%nat (S t)) = {| pcs := [Done None true false]; files := f |}) by (intros t; cbn [repeat]; rewrite (one j _ f _ (Done None true false) f) by reflexivity; apply D).
  assert (X : exec [j] {| pcs := [Loading]; files := f |} (repeat 0%nat 8) = {| pcs := [Done None true false]; files := f |}).
  { assert (S7 : forall old, exec [j] {| pcs := [Solving old]; files := f |} (repeat 0%nat 7) = {| pcs := [Done None true false]; files := f |}) by (intros old; cbn [repeat]; rewrite (one j _ f _ (Leaving None true) f) by (cbn [step1]; rewrite HS; reflexivity); apply (V 5%nat)).
    cbn [repeat]. destruct (j_restart j) as [r|] eqn:ER; [destruct (lookup r f) as [[| |c]|] eqn:EL|].
    1,2,4: rewrite (one j Loading f _ (Leaving None true) f) by (cbn [step1]; rewrite ER, EL; reflexivity); apply (V 6%nat).
    - rewrite (one j Loading f _ (Solving c) f) by (cbn [step1]; rewrite ER, EL; reflexivity). apply S7.
    - rewrite (one j Loading f _ (Solving []) f) by (cbn [step1]; rewrite ER; reflexivity). apply S7. }
  cbn [repeat] in X. rewrite X. repeat split.
Qed.
Print Assumptions C192_failure_not_reported_refuted.

Definition demo_jobs : list job := [ready ("2016-01-01_20x100_chain0"%string, 1%nat) "2016-01-02_20x200_chain0"%string [4; 5]%nat; {| j_restart := Some ("2016-01-01_20x100_chain1"%string, 1%nat); j_base := "2016-01-02_20x150_chain1"%string; j_solver := Returns [7]%nat (Some Interrupt); j_name_ok := true; j_save_ok := true; j_summary_ok := true; j_logs_ok := true |}].
Definition demo_fs : fs := [(("2016-01-01_20x100_chain0"%string, 1%nat), Full [1; 2; 3]%nat); (("2016-01-01_20x100_chain1"%string, 1%nat), Full [6]%nat)].
Example C189_nonvacuous : NoDup (map j_base demo_jobs) /\
  (forall i k a b r, nth_error demo_jobs i = Some a -> nth_error demo_jobs k = Some b -> j_restart a = Some r -> j_restart b = Some r -> i = k) /\
  (forall j r, In j demo_jobs -> j_restart j = Some r -> exists c, lookup r demo_fs = Some (Full c)) /\
  files (exec demo_jobs (start demo_jobs demo_fs) (repeat 0 8 ++ repeat 1 8)%nat) = [(("2016-01-02_20x150_chain1"%string, 1%nat), Full [6; 7]%nat); (("2016-01-02_20x200_chain0"%string, 1%nat), Full [1; 2; 3; 4; 5]%nat); (("2016-01-01_20x100_chain1"%string, 1%nat), Full [6]%nat)].
Proof.
  split; [|split; [|split]].
  - cbn. constructor; [intros [H|[]]; discriminate|]. constructor; [intros []|constructor].
  - intros [|[|i]] [|[|k]] a b r; cbn; intros A B; try (destruct i; discriminate); try (destruct k; discriminate); injection A as <-; injection B as <-; cbn; intros C D; try reflexivity; congruence.
  - intros j r [<-|[<-|[]]]; cbn; intros H; injection H as <-; cbn; eauto.
  - reflexivity.
Qed.
Local Open Scope R_scope.
(** C193: starting from an earlier result. *)
Lemma maxi_spec : forall l b, (In (maxi b l) (b :: l)) /\ forall x, In x (b :: l) -> snd x <= snd (maxi b l).
Proof.
  induction l as [|a l IH]; intros b.
  - split; [left; reflexivity|]. intros x [<-|[]]. cbn. lra.
  - cbn [maxi]. destruct (Rlt_dec (snd b) (snd a)) as [H|H]; destruct (IH (if Rlt_dec (snd b) (snd a) then a else b)) as [A B]; destruct (Rlt_dec (snd b) (snd a)) as [H'|H']; try contradiction.
    + split; [destruct A as [A|A]; [right; left; exact A|right; right; exact A]|]. intros x [<-|[<-|X]]; [|apply B; left; reflexivity|apply B; right; exact X]. apply Rle_trans with (snd a); [lra|apply B; left; reflexivity].
    + split; [destruct A as [A|A]; [left; exact A|right; right; exact A]|]. intros x [<-|[<-|X]]; [apply B; left; reflexivity| |apply B; right; exact X]. apply Rle_trans with (snd b); [lra|apply B; left; reflexivity].
Qed.
Lemma scores_all : forall l, (forall n x, In (n, x) l -> x <> Unreadable) -> exists r, scores l = Some r /\ forall n v, In (n, v) r <-> exists x, In (n, x) l /\ score x = Some v.
Proof.
  induction l as [|[n x] l IH]; intros H; [exists []; split; [reflexivity|]; intros n v; split; [intros []|intros (x & [] & _)]|].
  destruct IH as (r & E & S); [intros m y Y; apply (H m y); right; exact Y|]. cbn [scores]. rewrite E. destruct (score x) as [s|] eqn:ES. 2: { exfalso. destruct x; try discriminate. apply (H n Unreadable); [left; reflexivity|reflexivity]. }
  exists ((n, s) :: r). split; [reflexivity|]. intros m v. split.
  - intros [A|A]; [injection A as <- <-; exists x; split; [left; reflexivity|exact ES]|]. apply S in A. destruct A as (y & A & B). exists y. split; [right; exact A|exact B].
  - intros (y & [A|A] & B); [injection A as <- <-; left; congruence|]. right. apply S. exists y. split; assumption.
Qed.
Lemma stands x v : stands_for x v <-> score x = Some v.
Proof. destruct x; cbn [stands_for score]; split; intros H; try (subst v; reflexivity); try (injection H as <-; reflexivity); try contradiction; discriminate. Qed.
Theorem C193_best_file_found : forall l, l <> [] -> (forall n x, In (n, x) l -> x <> Unreadable) -> exists n, find_init l = Some n /\ largest_score n l.
Proof.
  intros l HN HU. destruct (scores_all l HU) as (r & E & S). unfold find_init. rewrite E. destruct r as [|b r].
  - exfalso. destruct l as [|[n x] l]; [contradiction HN; reflexivity|]. destruct (score x) as [v|] eqn:EV; [|destruct x; try discriminate; apply (HU n Unreadable); first [left; reflexivity|reflexivity]]. apply (proj2 (S n v)). exists x. split; [left; reflexivity|exact EV].
  - destruct (maxi_spec r b) as [A B]. destruct (maxi b r) as [n v] eqn:EM. exists n. split; [reflexivity|]. apply S in A. destruct A as (x & A1 & A2). exists x, v. split; [exact A1|]. split; [apply stands; exact A2|].
    intros m y w Y W. apply stands in W. apply (B (m, w)). apply S. exists y. split; assumption.
Qed.
Print Assumptions C193_best_file_found.
Lemma assoc_in k l : forall v, NoDup (map fst l) -> In (k, v) l -> assoc k l = Some v.
Proof.
  induction l as [|[a w] l IH]; intros v ND H; [contradiction|]. cbn [assoc]. inversion ND as [|? ? N1 N2]; subst. destruct (String.eqb_spec k a) as [->|E].
  - destruct H as [H|H]; [congruence|]. exfalso. apply N1. apply (in_map fst) in H. exact H.
  - destruct H as [H|H]; [congruence|]. apply IH; assumption.
Qed.
Lemma assoc_out k l : ~ In k (map fst l) -> assoc k l = None.
Proof. induction l as [|[a w] l IH]; intros H; [reflexivity|]. cbn [assoc]. cbn [map fst] in H. destruct (String.eqb_spec k a) as [->|E]; [exfalso; apply H; left; reflexivity|]. apply IH. intros X. apply H. right. exact X. Qed.
(** Every free parameter starts from its own best value in the file, whatever the orders, and from its fiducial value if the file does not have it. *)
Theorem C193_start_values_by_name : forall w p folder best free, w_dir w p = None -> best_of (w_file w p) = Some best -> NoDup (map fst best) ->
  exists d r, initialize w folder (new_driver (Some p)) = Some d /\ run_start w d free = Some r /\ length r = length free /\
    forall i k fid, nth_error free i = Some (k, fid) -> (forall v, In (k, v) best -> nth_error r i = Some (Some v)) /\ (~ In k (map fst best) -> nth_error r i = Some fid).
Proof.
  intros w p folder best free HD HB ND. exists {| d_attr := Some p; d_par := Some p |}, (start_values best free). unfold initialize, new_driver. cbn [d_par d_attr]. rewrite HD. split; [reflexivity|].
  unfold run_start. cbn [d_attr]. rewrite HD, HB. split; [reflexivity|]. unfold start_values. split; [apply map_length|].
  intros i k fid HF. split.
  - intros v HV. rewrite (map_nth_error _ _ _ HF). cbn [fst snd]. rewrite (assoc_in k (rev best) v); [reflexivity| |apply in_rev in HV; exact HV]. rewrite map_rev. apply NoDup_rev. exact ND.
  - intros HV. rewrite (map_nth_error _ _ _ HF). cbn [fst snd]. rewrite assoc_out; [reflexivity|]. rewrite map_rev. intros X. apply HV. apply in_rev. exact X.
Qed.
Print Assumptions C193_start_values_by_name.
Example C193_nonvacuous : largest_score "b.npz" [("a.npz", Emcee (-20) []); ("b.npz", Lbfgs 10 [("f", 0.8)])]%string /\ NoDup (map fst [("f"%string, 0.8)]).
Proof.
  split; [|constructor; [intros []|constructor]]. exists (Lbfgs 10 [("f"%string, 0.8)]), (- 10). split; [right; left; reflexivity|]. split; [reflexivity|]. intros m y w [H|[H|[]]]; injection H as <- <-; cbn; intros ->; lra.
Qed.
(** C194: (a) the file found in a folder is never used: without start_from, or with a folder as start_from, the run raises. *)
Theorem C194_found_file_not_used_refuted : forall w folder start d free, (start = None \/ exists p l, start = Some p /\ w_dir w p = Some l) ->
  initialize w folder (new_driver start) = Some d -> run_start w d free = None.
Proof.
  intros w folder st d free H HI. assert (A : d_attr d = st). { unfold initialize in HI. cbn [d_par new_driver d_attr] in HI. destruct (match st with Some _ => _ | None => _ end); [|discriminate]. injection HI as <-. reflexivity. }
  unfold run_start. rewrite A. destruct H as [->|(p & l & -> & ->)]; reflexivity.
Qed.
Print Assumptions C194_found_file_not_used_refuted.
(** (b) one unreadable file, as a run leaves it from the moment it creates its output until it is written, makes the search raise. *)
Lemma scores_bad : forall l n, In (n, Unreadable) l -> scores l = None.
Proof. induction l as [|[a x] l IH]; intros n H; [contradiction|]. destruct H as [H|H]; [injection H as -> ->; reflexivity|]. cbn [scores]. rewrite (IH n H). destruct (score x); reflexivity. Qed.
Theorem C194_crash_blocks_search_refuted : (forall l n, In (n, Unreadable) l -> find_init l = None) /\
  forall j f new e, j_restart j = None -> j_solver j = Returns new e -> j_name_ok j = true ->
    let n := fresh (j_base j) f in lookup n (files (exec [j] (start [j] f) (repeat 0%nat 4))) = Some Empty /\ lookup n (files (exec [j] (start [j] f) (repeat 0%nat 5))) = Some Partial.
Proof.
  split; [intros l n H; unfold find_init; rewrite (scores_bad l n H); reflexivity|]. intros j f new e HR HS HN n. assert (E : name_eqb n n = true) by (destruct (name_eqb_spec n n); [reflexivity|contradiction]).
  unfold start. cbn [map repeat].
  rewrite !(one j Loading f _ (Solving []) f) by (cbn [step1]; rewrite HR; reflexivity). rewrite !(one j (Solving []) f _ (Choosing new e) f) by (cbn [step1]; rewrite HS; reflexivity).
  rewrite !(one j (Choosing new e) f _ (Touching n new e) f) by (cbn [step1]; rewrite HN; reflexivity). rewrite !(one j (Touching n new e) f _ (Opening n new e) ((n, Empty) :: f)) by (cbn [step1]; unfold touch, n; rewrite lookup_fresh; reflexivity).
  rewrite (one j (Opening n new e) _ _ (Writing n new e) (put n Partial ((n, Empty) :: f))) by reflexivity. cbn [exec files]. split; [cbn [lookup]; rewrite E; reflexivity|apply lookup_put_same].
Qed.
Print Assumptions C194_crash_blocks_search_refuted.
(** (c) a free parameter that the file does not have and that has no fiducial value starts from NaN: the announced exception is never raised. *)
Theorem C194_missing_parameter_nan_refuted : forall w p folder best free i k, w_dir w p = None -> best_of (w_file w p) = Some best -> NoDup (map fst best) -> nth_error free i = Some (k, None) -> ~ In k (map fst best) ->
  exists d r, initialize w folder (new_driver (Some p)) = Some d /\ run_start w d free = Some r /\ nth_error r i = Some None.
Proof.
  intros w p folder best free i k HD HB ND HF HK. destruct (C193_start_values_by_name w p folder best free HD HB ND) as (d & r & A & B & _ & D). exists d, r. split; [exact A|]. split; [exact B|]. apply (D i k None HF). exact HK.
Qed.
Print Assumptions C194_missing_parameter_nan_refuted.
