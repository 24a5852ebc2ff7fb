(** Proofs about M_Run. *)
From Coq Require Import String Reals Arith Bool Lia Lra.
From Coq Require Import List.
From Verif Require Import M_Run.
Import ListNotations.

Lemma name_eqb_spec a b : reflect (a = b) (name_eqb a b).
Proof.
  unfold name_eqb. destruct a as [a n], b as [b m]. cbn [fst snd]. destruct (String.eqb_spec a b) as [->|E]; [|constructor; congruence].
  destruct (Nat.eqb_spec n m) as [->|E]; constructor; congruence.
Qed.
Lemma lookup_remove_same n f : lookup n (remove n f) = None.
Proof. induction f as [|[m c] f IH]; [reflexivity|]. cbn [remove]. destruct (name_eqb n m) eqn:E; [exact IH|]. cbn [lookup]. rewrite E. exact IH. Qed.
Lemma lookup_remove n m f : n <> m -> lookup n (remove m f) = lookup n f.
Proof.
  intros N. induction f as [|[a c] f IH]; [reflexivity|]. cbn [remove lookup]. destruct (name_eqb_spec m a) as [->|E].
  - destruct (name_eqb_spec n a); [contradiction|exact IH].
  - cbn [lookup]. rewrite IH. reflexivity.
Qed.
Lemma lookup_put_same n c f : lookup n (put n c f) = Some c.
Proof. unfold put. cbn [lookup]. destruct (name_eqb_spec n n); [reflexivity|contradiction]. Qed.
Lemma lookup_put n m c f : n <> m -> lookup n (put m c f) = lookup n f.
Proof. intros N. unfold put. cbn [lookup]. destruct (name_eqb_spec n m); [contradiction|]. apply lookup_remove, N. Qed.
Lemma lookup_touch n m f : n <> m -> lookup n (touch m f) = lookup n f.
Proof. intros N. unfold touch. destruct (lookup m f); [reflexivity|]. cbn [lookup]. destruct (name_eqb_spec n m); [contradiction|reflexivity]. Qed.
Lemma lookup_large b k f : (largest b f < k)%nat -> lookup (b, k) f = None.
Proof.
  induction f as [|[[a n] c] f IH]; intros H; [reflexivity|]. cbn [largest fst snd lookup] in *. unfold name_eqb. cbn [fst snd]. destruct (String.eqb b a); cbn [andb]; [|apply IH, H].
  destruct (Nat.eqb_spec k n) as [->|]; [lia|]. apply IH. lia.
Qed.
Lemma lookup_fresh b f : lookup (fresh b f) f = None.
Proof. apply lookup_large. lia. Qed.
Lemma nth_set_same i p l : (i < length l)%nat -> nth_error (set_pc i p l) i = Some p.
Proof. revert i. induction l as [|a l IH]; intros [|i] H; cbn [length set_pc nth_error] in *; try lia; [reflexivity|]. apply IH. lia. Qed.
Lemma nth_set_other i k p l : i <> k -> nth_error (set_pc i p l) k = nth_error l k.
Proof. revert i k. induction l as [|a l IH]; intros [|i] [|k] H; cbn [set_pc nth_error]; try reflexivity; [contradiction|]. apply IH. lia. Qed.
Lemma length_set i p l : length (set_pc i p l) = length l.
Proof. revert i. induction l as [|a l IH]; intros [|i]; cbn [set_pc length]; try reflexivity. rewrite IH. reflexivity. Qed.
Lemma exec_app jobs a b : forall s, exec jobs s (a ++ b) = exec jobs (exec jobs s a) b.
Proof. induction a as [|i a IH]; intros s; [reflexivity|]. cbn [app exec]. apply IH. Qed.

Section Runs.
Variables (jobs : list job) (f0 : fs).
Hypothesis bases : NoDup (map j_base jobs).
Hypothesis restarts : forall i k a b r, nth_error jobs i = Some a -> nth_error jobs k = Some b -> j_restart a = Some r -> j_restart b = Some r -> i = k.
Hypothesis present : forall j r, In j jobs -> j_restart j = Some r -> exists c, lookup r f0 = Some (Full c).

Definition orig (j : job) : list nat := match j_restart j with None => [] | Some r => match lookup r f0 with Some (Full c) => c | _ => [] end end.
Definition curname (p : pc) : option name := match p with
  | Touching n _ _ => Some n | Opening n _ _ => Some n | Writing n _ _ => Some n | Summarizing n _ _ => Some n | Leaving o _ => o | Done o _ _ => o | _ => None end.
Definition okexit (j : job) (out : option name) (raised : bool) (f : fs) : Prop :=
  match out with
  | None => raised = true /\ (j_name_ok j = false \/ match j_solver j with Returns _ _ => False | _ => True end)
  | Some n => fst n = j_base j /\ j_name_ok j = true /\ exists new e, j_solver j = Returns new e /\ (raised = false -> j_save_ok j = true /\ e = None /\ j_summary_ok j = true) /\
      (raised = true -> j_save_ok j = false \/ e <> None \/ j_summary_ok j = false) /\ (j_save_ok j = true -> lookup n f = Some (Full (orig j ++ new)))
  end.
Definition okpc (j : job) (p : pc) (f : fs) : Prop :=
  match p with
  | Loading => True
  | Solving old => old = orig j
  | Choosing r e => exists new, r = orig j ++ new /\ j_solver j = Returns new e
  | Touching n r e | Opening n r e | Writing n r e => fst n = j_base j /\ j_name_ok j = true /\ exists new, r = orig j ++ new /\ j_solver j = Returns new e
  | Summarizing n r e => fst n = j_base j /\ j_name_ok j = true /\ j_save_ok j = true /\ lookup n f = Some (Full r) /\ exists new, r = orig j ++ new /\ j_solver j = Returns new e
  | Leaving out raised => okexit j out raised f
  | Done out raised log => okexit j out raised f /\ log = is_some out && j_logs_ok j
  end.
Definition removed (p : pc) : Prop := match p with Done _ false _ => True | _ => False end.
Definition Inv (s : state) : Prop :=
  length (pcs s) = length jobs /\
  (forall i j p, nth_error jobs i = Some j -> nth_error (pcs s) i = Some p -> okpc j p (files s)) /\
  (forall i j p r, nth_error jobs i = Some j -> nth_error (pcs s) i = Some p -> j_restart j = Some r -> ~ removed p ->
     lookup r (files s) = Some (Full (orig j)) /\ forall k q n, nth_error (pcs s) k = Some q -> curname q = Some n -> n <> r).

Lemma frame j p f f' : (forall n, curname p = Some n -> lookup n f' = lookup n f) -> okpc j p f -> okpc j p f'.
Proof.
  intros E H. destruct p as [|old|r e|n r e|n r e|n r e|n r e|o ra|o ra lo]; cbn [okpc curname] in *; try exact H.
  - rewrite (E n eq_refl). exact H.
  - destruct o as [n|]; cbn [okexit] in *; [|exact H]. rewrite (E n eq_refl). exact H.
  - destruct o as [n|]; cbn [okexit] in *; [|exact H]. rewrite (E n eq_refl). exact H.
Qed.
Lemma base_cur i j p f n : nth_error jobs i = Some j -> okpc j p f -> curname p = Some n -> fst n = j_base j.
Proof.
  intros _ H E. destruct p as [|old|r e|m r e|m r e|m r e|m r e|o ra|o ra lo]; cbn [okpc curname] in *; try discriminate; try (injection E as <-; apply H); subst o; cbn [okexit] in H; apply H.
Qed.
Lemma base_neq i k a b : i <> k -> nth_error jobs i = Some a -> nth_error jobs k = Some b -> j_base a <> j_base b.
Proof.
  intros N A B E. apply N. apply (proj1 (NoDup_nth_error (map j_base jobs)) bases).
  - rewrite map_length. apply nth_error_Some. congruence.
  - rewrite (map_nth_error _ _ _ A), (map_nth_error _ _ _ B), E. reflexivity.
Qed.
Lemma start_inv : Inv (start jobs f0).
Proof.
  unfold start. split; [|split]; cbn [pcs files].
  - apply map_length.
  - intros i j p HJ HP. apply map_nth_error with (f := fun _ : job => Loading) in HJ. rewrite HJ in HP. injection HP as <-. cbn. exact I.
  - intros i j p r HJ HP HR _. split.
    + unfold orig. rewrite HR. destruct (present j r (nth_error_In _ _ HJ) HR) as [c ->]. reflexivity.
    + intros k q n HQ. assert (q = Loading). { apply nth_error_In in HQ. apply in_map_iff in HQ. destruct HQ as (x & <- & _). reflexivity. } subst q. discriminate.
Qed.
(** what one action does: the own file, the own restart file at the end, nothing else *)
Lemma step1_files j p f m : (forall n, curname p = Some n -> m <> n) -> (forall r, j_restart j = Some r -> removed (fst (step1 j p f)) -> ~ removed p -> m <> r) -> lookup m (snd (step1 j p f)) = lookup m f.
Proof.
  intros A B. destruct p as [|old|r e|n r e|n r e|n r e|n r e|o ra|o ra lo]; cbn [step1 curname] in *.
  - destruct (j_restart j) as [r|]; [|reflexivity]. destruct (lookup r f) as [[| |c]|]; reflexivity.
  - destruct (j_solver j); reflexivity.
  - destruct (j_name_ok j); reflexivity.
  - apply lookup_touch. apply A. reflexivity.
  - apply lookup_put. apply A. reflexivity.
  - destruct (j_save_ok j); [|reflexivity]. apply lookup_put. apply A. reflexivity.
  - destruct e as [[|]|]; reflexivity.
  - cbn [snd]. destruct ra; [reflexivity|]. destruct (j_restart j) as [r|]; [|reflexivity]. apply lookup_remove. apply (B r eq_refl); cbn; tauto.
  - reflexivity.
Qed.
Lemma curname_step j p f n : curname (fst (step1 j p f)) = Some n -> curname p = Some n \/ lookup n f = None.
Proof.
  intros H. destruct p as [|old|r e|m r e|m r e|m r e|m r e|o ra|o ra lo]; cbn [step1] in H.
  - destruct (j_restart j) as [r|]; [|discriminate]. destruct (lookup r f) as [[| |c]|]; discriminate.
  - destruct (j_solver j); discriminate.
  - destruct (j_name_ok j); [|discriminate]. cbn [fst curname] in H. injection H as <-. right. apply lookup_fresh.
  - left. exact H.
  - left. exact H.
  - destruct (j_save_ok j); left; exact H.
  - destruct e as [[|]|]; left; exact H.
  - left. exact H.
  - left. exact H.
Qed.
Lemma own_step i j p s : Inv s -> nth_error jobs i = Some j -> nth_error (pcs s) i = Some p -> okpc j (fst (step1 j p (files s))) (snd (step1 j p (files s))).
Proof.
  intros (_ & IO & IR) HJ HP. pose proof (IO i j p HJ HP) as OK. destruct p as [|old|r e|n r e|n r e|n r e|n r e|o ra|o ra lo]; cbn [step1].
  - destruct (j_restart j) as [r|] eqn:ER; [|cbn; unfold orig; rewrite ER; reflexivity]. destruct (IR i j Loading r HJ HP ER) as [L _]; [cbn; tauto|]. rewrite L. reflexivity.
  - cbn [okpc] in OK. subst old. destruct (j_solver j) as [| |new e] eqn:ES; cbn [fst snd okpc okexit]; rewrite ?ES; try (split; [reflexivity|right; exact I]). exists new. split; reflexivity.
  - destruct (j_name_ok j) eqn:EN; cbn [fst snd okpc okexit].
    + split; [reflexivity|]. split; [exact EN|]. exact OK.
    + split; [reflexivity|]. left. exact EN.
  - exact OK.
  - exact OK.
  - cbn [okpc] in OK. destruct OK as (B & N & new & -> & ES). destruct (j_save_ok j) eqn:EV; cbn [fst snd okpc okexit].
    + split; [exact B|]. split; [exact N|]. split; [exact EV|]. split; [apply lookup_put_same|]. exists new. split; [reflexivity|exact ES].
    + split; [exact B|]. split; [exact N|]. exists new, e. split; [exact ES|]. split; [discriminate|]. rewrite EV. split; [left; reflexivity|discriminate].
  - cbn [okpc] in OK. destruct OK as (B & N & V & L & new & -> & ES). destruct e as [[|]|]; cbn [fst snd okpc okexit]; (split; [exact B|split; [exact N|exists new; eexists; split; [exact ES|]]]); destruct (j_summary_ok j) eqn:EM; cbn [is_some]; repeat split; auto; try discriminate; intros _; right; left; discriminate.
  - cbn [okpc] in OK. cbn [fst snd okpc]. split; [|reflexivity]. destruct ra; [exact OK|]. destruct (j_restart j) as [r|] eqn:ER; [|exact OK]. destruct o as [n|]; cbn [okexit] in *; [|destruct OK; discriminate].
    destruct OK as (B & N & new & e & ES & R1 & R2 & R3). split; [exact B|]. split; [exact N|]. exists new, e. split; [exact ES|]. split; [exact R1|]. split; [exact R2|]. intros V. rewrite lookup_remove; [apply R3, V|]. apply (proj2 (IR i j _ r HJ HP ER (fun x => x)) i _ n HP eq_refl).
  - exact OK.
Qed.
Lemma step_inv s i : Inv s -> Inv (step jobs s i).
Proof.
  intros HI. pose proof HI as (IL & IO & IR). unfold step. destruct (nth_error jobs i) as [j|] eqn:HJ; [|exact HI]. destruct (nth_error (pcs s) i) as [p|] eqn:HP; [|exact HI]. cbv zeta.
  assert (LT : (i < length (pcs s))%nat) by (apply nth_error_Some; congruence).
  pose proof (own_step i j p s HI HJ HP) as OWN. set (p' := fst (step1 j p (files s))) in *. set (f' := snd (step1 j p (files s))) in *.
  assert (KEEP : forall m, (forall n, curname p = Some n -> m <> n) -> (forall r, j_restart j = Some r -> removed p' -> ~ removed p -> m <> r) -> lookup m f' = lookup m (files s)) by (intros m; apply step1_files).
  split; [|split]; cbn [pcs files].
  - rewrite length_set. exact IL.
  - intros k a q HA HQ. destruct (Nat.eq_dec i k) as [<-|NE].
    + rewrite nth_set_same in HQ by exact LT. injection HQ as <-. rewrite HJ in HA. injection HA as <-. exact OWN.
    + rewrite nth_set_other in HQ by exact NE. apply (frame a q (files s)); [|apply (IO k a q HA HQ)]. intros n HN. apply KEEP.
      * intros m HM E. subst m. apply (base_neq i k j a NE HJ HA). rewrite <- (base_cur i j p (files s) n HJ (IO i j p HJ HP) HM), <- (base_cur k a q (files s) n HA (IO k a q HA HQ) HN). reflexivity.
      * intros r HR _ NR. apply (proj2 (IR i j p r HJ HP HR NR) k q n HQ HN).
  - intros k a q r HA HQ HR NR. assert (OLD : exists q0, nth_error (pcs s) k = Some q0 /\ ~ removed q0).
    { destruct (Nat.eq_dec i k) as [<-|NE].
      - exists p. split; [exact HP|]. rewrite nth_set_same in HQ by exact LT. injection HQ as <-. intros X. apply NR. unfold p'. destruct p; try contradiction. 
      - rewrite nth_set_other in HQ by exact NE. exists q. split; assumption. }
    destruct OLD as (q0 & HQ0 & NR0). destruct (IR k a q0 r HA HQ0 HR NR0) as [L C]. split.
    + rewrite KEEP; [exact L|intros n HN E; subst n; exact (C i p r HP HN eq_refl)|]. intros r' HR' RM NRM ->. assert (i = k) by (eapply restarts; eassumption). subst k. rewrite nth_set_same in HQ by exact LT. injection HQ as <-. exact (NR RM).
    + intros m x n HX HN. destruct (Nat.eq_dec i m) as [<-|NE].
      * rewrite nth_set_same in HX by exact LT. injection HX as <-. destruct (curname_step j p (files s) n HN) as [H|H]; [exact (C i p n HP H)|]. intros ->. congruence.
      * rewrite nth_set_other in HX by exact NE. exact (C m x n HX HN).
Qed.
Lemma exec_inv sched : forall s, Inv s -> Inv (exec jobs s sched).
Proof. induction sched as [|i t IH]; intros s H; [exact H|]. cbn [exec]. apply IH, step_inv, H. Qed.
Lemma reach sched : Inv (exec jobs (start jobs f0) sched).
Proof. apply exec_inv, start_inv. Qed.
End Runs.
