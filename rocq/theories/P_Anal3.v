From Coq Require Import String Reals ZArith Bool Arith Lra Lia Sorted Permutation.
From Coq Require Import List.
From Verif Require Import M_Results S_Results P_Results2 M_Anal S_Anal P_Anal P_Anal2.
Import ListNotations.
Local Open Scope R_scope.
Notation good := (S_Results.good (V := R) 0).

Lemma mean_minus r i : minus_lkl r i = mean_lkl r i.
Proof. unfold minus_lkl, mean_lkl. rewrite <- Ropp_div. f_equal. induction (lnprobs r) as [|w l IH]; cbn [map total fold_right]; [ring|]. rewrite <- IH. ring. Qed.
Lemma usedb_used mn cu b r i : usedb mn cu b r i = true <-> used mn cu b r i.
Proof. unfold usedb, used. destruct (Rlt_dec _ _) as [H|H]; [rewrite Nat.leb_le; tauto|]. split; [intros K; discriminate K|tauto]. Qed.
Lemma inds_eq mn cu b r : inds mn cu b r = map (usedb mn cu b r) (seq 0 (iterations r)).
Proof. unfold inds. apply map_ext. intros i. unfold usedb. rewrite mean_minus. destruct (Rlt_dec _ _); cbn [andb]; [|reflexivity]. rewrite Nat.leb_antisym. reflexivity. Qed.
Lemma existsb_map {A} (f : A -> bool) l : existsb (fun b => b) (map f l) = existsb f l.
Proof. induction l as [|x l IH]; cbn; [reflexivity|]. rewrite IH. reflexivity. Qed.
Lemma select_filter {A} (f : nat -> bool) (d : A) : forall l s, select (map f (seq s (length l))) l = map (fun i => nth (i - s) l d) (filter f (seq s (length l))).
Proof.
  induction l as [|x l IH]; intros s; [reflexivity|]. cbn [length seq map select filter]. rewrite IH.
  assert (E : map (fun i => nth (i - S s) l d) (filter f (seq (S s) (length l))) = map (fun i => nth (i - s) (x :: l) d) (filter f (seq (S s) (length l)))).
  { apply map_ext_in. intros i Hi. apply filter_In in Hi. destruct Hi as (Hi & _). apply in_seq in Hi. replace (i - s)%nat with (S (i - S s)) by lia. reflexivity. }
  rewrite E. destruct (f s); cbn [map]; [|reflexivity]. rewrite Nat.sub_diag. reflexivity.
Qed.
Lemma pick_select mn cu b r l : length l = iterations r -> select (inds mn cu b r) l = pick mn cu b r l.
Proof. intros H. rewrite inds_eq, <- H, (select_filter _ 0). unfold pick. rewrite H. apply map_ext. intros i. rewrite Nat.sub_0_r. reflexivity. Qed.
(** ** the smallest *)
Lemma fold_Rmin x l : In (fold_right Rmin x l) (x :: l) /\ forall y, In y (x :: l) -> fold_right Rmin x l <= y.
Proof.
  induction l as [|a l (I & L)]; cbn [fold_right]; [split; [left; reflexivity|intros y [<-|[]]; lra]|]. split.
  - unfold Rmin at 1. destruct (Rle_dec a (fold_right Rmin x l)); [right; left; reflexivity|]. destruct I as [I|I]; [left; exact I|right; right; exact I].
  - intros y [<-|[<-|H]]; [eapply Rle_trans; [apply Rmin_r|apply L; left; reflexivity]|apply Rmin_l|eapply Rle_trans; [apply Rmin_r|apply L; right; exact H]].
Qed.
Lemma rmin_spec l : l <> [] -> In (rmin l) l /\ forall y, In y l -> rmin l <= y.
Proof. intros H. destruct l as [|x t]; [contradiction|]. apply fold_Rmin. Qed.
Lemma best_min found : found <> [] -> Forall (fun r => (1 <= iterations r)%nat) found -> best found (min_minus_lkl found).
Proof.
  intros Hn HF. assert (G : forall r, In r found -> map (minus_lkl r) (seq 0 (iterations r)) <> []).
  { intros r Hr E. apply map_eq_nil in E. assert (X := proj1 (Forall_forall _ _) HF r Hr). cbn beta in X. destruct (iterations r); [lia|discriminate E]. }
  assert (N : map (fun r => rmin (map (minus_lkl r) (seq 0 (iterations r)))) found <> []) by (destruct found; [contradiction|discriminate]).
  destruct (rmin_spec _ N) as (I & L). fold (min_minus_lkl found) in I, L. split.
  - apply in_map_iff in I. destruct I as (r & E & Hr). destruct (rmin_spec _ (G r Hr)) as (I & _). apply in_map_iff in I. destruct I as (i & Ei & Hi). apply in_seq in Hi. exists r, i. split; [exact Hr|]. split; [lia|]. rewrite <- mean_minus, Ei. exact E.
  - intros r i Hr Hi. destruct (rmin_spec _ (G r Hr)) as (_ & L'). eapply Rle_trans; [apply L; apply in_map_iff; exists r; split; [reflexivity|exact Hr]|]. rewrite <- mean_minus. apply L'. apply in_map. apply in_seq. lia.
Qed.
Lemma best_unique found a b : best found a -> best found b -> a = b.
Proof. intros ((r & i & H1 & H2 & H3) & L1) ((r' & i' & K1 & K2 & K3) & L2). apply Rle_antisym; [rewrite <- K3; apply L1; assumption|rewrite <- H3; apply L2; assumption]. Qed.
(** ** the folder *)
Definition aligned (r0 r r' : results R) : Prop :=
  (exists m, good m r' /\ (1 <= m)%nat) /\ free r' = free r0 /\ con r' = con r0 /\ walkers r' = walkers r0 /\ lnprobs r' = lnprobs r /\ iterations r' = iterations r /\ (forall k, trace_of r' k = trace_of r k).
Lemma good_iters m r : good m r -> (1 <= walkers r)%nat -> iterations r = m.
Proof. intros G W. unfold iterations, walkers in *. destruct (chain r) as [|w ch] eqn:E; [cbn in W; lia|]. assert (B := g_chain _ _ _ G). rewrite E in B. inversion B as [|? ? (H & _)]. exact H. Qed.
Lemma align_good r0 : (1 <= walkers r0)%nat -> forall rest, Forall (fitting r0) rest -> exists rest', align r0 rest = Done rest' /\ Forall2 (aligned r0) rest rest'.
Proof.
  intros W. induction rest as [|r rest IH]; intros H; [exists []; split; [reflexivity|constructor]|]. inversion H as [|? ? ((m & G & Hm) & Pf & Pc & Hw) H']; subst. destruct (IH H') as (l & Hl & HF).
  destruct (verify_good R 0 m r (free r0) (con r0) G Pf Pc) as (r' & V & G' & F' & C' & Ch & _ & L & _ & T). exists (r' :: l). split; [cbn [align]; rewrite V, Hl; reflexivity|]. constructor; [|exact HF].
  assert (W' : walkers r' = walkers r) by (unfold walkers; rewrite Ch, map_length; reflexivity).
  split; [exists m; auto|]. split; [exact F'|]. split; [exact C'|]. split; [congruence|]. split; [exact L|]. split; [|exact T]. rewrite (good_iters m r G), (good_iters m r' G') by lia. reflexivity.
Qed.
Lemma minus_lkl_same r r' : lnprobs r' = lnprobs r -> forall i, minus_lkl r' i = minus_lkl r i.
Proof. intros H i. unfold minus_lkl. rewrite H. reflexivity. Qed.
Lemma min_same l l' : Forall2 (fun r r' : results R => lnprobs r' = lnprobs r /\ iterations r' = iterations r) l l' -> min_minus_lkl l' = min_minus_lkl l.
Proof.
  intros H. unfold min_minus_lkl. f_equal. induction H as [|r r' l l' (E1 & E2) H IH]; [reflexivity|]. cbn [map]. rewrite IH, E2. f_equal. f_equal. apply map_ext. apply minus_lkl_same. exact E1.
Qed.
Lemma usedb_same mn cu b r r' : lnprobs r' = lnprobs r -> iterations r' = iterations r -> forall i, usedb mn cu b r' i = usedb mn cu b r i.
Proof. intros H1 H2 i. unfold usedb. rewrite <- !mean_minus, (minus_lkl_same _ _ H1), H2. reflexivity. Qed.
Lemma survives_same mn cu b r r' : lnprobs r' = lnprobs r -> iterations r' = iterations r -> survives mn cu b r' = survives mn cu b r.
Proof. intros H1 H2. unfold survives. rewrite H2. induction (seq 0 (iterations r)) as [|i l IH]; [reflexivity|]. cbn. rewrite IH, (usedb_same _ _ _ _ _ H1 H2). reflexivity. Qed.
Lemma pick_same mn cu b r r' l : lnprobs r' = lnprobs r -> iterations r' = iterations r -> pick mn cu b r' l = pick mn cu b r l.
Proof. intros H1 H2. unfold pick. rewrite H2. f_equal. apply filter_ext. apply usedb_same; assumption. Qed.
Lemma filter2 {A} (P : A -> A -> Prop) (f g : A -> bool) l l' : Forall2 (fun x y => P x y /\ g y = f x) l l' -> Forall2 P (filter f l) (filter g l').
Proof. intros H. induction H as [|x y l l' (H1 & H2) H IH]; [constructor|]. cbn. rewrite H2. destruct (f x); [constructor; assumption|exact IH]. Qed.
Lemma survivors_many mn cu b : forall rs, Forall (fun r => cchain r <> None) rs -> survivors rs false mn cu b = Done (map (fun r => trim (inds mn cu b r) r) (filter (survives mn cu b) rs)).
Proof.
  induction rs as [|r rs IH]; intros H; [reflexivity|]. inversion H as [|? ? H1 H2]; subst. cbn [survivors filter]. rewrite inds_eq at 1. rewrite existsb_map. change (existsb (usedb mn cu b r) (seq 0 (iterations r))) with (survives mn cu b r). rewrite (IH H2).
  destruct (survives mn cu b r); [|reflexivity]. destruct (cchain r); [reflexivity|contradiction].
Qed.
Lemma cchain_some m r : good m r -> con r <> [] -> cchain r <> None.
Proof. intros G H E. assert (X := g_cchain _ _ _ G). rewrite E in X. contradiction. Qed.
(* a trimmed result *)
Lemma trim_good mn cu b m r : good m r -> (1 <= walkers r)%nat -> con r <> [] -> exists r' n, same_data (trim (inds mn cu b r) r) r' /\ good n r' /\ free r' = free r /\ con r' = con r /\ walkers r' = walkers r /\
  (forall k, In k (free r ++ con r) -> tr r' k = map (pick mn cu b r) (tr r k)) /\ lnprobs r' = map (pick mn cu b r) (lnprobs r).
Proof.
  intros G W Hc. destruct (on_good _ m r (natural_select (inds mn cu b r)) G Hc) as (r' & S & G' & T). exists r', (flen (fun A => select (inds mn cu b r)) m). assert (I := good_iters m r G W). destruct S as [S1 S2 S3 S4 S5 S6].
  cbn [on_iterations free con chain cchain lnprobs burnin] in S1, S2, S3, S4, S5, S6. split; [constructor; assumption|]. split; [exact G'|]. split; [congruence|]. split; [congruence|]. split; [unfold walkers; rewrite <- S3; apply map_length|]. split.
  - intros k Hk. unfold tr. rewrite T. destruct (trace_some m r k G Hk) as (t & Ht). rewrite Ht. cbn [option_map]. destruct (trace_len m r k t G Ht) as (_ & L). apply map_ext_in. intros w Hw. apply pick_select. rewrite I. exact (proj1 (Forall_forall _ _) L w Hw).
  - rewrite <- S5. apply map_ext_in. intros w Hw. apply pick_select. rewrite I. exact (proj1 (Forall_forall _ _) (proj2 (g_lnp _ _ _ G)) w Hw).
Qed.
(** ** several survivors *)
Lemma trimmed_list mn cu b (F C : list string) W l : C <> [] -> (1 <= W)%nat -> Forall (fun r => (exists m, good m r) /\ free r = F /\ con r = C /\ walkers r = W) l ->
  exists l', Forall2 (fun e e' => same_data e e' /\ exists n, good n e') (map (fun r => trim (inds mn cu b r) r) l) l' /\
    Forall (fun e => free e = F /\ con e = C /\ walkers e = W) l' /\
    Forall2 (fun r e' => (forall k, In k (F ++ C) -> tr e' k = map (pick mn cu b r) (tr r k)) /\ lnprobs e' = map (pick mn cu b r) (lnprobs r)) l l'.
Proof.
  intros HC HW H. induction H as [|r l ((m & G) & E1 & E2 & E3) H (l' & I1 & I2 & I3)]; [exists []; repeat split; constructor|].
  destruct (trim_good mn cu b m r G) as (r' & n & S & G' & F' & C' & W' & T & L); [lia|congruence|]. exists (r' :: l'). cbn [map]. split; [constructor; [split; [exact S|exists n; exact G']|exact I1]|]. split; [constructor; [split; [congruence|split; congruence]|exact I2]|].
  constructor; [|exact I3]. rewrite E1, E2 in T. split; [exact T|exact L].
Qed.
Lemma nth_map_pick mn cu b r w (t : list (list R)) : nth w (map (pick mn cu b r) t) [] = if Nat.ltb w (length t) then pick mn cu b r (nth w t []) else [].
Proof.
  revert w. induction t as [|x t IH]; intros w; [destruct w; reflexivity|]. destruct w as [|w]; [reflexivity|]. cbn [map nth length]. rewrite IH. reflexivity.
Qed.
