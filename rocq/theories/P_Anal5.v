From Coq Require Import String Reals ZArith Bool Arith Lra Lia Sorted Permutation.
From Coq Require Import List.
From Verif Require Import M_Results S_Results P_Results2 M_Anal S_Anal P_Anal P_Anal2 P_Anal3 P_Anal4.
Import ListNotations.
Local Open Scope R_scope.
Notation good := (S_Results.good (V := R) 0).

(** every third sample *)
Definition every (i : nat) (l : list R) : list R := map (fun j => nth j l 0) (filter (fun j => Nat.eqb (Nat.modulo j 3) i) (seq 0 (length l))).
Lemma phase_every i l : select (phase i (length l)) l = every i l.
Proof. unfold phase, every. rewrite (select_filter _ 0). apply map_ext. intros j. rewrite Nat.sub_0_r. reflexivity. Qed.
Lemma filter_three {A} (f g h : A -> bool) l : (forall x, In x l -> (f x = true /\ g x = false /\ h x = false) \/ (f x = false /\ g x = true /\ h x = false) \/ (f x = false /\ g x = false /\ h x = true)) ->
  Permutation (filter f l ++ filter g l ++ filter h l) l.
Proof.
  induction l as [|x l IH]; intros H; [reflexivity|]. assert (P : Permutation (filter f l ++ filter g l ++ filter h l) l) by (apply IH; intros y Hy; apply H; right; exact Hy). cbn.
  destruct (H x (or_introl eq_refl)) as [(-> & -> & ->)|[(-> & -> & ->)|(-> & -> & ->)]]; cbn; [constructor; exact P| |].
  - rewrite <- Permutation_middle. constructor. exact P.
  - rewrite app_assoc, <- Permutation_middle. constructor. rewrite <- app_assoc. exact P.
Qed.
Lemma every_perm l : Permutation (every 0 l ++ every 1 l ++ every 2 l) l.
Proof.
  unfold every. rewrite <- !map_app. rewrite filter_three.
  - rewrite (map_seq_nth l _ eq_refl). reflexivity.
  - intros x _. assert (B := Nat.mod_upper_bound x 3 ltac:(lia)). destruct (x mod 3)%nat as [|[|[|n]]]; cbn; auto 7. lia.
Qed.
Lemma third_same i m r : same_data (third i (trim m r)) (on_iterations (fun A l => select (phase i (length (select m l))) (select m l)) r).
Proof.
  unfold third, trim, on_iterations. constructor; cbn [free con chain cchain lnprobs burnin]; try reflexivity.
  - rewrite map_map. reflexivity.
  - destruct (cchain r) as [cc|]; [|reflexivity]. cbn [option_map]. rewrite map_map. f_equal. apply map_ext. intros e. cbn [fst snd]. rewrite map_map. reflexivity.
  - rewrite map_map. reflexivity.
Qed.
Lemma same_trans a b c : same_data a b -> same_data b c -> same_data a c.
Proof. intros [? ? ? ? ? ?] [? ? ? ? ? ?]. constructor; congruence. Qed.
Lemma third_good i mn cu b m r : good m r -> (1 <= walkers r)%nat -> con r <> [] -> exists r' n, same_data (third i (trim (inds mn cu b r) r)) r' /\ good n r' /\ free r' = free r /\ con r' = con r /\ walkers r' = walkers r /\
  (forall k, In k (free r ++ con r) -> tr r' k = map (fun w => every i (pick mn cu b r w)) (tr r k)) /\ lnprobs r' = map (fun w => every i (pick mn cu b r w)) (lnprobs r).
Proof.
  intros G W Hc. destruct (on_good _ m r (natural_third (inds mn cu b r) i) G Hc) as (r' & S & G' & T). exists r', (flen (fun A l => select (phase i (length (select (inds mn cu b r) l))) (select (inds mn cu b r) l)) m). assert (I := good_iters m r G W).
  split; [eapply same_trans; [apply third_same|exact S]|]. destruct S as [S1 S2 S3 S4 S5 S6].
  cbn [on_iterations free con chain cchain lnprobs burnin] in S1, S2, S3, S4, S5, S6. split; [exact G'|]. split; [congruence|]. split; [congruence|]. split; [unfold walkers; rewrite <- S3; apply map_length|]. split.
  - intros k Hk. unfold tr. rewrite T. destruct (trace_some m r k G Hk) as (t & Ht). rewrite Ht. cbn [option_map]. destruct (trace_len m r k t G Ht) as (_ & L). apply map_ext_in. intros w Hw. rewrite phase_every. f_equal. apply pick_select. rewrite I. exact (proj1 (Forall_forall _ _) L w Hw).
  - rewrite <- S5. apply map_ext_in. intros w Hw. rewrite phase_every. f_equal. apply pick_select. rewrite I. exact (proj1 (Forall_forall _ _) (proj2 (g_lnp _ _ _ G)) w Hw).
Qed.
(** one file *)
Theorem analyse_single r0 mn cu b sc : chain_folder [r0] -> alphabetical (free r0) -> best [r0] mn -> survives mn cu b r0 = true ->
  exists rep, analyse [r0] cu b sc = Done rep /\ p_free rep = free r0 /\ p_con rep = sorted_names (con r0) /\
    Forall2 (fun i m => forall k, In k (p_free rep ++ p_con rep) -> col (index k (p_free rep ++ p_con rep)) m = map (fun v => v * (1 / sc k)) (concat (map (fun w => every i (pick mn cu b r0 w)) (tr r0 k)))) [0; 1; 2]%nat (p_mats rep) /\
    (forall k w, In k (p_free rep ++ p_con rep) -> (w < walkers r0)%nat -> nth w (tr (p_comb rep) k) [] = every 0 (pick mn cu b r0 (nth w (tr r0 k) [])) ++ every 1 (pick mn cu b r0 (nth w (tr r0 k) [])) ++ every 2 (pick mn cu b r0 (nth w (tr r0 k) []))) /\
    (forall k, In k (p_free rep ++ p_con rep) -> length (tr (p_comb rep) k) = walkers r0) /\
    (forall k, In k (p_free rep ++ p_con rep) -> flat_trace (p_comb rep) k = Some (concat (tr (p_comb rep) k))).
Proof.
  intros HCF HA HB HS. destruct (folder_start r0 [] mn HCF HB) as (rest' & A & _ & HM). cbn in A. injection A as <-. destruct HCF as (HF & W & HC). inversion HF as [|? ? ((m & G & Hm) & _) _]; subst.
  unfold analyse. cbn [align]. cbn zeta. change (Nat.eqb (length [r0]) 1) with true. cbn [survivors]. set (mn := min_minus_lkl [r0]) in *. replace (existsb (fun b0 => b0) (inds mn cu b r0)) with true by (rewrite inds_eq, existsb_map; symmetry; exact HS).
  destruct (cchain r0) as [cc|] eqn:Hcc; [|exfalso; exact (cchain_some m r0 G HC Hcc)]. cbn [app].
  destruct (third_good 0 mn cu b m r0 G W HC) as (a & na & Sa & Ga & Fa & Ca & Wa & Ta & _). destruct (third_good 1 mn cu b m r0 G W HC) as (c1 & nb & Sb & Gb & Fb & Cb & Wb & Tb & _). destruct (third_good 2 mn cu b m r0 G W HC) as (c2 & nc & Sc & Gc & Fc & Cc & Wc & Tc & _).
  set (t0 := third 0 _) in *. set (t1 := third 1 _) in *. set (t2 := third 2 _) in *.
  assert (ND : NoDup (free r0 ++ con r0)) by apply G. assert (PC : Permutation (sorted_names (con r0)) (con r0)) by apply sorted_perm.
  assert (ND' : NoDup (free r0 ++ sorted_names (con r0))). { eapply Permutation_NoDup; [|exact ND]. apply Permutation_app_head. symmetry. exact PC. }
  assert (INC : forall k, In k (free r0 ++ sorted_names (con r0)) -> In k (free r0 ++ con r0)). { intros k Hk. eapply Permutation_in; [|exact Hk]. apply Permutation_app_head. exact PC. }
  assert (T1 : Forall2 (fun e e' => same_data e e' /\ exists n, good n e') [t0; t1; t2] [a; c1; c2]) by (constructor; [split; eauto|constructor; [split; eauto|constructor; [split; eauto|constructor]]]).
  rewrite (sorted_id _ HA). destruct (matrices_cols (free r0) (sorted_names (con r0)) sc _ _ ND' T1) as (ms & M1 & M2).
  { constructor; [|constructor; [|constructor; [|constructor]]]; (split; [assumption|]); rewrite ?Ca, ?Cb, ?Cc; split; assumption. }
  rewrite M1. rewrite (combine_same t0 a t1 t1 [t2] Sa); [|constructor; reflexivity|reflexivity|reflexivity].
  inversion T1 as [|? ? ? ? _ T1']; subst. destruct (combine_good [t1; t2] [c1; c2] na a T1' Ga) as (c & M & C1 & GM & C3 & C4 & C5 & C6 & _); [congruence|constructor; [|constructor; [|constructor]]; repeat split; congruence|]. rewrite C1.
  exists {| p_free := free r0; p_con := sorted_names (con r0); p_mats := ms; p_comb := set_burnin c 0 |}. cbn [p_free p_con p_mats p_comb]. split; [reflexivity|]. split; [reflexivity|]. split; [reflexivity|].
  assert (LT : forall k, In k (free r0 ++ con r0) -> length (tr r0 k) = walkers r0). { intros k Hk. destruct (trace_some m r0 k G Hk) as (t' & Ht). unfold tr. rewrite Ht. exact (proj1 (trace_len m r0 k t' G Ht)). }
  assert (NM : forall i k w, In k (free r0 ++ con r0) -> (w < walkers r0)%nat -> nth w (map (fun x => every i (pick mn cu b r0 x)) (tr r0 k)) [] = every i (pick mn cu b r0 (nth w (tr r0 k) []))).
  { intros i k w Hk Hw. assert (Q := LT k Hk). assert (E : nth_error (tr r0 k) w = Some (nth w (tr r0 k) [])) by (apply nth_error_nth'; lia). apply (map_nth_error (fun x => every i (pick mn cu b r0 x))) in E. exact (nth_error_nth _ _ _ E). }
  split.
  { inversion M2 as [|? m0 ? ? Q0 M2']; subst. inversion M2' as [|? m1 ? ? Q1 M2'']; subst. inversion M2'' as [|? m2 ? ? Q2 M2''']; subst. inversion M2'''; subst.
    constructor; [intros k Hk; rewrite (Q0 k Hk), (Ta k (INC k Hk)); reflexivity|]. constructor; [intros k Hk; rewrite (Q1 k Hk), (Tb k (INC k Hk)); reflexivity|]. constructor; [intros k Hk; rewrite (Q2 k Hk), (Tc k (INC k Hk)); reflexivity|]. constructor. }
  split; [|split].
  - intros k w Hk Hw. assert (Hk' := INC k Hk). unfold tr at 1. rewrite set_burnin_trace. fold (tr c k). rewrite C6 by (rewrite Fa, Ca; exact Hk'). cbn [map concat]. rewrite app_nil_r, (Ta k Hk'), (Tb k Hk'), (Tc k Hk'), !(NM _ k w Hk' Hw). reflexivity.
  - intros k Hk. unfold tr. rewrite set_burnin_trace. destruct (trace_some M c k GM) as (t' & Ht); [rewrite C3, C4, Fa, Ca; exact (INC k Hk)|]. rewrite Ht, <- Wa, <- C5. exact (proj1 (trace_len M c k t' GM Ht)).
  - intros k Hk. rewrite set_burnin_flat. unfold tr. rewrite set_burnin_trace. destruct (trace_some M c k GM) as (t' & Ht); [rewrite C3, C4, Fa, Ca; exact (INC k Hk)|]. rewrite Ht. reflexivity.
Qed.
(** without a burn-in fraction the best iteration is used *)
Lemma best_used found mn cu : best found mn -> 0 < cu -> exists r i, In r found /\ (i < iterations r)%nat /\ used mn cu None r i.
Proof. intros ((r & i & H1 & H2 & H3) & _) Hc. exists r, i. split; [exact H1|]. split; [exact H2|]. split; [lra|cbn; lia]. Qed.
Lemma survives_iff mn cu b r : survives mn cu b r = true <-> exists i, (i < iterations r)%nat /\ used mn cu b r i.
Proof. unfold survives. rewrite existsb_exists. split; intros (i & H1 & H2); exists i; rewrite in_seq in *; rewrite usedb_used in *; split; try lia; assumption. Qed.
(** nothing survives *)
Lemma analyse_none r0 rest mn cu b sc : chain_folder (r0 :: rest) -> best (r0 :: rest) mn -> (forall r, In r (r0 :: rest) -> survives mn cu b r = false) -> analyse (r0 :: rest) cu b sc = AnalyzeError.
Proof.
  intros HCF HB HN. destruct (folder_start r0 rest mn HCF HB) as (rest' & A & FA & HM). unfold analyse. rewrite A. cbn zeta. rewrite HM.
  assert (HN' : Forall (fun r => survives mn cu b r = false) (r0 :: rest')).
  { clear - FA HN. remember (r0 :: rest) as l. remember (r0 :: rest') as l'. clear Heql Heql'. induction FA as [|x y l l' H FA IH]; [constructor|]. constructor; [|apply IH; intros r Hr; apply HN; right; exact Hr]. destruct H as (_ & _ & _ & _ & E1 & E2 & _). rewrite (survives_same _ _ _ _ _ E1 E2). apply HN. left. reflexivity. }
  assert (Z : forall rs s, Forall (fun r => survives mn cu b r = false) rs -> survivors rs s mn cu b = Done []).
  { intros rs s H. induction H as [|x rs H0 H IH]; [reflexivity|]. cbn [survivors]. unfold survives in H0. rewrite inds_eq at 1. rewrite existsb_map, H0. exact IH. }
  rewrite (Z _ _ HN'). reflexivity.
Qed.
(** exactly one of several survives: its own parameter objects are kept *)
Lemma analyse_one r0 rest mn cu b sc r : chain_folder (r0 :: rest) -> rest <> [] -> alphabetical (free r0) -> best (r0 :: rest) mn -> filter (survives mn cu b) (r0 :: rest) = [r] ->
  exists rep, analyse (r0 :: rest) cu b sc = Done rep /\ p_free rep = free r0 /\ p_con rep = sorted_names (con r0) /\
    Forall2 (fun r m => forall k, In k (p_free rep ++ p_con rep) -> col (index k (p_free rep ++ p_con rep)) m = map (fun v => v * (1 / sc k)) (concat (map (pick mn cu b r) (tr r k)))) [r] (p_mats rep) /\
    (forall k, tr (p_comb rep) k = tr r k) /\ (forall k, In k (p_free rep ++ p_con rep) -> flat_trace (p_comb rep) k = Some (concat (tr r k))).
Proof.
  intros HCF HR HA HB HL. destruct (folder_start r0 rest mn HCF HB) as (rest' & A & FA & HM). destruct HCF as (HF & W & HC). unfold analyse. rewrite A. cbn zeta. rewrite HM. clear HM.
  assert (NS : Nat.eqb (length (r0 :: rest')) 1 = false). { apply Nat.eqb_neq. intros E. rewrite <- (F2_len _ _ _ FA) in E. destruct rest; [contradiction|discriminate E]. }
  rewrite NS. assert (NC : Forall (fun r => cchain r <> None) (r0 :: rest')).
  { apply (F2_right (aligned r0) _ (r0 :: rest) (r0 :: rest')); [|exact FA]. intros x y ((m & G & _) & _ & E & _). apply (cchain_some m y G). congruence. }
  rewrite (survivors_many mn cu b _ NC). assert (K := keeps r0 mn cu b _ _ FA). rewrite HL in K. destruct (filter (survives mn cu b) (r0 :: rest')) as [|r' l0]; [inversion K|]. inversion K as [|? ? ? ? AL K0]; subst. inversion K0; subst. clear K0. cbn [map]. assert (AL' := AL). destruct AL as ((m & G & Hm) & F1 & C1 & W1 & L1 & I1 & T1).
  destruct (trimmed_list mn cu b (free r0) (con r0) (walkers r0) [r'] HC W) as (l' & Q1 & Q2 & Q3). { constructor; [|constructor]. split; [exists m; exact G|]. auto. }
  assert (ND : NoDup (free r0 ++ con r0)) by (rewrite <- F1, <- C1; apply G). assert (PC : Permutation (sorted_names (con r0)) (con r0)) by apply sorted_perm.
  assert (ND' : NoDup (free r0 ++ sorted_names (con r0))). { eapply Permutation_NoDup; [|exact ND]. apply Permutation_app_head. symmetry. exact PC. }
  assert (INC : forall k, In k (free r0 ++ sorted_names (con r0)) -> In k (free r0 ++ con r0)). { intros k Hk. eapply Permutation_in; [|exact Hk]. apply Permutation_app_head. exact PC. }
  rewrite (sorted_id _ HA). destruct (matrices_cols (free r0) (sorted_names (con r0)) sc _ l' ND' Q1) as (ms & M1 & M2).
  { eapply Forall_impl; [|exact Q2]. intros e (X1 & X2 & X3). split; [exact X1|]. rewrite X2. auto. }
  cbn [map] in M1. rewrite M1. cbn [combine_all].
  eexists. split; [reflexivity|]. cbn [p_free p_con p_mats p_comb]. split; [reflexivity|]. split; [reflexivity|]. split.
  - inversion Q3 as [|? e' ? ? (Z1 & Z2) Q3']; subst. inversion Q3'; subst. inversion M2 as [|? m0 ? ? X M2']; subst. inversion M2'; subst. constructor; [|constructor]. intros k Hk. rewrite (X k Hk), (Z1 k (INC k Hk)). unfold tr. rewrite (T1 k). f_equal. f_equal. apply map_ext. intros w. apply pick_same; assumption.
  - assert (TT : forall k, trace_of (trim (inds mn cu b r') r') k = trace_of r k) by (intros k; change (trace_of r' k = trace_of r k); apply T1). split.
    + intros k. unfold tr. rewrite set_burnin_trace, TT. reflexivity.
    + intros k Hk. rewrite set_burnin_flat, TT. destruct (trace_some m r' k G) as (t' & Ht); [rewrite F1, C1; exact (INC k Hk)|]. unfold tr. rewrite <- (T1 k), Ht. reflexivity.
Qed.
(** the error factor *)
Lemma percival_form Nb Ns Np : Nb + 4 < Ns -> 0 <= Np -> Np <= Nb -> let M := Ns - Nb in
  (1 + (M - 2) / (M - 1) / (M - 4) * (Nb - Np)) / (1 + 2 / (M - 1) / (M - 4) + (M - 2) / (M - 1) / (M - 4) * (Np + 1)) = ((M - 1) * (M - 4) + (M - 2) * (Nb - Np)) / ((M - 1) * (M - 4) + 2 + (M - 2) * (Np + 1)).
Proof.
  intros H1 H2 H3 M. assert (HM : 4 < M) by (unfold M; lra). assert (0 <= (M - 2) * (Np + 1)) by (apply Rmult_le_pos; lra). assert (0 < (M - 1) * (M - 4)) by (apply Rmult_lt_0_compat; lra). field. repeat split; lra || (clearbody M; nra).
Qed.
