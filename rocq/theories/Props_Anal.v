(** C139-C141: the analysis of the chains of a folder. *)
From Coq Require Import String Reals ZArith Bool Arith Lra Lia Sorted Permutation.
From Coq Require Import List.
From Verif Require Import M_Results S_Results P_Results2 M_Anal S_Anal P_Anal P_Anal2 P_Anal3 P_Anal4 P_Anal5.
Import ListNotations.
Local Open Scope R_scope.
Notation good := (S_Results.good (V := R) 0).

(** C139. Several files survive: matrices and combined result hold exactly the used samples, under the right names *)
Theorem C139_several_files r0 rest mn cutoff burn scales : chain_folder (r0 :: rest) -> alphabetical (free r0) -> best (r0 :: rest) mn ->
  let kept := filter (survives mn cutoff burn) (r0 :: rest) in (2 <= length kept)%nat ->
  exists rep, analyse (r0 :: rest) cutoff burn scales = Done rep /\
    let names := p_free rep ++ p_con rep in
    p_free rep = free r0 /\ Permutation (p_con rep) (con r0) /\ alphabetical (p_con rep) /\
    Forall2 (fun r m => forall k, In k names -> col (index k names) m = map (fun v => v * (1 / scales k)) (concat (map (pick mn cutoff burn r) (tr r k)))) kept (p_mats rep) /\
    (forall k, In k names -> length (tr (p_comb rep) k) = walkers r0 /\ flat_trace (p_comb rep) k = Some (concat (tr (p_comb rep) k))) /\
    (forall k w, In k names -> (w < walkers r0)%nat -> nth w (tr (p_comb rep) k) [] = concat (map (fun r => pick mn cutoff burn r (nth w (tr r k) [])) kept)) /\
    (forall w, (w < walkers r0)%nat -> nth w (lnprobs (p_comb rep)) [] = concat (map (fun r => pick mn cutoff burn r (nth w (lnprobs r) [])) kept)).
Proof.
  intros H1 H2 H3 kept H4. destruct (analyse_many r0 rest mn cutoff burn scales H1 H2 H3 H4) as (rep & A & B1 & B2 & B3 & B4 & B5 & B6 & B7). exists rep. split; [exact A|]. cbn zeta.
  split; [exact B1|]. split; [rewrite B2; apply sorted_perm|]. split; [rewrite B2; apply sorted_sorted|]. split; [exact B3|]. split; [intros k Hk; split; [apply B5|apply B6]; exact Hk|]. split; [exact B4|exact B7].
Qed.
(** the samples of pick are the used ones, in order *)
Theorem C139_used_samples mn cutoff burn r l : exists js, pick mn cutoff burn r l = map (fun i => nth i l 0) js /\ StronglySorted lt js /\ forall i, In i js <-> (i < iterations r)%nat /\ used mn cutoff burn r i.
Proof.
  exists (filter (usedb mn cutoff burn r) (seq 0 (iterations r))). split; [reflexivity|]. split.
  - generalize 0%nat. induction (iterations r) as [|n IH]; intros s; [constructor|]. cbn [seq filter]. destruct (usedb mn cutoff burn r s); [|apply IH]. constructor; [apply IH|]. apply Forall_forall. intros x Hx. apply filter_In in Hx. destruct Hx as (Hx & _). apply in_seq in Hx. lia.
  - intros i. rewrite filter_In, in_seq, usedb_used. split; intros (A & B); split; try assumption; lia.
Qed.
(** the results kept are those with a used iteration *)
Theorem C139_kept_results mn cutoff burn found r : In r (filter (survives mn cutoff burn) found) <-> In r found /\ exists i, (i < iterations r)%nat /\ used mn cutoff burn r i.
Proof. rewrite filter_In, survives_iff. reflexivity. Qed.
(** one file: three interleaved thirds, together the used samples *)
Theorem C139_single_file r0 mn cutoff burn scales : chain_folder [r0] -> alphabetical (free r0) -> best [r0] mn -> (exists i, (i < iterations r0)%nat /\ used mn cutoff burn r0 i) ->
  exists rep m0 m1 m2, analyse [r0] cutoff burn scales = Done rep /\
    let names := p_free rep ++ p_con rep in
    p_free rep = free r0 /\ Permutation (p_con rep) (con r0) /\ p_mats rep = [m0; m1; m2] /\
    (forall k, In k names -> let j := index k names in Permutation (col j m0 ++ col j m1 ++ col j m2) (map (fun v => v * (1 / scales k)) (concat (map (pick mn cutoff burn r0) (tr r0 k))))) /\
    (forall k, In k names -> flat_trace (p_comb rep) k = Some (concat (tr (p_comb rep) k)) /\ length (tr (p_comb rep) k) = walkers r0) /\
    (forall k w, In k names -> (w < walkers r0)%nat -> Permutation (nth w (tr (p_comb rep) k) []) (pick mn cutoff burn r0 (nth w (tr r0 k) []))).
Proof.
  intros H1 H2 H3 H4. apply survives_iff in H4. destruct (analyse_single r0 mn cutoff burn scales H1 H2 H3 H4) as (rep & A & B1 & B2 & B3 & B4 & B5 & B6).
  destruct (p_mats rep) as [|m0 [|m1 [|m2 [|m3 ms]]]] eqn:PM; try (exfalso; apply F2_len in B3; discriminate B3).
  inversion B3 as [|? ? ? ? Q0 M2']; subst. inversion M2' as [|? ? ? ? Q1 M2'']; subst. inversion M2'' as [|? ? ? ? Q2 M2''']; subst.
  exists rep, m0, m1, m2. split; [exact A|]. cbn zeta. split; [exact B1|]. split; [rewrite B2; apply sorted_perm|]. split; [exact PM|]. split; [|split].
  - intros k Hk. rewrite (Q0 k Hk), (Q1 k Hk), (Q2 k Hk). rewrite <- !map_app. apply Permutation_map. clear. induction (tr r0 k) as [|w t IH]; [reflexivity|]. cbn [map concat]. rewrite <- (every_perm (pick mn cutoff burn r0 w)) at 4.
    set (e0 := every 0 _). set (e1 := every 1 _). set (e2 := every 2 _). rewrite <- IH. set (c0 := concat _). set (c1 := concat _). set (c2 := concat _).
    rewrite <- !app_assoc. apply Permutation_app_head. transitivity (e1 ++ (c0 ++ c1) ++ e2 ++ c2).
    + rewrite (app_assoc c0 e1), (Permutation_app_comm c0 e1), <- !app_assoc. reflexivity.
    + apply Permutation_app_head. rewrite app_assoc. rewrite (Permutation_app_comm (c0 ++ c1) e2), <- !app_assoc. reflexivity.
  - intros k Hk. split; [apply B6|apply B5]; exact Hk.
  - intros k w Hk Hw. rewrite (B4 k w Hk Hw). apply every_perm.
Qed.
(** with no burn-in fraction and a positive cutoff, some iteration is always used; otherwise the analysis is refused *)
Theorem C139_best_is_used found mn cutoff : best found mn -> 0 < cutoff -> filter (survives mn cutoff None) found <> [].
Proof.
  intros HB Hc E. destruct (best_used found mn cutoff HB Hc) as (r & i & H1 & H2 & H3). assert (K : In r (filter (survives mn cutoff None) found)) by (apply filter_In; split; [exact H1|]; apply survives_iff; eauto). rewrite E in K. destruct K.
Qed.
Theorem C139_nothing_left r0 rest mn cutoff burn scales : chain_folder (r0 :: rest) -> best (r0 :: rest) mn -> (forall r i, In r (r0 :: rest) -> (i < iterations r)%nat -> ~ used mn cutoff burn r i) -> analyse (r0 :: rest) cutoff burn scales = AnalyzeError.
Proof.
  intros H1 H2 H3. apply (analyse_none r0 rest mn); [exact H1|exact H2|]. intros r Hr. destruct (survives mn cutoff burn r) eqn:E; [|reflexivity]. apply survives_iff in E. destruct E as (i & Hi & Hu). exfalso. exact (H3 r i Hr Hi Hu).
Qed.
(** the folder does have a best iteration, and that number is the one used *)
Theorem C139_best_exists r0 rest : chain_folder (r0 :: rest) -> exists mn, best (r0 :: rest) mn /\ forall mn', best (r0 :: rest) mn' -> mn' = mn.
Proof.
  intros (HF & W & _). exists (min_minus_lkl (r0 :: rest)). assert (B : best (r0 :: rest) (min_minus_lkl (r0 :: rest))).
  { apply best_min; [discriminate|]. apply Forall_forall. intros r Hr. destruct (proj1 (Forall_forall _ _) HF r Hr) as ((m & G & Hm) & _ & _ & E). rewrite (good_iters m r G); [exact Hm|lia]. }
  split; [exact B|]. intros mn' H. apply (best_unique (r0 :: rest)); assumption.
Qed.

(** ** an example folder *)
Definition demo (lp1 lp2 : R) : results R :=
  {| free := ["a"%string]; con := ["b"%string]; chain := [[[1]; [2]]]; cchain := Some [("b"%string, [[3; 4]])]; lnprobs := [[lp1; lp2]]; burnin := 0;
     table := [("b"%string, ([[3; 4]], 0%nat)); ("a"%string, ([[1; 2]], 0%nat))] |}.
Lemma demo_good x y : good 2 (demo x y).
Proof.
  constructor; cbn [demo free con chain cchain lnprobs table app].
  - repeat constructor; cbn; intuition discriminate.
  - repeat constructor.
  - repeat constructor.
  - split; [discriminate|]. split; [reflexivity|]. repeat constructor.
  - intros k. split; [|split].
    + intros [|[|i]] H; try discriminate H. injection H as <-. reflexivity.
    + intros [<-|[]]. reflexivity.
    + intros H. unfold trace_of. cbn [demo table assoc option_map]. destruct (String.eqb_spec "b" k) as [<-|N1]; [exfalso; apply H; right; left; reflexivity|]. destruct (String.eqb_spec "a" k) as [<-|N2]; [exfalso; apply H; left; reflexivity|]. reflexivity.
Qed.
Lemma demo_folder l : Forall (fun r => exists x y, r = demo x y) l -> l <> [] -> chain_folder l.
Proof.
  intros H N. destruct l as [|r0 l]; [contradiction|]. assert (H0 := Forall_inv H). cbn beta in H0. destruct H0 as (x0 & y0 & ->). split; [|split; [cbn; lia|discriminate]]. eapply Forall_impl; [|exact H]. intros r (x & y & ->). split; [exists 2%nat; split; [apply demo_good|lia]|]. repeat split; reflexivity.
Qed.
Lemma demo_lkl x y i : mean_lkl (demo x y) i = match i with 0%nat => - x | 1%nat => - y | _ => 0 end.
Proof. unfold mean_lkl. cbn [demo lnprobs map fold_right length INR]. destruct i as [|[|i]]; cbn [nth]; try lra. destruct i; lra. Qed.
Lemma demo_surv mn c x y : survives mn c None (demo x y) = true <-> - x < mn + c \/ - y < mn + c.
Proof.
  rewrite survives_iff. unfold used. cbn [iterations demo chain hd length burn_count]. split.
  - intros ([|[|i]] & Hi & H & _); rewrite demo_lkl in H; [left; exact H|right; exact H|lia].
  - intros [H|H]; [exists 0%nat|exists 1%nat]; rewrite demo_lkl; repeat split; (lia || exact H).
Qed.
Example C139_nonvacuous : exists r0 rest mn cutoff, chain_folder (r0 :: rest) /\ alphabetical (free r0) /\ best (r0 :: rest) mn /\ (2 <= length (filter (survives mn cutoff None) (r0 :: rest)))%nat /\ exists r i, In r (r0 :: rest) /\ (i < iterations r)%nat /\ ~ used mn cutoff None r i.
Proof.
  exists (demo (-1) (-9)), [demo (-8) (-2)], 1, 3. split; [apply demo_folder; [repeat constructor; eauto|discriminate]|]. split; [repeat constructor|]. split.
  { split; [exists (demo (-1) (-9)), 0%nat; rewrite demo_lkl; split; [left; reflexivity|]; split; [cbn; lia|lra]|]. intros r [|[|i]] [<-|[<-|[]]] Hi; rewrite demo_lkl; cbn in Hi; try lra; lia. }
  split; [cbn [filter]; rewrite !(proj2 (demo_surv 1 3 _ _)) by lra; cbn; lia|]. exists (demo (-1) (-9)), 1%nat. split; [left; reflexivity|]. split; [cbn; lia|]. intros (H & _). rewrite demo_lkl in H. lra.
Qed.

(** C140. Exactly one of several files survives: the combined statistics still hold every sample of that file, the matrices only the used ones *)
Theorem C140_one_survivor_keeps_burnin_refuted r0 rest mn cutoff burn scales r : chain_folder (r0 :: rest) -> rest <> [] -> alphabetical (free r0) -> best (r0 :: rest) mn ->
  filter (survives mn cutoff burn) (r0 :: rest) = [r] ->
  exists rep m, analyse (r0 :: rest) cutoff burn scales = Done rep /\ p_mats rep = [m] /\
    let names := p_free rep ++ p_con rep in
    (forall k, In k names -> col (index k names) m = map (fun v => v * (1 / scales k)) (concat (map (pick mn cutoff burn r) (tr r k)))) /\
    (forall k, In k names -> flat_trace (p_comb rep) k = Some (concat (tr r k))).
Proof.
  intros H1 H2 H3 H4 H5. destruct (analyse_one r0 rest mn cutoff burn scales r H1 H2 H3 H4 H5) as (rep & A & _ & _ & B & _ & C). destruct (p_mats rep) as [|m [|m3 ms]] eqn:PM; try (exfalso; apply F2_len in B; discriminate B). inversion B as [|? ? ? ? Q B']; subst. exists rep, m. auto.
Qed.
Theorem C140_discarded_samples_remain_refuted : exists r0 rest mn r rep, chain_folder (r0 :: rest) /\ best (r0 :: rest) mn /\ analyse (r0 :: rest) 3 None (fun _ => 1) = Done rep /\ In r (r0 :: rest) /\ ~ used mn 3 None r 1 /\
  tr r "a" = [[1; 2]] /\ flat_trace (p_comb rep) "a" = Some [1; 2] /\ exists m, p_mats rep = [m] /\ col 0 m = [1].
Proof.
  assert (CF : chain_folder [demo (-1) (-9); demo (-8) (-7)]) by (apply demo_folder; [repeat constructor; eauto|discriminate]).
  assert (B : best [demo (-1) (-9); demo (-8) (-7)] 1).
  { split; [exists (demo (-1) (-9)), 0%nat; rewrite demo_lkl; split; [left; reflexivity|]; split; [cbn; lia|lra]|]. intros r [|[|i]] [<-|[<-|[]]] Hi; rewrite demo_lkl; cbn in Hi; try lra; lia. }
  assert (S1 : survives 1 3 None (demo (-1) (-9)) = true) by (apply demo_surv; lra). assert (S2 : survives 1 3 None (demo (-8) (-7)) = false). { destruct (survives 1 3 None (demo (-8) (-7))) eqn:E; [|reflexivity]. apply demo_surv in E. lra. }
  destruct (analyse_one (demo (-1) (-9)) [demo (-8) (-7)] 1 3 None (fun _ => 1) (demo (-1) (-9)) CF) as (rep & A & F & C & M & T & FT); [discriminate|repeat constructor|exact B|cbn [filter]; rewrite S1, S2; reflexivity|].
  exists (demo (-1) (-9)), [demo (-8) (-7)], 1, (demo (-1) (-9)), rep. split; [exact CF|]. split; [exact B|]. split; [exact A|]. split; [left; reflexivity|]. split; [intros (H & _); rewrite demo_lkl in H; lra|]. split; [reflexivity|].
  cbn in F, C. rewrite F, C in M, FT. split; [apply (FT "a"%string); left; reflexivity|]. destruct (p_mats rep) as [|m [|m3 ms]] eqn:PM; try (exfalso; apply F2_len in M; discriminate M). inversion M as [|? ? ? ? Q M']; subst. exists m. split; [reflexivity|]. assert (X := Q "a"%string (or_introl eq_refl)). change (tr (demo (-1) (-9)) "a") with [[1; 2]] in X. cbn [map] in X.
  assert (PK : pick 1 3 None (demo (-1) (-9)) [1; 2] = [1]).
  { unfold pick. change (seq 0 (iterations (demo (-1) (-9)))) with [0; 1]%nat. cbn [filter].
    assert (U0 : usedb 1 3 None (demo (-1) (-9)) 0 = true) by (apply usedb_used; split; [rewrite demo_lkl; lra|cbn; lia]).
    assert (U1 : usedb 1 3 None (demo (-1) (-9)) 1 = false). { destruct (usedb 1 3 None (demo (-1) (-9)) 1) eqn:E; [|reflexivity]. apply usedb_used in E. destruct E as (E & _). rewrite demo_lkl in E. lra. }
    rewrite U0, U1. reflexivity. }
  rewrite PK in X. cbn [concat app map] in X. change (index "a" ["a"; "b"]%string) with 0%nat in X. rewrite X. f_equal. lra.
Qed.
(** a folder without constrained parameters cannot be analysed *)
Theorem C140_no_constrained_refuted r0 rest mn cutoff burn scales : Forall (fitting r0) (r0 :: rest) -> (1 <= walkers r0)%nat -> con r0 = [] -> best (r0 :: rest) mn -> (exists r i, In r (r0 :: rest) /\ (i < iterations r)%nat /\ used mn cutoff burn r i) ->
  analyse (r0 :: rest) cutoff burn scales = Raised.
Proof.
  intros HF W HC HB (r & i & Hr & Hi & Hu). inversion HF as [|? ? H0 HF']; subst. destruct (align_good r0 W rest HF') as (rest' & A & FA).
  assert (A2 : Forall2 (aligned r0) (r0 :: rest) (r0 :: rest')) by (constructor; [apply fitting_aligned; auto|exact FA]). unfold analyse. rewrite A. cbn zeta.
  assert (HM : min_minus_lkl (r0 :: rest') = mn). { rewrite (min_same (r0 :: rest) (r0 :: rest')). - apply (best_unique (r0 :: rest)); [|exact HB]. apply best_min; [discriminate|]. apply Forall_forall. intros q Hq. destruct (proj1 (Forall_forall _ _) HF q Hq) as ((m & G & Hm) & _ & _ & E). rewrite (good_iters m q G); [exact Hm|lia].
    - eapply F2_imp; [|exact A2]. intros x y (_ & _ & _ & _ & E1 & E2 & _). auto. }
  rewrite HM. assert (Z : forall rs s, Forall (fun q => cchain q = None) rs -> existsb (survives mn cutoff burn) rs = true -> survivors rs s mn cutoff burn = Raised).
  { intros rs s H. induction H as [|x rs H1 H2 IH]; intros E; [discriminate E|]. cbn [survivors]. cbn [existsb] in E. rewrite inds_eq at 1. rewrite existsb_map. change (existsb (usedb mn cutoff burn x) (seq 0 (iterations x))) with (survives mn cutoff burn x). rewrite H1. destruct (survives mn cutoff burn x); [reflexivity|]. apply IH. exact E. }
  rewrite Z; [reflexivity| |].
  - apply (F2_right (aligned r0) _ (r0 :: rest) (r0 :: rest')); [|exact A2]. intros x y ((m & G & _) & _ & E & _). assert (X := g_cchain _ _ _ G). destruct (cchain y); [|reflexivity]. destruct X as (X & _). rewrite E, HC in X. contradiction.
  - assert (S0 : survives mn cutoff burn r = true) by (apply survives_iff; eauto). clear - A2 Hr S0. remember (r0 :: rest) as l. remember (r0 :: rest') as l'. clear Heql Heql'. induction A2 as [|x y l l' H A2 IH]; [destruct Hr|]. cbn [existsb]. destruct Hr as [->|Hr]; [|rewrite (IH Hr); apply orb_true_r].
    destruct H as (_ & _ & _ & _ & E1 & E2 & _). rewrite (survives_same _ _ _ _ _ E1 E2), S0. reflexivity.
Qed.
(** the list of files asked for is not looked at beyond the folder of the first one *)
Theorem C140_files_ignored_refuted f t t' folder_of in_folder : files_read (f :: t) folder_of in_folder = files_read (f :: t') folder_of in_folder /\ files_read (f :: t) folder_of in_folder = in_folder (folder_of f).
Proof. split; reflexivity. Qed.
(** thinning never succeeds *)
Theorem C140_thinning_fails_refuted t r : thin t r = @ValueError _ \/ thin t r = @IndexError _.
Proof. unfold thin. destruct (cchain r); auto. Qed.

(** C141. The factor of Percival et al. *)
Theorem C141_positive Nb Ns Np : Nb + 4 < Ns -> 0 <= Np -> Np <= Nb -> 0 < error_rescaling Nb Ns Np /\
  error_rescaling Nb Ns Np * error_rescaling Nb Ns Np * ((Ns - Nb - 1) * (Ns - Nb - 4) + 2 + (Ns - Nb - 2) * (Np + 1)) = (Ns - Nb - 1) * (Ns - Nb - 4) + (Ns - Nb - 2) * (Nb - Np).
Proof.
  intros H1 H2 H3. unfold error_rescaling. cbn zeta. rewrite (percival_form Nb Ns Np H1 H2 H3). set (M := Ns - Nb). assert (HM : 4 < M) by (unfold M; lra). clearbody M.
  assert (P1 : 0 < (M - 1) * (M - 4)) by (apply Rmult_lt_0_compat; lra). assert (P2 : 0 <= (M - 2) * (Nb - Np)) by (apply Rmult_le_pos; lra). assert (P3 : 0 <= (M - 2) * (Np + 1)) by (apply Rmult_le_pos; lra).
  assert (Q : 0 < ((M - 1) * (M - 4) + (M - 2) * (Nb - Np)) / ((M - 1) * (M - 4) + 2 + (M - 2) * (Np + 1))) by (apply Rdiv_lt_0_compat; lra). split; [apply sqrt_lt_R0; exact Q|]. rewrite sqrt_sqrt by lra. field. lra.
Qed.
Theorem C141_widens_iff Nb Ns Np : Nb + 4 < Ns -> 0 <= Np -> Np <= Nb -> (1 <= error_rescaling Nb Ns Np <-> 2 <= (Ns - Nb - 2) * (Nb - 2 * Np - 1)).
Proof.
  intros H1 H2 H3. destruct (C141_positive Nb Ns Np H1 H2 H3) as (P & E). set (f := error_rescaling Nb Ns Np) in *. set (M := Ns - Nb) in *. assert (HM : 4 < M) by (unfold M; lra). clearbody M f.
  assert (P1 : 0 < (M - 1) * (M - 4)) by (apply Rmult_lt_0_compat; lra). assert (P3 : 0 <= (M - 2) * (Np + 1)) by (apply Rmult_le_pos; lra). set (D := (M - 1) * (M - 4) + 2 + (M - 2) * (Np + 1)) in *. assert (HD : 0 < D) by (unfold D; lra).
  assert (K : (f * f - 1) * D = (M - 2) * (Nb - 2 * Np - 1) - 2) by (replace ((f * f - 1) * D) with (f * f * D - D) by ring; rewrite E; unfold D; ring). split; intros H.
  - assert (0 <= f * f - 1) by nra. assert (0 <= (f * f - 1) * D) by (apply Rmult_le_pos; lra). lra.
  - destruct (Rle_dec 1 f) as [L|L]; [exact L|]. exfalso. assert (f * f - 1 < 0) by nra. assert ((f * f - 1) * D < 0) by nra. lra.
Qed.
(** with many mocks the factor is close to 1 *)
Theorem C141_many_mocks Nb Np eps : 0 <= Np -> Np <= Nb -> 0 < eps -> exists N0, forall Ns, N0 < Ns -> Rabs (error_rescaling Nb Ns Np - 1) < eps.
Proof.
  intros H2 H3 He. exists (Nb + 4 + (Nb + 2 * Np + 3) / eps). intros Ns HN. assert (Q : 0 <= (Nb + 2 * Np + 3) / eps) by (apply Rlt_le, Rdiv_lt_0_compat; lra). assert (H1 : Nb + 4 < Ns) by lra.
  destruct (C141_positive Nb Ns Np H1 H2 H3) as (P & E). set (f := error_rescaling Nb Ns Np) in *. set (M := Ns - Nb) in *. assert (HM : 4 < M) by (unfold M; lra). assert (HM' : (Nb + 2 * Np + 3) / eps < M - 4) by (unfold M; lra). clearbody M f.
  assert (HC : Nb + 2 * Np + 3 < eps * (M - 4)). { apply Rmult_lt_compat_l with (r := eps) in HM'; [|exact He]. replace (eps * ((Nb + 2 * Np + 3) / eps)) with (Nb + 2 * Np + 3) in HM' by (field; lra). exact HM'. }
  assert (P1 : 0 < (M - 1) * (M - 4)) by (apply Rmult_lt_0_compat; lra). assert (P3 : 0 <= (M - 2) * (Np + 1)) by (apply Rmult_le_pos; lra). set (D := (M - 1) * (M - 4) + 2 + (M - 2) * (Np + 1)) in *. assert (HD : (M - 1) * (M - 4) < D) by (unfold D; lra).
  assert (K : (f - 1) * ((f + 1) * D) = (M - 2) * (Nb - 2 * Np - 1) - 2) by (replace ((f - 1) * ((f + 1) * D)) with (f * f * D - D) by ring; rewrite E; unfold D; ring).
  assert (U : Rabs ((M - 2) * (Nb - 2 * Np - 1) - 2) <= (M - 1) * (Nb + 2 * Np + 3)).
  { apply Rabs_le. assert (0 <= (M - 2) * Np) by (apply Rmult_le_pos; lra). assert (0 <= (M - 2) * Nb) by (apply Rmult_le_pos; lra). split; nra. }
  assert (V : (M - 1) * (Nb + 2 * Np + 3) < eps * D). { apply Rlt_trans with ((M - 1) * (eps * (M - 4))); [apply Rmult_lt_compat_l; lra|]. replace ((M - 1) * (eps * (M - 4))) with (eps * ((M - 1) * (M - 4))) by ring. apply Rmult_lt_compat_l; lra. }
  rewrite <- K in U. rewrite Rabs_mult in U. rewrite (Rabs_right ((f + 1) * D)) in U by (apply Rle_ge, Rmult_le_pos; lra). assert (X : 0 <= Rabs (f - 1)) by apply Rabs_pos.
  assert (Y : Rabs (f - 1) * D <= Rabs (f - 1) * ((f + 1) * D)) by (apply Rmult_le_compat_l; [exact X|nra]). apply Rmult_lt_reg_r with D; lra.
Qed.
Example C141_nonvacuous : exists Nb Ns Np, Nb + 4 < Ns /\ 0 <= Np /\ Np <= Nb /\ 1 < error_rescaling Nb Ns Np.
Proof.
  exists 60, 1000, 10. repeat (split; [lra|]). unfold error_rescaling. cbn zeta. rewrite <- sqrt_1 at 1. apply sqrt_lt_1; [lra| |]; [|lra].
  apply Rlt_le. apply Rdiv_lt_0_compat; lra.
Qed.
Print Assumptions C139_several_files. Print Assumptions C139_single_file. Print Assumptions C140_discarded_samples_remain_refuted. Print Assumptions C141_many_mocks.
