From Coq Require Import String Reals ZArith Bool Arith Lra Lia Sorted Permutation.
From Coq Require Import List.
From Verif Require Import M_Results S_Results P_Results2 M_Anal S_Anal P_Anal P_Anal2 P_Anal3.
Import ListNotations.
Local Open Scope R_scope.
Notation good := (S_Results.good (V := R) 0).

Lemma fitting_aligned r0 r : fitting r0 r -> (1 <= walkers r0)%nat -> r = r0 -> aligned r0 r r.
Proof. intros ((m & G & Hm) & _) W ->. split; [exists m; auto|]. repeat (split; [reflexivity|]). reflexivity. Qed.
Lemma F2_len {A B} (P : A -> B -> Prop) l l' : Forall2 P l l' -> length l = length l'.
Proof. intros H. induction H; cbn; congruence. Qed.
Lemma filter_len {A} (f : A -> bool) l : (length (filter f l) <= length l)%nat.
Proof. induction l as [|x l IH]; cbn; [lia|]. destruct (f x); cbn; lia. Qed.
Lemma F2_imp {A B} (P Q : A -> B -> Prop) l l' : (forall x y, P x y -> Q x y) -> Forall2 P l l' -> Forall2 Q l l'.
Proof. intros H K. induction K; constructor; auto. Qed.
Lemma F2_right {A B} (P : A -> B -> Prop) (Q : B -> Prop) l l' : (forall x y, P x y -> Q y) -> Forall2 P l l' -> Forall Q l'.
Proof. intros H K. induction K; constructor; eauto. Qed.
Lemma F2_trans {A B C} (P : A -> B -> Prop) (Q : B -> C -> Prop) (S : A -> C -> Prop) l l' l'' : (forall x y z, P x y -> Q y z -> S x z) -> Forall2 P l l' -> Forall2 Q l' l'' -> Forall2 S l l''.
Proof. intros H K. revert l''. induction K; intros l'' J; inversion J; subst; constructor; eauto. Qed.
Lemma folder_start r0 rest mn : chain_folder (r0 :: rest) -> best (r0 :: rest) mn -> exists rest', align r0 rest = Done rest' /\ Forall2 (aligned r0) (r0 :: rest) (r0 :: rest') /\ min_minus_lkl (r0 :: rest') = mn.
Proof.
  intros (HF & W & HC) HB. inversion HF as [|? ? H0 HF']; subst. destruct (align_good r0 W rest HF') as (rest' & A & FA). assert (A2 : Forall2 (aligned r0) (r0 :: rest) (r0 :: rest')) by (constructor; [apply fitting_aligned; auto|exact FA]).
  exists rest'. split; [exact A|]. split; [exact A2|]. rewrite (min_same (r0 :: rest) (r0 :: rest')); [|apply (F2_imp _ _ _ _ (fun x y (H : aligned r0 x y) => let '(conj _ (conj _ (conj _ (conj _ (conj a (conj b _)))))) := H in conj a b) A2)].
  apply (best_unique (r0 :: rest)); [|exact HB]. apply best_min; [discriminate|]. apply Forall_forall. intros r Hr. destruct (proj1 (Forall_forall _ _) HF r Hr) as ((m & G & Hm) & _ & _ & E). rewrite (good_iters m r G); [exact Hm|lia].
Qed.
Lemma keeps r0 mn cu b found rs : Forall2 (aligned r0) found rs -> Forall2 (aligned r0) (filter (survives mn cu b) found) (filter (survives mn cu b) rs).
Proof. intros H. apply filter2. eapply F2_imp; [|exact H]. intros x y K. split; [exact K|]. destruct K as (_ & _ & _ & _ & E1 & E2 & _). apply survives_same; assumption. Qed.
(** the matrices and the combination of several results that survive *)
Theorem analyse_many r0 rest mn cu b sc : chain_folder (r0 :: rest) -> alphabetical (free r0) -> best (r0 :: rest) mn -> (2 <= length (filter (survives mn cu b) (r0 :: rest)))%nat ->
  exists rep, analyse (r0 :: rest) cu b sc = Done rep /\ p_free rep = free r0 /\ p_con rep = sorted_names (con r0) /\
    Forall2 (fun r m => forall k, In k (p_free rep ++ p_con rep) -> col (index k (p_free rep ++ p_con rep)) m = map (fun v => v * (1 / sc k)) (concat (map (pick mn cu b r) (tr r k)))) (filter (survives mn cu b) (r0 :: rest)) (p_mats rep) /\
    (forall k w, In k (p_free rep ++ p_con rep) -> (w < walkers r0)%nat -> nth w (tr (p_comb rep) k) [] = concat (map (fun r => pick mn cu b r (nth w (tr r k) [])) (filter (survives mn cu b) (r0 :: rest)))) /\
    (forall k, In k (p_free rep ++ p_con rep) -> length (tr (p_comb rep) k) = walkers r0) /\
    (forall k, In k (p_free rep ++ p_con rep) -> flat_trace (p_comb rep) k = Some (concat (tr (p_comb rep) k))) /\
    (forall w, (w < walkers r0)%nat -> nth w (lnprobs (p_comb rep)) [] = concat (map (fun r => pick mn cu b r (nth w (lnprobs r) [])) (filter (survives mn cu b) (r0 :: rest)))).
Proof.
  intros HCF HA HB HL. destruct (folder_start r0 rest mn HCF HB) as (rest' & A & FA & HM). destruct HCF as (HF & W & HC). unfold analyse. rewrite A. cbn zeta. rewrite HM.
  assert (NS : Nat.eqb (length (r0 :: rest')) 1 = false). { apply Nat.eqb_neq. intros E. rewrite <- (F2_len _ _ _ FA) in E. assert (X := filter_len (survives mn cu b) (r0 :: rest)). lia. }
  rewrite NS. assert (NC : Forall (fun r => cchain r <> None) (r0 :: rest')).
  { apply (F2_right (aligned r0) _ (r0 :: rest) (r0 :: rest')); [|exact FA]. intros x y ((m & G & _) & _ & E & _). apply (cchain_some m y G). congruence. }
  rewrite (survivors_many mn cu b _ NC). assert (K := keeps r0 mn cu b _ _ FA). set (S' := filter (survives mn cu b) (r0 :: rest')) in *. set (S0 := filter (survives mn cu b) (r0 :: rest)) in *.
  destruct (trimmed_list mn cu b (free r0) (con r0) (walkers r0) S' HC W) as (l' & T1 & T2 & T3).
  { apply (F2_right (aligned r0) _ S0 S'); [|exact K]. intros x y ((m & G & _) & E1 & E2 & E3 & _). split; [exists m; exact G|]. auto. }
  assert (ND : NoDup (free r0 ++ con r0)). { inversion HF as [|? ? ((m & G & _) & _) _]. apply G. }
  assert (PC : Permutation (sorted_names (con r0)) (con r0)) by apply sorted_perm.
  assert (ND' : NoDup (free r0 ++ sorted_names (con r0))). { eapply Permutation_NoDup; [|exact ND]. apply Permutation_app_head. symmetry. exact PC. }
  rewrite (sorted_id _ HA). destruct (matrices_cols (free r0) (sorted_names (con r0)) sc _ l' ND' T1) as (ms & M1 & M2).
  { eapply Forall_impl; [|exact T2]. intros e (E1 & E2 & E3). split; [exact E1|]. rewrite E2. auto. }
  assert (CMB : exists c : results R, (match map (fun r => trim (inds mn cu b r) r) S' with a :: t => combine_all a t | [] => Raised end) = Done (set_burnin c 0) /\ (exists M, good M c) /\ free c = free r0 /\ con c = con r0 /\ walkers c = walkers r0 /\
    (forall k w, In k (free r0 ++ con r0) -> nth w (tr c k) [] = concat (map (fun e' => nth w (tr e' k) []) l')) /\ (forall w, nth w (lnprobs c) [] = concat (map (fun e' => nth w (lnprobs e') []) l'))).
  { assert (LS : (2 <= length (map (fun r => trim (inds mn cu b r) r) S'))%nat) by (rewrite map_length, <- (F2_len _ _ _ K); exact HL).
    destruct (map (fun r => trim (inds mn cu b r) r) S') as [|e1 [|e2 t]]; [cbn in LS; lia|cbn in LS; lia|]. inversion T1 as [|? e1' ? ? (D1 & n1 & G1) T1']; subst. inversion T1' as [|? e2' ? t' (D2 & n2 & G2) T1'']; subst.
    inversion T2 as [|? ? (N1 & N2 & N3) T2']; subst. assert (Q := T2'). inversion Q as [|? ? (N4 & N5 & N6) _]; subst.
    rewrite (combine_same e1 e1' e2 e2 t D1); [|constructor; reflexivity|rewrite (sd_f _ _ D1), (sd_f _ _ D2), N1; exact N4|rewrite (sd_c _ _ D1), (sd_c _ _ D2), N2; exact N5].
    destruct (combine_good (e2 :: t) (e2' :: t') n1 e1' T1' G1) as (c & M' & C1 & C2 & C3 & C4 & C5 & C6 & C7); [rewrite N2; exact HC|rewrite N1, N2, N3; exact T2'|].
    exists c. split; [exact C1|]. split; [exists M'; exact C2|]. split; [congruence|]. split; [congruence|]. split; [congruence|]. split.
    - intros k w Hk. rewrite C6 by (rewrite N1, N2; exact Hk). reflexivity.
    - intros w. rewrite C7. reflexivity. }
  destruct CMB as (c & C1 & (M & GM) & C3 & C4 & C5 & C6 & C7). destruct (map (fun r => trim (inds mn cu b r) r) S') as [|e1 t] eqn:ES; [exfalso; discriminate C1|]. rewrite M1, C1.
  exists {| p_free := free r0; p_con := sorted_names (con r0); p_mats := ms; p_comb := set_burnin c 0 |}. cbn [p_free p_con p_mats p_comb]. split; [reflexivity|]. split; [reflexivity|]. split; [reflexivity|].
  assert (INC : forall k, In k (free r0 ++ sorted_names (con r0)) -> In k (free r0 ++ con r0)). { intros k Hk. eapply Permutation_in; [|exact Hk]. apply Permutation_app_head. exact PC. }
  assert (K3 : Forall2 (fun r e' => (forall k, In k (free r0 ++ con r0) -> tr e' k = map (pick mn cu b r) (tr r k)) /\ lnprobs e' = map (pick mn cu b r) (lnprobs r)) S0 l').
  { eapply F2_trans; [|exact K|exact T3]. intros x y z (_ & _ & _ & _ & E1 & E2 & E3) (Z1 & Z2). split.
    - intros k Hk. rewrite (Z1 k Hk). unfold tr. rewrite (E3 k). apply map_ext. intros w. apply pick_same; assumption.
    - rewrite Z2, E1. apply map_ext. intros w. apply pick_same; assumption. }
  assert (LEN : Forall (fun r => (forall k, In k (free r0 ++ con r0) -> length (tr r k) = walkers r0) /\ length (lnprobs r) = walkers r0) S0).
  { apply Forall_forall. intros r Hr. apply filter_In in Hr. destruct Hr as (Hr & _). destruct (proj1 (Forall_forall _ _) HF r Hr) as ((m & G & _) & Pf & Pc & Ew). split.
    - intros k Hk. destruct (trace_some m r k G) as (t' & Ht). { eapply Permutation_in; [|exact Hk]. symmetry. apply Permutation_app; assumption. } unfold tr. rewrite Ht. rewrite <- Ew. exact (proj1 (trace_len m r k t' G Ht)).
    - rewrite <- Ew. exact (proj1 (g_lnp _ _ _ G)). }
  split; [eapply F2_trans; [|exact K3|exact M2]; intros x y z (Z1 & _) Z k Hk; rewrite (Z k Hk), (Z1 k (INC k Hk)); reflexivity|].
  split; [|split; [|split]].
  - intros k w Hk Hw. unfold tr at 1. rewrite set_burnin_trace. fold (tr c k). rewrite (C6 k w (INC k Hk)). f_equal. clear - K3 LEN Hk Hw INC. induction K3 as [|x y l l' (Z1 & _) H IH]; [reflexivity|]. inversion LEN as [|? ? (Y1 & _) LEN']; subst. cbn [map]. rewrite (IH LEN'). f_equal.
    rewrite (Z1 k (INC k Hk)), nth_map_pick. rewrite (Y1 k (INC k Hk)). apply Nat.ltb_lt in Hw. rewrite Hw. reflexivity.
  - intros k Hk. unfold tr. rewrite set_burnin_trace. destruct (trace_some M c k GM) as (t' & Ht); [rewrite C3, C4; exact (INC k Hk)|]. rewrite Ht, <- C5. exact (proj1 (trace_len M c k t' GM Ht)).
  - intros k Hk. rewrite set_burnin_flat. unfold tr. rewrite set_burnin_trace. destruct (trace_some M c k GM) as (t' & Ht); [rewrite C3, C4; exact (INC k Hk)|]. rewrite Ht. reflexivity.
  - intros w Hw. cbn [set_burnin lnprobs]. rewrite C7. f_equal. clear - K3 LEN Hw. induction K3 as [|x y l l' (_ & Z2) H IH]; [reflexivity|]. inversion LEN as [|? ? (_ & Y2) LEN']; subst. cbn [map]. rewrite (IH LEN'). f_equal. rewrite Z2, nth_map_pick, Y2. apply Nat.ltb_lt in Hw. rewrite Hw. reflexivity.
Qed.
