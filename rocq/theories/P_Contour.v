From Coq Require Import List Arith ZArith QArith Lia Bool Permutation Sorted.
From Verif Require Import M_Contour S_Contour.
Import ListNotations.
Local Open Scope nat_scope.

Lemma insert_perm x l : Permutation (x :: l) (insert_desc x l).
Proof. induction l as [|y l IH]; cbn; [reflexivity|]. destruct (y <=? x); [reflexivity|]. rewrite perm_swap. now constructor. Qed.
Lemma desc_perm l : Permutation l (desc l).
Proof. induction l as [|x l IH]; cbn; [constructor|]. rewrite <- insert_perm. now constructor. Qed.
Lemma insert_sorted x l : StronglySorted ge l -> StronglySorted ge (insert_desc x l).
Proof.
  induction 1 as [|y l H IH F]; cbn; [repeat constructor|]. destruct (y <=? x) eqn:E.
  - apply Nat.leb_le in E. constructor; [constructor; auto|]. constructor; [lia|]. eapply Forall_impl; [|exact F]. cbn; intros; lia.
  - apply Nat.leb_gt in E. constructor; [exact IH|]. rewrite <- insert_perm. constructor; [lia|exact F].
Qed.
Lemma desc_sorted l : StronglySorted ge (desc l).
Proof. induction l; cbn; [constructor|]. now apply insert_sorted. Qed.

Lemma samples_perm l l' : Permutation l l' -> samples l = samples l'.
Proof. induction 1; cbn; lia. Qed.
Lemma enclosed_perm v l l' : Permutation l l' -> enclosed v l = enclosed v l'.
Proof. induction 1; cbn; lia. Qed.
Lemma above_perm v l l' : Permutation l l' -> above v l = above v l'.
Proof. induction 1; cbn; lia. Qed.

(** The cumulative sums. *)
Lemma cumsum_last acc l : last (cumsum acc l) acc = acc + samples l.
Proof.
  revert acc; induction l as [|x l IH]; intro acc; cbn [cumsum samples]; [cbn; lia|].
  destruct l as [|y l]; [cbn; lia|].
  change (last (acc + x :: cumsum (acc + x) (y :: l)) acc) with (last (cumsum (acc + x) (y :: l)) acc).
  rewrite <- (IH (acc + x)) at 1 || idtac.
  assert (forall d d', last (cumsum (acc + x) (y :: l)) d = last (cumsum (acc + x) (y :: l)) d') as D.
  { intros d d'. cbn [cumsum]. generalize (cumsum (acc + x + y) l) as r. intro r. generalize (acc + x + y) as a. induction r as [|b r IHr]; intro a; [reflexivity|]. cbn [last]. apply IHr. }
  rewrite (D acc (acc + x)), IH. cbn. lia.
Qed.
Lemma cumsum_length acc l : length (cumsum acc l) = length l.
Proof. revert acc; induction l; intro; cbn; auto. Qed.
Lemma cumsum_nth acc l k : k < length l -> nth k (cumsum acc l) 0 = acc + samples (firstn (S k) l).
Proof.
  revert acc k; induction l as [|x l IH]; intros acc k H; [cbn in H; lia|].
  destruct k; [cbn; lia|]. cbn [length] in H. cbn [cumsum nth]. rewrite IH by lia. cbn [firstn samples]. lia.
Qed.

Definition reach (lvl : Q) (total c : nat) : bool := Qle_bool lvl (inject_Z (Z.of_nat c) / inject_Z (Z.of_nat total)).
Lemma reach_iff lvl total c : 0 < total -> (reach lvl total c = true <-> (lvl * inject_Z (Z.of_nat total) <= inject_Z (Z.of_nat c))%Q).
Proof.
  intro T. unfold reach. rewrite Qle_bool_iff.
  assert (0 < inject_Z (Z.of_nat total))%Q as P by (unfold Qlt; cbn; lia).
  split; intro H.
  - apply (Qmult_le_compat_r _ _ (inject_Z (Z.of_nat total))) in H; [|apply Qlt_le_weak, P].
    rewrite Qmult_comm in H. rewrite (Qmult_comm (_ / _)), Qmult_div_r in H by (intro E; rewrite E in P; discriminate P).
    now rewrite Qmult_comm.
  - apply Qle_shift_div_l; auto.
Qed.
Lemma ss_spec lvl total cs : forall k, (k < searchsorted lvl total cs -> reach lvl total (nth k cs 0) = false)
  /\ (k = searchsorted lvl total cs -> k < length cs -> reach lvl total (nth k cs 0) = true) .
Proof.
  induction cs as [|c cs IH]; cbn [searchsorted]; intro k; [cbn; split; intros; lia|].
  change (Qle_bool lvl (inject_Z (Z.of_nat c) / inject_Z (Z.of_nat total))) with (reach lvl total c). destruct (reach lvl total c) eqn:E.
  - split; [lia|]. intros -> _. exact E.
  - split; intro H; destruct k; cbn [nth]; auto; [apply IH; lia|discriminate|].
    intro L. cbn in L. apply IH; lia.
Qed.
Lemma ss_le lvl total cs : searchsorted lvl total cs <= length cs.
Proof. induction cs as [|c cs IH]; cbn; [lia|]. destruct (Qle_bool _ _); lia. Qed.

Lemma reach_mono lvl total c c' : 0 < total -> c <= c' -> reach lvl total c = true -> reach lvl total c' = true.
Proof.
  intros T L H. apply reach_iff in H; auto. apply reach_iff; auto. eapply Qle_trans; [exact H|]. unfold Qle; cbn; lia.
Qed.

Section One.
Variable h : list nat.
Variable lvl : Q.
Hypothesis T : 0 < samples h.
Hypothesis L : (lvl <= 1)%Q.
Let d := desc h.
Let k := position h lvl.

Lemma total_eq : last (cumsum 0 d) 0 = samples h.
Proof. rewrite cumsum_last. cbn. symmetry. apply samples_perm, desc_perm. Qed.
Lemma d_len : length d = length h.
Proof. symmetry. apply Permutation_length, desc_perm. Qed.
Lemma d_samples : samples d = samples h.
Proof. symmetry. apply samples_perm, desc_perm. Qed.
Lemma h_ne : 0 < length h.
Proof. destruct h; cbn in *; lia. Qed.
Lemma k_eq : k = searchsorted lvl (samples h) (cumsum 0 d).
Proof. unfold k, position. fold d. now rewrite total_eq. Qed.
Lemma k_lt : k < length d.
Proof.
  pose proof (ss_le lvl (samples h) (cumsum 0 d)) as H. rewrite cumsum_length in H. rewrite k_eq.
  destruct (Nat.eq_dec (searchsorted lvl (samples h) (cumsum 0 d)) (length d)) as [E|]; [|lia]. exfalso.
  assert (0 < length d) as P by (rewrite d_len; apply h_ne).
  pose proof (ss_spec lvl (samples h) (cumsum 0 d) (length d - 1)) as [A _]. rewrite E in A. specialize (A ltac:(lia)).
  rewrite cumsum_nth in A by lia. replace (S (length d - 1)) with (length d) in A by lia. rewrite firstn_all, d_samples in A. cbn in A.
  assert (reach lvl (samples h) (samples h) = true) as R; [|congruence].
  apply reach_iff; auto. setoid_replace (inject_Z (Z.of_nat (samples h))) with (1 * inject_Z (Z.of_nat (samples h)))%Q at 2 by ring.
  apply Qmult_le_compat_r; auto. unfold Qle; cbn; lia.
Qed.
Lemma k_reach : reach lvl (samples h) (samples (firstn (S k) d)) = true.
Proof.
  pose proof (ss_spec lvl (samples h) (cumsum 0 d) k) as [_ B]. specialize (B k_eq). rewrite cumsum_length in B. specialize (B k_lt).
  rewrite cumsum_nth in B by apply k_lt. exact B.
Qed.
Lemma k_below j : j < k -> reach lvl (samples h) (samples (firstn (S j) d)) = false.
Proof.
  intro J. pose proof (ss_spec lvl (samples h) (cumsum 0 d) j) as [A _]. rewrite <- k_eq in A. specialize (A J).
  rewrite cumsum_nth in A by (pose proof k_lt; lia). exact A.
Qed.
End One.

Lemma sorted_nth d i j : StronglySorted ge d -> i <= j -> j < length d -> nth j d 0 <= nth i d 0.
Proof.
  intro S. revert i j; induction S as [|x l S IH F]; intros i j H J; [cbn in J; lia|].
  destruct i; destruct j; cbn [nth]; try lia.
  - rewrite Forall_forall in F. apply F, nth_In. cbn in J; lia.
  - apply IH; cbn in J; lia.
Qed.
Lemma samples_firstn_le k l : samples (firstn k l) <= samples l.
Proof. revert k; induction l as [|x l IH]; intros [|k]; cbn; try lia. specialize (IH k). lia. Qed.
Lemma samples_firstn_mono i j l : i <= j -> samples (firstn i l) <= samples (firstn j l).
Proof. revert i j; induction l as [|x l IH]; intros [|i] [|j] H; cbn; try lia. specialize (IH i j). lia. Qed.
Lemma enclosed_app v a b : enclosed v (a ++ b) = enclosed v a + enclosed v b.
Proof. induction a; cbn; lia. Qed.
Lemma above_app v a b : above v (a ++ b) = above v a + above v b.
Proof. induction a; cbn; lia. Qed.
Lemma enclosed_le v a : enclosed v a <= samples a.
Proof. induction a as [|x a]; cbn; [lia|]. destruct (v <=? x); lia. Qed.
Lemma above_le v a : above v a <= samples a.
Proof. induction a as [|x a]; cbn [above samples]; [lia|]. destruct (v <? x); lia. Qed.
Lemma enclosed_all v a : (forall x, In x a -> v <= x) -> enclosed v a = samples a.
Proof. induction a as [|x a IH]; cbn; intro H; [reflexivity|]. rewrite IH by auto. destruct (Nat.leb_spec v x); [lia|]. specialize (H x (or_introl eq_refl)); lia. Qed.
Lemma enclosed_none v a : (forall x, In x a -> x < v) -> enclosed v a = 0.
Proof. induction a as [|x a IH]; cbn; intro H; [reflexivity|]. rewrite IH by auto. destruct (Nat.leb_spec v x); [|lia]. specialize (H x (or_introl eq_refl)); lia. Qed.
Lemma above_none v a : (forall x, In x a -> x <= v) -> above v a = 0.
Proof. induction a as [|x a IH]; cbn [above In]; intro H; [reflexivity|]. rewrite IH by auto. destruct (Nat.ltb_spec v x); [|lia]. specialize (H x (or_introl eq_refl)); lia. Qed.
Lemma in_firstn n (l : list nat) x : In x (firstn n l) -> exists i, i < n /\ i < length l /\ nth i l 0 = x.
Proof.
  revert n; induction l as [|y l IH]; intros [|n] H; cbn in H; try tauto. destruct H as [->|H].
  - exists 0; cbn; repeat split; lia.
  - destruct (IH _ H) as (i & A & B & C). exists (S i); cbn; repeat split; auto; lia.
Qed.
Lemma in_skipn n (l : list nat) x : In x (skipn n l) -> exists i, n <= i /\ i < length l /\ nth i l 0 = x.
Proof.
  revert n; induction l as [|y l IH]; intros n H; [destruct n; cbn in H; tauto|]. destruct n.
  - cbn [skipn] in H. destruct (In_nth _ _ 0 H) as (i & A & B). exists i; repeat split; auto; lia.
  - cbn [skipn] in H. destruct (IH _ H) as (i & A & B & C). exists (S i); cbn; repeat split; auto; lia.
Qed.

Section Two.
Variable h : list nat.
Variable lvl : Q.
Hypothesis T : 0 < samples h.
Hypothesis L : (lvl <= 1)%Q.
Let d := desc h.
Let k := position h lvl.
Let v := from_end h k.

Lemma above_lt : k <> 0 -> reach lvl (samples h) (above v h) = false.
Proof.
  intro K. destruct (reach lvl (samples h) (above v h)) eqn:E; [|reflexivity]. exfalso.
  assert (reach lvl (samples h) (samples (firstn (S (k - 1)) d)) = false) as C by (apply k_below; auto; fold k; lia).
  assert (above v h <= samples (firstn (S (k - 1)) d)) as G.
  { rewrite (above_perm v h d) by apply desc_perm. rewrite <- (firstn_skipn (S (k - 1)) d) at 1. rewrite above_app.
    rewrite (above_none v (skipn _ _)); [pose proof (above_le v (firstn (S (k - 1)) d)); lia|].
    intros x X. apply in_skipn in X. destruct X as (i & A & A' & <-). unfold v, from_end. destruct k as [|k'] eqn:KK; [congruence|].
    apply sorted_nth; [apply desc_sorted|lia|exact A']. }
  rewrite (reach_mono _ _ _ _ T G E) in C. discriminate.
Qed.
Lemma lower_reach w : k <> 0 -> In w h -> w < v -> reach lvl (samples h) (enclosed w h) = true.
Proof.
  intros K W WV. eapply reach_mono; [exact T| |exact (k_reach h lvl T L)]. fold k d.
  rewrite (enclosed_perm w h d) by apply desc_perm. rewrite <- (firstn_skipn (S k) d) at 2. rewrite enclosed_app.
  rewrite (enclosed_all w (firstn _ _)); [lia|]. intros x X. apply in_firstn in X. destruct X as (i & A & A' & <-).
  apply (Permutation_in _ (desc_perm h)) in W. fold d in W. destruct (In_nth _ _ 0 W) as (j & J & E). rewrite <- E in *.
  apply sorted_nth; [apply desc_sorted| |exact J].
  unfold v, from_end in WV. destruct k as [|k'] eqn:KK; [congruence|]. fold d in WV.
  destruct (le_lt_dec j k') as [Z|]; [|lia]. exfalso.
  pose proof (sorted_nth d j k' (desc_sorted h) Z). pose proof (k_lt h lvl T L) as KL. fold k d in KL. rewrite KK in KL. lia.
Qed.
Lemma nodup_lt : NoDup h -> k <> 0 -> reach lvl (samples h) (enclosed v h) = false.
Proof.
  intros ND K. destruct (reach lvl (samples h) (enclosed v h)) eqn:E; [|reflexivity]. exfalso.
  assert (reach lvl (samples h) (samples (firstn (S (k - 1)) d)) = false) as C by (apply k_below; auto; fold k; lia).
  assert (enclosed v h <= samples (firstn (S (k - 1)) d)) as G.
  { rewrite (enclosed_perm v h d) by apply desc_perm. rewrite <- (firstn_skipn (S (k - 1)) d) at 1. rewrite enclosed_app.
    rewrite (enclosed_none v (skipn _ _)); [pose proof (enclosed_le v (firstn (S (k - 1)) d)); lia|].
    intros x X. apply in_skipn in X. destruct X as (i & A & A' & <-). unfold v, from_end. destruct k as [|k'] eqn:KK; [congruence|].
    fold d. assert (nth i d 0 <= nth k' d 0) by (apply sorted_nth; [apply desc_sorted|lia|exact A']).
    assert (nth i d 0 <> nth k' d 0); [|lia]. intro Q. apply NoDup_nth in Q; [lia| | |]; try lia.
    eapply Permutation_NoDup; [apply desc_perm|exact ND]. }
  rewrite (reach_mono _ _ _ _ T G E) in C. discriminate.
Qed.
Lemma k0_iff : k = 0 <-> exists x, In x h /\ reach lvl (samples h) x = true.
Proof.
  pose proof (k_lt h lvl T L) as KL. fold k d in KL. split.
  - intro K. pose proof (k_reach h lvl T L) as R. fold k d in R. rewrite K in R. destruct d as [|x d'] eqn:D; [cbn in KL; lia|].
    exists x. split; [|cbn in R; now rewrite Nat.add_0_r in R]. apply (Permutation_in _ (Permutation_sym (desc_perm h))). fold d. rewrite D. now left.
  - intros (x & X & R). destruct (Nat.eq_dec k 0) as [|K]; [auto|]. exfalso.
    assert (reach lvl (samples h) (samples (firstn 1 d)) = false) as C by (apply k_below; auto; fold k; lia).
    apply (Permutation_in _ (desc_perm h)) in X. fold d in X. destruct (In_nth _ _ 0 X) as (j & J & E).
    pose proof (sorted_nth d 0 j (desc_sorted h) ltac:(lia) J).
    assert (x <= samples (firstn 1 d)) as G by (destruct d; cbn in *; lia).
    rewrite (reach_mono _ _ _ _ T G R) in C. discriminate.
Qed.
End Two.

Lemma last_in (l : list nat) : l <> [] -> In (last l 0) l.
Proof. intro H. destruct (exists_last H) as (a & x & ->). rewrite last_last. apply in_or_app. right; now left. Qed.
Lemma last_min d x : StronglySorted ge d -> In x d -> last d 0 <= x.
Proof.
  intros S. induction S as [|y l S IH F]; intros X; [destruct X|]. destruct l as [|z l]; [destruct X as [->|[]]; cbn; lia|].
  change (last (y :: z :: l) 0) with (last (z :: l) 0). destruct X as [<-|X]; [|now apply IH].
  rewrite Forall_forall in F. apply F, last_in. discriminate.
Qed.
Lemma from_end_0 h x : In x h -> from_end h 0 <= x.
Proof. intro X. apply last_min; [apply desc_sorted|]. apply (Permutation_in _ (desc_perm h)), X. Qed.
Lemma from_end_in h i : h <> [] -> i <= length h -> In (from_end h i) h.
Proof.
  intros H I. apply (Permutation_in _ (Permutation_sym (desc_perm h))). pose proof (Permutation_length (desc_perm h)) as E.
  destruct i; cbn [from_end].
  - apply last_in. intro D. rewrite D in E. destruct h; cbn in *; [congruence|discriminate].
  - apply nth_In. lia.
Qed.
Lemma from_end_1 h x : In x h -> x <= from_end h 1.
Proof.
  intro X. apply (Permutation_in _ (desc_perm h)) in X. cbn [from_end]. destruct (In_nth _ _ 0 X) as (j & J & <-).
  apply sorted_nth; [apply desc_sorted|lia|exact J].
Qed.

Lemma at_least_iff lvl n h : 0 < samples h -> (at_least lvl n h <-> reach lvl (samples h) n = true).
Proof. intro T. unfold at_least. now rewrite reach_iff. Qed.
Lemma at_least_not lvl n h : 0 < samples h -> (~ at_least lvl n h <-> reach lvl (samples h) n = false).
Proof. intro T. rewrite at_least_iff by exact T. destruct (reach _ _ _); split; congruence. Qed.
Lemma samples_in h x : In x h -> x <= samples h.
Proof. induction h as [|y h IH]; cbn; [tauto|]. intros [->|H]; [lia|]. specialize (IH H); lia. Qed.

Lemma level_off_by_one h lvl : 0 < samples h -> (lvl <= 1)%Q -> (forall x, In x h -> ~ at_least lvl x h) ->
  let v := from_end h (position h lvl) in
  In v h /\ ~ at_least lvl (above v h) h /\ forall w, In w h -> w < v -> at_least lvl (enclosed w h) h.
Proof.
  intros T L N v. assert (position h lvl <> 0) as K.
  { intro K. apply (k0_iff h lvl T L) in K. destruct K as (x & X & R). apply at_least_iff in R; auto. exact (N x X R). }
  pose proof (k_lt h lvl T L) as KL. rewrite (d_len h) in KL. split; [|split].
  - apply from_end_in; [intros ->; cbn in T; lia|lia].
  - apply at_least_not; auto. now apply above_lt.
  - intros w W V. apply at_least_iff; auto. now apply lower_reach.
Qed.
Lemma level_short h lvl : 0 < samples h -> (lvl <= 1)%Q -> NoDup h -> (forall x, In x h -> ~ at_least lvl x h) ->
  ~ at_least lvl (enclosed (from_end h (position h lvl)) h) h.
Proof.
  intros T L ND N. apply at_least_not; auto. apply nodup_lt; auto.
  intro K. apply (k0_iff h lvl T L) in K. destruct K as (x & X & R). apply at_least_iff in R; auto. exact (N x X R).
Qed.
Lemma level_one_cell h lvl x : 0 < samples h -> (lvl <= 1)%Q -> In x h -> at_least lvl x h ->
  enclosed (from_end h (position h lvl)) h = samples h /\ forall y, In y h -> from_end h (position h lvl) <= y.
Proof.
  intros T L X A. assert (position h lvl = 0) as K by (apply (k0_iff h lvl T L); exists x; split; [exact X|now apply at_least_iff]).
  rewrite K. split; [|apply from_end_0]. apply enclosed_all, from_end_0.
Qed.

Lemma top_two d x y r : StronglySorted ge d -> Permutation d (x :: y :: r) -> x + y <= samples (firstn 2 d).
Proof.
  intros S P. destruct d as [|a [|b t]]; [apply Permutation_nil in P; discriminate|apply Permutation_length in P; discriminate|].
  cbn. inversion_clear S as [|? ? S1 F1]. inversion_clear S1 as [|? ? S2 F2]. rewrite Forall_forall in F1, F2.
  assert (In x (a :: b :: t)) as X by (eapply Permutation_in; [symmetry; exact P|now left]).
  assert (In y (a :: b :: t)) as Y by (eapply Permutation_in; [symmetry; exact P|now right; left]).
  assert (forall z, In z (b :: t) -> z <= b) as BB by (intros z [->|Z]; [lia|apply F2, Z]).
  assert (a >= b) as AB by (apply F1; now left).
  destruct X as [<-|X].
  - apply Permutation_cons_inv in P. assert (In y (b :: t)) as Z by (eapply Permutation_in; [symmetry; exact P|now left]). specialize (BB _ Z); lia.
  - specialize (BB _ X). destruct Y as [<-|Y]; [lia|]. specialize (F1 _ Y). lia.
Qed.
Lemma position_le_1 h lvl x y r : 0 < samples h -> (lvl <= 1)%Q -> Permutation h (x :: y :: r) -> at_least lvl (x + y) h -> position h lvl <= 1.
Proof.
  intros T L P A. destruct (le_lt_dec (position h lvl) 1) as [|K]; [auto|]. exfalso.
  pose proof (k_below h lvl T L 1 K) as C. apply at_least_iff in A; auto.
  rewrite (reach_mono _ _ _ _ T (top_two (desc h) x y r (desc_sorted h) (Permutation_trans (Permutation_sym (desc_perm h)) P)) A) in C. discriminate.
Qed.
Lemma desc_hd h : h <> [] -> (match desc h with [] => 0 | m :: _ => m end) = from_end h 1.
Proof. intro H. cbn [from_end]. destruct (desc h); reflexivity. Qed.
Lemma levels_eq h l1 l2 : h <> [] -> ctr_level h [l1; l2] false = [from_end h (position h l2); from_end h (position h l1); from_end h 1].
Proof. intro H. unfold ctr_level. rewrite (desc_hd h H). reflexivity. Qed.

Lemma ne_of h : 0 < samples h -> h <> [].
Proof. intros T ->. cbn in T. lia. Qed.
Lemma two_cells_not_increasing h l1 l2 x y r : 0 < samples h -> (l1 <= 1)%Q -> (l2 <= 1)%Q -> Permutation h (x :: y :: r) -> at_least l1 (x + y) h ->
  ~ increasing (ctr_level h [l1; l2] false).
Proof.
  intros T L1 L2 P A. rewrite levels_eq by now apply ne_of. cbn [increasing]. pose proof (position_le_1 h l1 x y r T L1 P A) as K.
  destruct (position h l1) as [|[|k]]; [|lia|lia]. intros [H _].
  pose proof (k_lt h l2 T L2) as KL. rewrite (d_len h) in KL.
  pose proof (from_end_0 h _ (from_end_in h (position h l2) (ne_of h T) ltac:(lia))). lia.
Qed.

Lemma position_mono h l1 l2 : 0 < samples h -> (l1 <= l2)%Q -> (l2 <= 1)%Q -> position h l1 <= position h l2.
Proof.
  intros T L12 L2. destruct (le_lt_dec (position h l1) (position h l2)) as [|K]; [auto|]. exfalso.
  assert (l1 <= 1)%Q as L1 by (eapply Qle_trans; eauto).
  pose proof (k_below h l1 T L1 _ K) as B. pose proof (k_reach h l2 T L2) as R.
  apply reach_iff in R; auto. assert (reach l1 (samples h) (samples (firstn (S (position h l2)) (desc h))) = true) as C; [|congruence].
  apply reach_iff; auto. eapply Qle_trans; [|exact R]. apply Qmult_le_compat_r; auto. unfold Qle; cbn; lia.
Qed.
Lemma from_end_mono h i j : 1 <= i -> i <= j -> j <= length h -> from_end h j <= from_end h i.
Proof.
  intros A B C. destruct i; [lia|]. destruct j; [lia|]. cbn [from_end]. apply sorted_nth; [apply desc_sorted|lia|]. rewrite (d_len h). lia.
Qed.
Lemma levels_ordered h l1 l2 : 0 < samples h -> (l1 <= l2)%Q -> (l2 <= 1)%Q -> (forall x, In x h -> ~ at_least l1 x h) ->
  non_decreasing (ctr_level h [l1; l2] false).
Proof.
  intros T L12 L2 N. assert (l1 <= 1)%Q as L1 by (eapply Qle_trans; eauto).
  rewrite levels_eq by now apply ne_of. cbn [non_decreasing].
  assert (position h l1 <> 0) as K.
  { intro K. apply (k0_iff h l1 T L1) in K. destruct K as (x & X & R). apply at_least_iff in R; auto. exact (N x X R). }
  pose proof (position_mono h l1 l2 T L12 L2). pose proof (k_lt h l2 T L2) as KL. rewrite (d_len h) in KL.
  repeat split; auto; apply from_end_mono; lia.
Qed.
Lemma firstn_S d k : k < length d -> samples (firstn (S k) d) = samples (firstn k d) + nth k d 0.
Proof. revert k; induction d as [|x d IH]; intros k H; cbn in H; [lia|]. destruct k; [cbn; lia|]. cbn [firstn samples nth] in *. rewrite <- Nat.add_assoc, <- IH by lia. reflexivity. Qed.
Lemma sorted_nodup_lt d i j : StronglySorted ge d -> NoDup d -> i < j -> j < length d -> nth j d 0 < nth i d 0.
Proof.
  intros S N I J. pose proof (sorted_nth d i j S ltac:(lia) J).
  assert (nth j d 0 <> nth i d 0); [|lia]. intro E. apply NoDup_nth in E; auto; lia.
Qed.
Lemma levels_increasing h l1 l2 : 0 < samples h -> NoDup h -> (l1 <= l2)%Q -> (l2 <= 1)%Q ->
  (forall x y r, Permutation h (x :: y :: r) -> ~ at_least l1 (x + y) h) -> 1 < length h ->
  (forall x, In x h -> ~ at_least (l2 - l1) x h) -> increasing (ctr_level h [l1; l2] false).
Proof.
  intros T ND L12 L2 N2 LEN N. assert (l1 <= 1)%Q as L1 by (eapply Qle_trans; eauto).
  rewrite levels_eq by now apply ne_of. cbn [increasing].
  pose proof (k_lt h l1 T L1) as KL1. pose proof (k_lt h l2 T L2) as KL2.
  assert (NoDup (desc h)) as NDd by (eapply Permutation_NoDup; [apply desc_perm|exact ND]).
  assert (1 < position h l1) as K.
  { destruct (le_lt_dec (position h l1) 1) as [Z|]; [|auto]. exfalso.
    pose proof (k_reach h l1 T L1) as R. pose proof (desc_perm h) as P. pose proof (d_len h) as LE. destruct (desc h) as [|a [|b t]]; [cbn in LE; lia|cbn in LE; lia|].
    apply (N2 a b t P). apply at_least_iff; auto. eapply reach_mono; [exact T| |exact R].
    destruct (position h l1) as [|[|?]]; cbn; lia. }
  assert (position h l1 < position h l2) as K2.
  { pose proof (position_mono h l1 l2 T L12 L2). destruct (Nat.eq_dec (position h l1) (position h l2)) as [E|]; [|lia]. exfalso.
    pose proof (k_reach h l2 T L2) as R. rewrite <- E in R. rewrite firstn_S in R by exact KL1.
    pose proof (k_below h l1 T L1 (position h l1 - 1) ltac:(lia)) as B. replace (S (position h l1 - 1)) with (position h l1) in B by lia.
    set (q := nth (position h l1) (desc h) 0) in *.
    assert (In q h) as Q by (apply (Permutation_in _ (Permutation_sym (desc_perm h))), nth_In, KL1).
    specialize (N q Q). apply at_least_not in N; auto.
    apply reach_iff in R; auto. set (s := samples (firstn (position h l1) (desc h))) in *.
    assert (~ (l1 * inject_Z (Z.of_nat (samples h)) <= inject_Z (Z.of_nat s))%Q) as B' by (intro H'; apply reach_iff in H'; auto; congruence).
    assert (~ ((l2 - l1) * inject_Z (Z.of_nat (samples h)) <= inject_Z (Z.of_nat q))%Q) as N' by (intro H'; apply reach_iff in H'; auto; congruence).
    apply Qnot_le_lt in B'. apply Qnot_le_lt in N'. rewrite Nat2Z.inj_add, inject_Z_plus in R.
    pose proof (Qplus_lt_le_compat _ _ _ _ B' (Qlt_le_weak _ _ N')) as C.
    assert (l1 * inject_Z (Z.of_nat (samples h)) + (l2 - l1) * inject_Z (Z.of_nat (samples h)) == l2 * inject_Z (Z.of_nat (samples h)))%Q as EQ by ring.
    rewrite EQ in C. apply (Qlt_not_le _ _ C). exact R. }
  repeat split; auto.
  - destruct (position h l1) as [|p]; [lia|]. destruct (position h l2) as [|p']; [lia|]. cbn [from_end]. apply sorted_nodup_lt; auto; [apply desc_sorted|lia|lia].
  - destruct (position h l1) as [|p]; [lia|]. cbn [from_end]. apply sorted_nodup_lt; auto; [apply desc_sorted|lia|lia].
Qed.

(** The cache. *)
Lemma count_joint chain cell i j a b : count (histogram2d chain cell i j) a b = joint (cell i) (cell j) (chain i) (chain j) a b.
Proof.
  cbn [count histogram2d]. generalize (chain j) as ys. induction (chain i) as [|x xs IH]; intros [|y ys]; cbn [combine filter joint length]; auto.
  cbn [fst snd]. destruct (Nat.eq_dec (cell i x) a) as [->|A]; [rewrite Nat.eqb_refl|rewrite (proj2 (Nat.eqb_neq _ _) A)]; cbn [andb];
    [destruct (Nat.eq_dec (cell j y) b) as [->|B]; [rewrite Nat.eqb_refl|rewrite (proj2 (Nat.eqb_neq _ _) B)]|]; cbn [length]; rewrite IH; lia.
Qed.
Lemma key_eq i j i' j' : key i j = key i' j' -> (i = i' /\ j = j') \/ (i = j' /\ j = i').
Proof. unfold key. destruct (i <=? j); destruct (i' <=? j'); intro H; injection H as <- <-; auto. Qed.
Lemma key_sym i j : key i j = key j i.
Proof. unfold key. destruct (Nat.leb_spec i j); destruct (Nat.leb_spec j i); auto; [f_equal; lia|lia]. Qed.
Lemma keys_refl (k : nat * nat) : ((fst k =? fst k) && (snd k =? snd k))%bool = true.
Proof. now rewrite !Nat.eqb_refl. Qed.
Lemma keys_iff (k k' : nat * nat) : ((fst k' =? fst k) && (snd k' =? snd k))%bool = true <-> k' = k.
Proof.
  destruct k as [a b], k' as [a' b']. cbn. rewrite andb_true_iff, !Nat.eqb_eq. split; [intros [-> ->]; auto|intro H; injection H; auto].
Qed.
Section CacheProofs.
Variable chain : nat -> list Z.
Variable cell : nat -> Z -> nat.
Notation get := (get_2d chain cell).
Notation after := (calls chain cell).
(** every entry was made by the first call for its pair *)
Lemma find_calls k : forall ps c, find k (after c ps) = match find k c with Some h => Some h | None =>
   match List.find (fun p => ((fst (key (fst p) (snd p)) =? fst k) && (snd (key (fst p) (snd p)) =? snd k))%bool) ps with
   | Some p => Some (histogram2d chain cell (fst p) (snd p)) | None => None end end.
Proof.
  induction ps as [|[i j] ps IH]; intro c; cbn [calls List.find]; [now destruct (find k c)|].
  rewrite IH. unfold get_2d. cbn [fst snd]. destruct (find (key i j) c) as [h|] eqn:E; cbn [snd].
  - destruct (find k c) eqn:F; [reflexivity|]. destruct ((fst (key i j) =? fst k) && (snd (key i j) =? snd k))%bool eqn:G; [|reflexivity].
    apply keys_iff in G. rewrite G in E. congruence.
  - cbn [find fst snd]. destruct ((fst (key i j) =? fst k) && (snd (key i j) =? snd k))%bool eqn:G; [|reflexivity].
    apply keys_iff in G. rewrite G in E. now rewrite E.
Qed.
Lemma get_consistent ps a b : (forall i j, In (i, j) ps -> (i, j) = (b, a) -> a = b) -> fst (get (after [] ps) a b) = histogram2d chain cell a b.
Proof.
  intro C. unfold get_2d. rewrite find_calls. cbn [find].
  destruct (List.find _ ps) as [[i j]|] eqn:F; [|reflexivity]. apply find_some in F. destruct F as [I E]. cbn [fst snd] in *.
  apply keys_iff in E. apply key_eq in E. destruct E as [[-> ->]|[-> ->]]; [reflexivity|]. specialize (C b a I eq_refl). now subst.
Qed.
Lemma get_transposed ps a b : In (b, a) ps -> ~ In (a, b) ps -> fst (get (after [] ps) a b) = histogram2d chain cell b a.
Proof.
  intros I N. unfold get_2d. rewrite find_calls. cbn [find].
  destruct (List.find _ ps) as [[i j]|] eqn:F.
  - apply find_some in F. destruct F as [J E]. cbn [fst snd] in *. apply keys_iff in E. apply key_eq in E. destruct E as [[-> ->]|[-> ->]]; [tauto|reflexivity].
  - apply (find_none _ _ F) in I. cbn [fst snd] in I. rewrite (key_sym b a), keys_refl in I. discriminate.
Qed.
End CacheProofs.
