(** C203-C205: the contours of the 2D posteriors and the cache of their histograms. *)
From Coq Require Import List Arith ZArith QArith Lia Bool Permutation.
From Verif Require Import M_Contour S_Contour P_Contour.
Import ListNotations.
Local Open Scope nat_scope.

(** The level that plot_2d_posteriors draws for the fraction lvl. *)
Notation level h lvl := (from_end h (position h lvl)).

(** ** C203 The contour drawn for 68% encloses at least 68% of the samples.
    Proved, when no single cell holds that fraction: the level drawn is that of a cell; the cells above it hold less than the fraction, and every lower cell level
    encloses at least the fraction - so the level is right or one step too high. *)
Theorem C203_one_step_partial : forall h lvl, 0 < samples h -> (lvl <= 1)%Q -> (forall x, In x h -> ~ at_least lvl x h) ->
  In (level h lvl) h /\ ~ at_least lvl (above (level h lvl) h) h /\ forall w, In w h -> w < level h lvl -> at_least lvl (enclosed w h) h.
Proof. intros h lvl T L N. exact (level_off_by_one h lvl T L N). Qed.
(** Refuted: whenever the counts of the cells differ (and no cell holds the fraction) the contour drawn encloses less than the fraction. *)
Theorem C203_encloses_refuted : forall h lvl, 0 < samples h -> (lvl <= 1)%Q -> NoDup h -> (forall x, In x h -> ~ at_least lvl x h) ->
  ~ at_least lvl (enclosed (level h lvl) h) h.
Proof. exact level_short. Qed.
(** Refuted: if one cell holds the fraction, the level drawn is that of the emptiest cell and the contour encloses every cell. *)
Theorem C203_one_cell_refuted : forall h lvl x, 0 < samples h -> (lvl <= 1)%Q -> In x h -> at_least lvl x h ->
  enclosed (level h lvl) h = samples h /\ forall y, In y h -> level h lvl <= y.
Proof. exact level_one_cell. Qed.

(** ** C204 The levels of the two contours and the maximum increase, as contourf requires.
    Proved: they do if the counts differ, no two cells together hold the smaller fraction, and no cell holds the difference of the two fractions. *)
Theorem C204_increasing_partial : forall h l1 l2, 0 < samples h -> NoDup h -> (l1 <= l2)%Q -> (l2 <= 1)%Q ->
  (forall x y r, Permutation h (x :: y :: r) -> ~ at_least l1 (x + y) h) -> 1 < length h ->
  (forall x, In x h -> ~ at_least (l2 - l1) x h) -> increasing (ctr_level h [l1; l2] false).
Proof. exact levels_increasing. Qed.
(** Proved: the levels never decrease if no cell holds the smaller fraction. *)
Theorem C204_ordered_partial : forall h l1 l2, 0 < samples h -> (l1 <= l2)%Q -> (l2 <= 1)%Q -> (forall x, In x h -> ~ at_least l1 x h) ->
  non_decreasing (ctr_level h [l1; l2] false).
Proof. exact levels_ordered. Qed.
(** Refuted: if two cells together hold the smaller fraction, the levels do not increase (contourf raises). *)
Theorem C204_two_cells_refuted : forall h l1 l2 x y r, 0 < samples h -> (l1 <= 1)%Q -> (l2 <= 1)%Q -> Permutation h (x :: y :: r) -> at_least l1 (x + y) h ->
  ~ increasing (ctr_level h [l1; l2] false).
Proof. exact two_cells_not_increasing. Qed.

(** ** C205 The 2D histogram of (a, b) has a on its first axis and b on its second, whatever was plotted before.
    Proved: if the pair was not asked for before in the other order. *)
Theorem C205_same_order_partial : forall chain cell before a b, (In (b, a) before -> a = b) ->
  let h := fst (get_2d chain cell (calls chain cell [] before) a b) in
  x_of h = a /\ y_of h = b /\ forall i j, count h i j = joint (cell a) (cell b) (chain a) (chain b) i j.
Proof.
  intros chain cell before a b C. cbv zeta. rewrite get_consistent.
  - repeat split. intros i j. apply count_joint.
  - intros i j I E. injection E as -> ->. auto.
Qed.
(** Refuted: if the pair was asked for in the other order, the transposed histogram comes back, with b on the first axis. *)
Theorem C205_other_order_refuted : forall chain cell before a b, In (b, a) before -> ~ In (a, b) before ->
  let h := fst (get_2d chain cell (calls chain cell [] before) a b) in
  x_of h = b /\ y_of h = a /\ forall i j, count h i j = joint (cell b) (cell a) (chain b) (chain a) i j.
Proof. intros chain cell before a b I N. cbv zeta. rewrite get_transposed by assumption. repeat split. intros i j. apply count_joint. Qed.

(** Concrete cases. *)
Definition ten := [1; 2; 30; 25; 12; 14; 3; 5; 8; 0].
Ltac decide_q := unfold at_least, Qle; cbn; lia.
Example C203_nonvacuous : 0 < samples ten /\ NoDup ten /\ (forall x, In x ten -> ~ at_least (6826#10000) x ten)
  /\ level ten (6826#10000) = 25 /\ enclosed 25 ten = 55 /\ enclosed 14 ten = 69 /\ at_least (6826#10000) 69 ten /\ ~ at_least (6826#10000) 55 ten.
Proof.
  split; [cbn; lia|]. split; [repeat constructor; cbn; intuition discriminate|]. split; [|repeat split; decide_q].
  intros x X. cbn in X. repeat (destruct X as [<-|X]; [decide_q|]). destruct X.
Qed.
Definition peaked := [1; 0; 90; 7; 2].
Example C203_one_cell_nonvacuous : at_least (6826#10000) 90 peaked /\ level peaked (6826#10000) = 0 /\ enclosed 0 peaked = 100.
Proof. repeat split; decide_q. Qed.
Definition wide := [2; 9; 20; 15; 11; 13; 10; 8; 7; 5].
Example C204_nonvacuous : NoDup wide /\ (forall x y r, Permutation wide (x :: y :: r) -> ~ at_least (6826#10000) (x + y) wide)
  /\ (forall x, In x wide -> ~ at_least ((9545#10000) - (6826#10000)) x wide) /\ ctr_level wide [6826#10000; 9545#10000] false = [7; 11; 20].
Proof.
  split; [repeat constructor; cbn; intuition discriminate|]. split; [|split; [|reflexivity]].
  - intros x y r P A. pose proof (top_two (desc wide) x y r (desc_sorted wide) (Permutation_trans (Permutation_sym (desc_perm wide)) P)) as H.
    unfold at_least, Qle in A. cbn in H, A. lia.
  - intros x X. cbn in X. repeat (destruct X as [<-|X]; [decide_q|]). destruct X.
Qed.
Example C204_two_cells_nonvacuous : ctr_level [3; 60; 2; 20; 5; 10] [6826#10000; 9545#10000] false = [5; 60; 60]
  /\ ctr_level peaked [6826#10000; 9545#10000] false = [90; 0; 90].
Proof. split; reflexivity. Qed.
Definition chain2 (p : nat) : list Z := match p with 0 => [0; 1; 1]%Z | _ => [0; 0; 1]%Z end.
Example C205_nonvacuous : let cell := fun (_ : nat) => Z.to_nat in
  let first := fst (get_2d chain2 cell [] 0 1) in let later := fst (get_2d chain2 cell (calls chain2 cell [] [(1, 0)]) 0 1) in
  count first 1 0 = 1 /\ count first 0 1 = 0 /\ count later 1 0 = 0 /\ count later 0 1 = 1.
Proof. repeat split. Qed.

Print Assumptions C203_one_step_partial.
Print Assumptions C203_encloses_refuted.
Print Assumptions C203_one_cell_refuted.
Print Assumptions C204_increasing_partial.
Print Assumptions C204_ordered_partial.
Print Assumptions C204_two_cells_refuted.
Print Assumptions C205_same_order_partial.
Print Assumptions C205_other_order_refuted.
