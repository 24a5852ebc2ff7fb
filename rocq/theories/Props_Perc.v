(** C214-C215: error intervals of the parameters of a chain. *)
From Coq Require Import Reals List Permutation Lra Lia.
From Verif Require Import M_Perc S_Perc P_Perc.
Import ListNotations.
Local Open Scope R_scope.

Lemma some_percentile l q : l <> [] -> exists v, percentile l q = Some v.
Proof. intro N. rewrite percentile_at by exact N. eauto. Qed.
Lemma interval_eq plo phi r b t : flat b t <> [] -> exists m l h,
  percentile (flat b t) 50 = Some m /\ percentile (flat b t) plo = Some l /\ percentile (flat b t) phi = Some h /\
  interval plo phi r b t = Some (- (m * r - l * r), h * r - m * r).
Proof.
  intro N. destruct (some_percentile _ 50 N) as (m & M). destruct (some_percentile _ plo N) as (l & L). destruct (some_percentile _ phi N) as (h & H).
  exists m, l, h. unfold interval. rewrite M, L, H. auto.
Qed.
(** ** C214 The error intervals enclose the median and each other, and the standard error is half the width of the one-sigma interval. *)
Theorem C214_nested : forall rescaling burnin trace, 0 <= rescaling -> concat (map (skipn burnin) trace) <> [] ->
  exists i1 i2 i3, one_sigma rescaling burnin trace = Some i1 /\ two_sigma rescaling burnin trace = Some i2 /\ three_sigma rescaling burnin trace = Some i3 /\
    fst i1 <= 0 <= snd i1 /\ encloses i2 i1 /\ encloses i3 i2 /\ stderr rescaling burnin trace = Some (half_width i1).
Proof.
  intros r b t R0 N. change (flat b t <> []) in N.
  destruct (interval_eq 15.86555 84.13445 r b t N) as (m & l1 & h1 & M & L1 & H1 & E1).
  destruct (interval_eq 2.2775 97.7225 r b t N) as (m2 & l2 & h2 & M2 & L2 & H2 & E2).
  destruct (interval_eq 0.135 99.865 r b t N) as (m3 & l3 & h3 & M3 & L3 & H3 & E3).
  rewrite M in M2, M3. injection M2 as <-. injection M3 as <-.
  pose proof (fun p q a c => percentile_mono (flat b t) p q a c) as P.
  assert (A1 : l1 <= m) by (refine (P _ _ _ _ _ _ _ L1 M); lra). assert (A2 : l2 <= l1) by (refine (P _ _ _ _ _ _ _ L2 L1); lra). assert (A3 : l3 <= l2) by (refine (P _ _ _ _ _ _ _ L3 L2); lra).
  assert (B1 : m <= h1) by (refine (P _ _ _ _ _ _ _ M H1); lra). assert (B2 : h1 <= h2) by (refine (P _ _ _ _ _ _ _ H1 H2); lra). assert (B3 : h2 <= h3) by (refine (P _ _ _ _ _ _ _ H2 H3); lra).
  clear P. assert (l1 * r <= m * r) by nra. assert (l2 * r <= l1 * r) by nra. assert (l3 * r <= l2 * r) by nra. assert (m * r <= h1 * r) by nra. assert (h1 * r <= h2 * r) by nra. assert (h2 * r <= h3 * r) by nra.
  exists (- (m * r - l1 * r), h1 * r - m * r), (- (m * r - l2 * r), h2 * r - m * r), (- (m * r - l3 * r), h3 * r - m * r).
  unfold encloses, half_width. cbn [fst snd].
  split; [exact E1|]. split; [exact E2|]. split; [exact E3|]. split; [lra|]. split; [lra|]. split; [lra|].
  unfold stderr, one_sigma. rewrite E1. f_equal. rewrite Rabs_left1 by lra. lra.
Qed.
(** ** C215 The summaries depend only on the set of samples, and follow a change of unit or sign. *)
Theorem C215_order_independent : forall rescaling burnin t u, same_samples burnin t u ->
  median burnin t = median burnin u /\ one_sigma rescaling burnin t = one_sigma rescaling burnin u /\
  two_sigma rescaling burnin t = two_sigma rescaling burnin u /\ three_sigma rescaling burnin t = three_sigma rescaling burnin u.
Proof.
  intros r b t u H. change (Permutation (flat b t) (flat b u)) in H. unfold median, one_sigma, two_sigma, three_sigma, interval.
  rewrite !(percentile_perm _ _ _ H). auto.
Qed.
Lemma flat_every g b t : flat b (every g t) = map g (flat b t).
Proof. unfold flat, every. rewrite map_map, concat_map, map_map. f_equal. apply map_ext. intro w. apply skipn_map. Qed.
Lemma interval_affine plo phi a c r b t : 0 <= a -> 0 <= plo <= 100 -> 0 <= phi <= 100 ->
  interval plo phi r b (every (fun v => a * v + c) t) = option_map (fun i => (a * fst i, a * snd i)) (interval plo phi r b t).
Proof.
  intros A L H. unfold interval. rewrite flat_every, !percentile_affine by (auto; lra).
  destruct (percentile (flat b t) 50), (percentile (flat b t) plo), (percentile (flat b t) phi); cbn [option_map fst snd]; try reflexivity. do 2 f_equal; ring.
Qed.
Lemma interval_neg plo phi r b t : 0 <= plo <= 100 -> phi = 100 - plo ->
  interval plo phi r b (every Ropp t) = option_map (fun i => (- snd i, - fst i)) (interval plo phi r b t).
Proof.
  intros L ->. unfold interval. rewrite flat_every, !percentile_neg by lra. replace (100 - 50) with 50 by lra. replace (100 - (100 - plo)) with plo by lra.
  destruct (percentile (flat b t) 50), (percentile (flat b t) plo), (percentile (flat b t) (100 - plo)); cbn [option_map fst snd]; try reflexivity. do 2 f_equal; ring.
Qed.
Theorem C215_change_of_unit : forall a c rescaling burnin t, 0 <= a ->
  let u := every (fun v => a * v + c) t in let wider := option_map (fun i => (a * fst i, a * snd i)) in
  median burnin u = option_map (fun m => a * m + c) (median burnin t) /\ one_sigma rescaling burnin u = wider (one_sigma rescaling burnin t) /\
  two_sigma rescaling burnin u = wider (two_sigma rescaling burnin t) /\ three_sigma rescaling burnin u = wider (three_sigma rescaling burnin t).
Proof.
  intros a c r b t A. cbv zeta. unfold median, one_sigma, two_sigma, three_sigma. rewrite flat_every, percentile_affine, !interval_affine by lra. auto.
Qed.
Theorem C215_change_of_sign : forall rescaling burnin t,
  let swapped := option_map (fun i : R * R => (- snd i, - fst i)) in
  median burnin (every Ropp t) = option_map Ropp (median burnin t) /\ one_sigma rescaling burnin (every Ropp t) = swapped (one_sigma rescaling burnin t) /\
  two_sigma rescaling burnin (every Ropp t) = swapped (two_sigma rescaling burnin t) /\ three_sigma rescaling burnin (every Ropp t) = swapped (three_sigma rescaling burnin t).
Proof.
  intros r b t. cbv zeta. unfold median, one_sigma, two_sigma, three_sigma. rewrite flat_every, percentile_neg, !interval_neg by lra. replace (100 - 50) with 50 by lra. auto.
Qed.
(** The intervals are proportional to the rescaling. *)
Theorem C215_rescaling : forall k rescaling burnin t, let times := option_map (fun i : R * R => (k * fst i, k * snd i)) in
  one_sigma (k * rescaling) burnin t = times (one_sigma rescaling burnin t) /\ two_sigma (k * rescaling) burnin t = times (two_sigma rescaling burnin t) /\
  three_sigma (k * rescaling) burnin t = times (three_sigma rescaling burnin t).
Proof.
  intros k r b t. cbv zeta. assert (E : forall plo phi, interval plo phi (k * r) b t = option_map (fun i => (k * fst i, k * snd i)) (interval plo phi r b t)).
  { intros plo phi. unfold interval. destruct (percentile (flat b t) 50), (percentile (flat b t) plo), (percentile (flat b t) phi); cbn [option_map fst snd]; try reflexivity. do 2 f_equal; ring. }
  unfold one_sigma, two_sigma, three_sigma. rewrite !E. auto.
Qed.
Lemma sort_fixed l : Sorting.Sorted.StronglySorted Rle l -> sort l = l.
Proof. intro S. apply sorted_unique; [apply sort_sorted|exact S|apply sort_perm]. Qed.
(** the median of an odd number of samples is the one in the middle; both walkers lose their first sample *)
Theorem C214_median_in_the_middle : forall l x h, (forall a, In a l -> a <= x) -> (forall a, In a h -> x <= a) -> length l = length h ->
  forall burnin t, Permutation (concat (map (skipn burnin) t)) (l ++ x :: h) -> median burnin t = Some x.
Proof.
  intros l x h A B L b t P. unfold median. change (Permutation (flat b t) (l ++ x :: h)) in P.
  assert (P' : Permutation (flat b t) (sort l ++ x :: sort h)).
  { rewrite P. apply Permutation_app; [symmetry; apply sort_perm|]. constructor. symmetry. apply sort_perm. }
  rewrite (percentile_perm _ _ _ P'). rewrite percentile_at by (destruct (sort l); discriminate). f_equal.
  rewrite sort_fixed.
  2: { apply app_sorted; [apply sort_sorted| |].
       - constructor; [apply sort_sorted|]. apply Forall_forall. intros z Z. apply B. apply (Permutation_in _ (sort_perm h)), Z.
       - intros u v U V. apply (Permutation_in _ (sort_perm l)) in U. specialize (A _ U). destruct V as [<- | V]; [exact A|]. apply (Permutation_in _ (sort_perm h)) in V. specialize (B _ V). lra. }
  assert (E : (length (sort l ++ x :: sort h) - 1 = length l + length l)%nat) by (rewrite app_length; cbn; rewrite !sort_len; lia).
  rewrite E, plus_INR. replace (50 / 100 * (INR (length l) + INR (length l))) with (INR (length l)) by field.
  unfold at_. cbv zeta. pose proof (floor_spec (INR (length l)) (pos_INR _)) as [C D].
  assert (Z.to_nat (Int_part (INR (length l))) = length l) as ->.
  { apply INR_le in C. assert (length l < S (Z.to_nat (Int_part (INR (length l)))))%nat by (apply INR_lt; rewrite S_INR; lra). lia. }
  rewrite app_nth2 by (rewrite sort_len; lia). rewrite sort_len, Nat.sub_diag. cbn [nth]. ring.
Qed.
Example C214_nonvacuous : concat (map (skipn 1) [[9; 3; 1]; [7; 2]]) = [3; 1; 2] /\ median 1 [[9; 3; 1]; [7; 2]] = Some 2 /\ 0 <= 1.
Proof.
  split; [reflexivity|]. split; [|lra]. apply (C214_median_in_the_middle [1] 2 [3]); [intros a [<- | []]; lra|intros a [<- | []]; lra|reflexivity|].
  cbn. apply perm_trans with [1; 3; 2]; [apply perm_swap|]. constructor. apply perm_swap.
Qed.
Print Assumptions C214_nested.
Print Assumptions C214_median_in_the_middle.
Print Assumptions C215_order_independent.
Print Assumptions C215_change_of_unit.
Print Assumptions C215_change_of_sign.
Print Assumptions C215_rescaling.
