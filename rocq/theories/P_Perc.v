(** Percentiles: monotone, order-independent, equivariant *)
From Coq Require Import Reals List Permutation Sorting.Sorted Lra Lia ZArith.
From Verif Require Import M_Perc.
Import ListNotations.
Local Open Scope R_scope.

Lemma insert_perm x l : Permutation (insert x l) (x :: l).
Proof. induction l as [|y t IH]; cbn; [auto|]. destruct (Rle_dec x y); [auto|]. rewrite IH. apply perm_swap. Qed.
Lemma sort_perm l : Permutation (sort l) l.
Proof. induction l as [|x t IH]; cbn; [auto|]. rewrite insert_perm. now constructor. Qed.
Lemma insert_sorted x l : StronglySorted Rle l -> StronglySorted Rle (insert x l).
Proof.
  induction 1 as [|y t S IH F]; cbn; [constructor; constructor|]. destruct (Rle_dec x y) as [L|L].
  - constructor; [constructor; assumption|]. constructor; [exact L|]. eapply Forall_impl; [|exact F]. intros; cbn in *; lra.
  - constructor; [exact IH|]. apply Forall_forall. intros z Z. apply (Permutation_in _ (insert_perm x t)) in Z. destruct Z as [<- | Z]; [lra|]. rewrite Forall_forall in F. auto.
Qed.
Lemma sort_sorted l : StronglySorted Rle (sort l).
Proof. induction l; cbn; [constructor|now apply insert_sorted]. Qed.
Lemma sorted_unique : forall a b, StronglySorted Rle a -> StronglySorted Rle b -> Permutation a b -> a = b.
Proof.
  induction a as [|x a IH]; intros b A B P; [now apply Permutation_nil in P|]. destruct b as [|y b]; [now apply Permutation_sym, Permutation_nil in P|].
  inversion A as [|? ? A1 A2]; inversion B as [|? ? B1 B2]; subst. rewrite Forall_forall in A2, B2.
  assert (x = y).
  { assert (X : In x (y :: b)) by (apply (Permutation_in _ P); now left). assert (Y : In y (x :: a)) by (apply (Permutation_in _ (Permutation_sym P)); now left).
    destruct X as [E|X]; [congruence|]. destruct Y as [E|Y]; [congruence|]. specialize (A2 _ Y). specialize (B2 _ X). lra. }
  subst y. f_equal. apply IH; auto. now apply Permutation_cons_inv in P.
Qed.
Lemma sort_of_perm a b : Permutation a b -> sort a = sort b.
Proof. intro P. apply sorted_unique; try apply sort_sorted. now rewrite !sort_perm. Qed.
Lemma sort_len l : length (sort l) = length l.
Proof. apply Permutation_length, sort_perm. Qed.
Lemma sorted_nth : forall l, StronglySorted Rle l -> forall i j, (i <= j < length l)%nat -> nth i l 0 <= nth j l 0.
Proof.
  induction 1 as [|x t S IH F]; intros i j H; [cbn in H; lia|]. rewrite Forall_forall in F. destruct i as [|i], j as [|j]; cbn in *; try lra; try lia.
  - apply F, nth_In. lia.
  - apply IH. lia.
Qed.

(** the interpolated value at x *)
Definition at_ (s : list R) (x : R) : R :=
  let i := Z.to_nat (Int_part x) in nth i s 0 + (nth (Nat.min (S i) (length s - 1)) s 0 - nth i s 0) * (x - INR i).
Lemma floor_spec x : 0 <= x -> INR (Z.to_nat (Int_part x)) <= x < INR (Z.to_nat (Int_part x)) + 1.
Proof.
  intro H. destruct (base_Int_part x) as [A B]. assert (0 <= Int_part x)%Z.
  { assert (-1 < Int_part x)%Z; [|lia]. apply lt_IZR. lra. }
  rewrite INR_IZR_INZ, Z2Nat.id by assumption. lra.
Qed.
(** any of the two neighbouring intervals gives the same value *)
Lemma at_any s x i : 0 <= x <= INR (length s - 1) -> (S i <= length s - 1)%nat -> INR i <= x <= INR (S i) ->
  at_ s x = nth i s 0 + (nth (S i) s 0 - nth i s 0) * (x - INR i).
Proof.
  intros X L [A B]. unfold at_. cbv zeta. set (j := Z.to_nat (Int_part x)). pose proof (floor_spec x (proj1 X)) as [C D]. fold j in C, D. rewrite S_INR in B.
  assert (K : (j = i \/ j = S i)%nat).
  { assert (i < S j)%nat by (apply INR_lt; rewrite S_INR; lra). assert (j < S (S i))%nat; [|lia]. apply INR_lt. rewrite !S_INR.
    destruct (Rle_lt_dec (INR i + 1 + 1) (INR j)); lra. }
  destruct K as [K | K]; rewrite K in *.
  - rewrite Nat.min_l by lia. reflexivity.
  - assert (x = INR (S i)) by (rewrite S_INR in *; lra). subst x. rewrite S_INR. ring.
Qed.
Lemma at_last s : s <> [] -> at_ s (INR (length s - 1)) = nth (length s - 1) s 0.
Proof.
  intro N. unfold at_. cbv zeta. set (j := Z.to_nat (Int_part (INR (length s - 1)))). pose proof (floor_spec (INR (length s - 1)) (pos_INR _)) as [C D]. fold j in C, D.
  assert (j = (length s - 1)%nat) as ->; [|ring]. apply INR_le in C. assert (length s - 1 < S j)%nat by (apply INR_lt; rewrite S_INR; lra). lia.
Qed.
Lemma at_cell (s : list R) x : s <> [] -> 0 <= x <= INR (length s - 1) ->
  (x = INR (length s - 1) \/ exists i, (S i <= length s - 1)%nat /\ INR i <= x <= INR (S i) /\ x < INR (S i)).
Proof.
  intros N [A B]. destruct (Req_dec x (INR (length s - 1))) as [E|E]; [now left|]. right. pose proof (floor_spec x A) as [C D].
  exists (Z.to_nat (Int_part x)). rewrite S_INR. split; [|lra]. assert (Z.to_nat (Int_part x) < length s - 1)%nat; [|lia]. apply INR_lt. lra.
Qed.
Lemma at_bounds s i x : StronglySorted Rle s -> (S i <= length s - 1)%nat -> INR i <= x <= INR (S i) -> 0 <= x <= INR (length s - 1) ->
  nth i s 0 <= at_ s x <= nth (S i) s 0.
Proof.
  intros S L X B. rewrite (at_any s x i B L X). pose proof (sorted_nth s S i (Datatypes.S i) ltac:(lia)) as H. rewrite S_INR in X.
  set (a := nth i s 0) in *. set (b := nth (Datatypes.S i) s 0) in *. nra.
Qed.
Lemma at_mono s x y : StronglySorted Rle s -> s <> [] -> 0 <= x -> x <= y -> y <= INR (length s - 1) -> at_ s x <= at_ s y.
Proof.
  intros S N A B C. destruct (at_cell s y N ltac:(lra)) as [E|(j & J1 & J2 & J3)].
  - rewrite E, at_last by exact N. destruct (at_cell s x N ltac:(lra)) as [E'|(i & I1 & I2 & I3)].
    + rewrite E', at_last by exact N. lra.
    + pose proof (at_bounds s i x S I1 I2 ltac:(lra)). pose proof (sorted_nth s S (Datatypes.S i) (length s - 1) ltac:(lia)). lra.
  - destruct (at_cell s x N ltac:(lra)) as [E'|(i & I1 & I2 & I3)].
    { exfalso. apply le_INR in J1. lra. }
    destruct (Nat.eq_dec i j) as [-> | D].
    + rewrite (at_any s x j), (at_any s y j) by (auto; lra). pose proof (sorted_nth s S j (Datatypes.S j) ltac:(lia)). nra.
    + assert (i < j)%nat. { assert (i < Datatypes.S j)%nat; [|lia]. apply INR_lt. lra. }
      pose proof (at_bounds s i x S I1 I2 ltac:(lra)). pose proof (at_bounds s j y S J1 J2 ltac:(lra)). pose proof (sorted_nth s S (Datatypes.S i) j ltac:(lia)). lra.
Qed.
Lemma percentile_at l q : l <> [] -> percentile l q = Some (at_ (sort l) (q / 100 * INR (length l - 1))).
Proof. intro N. unfold percentile, at_. destruct l as [|x t]; [congruence|]. cbv zeta. rewrite sort_len. reflexivity. Qed.
Lemma sort_nil (l : list R) : sort l = [] -> l = [] .
Proof. intro E. apply (f_equal (@length R)) in E. rewrite sort_len in E. now destruct l. Qed.
Lemma index_range l q : 0 <= q <= 100 -> 0 <= q / 100 * INR (length (A := R) l - 1) <= INR (length l - 1).
Proof. intro Q. pose proof (pos_INR (length l - 1)). assert (0 <= q / 100 <= 1) by lra. nra. Qed.
Lemma percentile_mono l p q a b : 0 <= p -> p <= q -> q <= 100 -> percentile l p = Some a -> percentile l q = Some b -> a <= b.
Proof.
  intros P PQ Q A B. assert (N : l <> []) by (intros ->; discriminate). rewrite percentile_at in A, B by exact N. injection A as <-. injection B as <-.
  apply at_mono; [apply sort_sorted|intro E; apply N, sort_nil, E| | |rewrite sort_len].
  - apply (proj1 (index_range l p ltac:(lra))).
  - pose proof (pos_INR (length l - 1)). assert (p / 100 <= q / 100) by lra. nra.
  - apply (proj2 (index_range l q ltac:(lra))).
Qed.
Lemma percentile_perm a b q : Permutation a b -> percentile a q = percentile b q.
Proof.
  intro P. destruct a as [|x a]; [now apply Permutation_nil in P as ->|]. assert (b <> []) by (intros ->; apply Permutation_sym, Permutation_nil in P; discriminate).
  rewrite !percentile_at by (auto; discriminate). now rewrite (sort_of_perm _ _ P), (Permutation_length P).
Qed.
(** an increasing affine change *)
Lemma map_sorted (g : R -> R) l : (forall x y, x <= y -> g x <= g y) -> StronglySorted Rle l -> StronglySorted Rle (map g l).
Proof. intros M. induction 1 as [|x t S IH F]; cbn; constructor; auto. rewrite Forall_forall in *. intros z Z. apply in_map_iff in Z. destruct Z as (y & <- & Y). auto. Qed.
Lemma sort_map (g : R -> R) l : (forall x y, x <= y -> g x <= g y) -> sort (map g l) = map g (sort l).
Proof. intro M. apply sorted_unique; [apply sort_sorted|apply map_sorted; auto; apply sort_sorted|]. rewrite sort_perm. apply Permutation_map. symmetry. apply sort_perm. Qed.
Lemma nth_map0 (g : R -> R) s i : (i < length s)%nat -> nth i (map g s) 0 = g (nth i s 0).
Proof. intro H. rewrite (nth_indep _ 0 (g 0)) by (rewrite map_length; exact H). apply map_nth. Qed.
Lemma at_affine (s : list R) a b x : s <> [] -> 0 <= x <= INR (length s - 1) -> at_ (map (fun v => a * v + b) s) x = a * at_ s x + b.
Proof.
  intros N X. assert (L : length (map (fun v => a * v + b) s) = length s) by apply map_length. assert (P : (0 < length s)%nat) by (destruct s; [congruence|cbn; lia]).
  destruct (at_cell s x N X) as [E|(i & I1 & I2 & _)].
  - rewrite E, at_last by exact N. rewrite <- L at 1. rewrite at_last by (intro K; apply N; now apply map_eq_nil in K). rewrite L. rewrite nth_map0 by lia. reflexivity.
  - rewrite (at_any s x i X I1 I2), (at_any _ x i) by (rewrite ?L; auto). rewrite !nth_map0 by lia. ring.
Qed.
Lemma percentile_affine l q a b : 0 <= a -> 0 <= q <= 100 -> percentile (map (fun v => a * v + b) l) q = option_map (fun v => a * v + b) (percentile l q).
Proof.
  intros A Q. destruct l as [|x t]; [reflexivity|]. set (l := x :: t) in *. assert (N : l <> []) by discriminate.
  rewrite !percentile_at by (auto; discriminate). cbn [option_map]. rewrite map_length. rewrite sort_map by (intros; nra). f_equal.
  apply at_affine; [intro E; apply N, sort_nil, E|rewrite sort_len; now apply index_range].
Qed.
(** reflection *)
Lemma app_sorted : forall l m, StronglySorted Rle l -> StronglySorted Rle m -> (forall x y, In x l -> In y m -> x <= y) -> StronglySorted Rle (l ++ m).
Proof.
  induction l as [|x l IH]; intros m A B C; [exact B|]. inversion A as [|? ? A1 A2]; subst. cbn. constructor.
  - apply IH; auto. intros u v U W. apply C; [now right|exact W].
  - rewrite Forall_forall in *. intros z Z. apply in_app_or in Z. destruct Z as [Z|Z]; [auto|]. apply C; [now left|exact Z].
Qed.
Lemma rev_neg_sorted l : StronglySorted Rle l -> StronglySorted Rle (rev (map Ropp l)).
Proof.
  induction 1 as [|x t S IH F]; cbn; [constructor|]. apply app_sorted; [exact IH|repeat constructor|]. intros u v U [<- | []]. apply in_rev, in_map_iff in U.
  destruct U as (y & <- & Y). rewrite Forall_forall in F. specialize (F _ Y). lra.
Qed.
Lemma sort_neg l : sort (map Ropp l) = rev (map Ropp (sort l)).
Proof.
  apply sorted_unique; [apply sort_sorted|apply rev_neg_sorted, sort_sorted|]. rewrite sort_perm. rewrite <- Permutation_rev. apply Permutation_map. symmetry. apply sort_perm.
Qed.
Lemma rev_nth0 (s : list R) i : (i < length s)%nat -> nth i (rev (map Ropp s)) 0 = - nth (length s - 1 - i) s 0.
Proof. intro H. rewrite rev_nth by (rewrite map_length; exact H). rewrite map_length, nth_map0 by lia. do 2 f_equal. lia. Qed.
Lemma at_neg (s : list R) x : s <> [] -> 0 <= x <= INR (length s - 1) -> at_ (rev (map Ropp s)) x = - at_ s (INR (length s - 1) - x).
Proof.
  intros N X. assert (L : length (rev (map Ropp s)) = length s) by now rewrite rev_length, map_length. assert (P : (0 < length s)%nat) by (destruct s; [congruence|cbn; lia]).
  assert (N' : rev (map Ropp s) <> []) by (intro K; apply (f_equal (@length R)) in K; rewrite L in K; cbn in K; lia).
  destruct (at_cell (rev (map Ropp s)) x N' ltac:(rewrite L; exact X)) as [E|(i & I1 & I2 & _)].
  - rewrite L in E. replace (INR (length s - 1) - x) with 0 by lra. rewrite E. rewrite <- L at 1. rewrite at_last by exact N'. rewrite L, rev_nth0 by lia.
    replace (length s - 1 - (length s - 1))%nat with 0%nat by lia. f_equal. destruct (Nat.eq_dec (length s) 1) as [O|O].
    + pose proof (at_last s N) as H. rewrite O in H. cbn in H. symmetry. exact H.
    + rewrite (at_any s 0 0); [cbn; ring|split; [lra|apply pos_INR]|lia|cbn; lra].
  - rewrite L in I1. rewrite (at_any _ x i) by (rewrite ?L; auto). rewrite !rev_nth0 by lia.
    assert (K : (length s - 1 - i = S (length s - 1 - S i))%nat) by lia. assert (M : INR (length s - 1 - S i) = INR (length s - 1) - INR (S i)) by (apply minus_INR; lia).
    rewrite (at_any s _ (length s - 1 - S i)%nat).
    + rewrite K. rewrite M, S_INR. ring.
    + lra.
    + lia.
    + rewrite (S_INR (length s - 1 - S i)), M, S_INR in *. lra.
Qed.
Lemma percentile_neg l q : 0 <= q <= 100 -> percentile (map Ropp l) q = option_map Ropp (percentile l (100 - q)).
Proof.
  intro Q. destruct l as [|x t]; [reflexivity|]. set (l := x :: t) in *. assert (N : l <> []) by discriminate.
  rewrite !percentile_at by (auto; discriminate). cbn [option_map]. rewrite map_length, sort_neg, at_neg.
  - rewrite sort_len. do 3 f_equal. field.
  - intro E; apply N, sort_nil, E.
  - rewrite sort_len. now apply index_range.
Qed.
