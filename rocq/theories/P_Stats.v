(** * Proofs about the Gelman-Rubin statistic *)
From Coq Require Import Reals List Lra Lia Permutation.
From Verif Require Import M_Stats.
Import ListNotations.
Open Scope R_scope.

Lemma total_app : forall a b, total (a ++ b) = total a + total b.
Proof. induction a; intros; cbn; [lra|]. rewrite IHa. lra. Qed.
Lemma total_perm : forall a b, Permutation a b -> total a = total b.
Proof. intros a b H. induction H; cbn; lra. Qed.
Lemma total_scale : forall c l, total (map (fun x => c * x) l) = c * total l.
Proof. induction l; cbn; [lra|]. rewrite IHl. lra. Qed.
Lemma total_shift : forall c l, total (map (fun x => x + c) l) = total l + INR (length l) * c.
Proof. induction l; [cbn; lra|]. cbn [map total length]. rewrite IHl, S_INR. lra. Qed.
Lemma total_ext : forall A (f g : A -> R) l, (forall x, In x l -> f x = g x) -> total (map f l) = total (map g l).
Proof. induction l; intros H; cbn; auto. rewrite H by (now left). rewrite IHl by (intros; apply H; now right). auto. Qed.
Lemma total_nonneg : forall l, (forall x, In x l -> 0 <= x) -> 0 <= total l.
Proof. induction l; intros H; cbn; [lra|]. assert (0 <= a) by (apply H; now left). assert (0 <= total l) by (apply IHl; intros; apply H; now right). lra. Qed.
Lemma INR_len : forall A (l : list A), l <> [] -> 0 < INR (length l).
Proof. intros A l H. apply lt_0_INR. destruct l; [congruence|cbn; lia]. Qed.
Lemma mean_shift : forall c l, l <> [] -> mean (map (fun x => x + c) l) = mean l + c.
Proof. intros c l H. unfold mean. rewrite map_length, total_shift. field. assert (K := INR_len _ l H). lra. Qed.
Lemma mean_scale : forall c l, mean (map (fun x => c * x) l) = c * mean l.
Proof. intros c l. unfold mean. rewrite map_length, total_scale. unfold Rdiv. ring. Qed.
Lemma mean_ext : forall A (f g : A -> R) l, (forall x, In x l -> f x = g x) -> mean (map f l) = mean (map g l).
Proof. intros. unfold mean. rewrite !map_length. f_equal. now apply total_ext. Qed.
Lemma mean_perm : forall a b, Permutation a b -> mean a = mean b.
Proof. intros a b H. unfold mean. rewrite (total_perm a b H), (Permutation_length H). auto. Qed.
Lemma mean_nonneg : forall l, (forall x, In x l -> 0 <= x) -> 0 <= mean l.
Proof.
  intros l H. unfold mean. destruct l as [|x l]; [cbn; lra|]. apply Rmult_le_pos; [now apply total_nonneg|]. left. apply Rinv_0_lt_compat. apply INR_len. discriminate.
Qed.
Lemma var_shift : forall c l, l <> [] -> var (map (fun x => x + c) l) = var l.
Proof. intros c l H. unfold var. rewrite mean_shift by auto. rewrite map_map. apply mean_ext. intros x _. ring. Qed.
Lemma var_scale : forall c l, var (map (fun x => c * x) l) = c ^ 2 * var l.
Proof.
  intros c l. unfold var. rewrite mean_scale, map_map. rewrite <- (mean_scale (c ^ 2)), map_map. apply mean_ext. intros x _. ring.
Qed.
Lemma var_nonneg : forall l, 0 <= var l.
Proof. intros. unfold var. apply mean_nonneg. intros x H. apply in_map_iff in H. destruct H as (y & <- & _). apply pow2_ge_0. Qed.
Lemma within_nonneg : forall cs, 0 <= within cs.
Proof. intros. unfold within. apply mean_nonneg. intros x H. apply in_map_iff in H. destruct H as (y & <- & _). apply var_nonneg. Qed.

Lemma within_shift : forall c cs, Forall (fun x => x <> []) cs -> within (map (map (fun x => x + c)) cs) = within cs.
Proof. intros c cs H. unfold within. rewrite map_map. apply mean_ext. intros x Hx. apply var_shift. rewrite Forall_forall in H. auto. Qed.
Lemma within_scale : forall c cs, within (map (map (fun x => c * x)) cs) = c ^ 2 * within cs.
Proof. intros c cs. unfold within. rewrite map_map. rewrite <- mean_scale, map_map. apply mean_ext. intros x _. apply var_scale. Qed.
Lemma between_shift : forall c n cs, Forall (fun x => x <> []) cs -> between n (map (map (fun x => x + c)) cs) = between n cs.
Proof.
  intros c n cs H. unfold between. rewrite !map_map, map_length. destruct cs as [|c0 cs']; [reflexivity|]. set (cs := c0 :: cs') in *.
  assert (E : mean (map (fun x => mean (map (fun x0 => x0 + c) x)) cs) = mean (map mean cs) + c).
  { rewrite <- mean_shift by discriminate. rewrite map_map. apply mean_ext. intros x Hx. apply mean_shift. rewrite Forall_forall in H. auto. }
  rewrite E. apply total_ext. intros x Hx. rewrite mean_shift by (rewrite Forall_forall in H; auto). f_equal. ring.
Qed.
Lemma between_scale : forall c n cs, between n (map (map (fun x => c * x)) cs) = c ^ 2 * between n cs.
Proof.
  intros c n cs. unfold between. rewrite !map_map, map_length.
  assert (E : mean (map (fun x => mean (map (fun x0 => c * x0) x)) cs) = c * mean (map mean cs)).
  { rewrite <- mean_scale. rewrite map_map. apply mean_ext. intros x Hx. apply mean_scale. }
  rewrite E. rewrite <- total_scale, map_map. apply total_ext. intros x Hx. rewrite mean_scale. unfold Rdiv. ring.
Qed.
Lemma between_nonneg : forall n cs, 0 <= n -> (2 <= length cs)%nat -> 0 <= between n cs.
Proof.
  intros n cs Hn H. unfold between. apply total_nonneg. intros x Hx. apply in_map_iff in Hx. destruct Hx as (c & <- & _).
  assert (2 <= INR (length cs)) by (apply (le_INR 2); auto). apply Rmult_le_pos; [apply Rmult_le_pos; [auto|apply pow2_ge_0]|]. left. apply Rinv_0_lt_compat. lra.
Qed.
Lemma within_perm : forall a b, Permutation a b -> within a = within b.
Proof. intros. unfold within. apply mean_perm. now apply Permutation_map. Qed.
Lemma between_perm : forall n a b, Permutation a b -> between n a = between n b.
Proof.
  intros n a b H. unfold between. rewrite (mean_perm (map mean a) (map mean b)) by (now apply Permutation_map). rewrite (Permutation_length H). apply total_perm. now apply Permutation_map.
Qed.
(** n cancels in the between-chain part *)
Lemma estvar_form : forall n cs, 0 < n -> estvar n cs = (1 - 1 / n) * within cs + between 1 cs.
Proof.
  intros n cs Hn. unfold estvar. f_equal. unfold between. unfold Rdiv at 1. rewrite Rmult_comm. rewrite <- total_scale, map_map. apply total_ext. intros x _.
  unfold Rdiv. generalize (/ (INR (length cs) - 1)). intros y. field. lra.
Qed.
