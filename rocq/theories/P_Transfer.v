From Coq Require Import String Reals List Arith Lia Lra Bool.
Import ListNotations.
From Verif Require Import M_Transfer S_Transfer.
Set Implicit Arguments.

(** ** lists *)
Lemma map2_length : forall A B C (f : A -> B -> C) l l', length (map2 f l l') = Nat.min (length l) (length l').
Proof. induction l; destruct l'; simpl; auto. Qed.
Lemma nth_map2 : forall A B C (f : A -> B -> C) l l' i a b c, i < length l -> i < length l' ->
  nth i (map2 f l l') c = f (nth i l a) (nth i l' b).
Proof. induction l; destruct l'; simpl; intros; try lia. destruct i; auto. apply IHl; lia. Qed.

Definition positions (m : list bool) : list nat := filter (fun p => nth p m false) (seq 0 (length m)).

Lemma filter_ext_in' : forall A (f g : A -> bool) l, (forall x, In x l -> f x = g x) -> filter f l = filter g l.
Proof. induction l; simpl; intros; auto. rewrite (H a) by auto. rewrite IHl; auto. Qed.
Lemma map_filter_comm : forall A B (f : A -> B) (p : B -> bool) l, filter p (map f l) = map f (filter (fun x => p (f x)) l).
Proof. induction l; simpl; auto. destruct (p (f a)); simpl; rewrite IHl; auto. Qed.
Lemma filter_filter : forall A (f g : A -> bool) l, filter f (filter g l) = filter (fun x => g x && f x) l.
Proof. induction l; simpl; auto. destruct (g a); simpl; [destruct (f a)|]; rewrite IHl; auto. Qed.

Lemma positions_cons : forall b m, positions (b :: m) = (if b then [0] else []) ++ map S (positions m).
Proof.
  intros. unfold positions. cbn [length seq filter nth]. rewrite <- seq_shift, map_filter_comm. cbn [nth].
  destruct b; reflexivity.
Qed.
Lemma gather_positions : forall A (d : A) m l, length l = length m -> gather m l = map (fun p => nth p l d) (positions m).
Proof.
  induction m; destruct l; simpl; intros; try lia; auto.
  rewrite positions_cons. rewrite map_app, map_map. cbn [nth]. rewrite <- IHm by lia. destruct a; reflexivity.
Qed.
Lemma gather_length : forall A m (l : list A), length l = length m -> length (gather m l) = length (filter (fun b : bool => b) m).
Proof. induction m; destruct l; simpl; intros; try lia; auto. destruct a; simpl; rewrite IHm; lia. Qed.
Lemma positions_length : forall m, length (positions m) = length (filter (fun b : bool => b) m).
Proof. induction m; auto. rewrite positions_cons, app_length, map_length, IHm. destruct a; simpl; lia. Qed.
Lemma in_positions : forall m p, In p (positions m) <-> p < length m /\ nth p m false = true.
Proof. intros. unfold positions. rewrite filter_In, in_seq. intuition lia. Qed.
Lemma positions_nodup : forall m, NoDup (positions m).
Proof. intros. apply NoDup_filter, seq_NoDup. Qed.

Lemma scatter_length : forall m v, length (scatter m v) = length m.
Proof. induction m; simpl; auto. destruct a; simpl; intros; auto. destruct v; simpl; rewrite IHm; auto. Qed.
Lemma nth_scatter : forall m (f : nat -> num) p, p < length m ->
  nth p (scatter m (map f (positions m))) None = if nth p m false then f p else None.
Proof.
  induction m; intros f p H; simpl in H; try lia. rewrite positions_cons.
  destruct a; cbn [app map scatter nth]; destruct p; auto; rewrite map_map; cbn [nth];
    rewrite (IHm (fun x => f (S x))) by lia; auto.
Qed.

Lemma nth_repeat_lt : forall A (x d : A) n i, i < n -> nth i (repeat x n) d = x.
Proof. induction n; intros; try lia. destruct i; simpl; auto. apply IHn; lia. Qed.

Lemma row_numbers_length : forall nk s nmu, length (row_numbers s nk nmu) = nk * nmu.
Proof. induction nk; simpl; intros; auto. rewrite app_length, repeat_length, IHnk; auto. Qed.
Lemma nth_row_numbers : forall nk s nmu p, p < nk * nmu -> nth p (row_numbers s nk nmu) 0 = s + p / nmu.
Proof.
  induction nk; intros s nmu p H; [simpl in H; lia|].
  assert (nmu <> 0) by (intro; subst; lia).
  cbn [row_numbers]. destruct (lt_dec p nmu).
  - rewrite app_nth1 by (rewrite repeat_length; auto). rewrite Nat.div_small by auto.
    rewrite nth_repeat_lt by auto. lia.
  - rewrite app_nth2 by (rewrite repeat_length; lia). rewrite repeat_length, IHnk by (simpl in H; lia).
    replace p with (1 * nmu + (p - nmu)) at 2 by lia. rewrite Nat.div_add_l by auto. lia.
Qed.

Lemma reshape_length : forall A nr nc (l : list A), length (reshape nr nc l) = nr.
Proof. induction nr; simpl; auto. Qed.
Lemma nth_skipn' : forall A (d : A) n l i, nth i (skipn n l) d = nth (n + i) l d.
Proof. induction n; intros; auto. destruct l; simpl; auto. destruct i; auto. Qed.
Lemma nth_firstn' : forall A (d : A) n l i, i < n -> nth i (firstn n l) d = nth i l d.
Proof. induction n; intros; try lia. destruct l; auto. destruct i; simpl; auto. apply IHn; lia. Qed.
Lemma nth_reshape : forall A (d : A) nr nc l i j, i < nr -> j < nc -> nth j (nth i (reshape nr nc l) []) d = nth (i * nc + j) l d.
Proof.
  induction nr; intros; try lia. destruct i; cbn [reshape nth].
  - rewrite nth_firstn' by auto. auto.
  - rewrite IHnr by lia. rewrite nth_skipn'. f_equal. simpl. lia.
Qed.
Lemma length_nth_reshape : forall A nr nc (l : list A) i, i < nr -> length l = nr * nc -> length (nth i (reshape nr nc l) []) = nc.
Proof.
  induction nr; intros; try lia. destruct i; cbn [reshape nth].
  - rewrite firstn_length. lia.
  - apply IHnr; [lia|]. rewrite skipn_length. lia.
Qed.
Lemma removelast_length : forall A (l : list A), length (removelast l) = length l - 1.
Proof. induction l; auto. destruct l; auto. cbn [removelast length] in *. rewrite IHl. lia. Qed.
Lemma nth_removelast : forall A (d : A) l i, i < length l - 1 -> nth i (removelast l) d = nth i l d.
Proof.
  induction l; intros; auto. destruct l; [simpl in H; lia|]. cbn [removelast]. destruct i; auto.
  cbn [nth] in *. cbn [length] in H. apply IHl. simpl. lia.
Qed.
Lemma interior_length : forall A (l : list A), length (interior l) = length l - 2.
Proof. intros. unfold interior. rewrite removelast_length. destruct l; simpl; lia. Qed.
Lemma nth_interior : forall A (d : A) l i, i < length l - 2 -> nth i (interior l) d = nth (S i) l d.
Proof. intros. unfold interior. destruct l; [simpl in *; lia|]. simpl in *. rewrite nth_removelast; auto; lia. Qed.
Lemma evens_spec : forall A (d : A) n l, length l <= n -> length (evens l) = (length l + 1) / 2 /\ forall i, nth i (evens l) d = nth (2 * i) l d.
Proof.
  intros A d. induction n; intros l H.
  - destruct l; [|simpl in H; lia]. split; auto. intros []; auto.
  - destruct l as [|x [|y l]]; [split; auto; intros []; auto| |].
    + split; auto. destruct i; auto. simpl. rewrite Nat.add_succ_r. destruct i; auto.
    + simpl in H. destruct (IHn l) as [A1 A2]; [lia|]. split.
      * cbn [evens length]. rewrite A1. replace (S (S (length l)) + 1) with (1 * 2 + (length l + 1)) by lia.
        rewrite Nat.div_add_l by lia. lia.
      * destruct i; auto. cbn [evens nth]. rewrite A2. replace (2 * S i) with (S (S (2 * i))) by lia. auto.
Qed.
Lemma evens_length : forall A (l : list A), length (evens l) = (length l + 1) / 2.
Proof. intros. destruct l as [|d l]; auto. apply (@evens_spec A d (length (d :: l))); auto. Qed.
Lemma nth_evens : forall A (d : A) l i, nth i (evens l) d = nth (2 * i) l d.
Proof. intros. apply (@evens_spec A d (length l)); auto. Qed.

(** ** numbers with NaN *)
Fixpoint nsum (l : list num) : num := match l with [] => Some 0%R | x :: l' => nadd x (nsum l') end.
Lemma nadd_assoc : forall a b c, nadd (nadd a b) c = nadd a (nadd b c).
Proof. intros [|] [|] [|]; simpl; auto. f_equal; ring. Qed.
Lemma nadd_comm : forall a b, nadd a b = nadd b a.
Proof. intros [|] [|]; simpl; auto. f_equal; ring. Qed.
Lemma nadd_0_r : forall a, nadd a (Some 0%R) = a.
Proof. intros [|]; simpl; auto. f_equal; ring. Qed.
Lemma nadd_0_l : forall a, nadd (Some 0%R) a = a.
Proof. intros [|]; simpl; auto. f_equal; ring. Qed.
Lemma nsum_rsum : forall (f : nat -> num) (r : nat -> R) l, (forall p, In p l -> f p = Some (r p)) -> nsum (map f l) = Some (rsum r l).
Proof. induction l; intros; auto. cbn [map nsum rsum]. rewrite IHl by (intros; apply H; right; auto). rewrite (H a) by (left; auto). auto. Qed.

Lemma add_at_length : forall out i x, length (add_at out i x) = length out.
Proof. induction out; intros; auto. destruct i; simpl; auto. Qed.
Lemma nth_add_at : forall out i x b d, b < length out -> nth b (add_at out i x) d = if b =? i then nadd (nth b out d) x else nth b out d.
Proof.
  induction out; intros; [simpl in H; lia|]. destruct i; destruct b; cbn [add_at nth]; auto.
  simpl in H. rewrite IHout by lia. auto.
Qed.
Lemma bincount_length : forall idx out w, length (bincount out idx w) = length out.
Proof. induction idx; intros; auto. destruct w; auto. cbn [bincount]. rewrite IHidx, add_at_length. auto. Qed.
Lemma nth_bincount : forall (f : nat -> nat) (g : nat -> num) l out b d, b < length out ->
  nth b (bincount out (map f l) (map g l)) d = nadd (nth b out d) (nsum (map g (filter (fun p => f p =? b) l))).
Proof.
  induction l; intros; cbn [map bincount filter].
  - rewrite nadd_0_r. auto.
  - rewrite IHl by (rewrite add_at_length; auto). rewrite nth_add_at by auto. rewrite (Nat.eqb_sym (f a) b).
    destruct (b =? f a); auto. cbn [map nsum]. rewrite nadd_assoc. auto.
Qed.

(** ** the wedge of a point *)
Lemma digitize_le : forall x e, digitize x e <= length e.
Proof. induction e; simpl; auto. destruct (leb_R a x); lia. Qed.
Lemma ravel2_length : forall b, length (ravel2 b) = 2 * length b.
Proof. induction b as [|[]]; simpl; auto. rewrite IHb. lia. Qed.
Lemma leb_R_true : forall x y, leb_R x y = true <-> (x <= y)%R.
Proof. intros. unfold leb_R. destruct (Rle_dec x y); intuition; discriminate. Qed.
Lemma leb_R_false : forall x y, leb_R x y = false <-> (y < x)%R.
Proof. intros. unfold leb_R. destruct (Rle_dec x y); intuition; try discriminate; try lra. Qed.
Lemma nondecr_ordered_from : forall b x, nondecr (x :: ravel2 b) = true <-> ordered_from x b.
Proof.
  induction b as [|[lo hi] b]; intros; [simpl; intuition|].
  cbn [ravel2 ordered_from]. change (nondecr (x :: lo :: hi :: ravel2 b)) with (leb_R x lo && (leb_R lo hi && nondecr (hi :: ravel2 b))).
  rewrite !andb_true_iff, !leb_R_true, IHb. intuition.
Qed.
Lemma nondecr_ordered : forall b, nondecr (ravel2 b) = true <-> ordered b.
Proof.
  destruct b as [|[lo hi] b]; [simpl; intuition|]. cbn [ravel2 ordered].
  change (nondecr (lo :: hi :: ravel2 b)) with (leb_R lo hi && nondecr (hi :: ravel2 b)).
  rewrite andb_true_iff, leb_R_true, nondecr_ordered_from. intuition.
Qed.
Lemma digitize_below : forall b x y, ordered_from y b -> (x < y)%R -> digitize x (ravel2 b) = 0.
Proof.
  induction b as [|[lo hi] b]; intros; auto. cbn [ravel2 digitize ordered_from] in *. destruct H as (A & B & C).
  assert (leb_R lo x = false) as -> by (apply leb_R_false; lra). assert (leb_R hi x = false) as -> by (apply leb_R_false; lra).
  rewrite (IHb x hi) by (auto; lra). auto.
Qed.
Lemma digitize_wedge_from : forall b y x j d, ordered_from y b -> j < length b -> (digitize x (ravel2 b) = 2 * j + 1 <-> inside (nth j b d) x).
Proof.
  induction b as [|[lo hi] b]; intros y x j d H Hj; [simpl in Hj; lia|]. cbn [ravel2 digitize ordered_from length] in *. destruct H as (A & B & C).
  destruct (Rle_lt_dec hi x) as [L|L].
  - assert (leb_R hi x = true) as -> by (apply leb_R_true; lra). assert (leb_R lo x = true) as -> by (apply leb_R_true; lra).
    destruct j; cbn [nth].
    + unfold inside; simpl. split; [lia|lra].
    + rewrite <- (IHb hi x j d) by (auto; lia). lia.
  - assert (leb_R hi x = false) as -> by (apply leb_R_false; lra). rewrite (digitize_below b C L).
    destruct (Rle_lt_dec lo x) as [L2|L2].
    + assert (leb_R lo x = true) as -> by (apply leb_R_true; lra).
      destruct j; cbn [nth]; [unfold inside; simpl; split; [lra|lia]|].
      split; [lia|]. intro I. exfalso. rewrite <- (IHb hi x j d) in I by (auto; lia). rewrite (digitize_below b C L) in I. lia.
    + assert (leb_R lo x = false) as -> by (apply leb_R_false; lra).
      destruct j; cbn [nth]; [unfold inside; simpl; split; [lia|lra]|].
      split; [lia|]. intro I. exfalso. rewrite <- (IHb hi x j d) in I by (auto; lia). rewrite (digitize_below b C L) in I. lia.
Qed.
Lemma ordered_ordered_from : forall b, ordered b -> exists y, ordered_from y b.
Proof. destruct b as [|[lo hi] b]; simpl; intros; [exists 0%R; auto|]. exists lo. intuition. Qed.
Lemma digitize_wedge : forall b x j d, ordered b -> j < length b -> (digitize x (ravel2 b) = 2 * j + 1 <-> inside (nth j b d) x).
Proof. intros. destruct (ordered_ordered_from b H) as [y Hy]. apply (digitize_wedge_from b y x d Hy); auto. Qed.

(** ** sums over bins *)
Section GridSum.
Variable g : grid.
Hypothesis wf : grid_wf g.
Let N := (g_nk g * g_nmu g).
Definition NP : list nat := positions (notnull g).
Lemma notnull_length : length (notnull g) = N.
Proof. unfold notnull. rewrite map_length. apply wf. Qed.

Definition pbin (nc : nat) (edges : list R) (p : nat) : nat := S (p / g_nmu g) * nc + digitize (nth p (g_mu g) 0%R) edges.
Lemma combine_map : forall A B C (f : A -> B) (h : A -> C) l, combine (map f l) (map h l) = map (fun x => (f x, h x)) l.
Proof. induction l; simpl; auto. rewrite IHl; auto. Qed.
Lemma mu_indices_positions : forall edges, mu_indices g edges = map (pbin (ncols edges) edges) NP.
Proof.
  intros. unfold mu_indices. pose proof notnull_length. destruct wf as (W1 & W2 & W3 & W4).
  rewrite (gather_positions 0) by (rewrite row_numbers_length; auto).
  rewrite (gather_positions 0%R) by (rewrite W3; auto).
  rewrite !map_map, combine_map, map_map. apply map_ext_in. intros p Hp. apply in_positions in Hp. destruct Hp as [Hp _].
  cbn [fst snd]. unfold pbin. rewrite nth_row_numbers by (rewrite H in Hp; exact Hp). auto.
Qed.

Definition cell (b : list (R * R)) (i j : nat) : list nat :=
  filter (fun p => (p / g_nmu g =? i) && (digitize (nth p (g_mu g) 0%R) (ravel2 b) =? 2 * j + 1)) NP.

Lemma sum_mu_shape : forall edges d, length (sum_mu g edges d) = g_nk g /\
  (forall i, i < g_nk g -> length (nth i (sum_mu g edges d) []) = (ncols edges - 2 + 1) / 2).
Proof.
  intros. unfold sum_mu. split.
  - rewrite !map_length, interior_length, reshape_length. lia.
  - intros i Hi. rewrite map_map. set (M := reshape _ _ _).
    assert (L : length (interior M) = g_nk g) by (unfold M; rewrite interior_length, reshape_length; lia).
    rewrite (nth_indep _ [] (evens (interior []))) by (rewrite map_length, L; auto).
    rewrite (map_nth (fun x => evens (interior x))). rewrite evens_length, interior_length.
    rewrite nth_interior by (unfold M; rewrite reshape_length; lia). unfold M. rewrite length_nth_reshape; [auto|lia|].
    rewrite bincount_length, repeat_length. auto.
Qed.

Lemma nth_sum_mu : forall b d i j, length d = N -> i < g_nk g -> j < length b ->
  nth j (nth i (sum_mu g (ravel2 b) d) []) None = nsum (map (fun p => nth p d None) (cell b i j)).
Proof.
  intros b d i j Hd Hi Hj. unfold sum_mu. rewrite map_map. set (M := reshape _ _ _).
  assert (L : length (interior M) = g_nk g) by (unfold M; rewrite interior_length, reshape_length; lia).
  rewrite (nth_indep _ [] (evens (interior []))) by (rewrite map_length, L; auto).
  rewrite (map_nth (fun x => evens (interior x))), nth_evens.
  assert (LC : ncols (ravel2 b) = 2 * length b + 1) by (unfold ncols; rewrite ravel2_length; lia).
  assert (LR : length (nth i (interior M) []) = ncols (ravel2 b)).
  { rewrite nth_interior by (unfold M; rewrite reshape_length; lia). unfold M. apply length_nth_reshape; [lia|]. rewrite bincount_length, repeat_length; auto. }
  rewrite nth_interior by lia. rewrite nth_interior by (unfold M; rewrite reshape_length; lia). unfold M.
  rewrite nth_reshape by lia. rewrite mu_indices_positions.
  rewrite (gather_positions (None : num)) by (rewrite notnull_length; auto). fold NP.
  assert (HB : S i * ncols (ravel2 b) + S (2 * j) < (g_nk g + 2) * ncols (ravel2 b)).
  { rewrite LC. nia. }
  rewrite nth_bincount by (rewrite repeat_length; exact HB).
  rewrite nth_repeat_lt by exact HB. rewrite nadd_0_l. f_equal. f_equal. unfold cell. apply filter_ext_in'. intros p Hp.
  unfold pbin. pose proof (digitize_le (nth p (g_mu g) 0%R) (ravel2 b)) as D. rewrite ravel2_length in D.
  set (dg := digitize _ _) in *. rewrite LC.
  destruct (p / g_nmu g =? i) eqn:E1; cbn [andb].
  - apply Nat.eqb_eq in E1. rewrite E1. destruct (dg =? 2 * j + 1) eqn:E2.
    + apply Nat.eqb_eq in E2. apply Nat.eqb_eq. lia.
    + apply Nat.eqb_neq in E2. apply Nat.eqb_neq. lia.
  - apply Nat.eqb_neq in E1. apply Nat.eqb_neq. intro E. apply E1.
    assert (X : forall a c r r', r < c -> r' < c -> a * c + r = S i * c + r' -> a = S i).
    { intros a c r r' H1 H2 H3. destruct (Nat.lt_trichotomy a (S i)) as [T|[T|T]]; auto; nia. }
    specialize (X (S (p / g_nmu g)) (2 * length b + 1) dg (S (2 * j))). lia.
Qed.

Lemma cell_selects : forall b i j d, ordered b -> j < length b ->
  selects (cell b i j) N (fun p => nth p (notnull g) false = true /\ p / g_nmu g = i /\ inside (nth j b d) (nth p (g_mu g) 0%R)).
Proof.
  intros b i j d Ho Hj. split.
  - apply NoDup_filter, positions_nodup.
  - intros p. unfold cell. rewrite filter_In, andb_true_iff, !Nat.eqb_eq, (digitize_wedge b _ d Ho Hj). unfold NP. rewrite in_positions, notnull_length. intuition.
Qed.
End GridSum.
