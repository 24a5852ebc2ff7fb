(** * Proofs about the covariance matrix *)
From Coq Require Import FinFun List Arith Bool ZArith Lia Sorting.Sorted.
From Verif Require Import M_Cov.
Import ListNotations.
Set Implicit Arguments.
Local Arguments condensed_to_full : simpl never.
Local Arguments triu : simpl never.
Local Open Scope nat_scope.

Lemma sum_range_spec i : 2 * sum_range i = i * (i - 1).
Proof. induction i as [|i IH]; [reflexivity|]. cbn [sum_range]. destruct i; cbn in *; lia. Qed.
Lemma sum_range_le N i : i <= N -> sum_range i <= i * N.
Proof. intro H. pose proof (sum_range_spec i). nia. Qed.

Definition row (N i : nat) : list (nat * nat) := map (fun j => (i, j)) (seq i (N - i)).
Lemma triu_eq N : triu N = flat_map (row N) (seq 0 N).
Proof. reflexivity. Qed.
Lemma rows_length N i : i <= N -> length (flat_map (row N) (seq 0 i)) = i * N - sum_range i.
Proof.
  induction i as [|i IH]; intro H; [reflexivity|].
  rewrite seq_S, flat_map_app, app_length, IH by lia. cbn [flat_map]. rewrite app_nil_r. unfold row. rewrite map_length, seq_length.
  cbn [Nat.add sum_range]. pose proof (@sum_range_le N i ltac:(lia)). pose proof (sum_range_spec i). nia.
Qed.
Lemma triu_length N : 2 * length (triu N) = N * (N + 1).
Proof. rewrite triu_eq, rows_length by lia. pose proof (sum_range_spec N). pose proof (@sum_range_le N N ltac:(lia)). nia. Qed.

Lemma nth_error_seq n : forall a k, k < n -> nth_error (seq a n) k = Some (a + k).
Proof. induction n as [|n IH]; intros a k H; [lia|]. destruct k; cbn; [now rewrite Nat.add_0_r|]. rewrite IH by lia. f_equal. lia. Qed.
Definition slot (N i j : nat) : nat := i * N - sum_range i + (j - i).
Lemma triu_nth N i j : i <= j -> j < N -> nth_error (triu N) (slot N i j) = Some (i, j).
Proof.
  intros H1 H2. rewrite triu_eq. replace N with (i + (N - i)) at 2 by lia. rewrite seq_app, flat_map_app. cbn [Nat.add].
  rewrite nth_error_app2; rewrite rows_length by lia; [|unfold slot; lia].
  replace (slot N i j - (i * N - sum_range i)) with (j - i) by (unfold slot; lia).
  destruct (N - i) as [|m] eqn:E; [lia|]. cbn [seq flat_map]. rewrite nth_error_app1 by (unfold row; rewrite map_length, seq_length; lia).
  unfold row. rewrite nth_error_map, nth_error_seq by lia. cbn. do 2 f_equal. lia.
Qed.
Lemma triu_In N i j : In (i, j) (triu N) <-> i <= j < N.
Proof.
  rewrite triu_eq, in_flat_map. split.
  - intros [r [Hr Hin]]. unfold row in Hin. apply in_map_iff in Hin. destruct Hin as [x [E Hx]]. injection E as -> ->. apply in_seq in Hr, Hx. lia.
  - intro H. exists i. split; [apply in_seq; lia|]. unfold row. apply in_map_iff. exists j. split; [reflexivity|]. apply in_seq. lia.
Qed.
Lemma tril_In N i j : In (i, j) (tril N) <-> j <= i < N.
Proof.
  unfold tril. rewrite in_flat_map. split.
  - intros [r [Hr Hin]]. apply in_map_iff in Hin. destruct Hin as [x [E Hx]]. injection E as -> ->. apply in_seq in Hr, Hx. lia.
  - intro H. exists i. split; [apply in_seq; lia|]. apply in_map_iff. exists j. split; [reflexivity|]. apply in_seq. lia.
Qed.
Lemma slot_lt N i j : i <= j -> j < N -> slot N i j < length (triu N).
Proof. intros. apply nth_error_Some. rewrite triu_nth by assumption. discriminate. Qed.
Lemma slot_inj N i j i' j' : i <= j < N -> i' <= j' < N -> slot N i j = slot N i' j' -> i = i' /\ j = j'.
Proof.
  intros H H' E. assert (A := @triu_nth N i j ltac:(lia) ltac:(lia)). rewrite E, triu_nth in A by lia. now injection A as -> ->.
Qed.
Lemma slot_surj N s : s < length (triu N) -> exists i j, i <= j < N /\ slot N i j = s.
Proof.
  intro H. destruct (nth_error (triu N) s) as [[i j]|] eqn:E; [|apply nth_error_None in E; lia].
  assert (Hin := nth_error_In _ _ E). apply triu_In in Hin. exists i, j. split; [exact Hin|].
  assert (Hs := @slot_lt N i j ltac:(lia) ltac:(lia)).
  assert (ND : NoDup (triu N)).
  { rewrite triu_eq. clear. assert (G : forall n a, NoDup (flat_map (row N) (seq a n))).
    { induction n as [|n IH]; intro a; cbn; [constructor|]. 
      assert (R : NoDup (row N a)). { unfold row. apply FinFun.Injective_map_NoDup; [intros x y Exy; congruence|apply seq_NoDup]. }
      assert (D : forall p, In p (row N a) -> ~ In p (flat_map (row N) (seq (S a) n))).
      { intros [x y] Hp Hq. unfold row in Hp. apply in_map_iff in Hp. destruct Hp as [z [Ez _]]. injection Ez as -> ->.
        apply in_flat_map in Hq. destruct Hq as [r [Hr Hq]]. unfold row in Hq. apply in_map_iff in Hq. destruct Hq as [w [Ew _]]. injection Ew as Ew _. apply in_seq in Hr. lia. }
      induction (row N a) as [|p l IHl]; cbn; [apply IH|]. inversion R; subst. constructor.
      - rewrite in_app_iff. intros [Hx|Hx]; [tauto|]. apply (D p); [now left|exact Hx].
      - apply IHl; [assumption|]. intros q Hq. apply D. now right. }
    apply G. }
  rewrite NoDup_nth_error in ND. apply ND; [exact Hs|]. now rewrite triu_nth, E by lia.
Qed.

(** the Python index expression *)
Definition wrap (N : nat) (i : Z) : Z := if (i <? 0)%Z then (i + Z.of_nat N)%Z else i.
Lemma contracted_index_spec N i j :
  contracted_index N i j =
  if ((0 <=? wrap N i) && (wrap N i <? Z.of_nat N) && ((0 <=? wrap N j) && (wrap N j <? Z.of_nat N)))%Z
  then Some (Z.of_nat (slot N (Nat.min (Z.to_nat (wrap N i)) (Z.to_nat (wrap N j))) (Nat.max (Z.to_nat (wrap N i)) (Z.to_nat (wrap N j)))))
  else None.
Proof.
  unfold contracted_index. fold (wrap N i). fold (wrap N j). generalize (wrap N i) as a. generalize (wrap N j) as b. clear i j. intros b a.
  destruct ((0 <=? a) && (a <? Z.of_nat N))%Z eqn:Ea; cbn; [|reflexivity].
  destruct ((0 <=? b) && (b <? Z.of_nat N))%Z eqn:Eb; cbn; [|reflexivity].
  apply andb_true_iff in Ea, Eb. rewrite Z.leb_le, Z.ltb_lt in Ea, Eb.
  assert (G : forall x y, (0 <= x <= y)%Z -> (y < Z.of_nat N)%Z ->
    (x * (Z.of_nat N - 1) - Z.of_nat (sum_range (Z.to_nat x)) + y)%Z = Z.of_nat (slot N (Z.to_nat x) (Z.to_nat y))).
  { intros x y Hx Hy. unfold slot. pose proof (@sum_range_le N (Z.to_nat x) ltac:(lia)).
    rewrite Nat2Z.inj_add, Nat2Z.inj_sub, Nat2Z.inj_mul, Z2Nat.id, Nat2Z.inj_sub by lia. rewrite !Z2Nat.id by lia. ring. }
  destruct (Z.ltb_spec b a); f_equal.
  - rewrite G by lia. f_equal. f_equal; lia.
  - rewrite G by lia. f_equal. f_equal; lia.
Qed.

Section Data.
Variable X : Type.
Variable junk : nat -> nat -> X.
Variable one : X.
Notation cov := (cov X).
Notation matrix := (matrix X).

Definition inb (p : nat * nat) (l : list (nat * nat)) : bool := existsb (fun q => Nat.eqb (fst p) (fst q) && Nat.eqb (snd p) (snd q)) l.
Lemma inb_In p l : inb p l = true <-> In p l.
Proof.
  unfold inb. rewrite existsb_exists. destruct p as [i j]. split.
  - intros [[a b] [H E]]. cbn in E. apply andb_true_iff in E. rewrite !Nat.eqb_eq in E. destruct E; subst. exact H.
  - intro H. exists (i, j). split; [exact H|]. cbn. now rewrite !Nat.eqb_refl.
Qed.
Lemma assign_map (g : nat * nat -> X) ks : forall (m : matrix) i j,
  assign m (combine ks (map g ks)) i j = if inb (i, j) ks then g (i, j) else m i j.
Proof.
  induction ks as [|[a b] ks IH]; intros m i j; [reflexivity|]. cbn [map combine assign]. rewrite IH.
  assert (E : inb (i, j) ((a, b) :: ks) = (Nat.eqb i a && Nat.eqb j b) || inb (i, j) ks) by reflexivity. rewrite E.
  unfold mset. destruct (inb (i, j) ks); [now rewrite orb_true_r|]. rewrite orb_false_r.
  destruct (Nat.eqb_spec i a), (Nat.eqb_spec j b); subst; reflexivity.
Qed.
Lemma full_map (g : nat * nat -> X) N i j : i < N -> j < N ->
  condensed_to_full junk (map g (triu N)) N i j = g (Nat.min i j, Nat.max i j).
Proof.
  intros Hi Hj. unfold condensed_to_full. set (m := assign junk (combine (triu N) (map g (triu N)))).
  rewrite (assign_map (fun p => m (snd p) (fst p))). cbn.
  assert (U : forall a b, a <= b -> b < N -> m a b = g (a, b)).
  { intros a b Ha Hb. unfold m. rewrite assign_map. rewrite (proj2 (inb_In (a, b) (triu N))) by (apply triu_In; lia). reflexivity. }
  destruct (inb (i, j) (tril N)) eqn:E.
  - apply inb_In, tril_In in E. rewrite U by lia. do 2 f_equal; lia.
  - assert (Hn : ~ (j <= i)). { intro Hle. rewrite (proj2 (inb_In (i, j) (tril N))) in E by (apply tril_In; lia). discriminate. }
    rewrite U by lia. do 2 f_equal; lia.
Qed.
Lemma nth_error_ext (A : Type) (l : list A) : forall l', (forall s, nth_error l s = nth_error l' s) -> l = l'.
Proof.
  induction l as [|x l IH]; intros [|y l'] H; [reflexivity|discriminate (H 0)|discriminate (H 0)|].
  assert (E := H 0). cbn in E. injection E as ->. f_equal. apply IH. intro s. exact (H (S s)).
Qed.
(** every condensed vector is the upper triangle of something *)
Lemma condensed_as_map (d : list X) N x0 : length d = length (triu N) ->
  d = map (fun p => nth (slot N (fst p) (snd p)) d x0) (triu N).
Proof.
  intro H. apply nth_error_ext. intro s. rewrite nth_error_map. destruct (Nat.lt_ge_cases s (length (triu N))) as [Hs|Hs].
  - destruct (slot_surj N Hs) as [i [j [Hij <-]]]. rewrite triu_nth by lia. cbn [option_map fst snd]. apply nth_error_nth'. rewrite H. exact Hs.
  - rewrite (proj2 (nth_error_None _ _)) by lia. now rewrite (proj2 (nth_error_None (triu N) s)) by lia.
Qed.
Lemma full_nth (d : list X) N x0 i j : length d = length (triu N) -> i < N -> j < N ->
  condensed_to_full junk d N i j = nth (slot N (Nat.min i j) (Nat.max i j)) d x0.
Proof. intros H Hi Hj. rewrite (condensed_as_map d N x0 H) at 1. rewrite full_map by assumption. reflexivity. Qed.
Arguments full_nth d N x0 {i j} _ _ _.

Definition wf (c : cov) : Prop := length (cdata c) = length (triu (cN c)).
Lemma getitem_values (c : cov) i j : wf c -> i < cN c -> j < cN c ->
  getitem c (Z.of_nat i) (Z.of_nat j) = Some (values junk c i j).
Proof.
  intros Hw Hi Hj. unfold getitem. rewrite contracted_index_spec. unfold wrap.
  rewrite !(proj2 (Z.ltb_ge (Z.of_nat _) 0)) by lia. rewrite !(proj2 (Z.leb_le 0 (Z.of_nat _))) by lia. rewrite !(proj2 (Z.ltb_lt (Z.of_nat _) _)) by lia. cbn [andb].
  rewrite !Nat2Z.id. unfold values.
  destruct (cdata c) as [|x0 d] eqn:E.
  - exfalso. unfold wf in Hw. rewrite E in Hw. pose proof (triu_length (cN c)). cbn in Hw. nia.
  - rewrite <- E in *. rewrite (full_nth _ _ x0 Hw Hi Hj). apply nth_error_nth'. rewrite Hw. apply slot_lt; lia.
Qed.
Lemma getitem_neg (c : cov) i j : getitem c i j = getitem c (wrap (cN c) i) (wrap (cN c) j) \/
  ~ (- Z.of_nat (cN c) <= i < Z.of_nat (cN c) /\ - Z.of_nat (cN c) <= j < Z.of_nat (cN c))%Z.
Proof.
  destruct (Z_le_dec (- Z.of_nat (cN c)) i), (Z_le_dec (- Z.of_nat (cN c)) j); try (right; lia).
  left. unfold getitem. rewrite !contracted_index_spec.
  assert (W : forall a, (- Z.of_nat (cN c) <= a)%Z -> wrap (cN c) (wrap (cN c) a) = wrap (cN c) a).
  { intros a Ha. unfold wrap. destruct (Z.ltb_spec a 0); [|now rewrite (proj2 (Z.ltb_ge a 0))]. now rewrite (proj2 (Z.ltb_ge _ 0)) by lia. }
  now rewrite !W by assumption.
Qed.
Lemma construct_wf N m cs : wf (construct one N m cs).
Proof. unfold wf, construct. cbn. apply map_length. Qed.
Lemma values_construct N (m : matrix) cs i j : i < N -> j < N ->
  values junk (construct one N m cs) i j = m (Nat.min i j) (Nat.max i j).
Proof. intros. unfold values, construct. cbn [cdata cN]. now rewrite (full_map (fun p => m (fst p) (snd p))) by assumption. Qed.
Lemma values_sym (c : cov) i j : wf c -> i < cN c -> j < cN c -> values junk c i j = values junk c j i.
Proof.
  intros Hw Hi Hj. assert (G := getitem_values Hw Hi Hj). assert (G' := getitem_values Hw Hj Hi).
  assert (getitem c (Z.of_nat i) (Z.of_nat j) = getitem c (Z.of_nat j) (Z.of_nat i)).
  { unfold getitem. rewrite !contracted_index_spec. rewrite andb_comm. now rewrite Nat.min_comm, Nat.max_comm. }
  congruence.
Qed.
Lemma opt_all_map (A B : Type) (g : A -> option B) (h : A -> B) l : (forall x, In x l -> g x = Some (h x)) -> opt_all (map g l) = Some (map h l).
Proof. induction l as [|a l IH]; intro H; cbn; [reflexivity|]. rewrite H by now left. rewrite IH; [reflexivity|]. intros. apply H. now right. Qed.
Lemma diag_values (c : cov) : wf c -> diag c = Some (map (fun i => values junk c i i) (seq 0 (cN c))).
Proof. intro Hw. unfold diag. apply opt_all_map. intros i Hi. apply in_seq in Hi. apply getitem_values; [exact Hw|lia|lia]. Qed.

(** ** arithmetic *)
Variable ev : bop -> X -> X -> X.
Lemma zipw_length g a : forall b, length a = length b -> length (@zipw X g a b) = length a.
Proof. induction a as [|x a IH]; intros [|y b] H; cbn in *; try lia. rewrite IH; lia. Qed.
Lemma zipw_nth g a : forall b s x0, length a = length b -> s < length a -> nth s (@zipw X g a b) x0 = g (nth s a x0) (nth s b x0).
Proof. induction a as [|x a IH]; intros [|y b] [|s] x0 H Hs; cbn in *; try lia; auto. apply IH; lia. Qed.
Lemma arith_scalar o (c : cov) x : wf c -> exists c', arith ev o c (Scalar x) = Some c' /\ wf c' /\ cN c' = cN c /\ ccoords c' = ccoords c /\ cresc c' = cresc c /\
  forall i j, i < cN c -> j < cN c -> values junk c' i j = ev o (values junk c i j) x.
Proof.
  intro Hw. eexists. split; [reflexivity|]. cbn. split; [unfold wf; cbn; rewrite map_length; exact Hw|]. repeat split.
  intros i j Hi Hj. unfold values. cbn. destruct (cdata c) as [|x0 d] eqn:E; [exfalso; unfold wf in Hw; rewrite E in Hw; cbn in Hw; pose proof (triu_length (cN c)); nia|]. rewrite <- E in *. clear E d.
  rewrite (full_nth (map (fun y => ev o y x) (cdata c)) (cN c) (ev o x0 x)) by (rewrite ?map_length; assumption). rewrite (full_nth (cdata c) (cN c) x0) by assumption.
  apply (map_nth (fun y => ev o y x)).
Qed.
Lemma arith_matrix o (c d : cov) : wf c -> wf d -> cN c = cN d -> o <> Mul -> exists c', arith ev o c (Matrix d) = Some c' /\ wf c' /\ cN c' = cN c /\
  forall i j, i < cN c -> j < cN c -> values junk c' i j = ev o (values junk c i j) (values junk d i j).
Proof.
  intros Hw Hd E Ho. unfold arith. rewrite (proj2 (Nat.eqb_eq _ _) E).
  assert (L : length (cdata c) = length (cdata d)) by (unfold wf in *; congruence).
  exists (with_data c (zipw (ev o) (cdata c) (cdata d))). split; [destruct o; congruence|]. cbn. split; [unfold wf; cbn; rewrite zipw_length by exact L; exact Hw|]. split; [reflexivity|].
  intros i j Hi Hj. unfold values. cbn. destruct (cdata c) as [|x0 l] eqn:Ec; [exfalso; unfold wf in Hw; rewrite Ec in Hw; cbn in Hw; pose proof (triu_length (cN c)); nia|]. rewrite <- Ec in *. clear Ec l.
  rewrite (full_nth (zipw (ev o) (cdata c) (cdata d)) (cN c) x0); [|rewrite zipw_length by exact L; exact Hw|assumption|assumption].
  rewrite (full_nth (cdata c) (cN c) x0) by assumption. rewrite <- E in *. unfold wf in Hd. rewrite <- E in Hd. rewrite (full_nth (cdata d) (cN c) x0) by assumption.
  apply zipw_nth; [exact L|]. rewrite Hw. apply slot_lt; lia.
Qed.

(** ** trimming *)
(** the row is inside the bounds of its own block *)
Fixpoint kept (ls : list Z) (lo hi : list (option Z)) (x : Z * Z) : bool :=
  match ls, lo, hi with
  | l :: ls', a :: lo', b :: hi' => if (fst x =? l)%Z then ge_lo a (snd x) && le_hi b (snd x) else kept ls' lo' hi' x
  | _, _, _ => false
  end.
Definition keepp (coords : list (Z * Z)) (g : Z * Z -> bool) (p : nat) : bool :=
  match nth_error coords p with Some x => g x | None => false end.
Definition positions (coords : list (Z * Z)) (g : Z * Z -> bool) : list nat := filter (keepp coords g) (seq 0 (length coords)).

Lemma ss_ext (a b : list nat) : StronglySorted lt a -> StronglySorted lt b -> (forall x, In x a <-> In x b) -> a = b.
Proof.
  intros Ha. revert b. induction Ha as [|x a Ha IH Hx]; intros b Hb H.
  - destruct b as [|y b]; [reflexivity|]. exfalso. apply (H y). now left.
  - destruct Hb as [|y b Hb Hy]; [exfalso; apply (H x); now left|].
    rewrite Forall_forall in Hx, Hy.
    assert (x = y).
    { destruct (proj1 (H x) (or_introl eq_refl)) as [|Hin]; [congruence|]. destruct (proj2 (H y) (or_introl eq_refl)) as [|Hin']; [congruence|].
      apply Hy in Hin. apply Hx in Hin'. lia. }
    subst y. f_equal. apply IH; [exact Hb|]. intro z. split; intro Hz.
    + destruct (proj1 (H z) (or_intror Hz)) as [->|]; [|assumption]. apply Hx in Hz. lia.
    + destruct (proj2 (H z) (or_intror Hz)) as [->|]; [|assumption]. apply Hy in Hz. lia.
Qed.
Lemma ss_filter_seq g : forall n a, StronglySorted lt (filter g (seq a n)).
Proof.
  induction n as [|n IH]; intro a; cbn; [constructor|]. destruct (g a); [|apply IH]. constructor; [apply IH|].
  apply Forall_forall. intros x Hx. apply filter_In in Hx. destruct Hx as [Hx _]. apply in_seq in Hx. lia.
Qed.
Lemma ss_app (a b : list nat) : StronglySorted lt a -> StronglySorted lt b -> (forall x y, In x a -> In y b -> x < y) -> StronglySorted lt (a ++ b).
Proof.
  intros Ha Hb H. induction Ha as [|x a Ha IH Hx]; cbn; [exact Hb|]. constructor.
  - apply IH. intros. apply H; [now right|assumption].
  - apply Forall_app. split; [exact Hx|]. apply Forall_forall. intros y Hy. apply H; [now left|exact Hy].
Qed.
Lemma lex_le_label a b : lex_le a b = true -> (fst a <= fst b)%Z.
Proof. unfold lex_le. rewrite orb_true_iff, andb_true_iff, Z.ltb_lt, Z.eqb_eq. lia. Qed.
Lemma lexsorted_head x l : lexsorted (x :: l) = true -> lexsorted l = true /\ Forall (fun y => (fst x <= fst y)%Z) l.
Proof.
  revert x. induction l as [|y l IH]; intros x H; [auto|]. cbn [lexsorted] in H. fold (lexsorted (y :: l)) in H. apply andb_true_iff in H. destruct H as [H1 H2].
  split; [exact H2|]. apply lex_le_label in H1. constructor; [exact H1|]. destruct (IH y H2) as [_ F]. eapply Forall_impl; [|exact F]. cbn. lia.
Qed.
Lemma lexsorted_nth l : lexsorted l = true -> forall p q x y, p <= q -> nth_error l p = Some x -> nth_error l q = Some y -> (fst x <= fst y)%Z.
Proof.
  induction l as [|a l IH]; intros H p q x y Hpq Hx Hy; [destruct p; discriminate|]. destruct (@lexsorted_head a l H) as [H' F].
  destruct p as [|p]; destruct q as [|q]; cbn in Hx, Hy; try lia.
  - injection Hx as <-. injection Hy as <-. lia.
  - injection Hx as <-. apply nth_error_In in Hy. rewrite Forall_forall in F. now apply F.
  - eapply IH; [exact H'| |exact Hx|exact Hy]. lia.
Qed.
(** unique labels of a sorted index are strictly increasing and are exactly the labels *)
Lemma uniq_from_In seen l x : In x (uniq_from seen l) <-> In x l /\ ~ In x seen.
Proof.
  revert seen. induction l as [|y l IH]; intro seen; cbn; [tauto|].
  destruct (existsb (Z.eqb y) seen) eqn:E.
  - rewrite IH. apply existsb_exists in E. destruct E as [z [Hz E]]. apply Z.eqb_eq in E. subst z. split; [tauto|]. intros [[->|H] Hn]; tauto.
  - cbn. rewrite IH. cbn. assert (Hn : ~ In y seen). { intro H. rewrite (proj2 (existsb_exists _ _)) in E; [discriminate|]. exists y. split; [exact H|apply Z.eqb_refl]. }
    destruct (Z.eq_dec y x); [subst; tauto|]. intuition congruence.
Qed.
Lemma uniq_from_ss seen l : Forall (fun x => Forall (fun y => (y <= x)%Z) seen) l -> (forall p q x y, p <= q -> nth_error l p = Some x -> nth_error l q = Some y -> (x <= y)%Z) ->
  StronglySorted Z.lt (uniq_from seen l).
Proof.
  revert seen. induction l as [|y l IH]; intros seen Hs H; cbn; [constructor|]. inversion Hs; subst.
  assert (H' : forall p q x z, p <= q -> nth_error l p = Some x -> nth_error l q = Some z -> (x <= z)%Z) by (intros p q x z Hpq Hx Hz; apply (H (S p) (S q)); auto; lia).
  assert (Hy : forall z, In z l -> (y <= z)%Z). { intros z Hz. apply In_nth_error in Hz. destruct Hz as [q Hq]. apply (H 0 (S q)); [lia|reflexivity|exact Hq]. }
  destruct (existsb (Z.eqb y) seen); [now apply IH|]. constructor.
  - apply IH; [|exact H']. rewrite Forall_forall in *. intros x Hx. constructor; [now apply Hy|now apply H3].
  - apply Forall_forall. intros z Hz. apply uniq_from_In in Hz. destruct Hz as [Hz Hn]. specialize (Hy z Hz). assert (z <> y) by (intro; subst; apply Hn; now left). lia.
Qed.
Lemma labels_sorted (c : cov) : lexsorted (ccoords c) = true -> StronglySorted Z.lt (labels c).
Proof.
  intro H. unfold labels. apply uniq_from_ss.
  - apply Forall_forall. intros. constructor.
  - intros p q x y Hpq Hx Hy. rewrite nth_error_map in Hx, Hy.
    destruct (nth_error (ccoords c) p) as [a|] eqn:Ea; [|discriminate]. destruct (nth_error (ccoords c) q) as [b|] eqn:Eb; [|discriminate].
    injection Hx as <-. injection Hy as <-. eapply lexsorted_nth; eauto.
Qed.
Lemma labels_In (c : cov) x : In x (labels c) <-> In x (map fst (ccoords c)).
Proof. unfold labels. rewrite uniq_from_In. cbn. tauto. Qed.

Lemma block_locs_concat coords : lexsorted coords = true -> forall ls lo hi, StronglySorted Z.lt ls ->
  concat (block_locs coords ls lo hi) = positions coords (kept ls lo hi).
Proof.
  intros Hl ls lo hi Hs. apply ss_ext.
  - revert lo hi. induction Hs as [|l ls Hs IH Hx]; intros [|a lo] [|b hi]; cbn; try constructor. apply ss_app.
    + apply ss_filter_seq.
    + apply IH.
    + intros p q Hp Hq. unfold locs in Hp. apply filter_In in Hp. destruct Hp as [_ Hp]. destruct (nth_error coords p) as [[l1 k1]|] eqn:Ep; [|discriminate].
      assert (Hq' : exists l2 k2, nth_error coords q = Some (l2, k2) /\ In l2 ls).
      { clear -Hq. revert lo hi Hq. induction ls as [|l' ls IH]; intros [|a' lo] [|b' hi] Hq; cbn in Hq; try tauto. apply in_app_iff in Hq. destruct Hq as [Hq|Hq].
        - unfold locs in Hq. apply filter_In in Hq. destruct Hq as [_ Hq]. destruct (nth_error coords q) as [[l2 k2]|]; [|discriminate]. exists l2, k2. split; [reflexivity|].
          rewrite !andb_true_iff, Z.eqb_eq in Hq. left. symmetry. tauto.
        - destruct (IH lo hi Hq) as [l2 [k2 [E H]]]. exists l2, k2. split; [exact E|now right]. }
      destruct Hq' as [l2 [k2 [Eq Hin]]]. rewrite !andb_true_iff, Z.eqb_eq in Hp. destruct Hp as [[-> _] _]. rewrite Forall_forall in Hx. apply Hx in Hin.
      destruct (Nat.lt_ge_cases p q) as [|Hge]; [assumption|]. pose proof (lexsorted_nth _ Hl Hge Eq Ep). cbn in H. lia.
  - apply ss_filter_seq.
  - intro p. unfold positions. rewrite filter_In, in_seq. unfold keepp.
    revert lo hi. induction Hs as [|l ls Hs IH Hx]; intros [|a lo] [|b hi]; cbn [block_locs concat kept In]; try (destruct (nth_error coords p); intuition discriminate).
    rewrite in_app_iff, IH. unfold locs. rewrite filter_In, in_seq. destruct (nth_error coords p) as [[l1 k1]|] eqn:Ep; [|intuition discriminate]. cbn [fst snd].
    destruct (Z.eqb_spec l1 l) as [->|Hne]; cbn [andb].
    + assert (Hk : kept ls lo hi (l, k1) = false).
      { clear -Hx. revert lo hi. induction ls as [|l' ls IH]; intros [|a lo] [|b hi]; cbn; auto. inversion Hx; subst. rewrite (proj2 (Z.eqb_neq l l')) by lia. now apply IH. }
      rewrite Hk. intuition discriminate.
    + intuition discriminate.
Qed.
Lemma positions_map coords g : map (fun p => nth p coords (0%Z, 0%Z)) (positions coords g) = filter g coords.
Proof.
  unfold positions.
  assert (G : forall pre l, map (fun p => nth p (pre ++ l) (0%Z, 0%Z)) (filter (keepp (pre ++ l) g) (seq (length pre) (length l))) = filter g l).
  { intros pre l. revert pre. induction l as [|x l IH]; intro pre; cbn; [reflexivity|].
    assert (E : nth_error (pre ++ x :: l) (length pre) = Some x) by (rewrite nth_error_app2, Nat.sub_diag by lia; reflexivity).
    specialize (IH (pre ++ [x])). rewrite <- app_assoc, app_length in IH. cbn in IH. rewrite Nat.add_1_r in IH.
    unfold keepp at 1. rewrite E. destruct (g x); cbn; rewrite IH; [|reflexivity]. f_equal. apply nth_error_nth with (d := (0%Z, 0%Z)) in E. exact E. }
  exact (G [] coords).
Qed.
(** main theorem on trim_k *)
Lemma trim_k_spec (c c' : cov) lo hi : length (ccoords c) = cN c -> trim_k junk one c lo hi = Some c' ->
  exists idx, idx = positions (ccoords c) (kept (labels c) lo hi) /\ c' = take junk one c idx /\
    cN c' = length idx /\ wf c' /\ ccoords c' = filter (kept (labels c) lo hi) (ccoords c) /\ length (ccoords c') = cN c' /\
    (wf c -> forall i j, i < cN c' -> j < cN c' -> values junk c' i j = values junk c (nth i idx 0) (nth j idx 0)).
Proof.
  intros Hc H. unfold trim_k in H. destruct (lexsorted (ccoords c)) eqn:Hl; [|discriminate].
  destruct (Nat.eqb (length lo) (length (labels c)) && Nat.eqb (length hi) (length (labels c))) eqn:E; cbn in H.
  2:{ rewrite E in H. discriminate. }
  rewrite E in H. destruct (forallb _ _) eqn:F; [|discriminate]. injection H as <-.
  rewrite block_locs_concat by (auto using labels_sorted). eexists. split; [reflexivity|]. split; [reflexivity|]. set (idx := positions _ _).
  split; [reflexivity|]. split; [apply construct_wf|]. split; [cbn; apply positions_map|]. split; [cbn; now rewrite map_length|].
  intros Hw i j Hi Hj. cbn in Hi, Hj. unfold take. rewrite values_construct by assumption.
  assert (R : forall n, n < length idx -> nth n idx 0 < cN c).
  { intros n Hn. rewrite <- Hc. assert (Hin := nth_In idx 0 Hn). generalize dependent (nth n idx 0). intros q Hin. unfold idx, positions in Hin. apply filter_In in Hin. destruct Hin as [Hin _]. apply in_seq in Hin. lia. }
  destruct (Nat.le_ge_cases i j).
  - rewrite Nat.min_l, Nat.max_r by assumption. reflexivity.
  - rewrite Nat.min_r, Nat.max_l by assumption. apply values_sym; auto.
Qed.
End Data.
