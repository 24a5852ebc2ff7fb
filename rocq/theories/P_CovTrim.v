(** * Trimming twice is trimming to the intersection *)
From Coq Require Import List Arith Bool ZArith Lia Sorting.Sorted.
From Verif Require Import M_Cov P_Cov.
Import ListNotations.
Set Implicit Arguments.
Local Open Scope nat_scope.

(** tighter of two bounds *)
Definition max_lo (a b : option Z) : option Z := match a, b with None, x => x | x, None => x | Some x, Some y => Some (Z.max x y) end.
Definition min_hi (a b : option Z) : option Z := match a, b with None, x => x | x, None => x | Some x, Some y => Some (Z.min x y) end.
Fixpoint zip2 (A B C : Type) (g : A -> B -> C) (l : list A) (m : list B) : list C :=
  match l, m with x :: l', y :: m' => g x y :: zip2 g l' m' | _, _ => [] end.
Lemma zip2_length (A B C : Type) (g : A -> B -> C) l : forall m, length l = length m -> length (zip2 g l m) = length l.
Proof. induction l as [|x l IH]; intros [|y m] H; cbn in *; try lia. rewrite IH; lia. Qed.
Lemma ge_lo_max a b k : ge_lo (max_lo a b) k = ge_lo a k && ge_lo b k.
Proof. destruct a, b; cbn; rewrite ?andb_true_r; try reflexivity. destruct (Z.leb_spec (Z.max z z0) k), (Z.leb_spec z k), (Z.leb_spec z0 k); cbn; try reflexivity; lia. Qed.
Lemma le_hi_min a b k : le_hi (min_hi a b) k = le_hi a k && le_hi b k.
Proof. destruct a, b; cbn; rewrite ?andb_true_r; try reflexivity. destruct (Z.leb_spec k (Z.min z z0)), (Z.leb_spec k z), (Z.leb_spec k z0); cbn; try reflexivity; lia. Qed.
Lemma kept_inter ls : forall lo1 hi1 lo2 hi2 x, length lo1 = length ls -> length hi1 = length ls -> length lo2 = length ls -> length hi2 = length ls ->
  kept ls (zip2 max_lo lo1 lo2) (zip2 min_hi hi1 hi2) x = kept ls lo1 hi1 x && kept ls lo2 hi2 x.
Proof.
  induction ls as [|l ls IH]; intros [|a lo1] [|b hi1] [|a2 lo2] [|b2 hi2] x H1 H2 H3 H4; cbn in *; try lia.
  destruct (fst x =? l)%Z; [|apply IH; lia]. rewrite ge_lo_max, le_hi_min. destruct (ge_lo a (snd x)), (ge_lo a2 (snd x)), (le_hi b (snd x)), (le_hi b2 (snd x)); reflexivity.
Qed.

Fixpoint posrec (off : nat) (coords : list (Z * Z)) (g : Z * Z -> bool) : list nat :=
  match coords with [] => [] | x :: l => if g x then off :: posrec (S off) l g else posrec (S off) l g end.
Lemma positions_posrec coords g : positions coords g = posrec 0 coords g.
Proof.
  unfold positions.
  assert (G : forall l pre, filter (keepp (pre ++ l) g) (seq (length pre) (length l)) = posrec (length pre) l g).
  { induction l as [|x l IH]; intro pre; cbn; [reflexivity|].
    assert (E : nth_error (pre ++ x :: l) (length pre) = Some x) by (rewrite nth_error_app2, Nat.sub_diag by lia; reflexivity).
    unfold keepp at 1. rewrite E. specialize (IH (pre ++ [x])). rewrite <- app_assoc, app_length in IH. cbn in IH. rewrite Nat.add_1_r in IH.
    rewrite IH. reflexivity. }
  exact (G coords []).
Qed.
Lemma posrec_shift coords g : forall off, posrec (S off) coords g = map S (posrec off coords g).
Proof. induction coords as [|x l IH]; intro off; cbn; [reflexivity|]. destruct (g x); cbn; now rewrite IH. Qed.
Lemma posrec_comp g1 g2 coords : forall off,
  map (fun p => nth p (posrec off coords g1) 0) (posrec 0 (filter g1 coords) g2) = posrec off coords (fun x => g1 x && g2 x).
Proof.
  induction coords as [|x l IH]; intro off; cbn; [reflexivity|]. destruct (g1 x) eqn:E1; cbn; [|apply IH].
  assert (R : map (fun p => nth p (off :: posrec (S off) l g1) 0) (posrec 1 (filter g1 l) g2) = posrec (S off) l (fun x0 => g1 x0 && g2 x0)).
  { rewrite (posrec_shift (filter g1 l) g2 0), map_map. cbn. apply IH. }
  destruct (g2 x); [|exact R]. cbn [map nth]. f_equal. exact R.
Qed.
Lemma posrec_lt coords g : forall off p, In p (posrec off coords g) -> p < off + length coords.
Proof. induction coords as [|x l IH]; intros off p H; cbn in *; [tauto|]. destruct (g x); [destruct H as [->|H]; [lia|]|]; apply IH in H; lia. Qed.
Lemma posrec_length coords g : forall off, length (posrec off coords g) = length (filter g coords).
Proof. induction coords as [|x l IH]; intro off; cbn; [reflexivity|]. destruct (g x); cbn; now rewrite IH. Qed.
Lemma posrec_ext coords g h : (forall x, In x coords -> g x = h x) -> forall off, posrec off coords g = posrec off coords h.
Proof. induction coords as [|x l IH]; intros H off; cbn; [reflexivity|]. rewrite (H x) by now left. destruct (h x); rewrite IH; auto; intros; apply H; now right. Qed.
Lemma filter_filter (A : Type) (g h : A -> bool) l : filter h (filter g l) = filter (fun x => g x && h x) l.
Proof. induction l as [|x l IH]; cbn; [reflexivity|]. destruct (g x); cbn; [|exact IH]. destruct (h x); now rewrite IH. Qed.

(** ** labels *)
Lemma zss_ext (a b : list Z) : StronglySorted Z.lt a -> StronglySorted Z.lt b -> (forall x, In x a <-> In x b) -> a = b.
Proof.
  intros Ha. revert b. induction Ha as [|x a Ha IH Hx]; intros b Hb H.
  - destruct b as [|y b]; [reflexivity|]. exfalso. apply (H y). now left.
  - destruct Hb as [|y b Hb Hy]; [exfalso; apply (H x); now left|].
    rewrite Forall_forall in Hx, Hy.
    assert (x = y).
    { destruct (proj1 (H x) (or_introl eq_refl)) as [|Hin]; [congruence|]. destruct (proj2 (H y) (or_introl eq_refl)) as [|Hin']; [congruence|].
      apply Hy in Hin. apply Hx in Hin'. lia. }
    subst y. f_equal. apply IH; [exact Hb|]. intro z. split; intro Hz.
    + destruct (proj1 (H z) (or_intror Hz)) as [->|]; [|assumption]. apply Hx in Hz. lia.
    + destruct (proj2 (H z) (or_intror Hz)) as [->|]; [|assumption]. apply Hy in Hz. lia.
Qed.
Lemma lex_le_trans a b c : lex_le a b = true -> lex_le b c = true -> lex_le a c = true.
Proof. unfold lex_le. rewrite !orb_true_iff, !andb_true_iff, !Z.ltb_lt, !Z.eqb_eq, !Z.leb_le. lia. Qed.
Lemma lexsorted_all x l : lexsorted (x :: l) = true -> Forall (fun y => lex_le x y = true) l.
Proof.
  revert x. induction l as [|y l IH]; intros x H; [constructor|]. cbn [lexsorted] in H. fold (lexsorted (y :: l)) in H. apply andb_true_iff in H. destruct H as [H1 H2].
  constructor; [exact H1|]. eapply Forall_impl; [|exact (IH y H2)]. cbn. intros z Hz. eapply lex_le_trans; eauto.
Qed.
Lemma lexsorted_cons x l : lexsorted l = true -> Forall (fun y => lex_le x y = true) l -> lexsorted (x :: l) = true.
Proof. intros H F. destruct l as [|y l]; [reflexivity|]. cbn [lexsorted]. fold (lexsorted (y :: l)). inversion F; subst. rewrite H2. exact H. Qed.
Lemma lexsorted_filter g l : lexsorted l = true -> lexsorted (filter g l) = true.
Proof.
  induction l as [|x l IH]; intro H; cbn [filter]; [reflexivity|]. assert (F := @lexsorted_all x l H). destruct (@lexsorted_head x l H) as [H' _].
  destruct (g x); [|auto]. apply lexsorted_cons; [auto|]. apply Forall_forall. intros y Hy. apply filter_In in Hy. rewrite Forall_forall in F. now apply F.
Qed.

Lemma nth_map_lt (A B : Type) (g : A -> B) l : forall n d d', n < length l -> nth n (map g l) d = g (nth n l d').
Proof. induction l as [|x l IH]; intros [|n] d d' H; cbn in *; try lia; [reflexivity|]. apply IH. lia. Qed.
Section Data.
Variable X : Type.
Variable junk : nat -> nat -> X.
Variable one : X.
Notation cov := (cov X).

Definition nonempty_blocks (c : cov) (g : Z * Z -> bool) : Prop := forall l, In l (labels c) -> exists x, In x (ccoords c) /\ fst x = l /\ g x = true.


Lemma block_nonempty coords ls : StronglySorted Z.lt ls -> forall lo hi, length lo = length ls -> length hi = length ls ->
  (forallb (fun b : list nat => negb (match b with [] => true | _ => false end)) (block_locs coords ls lo hi) = true <->
   forall l, In l ls -> exists x, In x coords /\ fst x = l /\ kept ls lo hi x = true).
Proof.
  intro Hs. induction Hs as [|l ls Hs IH Hx]; intros [|a lo] [|b hi] Hlo Hhi; cbn in Hlo, Hhi; try lia; [cbn; tauto|].
  cbn [block_locs forallb]. rewrite andb_true_iff, IH by lia.
  assert (A : negb (match locs coords l a b with [] => true | _ => false end) = true <-> exists x, In x coords /\ fst x = l /\ ge_lo a (snd x) && le_hi b (snd x) = true).
  { split.
    - destruct (locs coords l a b) as [|p r] eqn:E; [discriminate|]. intros _. assert (Hin : In p (locs coords l a b)) by (rewrite E; now left).
      unfold locs in Hin. apply filter_In in Hin. destruct Hin as [_ Hin]. destruct (nth_error coords p) as [[l1 k1]|] eqn:Ep; [|discriminate].
      rewrite <- andb_assoc in Hin. apply andb_true_iff in Hin. destruct Hin as [El Hk]. apply Z.eqb_eq in El. exists (l1, k1). split; [eapply nth_error_In; exact Ep|]. auto.
    - intros [[l1 k1] [Hin [El Hk]]]. apply In_nth_error in Hin. destruct Hin as [p Ep]. cbn in El, Hk. subst l1.
      assert (Hp : In p (locs coords l a b)).
      { unfold locs. apply filter_In. split; [apply in_seq; split; [lia|]; cbn; apply nth_error_Some; congruence|]. rewrite Ep, Z.eqb_refl. exact Hk. }
      destruct (locs coords l a b); [destruct Hp|reflexivity]. }
  rewrite A. rewrite Forall_forall in Hx. cbn [kept]. split.
  - intros [[x [H1 [H2 H3]]] H] l' [<-|Hl'].
    + exists x. rewrite H2, Z.eqb_refl. auto.
    + destruct (H l' Hl') as [y [Hy1 [Hy2 Hy3]]]. exists y. split; [exact Hy1|]. split; [exact Hy2|]. rewrite (proj2 (Z.eqb_neq (fst y) l)); [exact Hy3|]. specialize (Hx l' Hl'). lia.
  - intro H. split.
    + destruct (H l (or_introl eq_refl)) as [x [H1 [H2 H3]]]. rewrite H2, Z.eqb_refl in H3. exists x. auto.
    + intros l' Hl'. destruct (H l' (or_intror Hl')) as [y [Hy1 [Hy2 Hy3]]]. rewrite (proj2 (Z.eqb_neq (fst y) l)) in Hy3 by (specialize (Hx l' Hl'); lia). eauto.
Qed.

(** exact success condition and result of trim_k *)
Lemma trim_k_iff (c c' : cov) lo hi : trim_k junk one c lo hi = Some c' <->
  lexsorted (ccoords c) = true /\ length lo = length (labels c) /\ length hi = length (labels c) /\
  nonempty_blocks c (kept (labels c) lo hi) /\ c' = take junk one c (posrec 0 (ccoords c) (kept (labels c) lo hi)).
Proof.
  unfold trim_k. destruct (lexsorted (ccoords c)) eqn:Hl; cbn [andb]; [|intuition discriminate].
  destruct (Nat.eqb_spec (length lo) (length (labels c))) as [Hlo|Hlo]; cbn [andb]; [|intuition discriminate].
  destruct (Nat.eqb_spec (length hi) (length (labels c))) as [Hhi|Hhi]; cbn [andb]; [|intuition discriminate].
  assert (Hs := labels_sorted c Hl). assert (B := @block_nonempty (ccoords c) (labels c) Hs lo hi Hlo Hhi).
  rewrite (@block_locs_concat X) by assumption. rewrite positions_posrec.
  destruct (forallb _ _).
  - split; [intro H; injection H as <-; repeat split; auto; intros l0 Hl0; now apply (proj1 B eq_refl)|]. intros [_ [_ [_ [_ ->]]]]. reflexivity.
  - split; [discriminate|]. intros [_ [_ [_ [H _]]]]. assert (F := proj2 B H). discriminate.
Qed.
Lemma take_labels (c : cov) g : lexsorted (ccoords c) = true -> nonempty_blocks c g -> labels (take junk one c (posrec 0 (ccoords c) g)) = labels c.
Proof.
  intros Hl Hn.
  assert (Ec : ccoords (take junk one c (posrec 0 (ccoords c) g)) = filter g (ccoords c)) by (cbn; rewrite <- positions_posrec; apply positions_map).
  apply zss_ext.
  - apply labels_sorted. rewrite Ec. now apply lexsorted_filter.
  - now apply labels_sorted.
  - intro l. rewrite labels_In, Ec. split; intro H.
    + apply labels_In. apply in_map_iff in H. destruct H as [x [<- Hx]]. apply filter_In in Hx. apply in_map. tauto.
    + destruct (Hn l H) as [x [H1 [H2 H3]]]. apply in_map_iff. exists x. split; [exact H2|]. now apply filter_In.
Qed.
(** taking rows twice *)
Lemma take_take (c : cov) g h : wf c -> length (ccoords c) = cN c ->
  take junk one (take junk one c (posrec 0 (ccoords c) g)) (posrec 0 (filter g (ccoords c)) h) = take junk one c (posrec 0 (ccoords c) (fun x => g x && h x)).
Proof.
  intros Hw Hc. set (i1 := posrec 0 (ccoords c) g). set (i2 := posrec 0 (filter g (ccoords c)) h). set (c1 := take junk one c i1).
  assert (L2 : length i2 = length (posrec 0 (ccoords c) (fun x => g x && h x))) by (unfold i2; rewrite !posrec_length, filter_filter; reflexivity).
  assert (C : map (fun p => nth p i1 0) i2 = posrec 0 (ccoords c) (fun x => g x && h x)) by apply posrec_comp.
  assert (R1 : forall n, n < length i1 -> nth n i1 0 < cN c).
  { intros n Hn. rewrite <- Hc. change (length (ccoords c)) with (0 + length (ccoords c)). eapply posrec_lt. apply nth_In. exact Hn. }
  assert (R2 : forall n, n < length i2 -> nth n i2 0 < length i1).
  { intros n Hn. unfold i1. rewrite posrec_length. change (length (filter g (ccoords c))) with (0 + length (filter g (ccoords c))). eapply posrec_lt. apply nth_In. exact Hn. }
  assert (N2 : forall n, n < length i2 -> nth (nth n i2 0) i1 0 = nth n (posrec 0 (ccoords c) (fun x => g x && h x)) 0).
  { intros n Hn. rewrite <- C. now rewrite (nth_map_lt (fun p => nth p i1 0) i2 0 0 Hn). }
  unfold take. unfold construct. rewrite L2. f_equal.
  - apply map_ext_in. intros [i j] Hij. apply triu_In in Hij. cbn [fst snd]. rewrite <- !N2 by lia. unfold c1, take.
    assert (i < length i2) by lia. assert (j < length i2) by lia. assert (Hi := R2 i ltac:(lia)). assert (Hj := R2 j ltac:(lia)).
    rewrite values_construct by assumption.
    destruct (Nat.le_ge_cases (nth i i2 0) (nth j i2 0)).
    + rewrite Nat.min_l, Nat.max_r by assumption. reflexivity.
    + rewrite Nat.min_r, Nat.max_l by assumption. apply values_sym; auto.
  - rewrite <- C, map_map. apply map_ext_in. intros p Hp. unfold c1, take, construct. cbn [ccoords].
    assert (Hp' : p < length i1). { unfold i1. rewrite posrec_length. change (length (filter g (ccoords c))) with (0 + length (filter g (ccoords c))). eapply posrec_lt. exact Hp. }
    now rewrite (nth_map_lt (fun p => nth p (ccoords c) (0%Z, 0%Z)) i1 (0%Z, 0%Z) 0 Hp').
Qed.
Lemma take_ext (c : cov) g h : (forall x, In x (ccoords c) -> g x = h x) -> take junk one c (posrec 0 (ccoords c) g) = take junk one c (posrec 0 (ccoords c) h).
Proof. intro H. now rewrite (posrec_ext (ccoords c) _ _ H). Qed.

Theorem trim_trim (c c1 : cov) lo1 hi1 lo2 hi2 : wf c -> length (ccoords c) = cN c ->
  trim_k junk one c lo1 hi1 = Some c1 ->
  length lo2 = length lo1 -> length hi2 = length hi1 ->
  trim_k junk one c1 lo2 hi2 = trim_k junk one c (zip2 max_lo lo1 lo2) (zip2 min_hi hi1 hi2).
Proof.
  intros Hw Hc H L1 L2. apply trim_k_iff in H. destruct H as [Hl [Hlo [Hhi [Hn ->]]]].
  set (g1 := kept (labels c) lo1 hi1) in *. set (c1 := take junk one c (posrec 0 (ccoords c) g1)).
  assert (EL : labels c1 = labels c) by (apply take_labels; assumption).
  assert (Ec : ccoords c1 = filter g1 (ccoords c)) by (cbn; rewrite <- positions_posrec; apply positions_map).
  assert (KI : forall x, kept (labels c) (zip2 max_lo lo1 lo2) (zip2 min_hi hi1 hi2) x = g1 x && kept (labels c) lo2 hi2 x) by (intro x; apply kept_inter; lia).
  assert (NB : nonempty_blocks c1 (kept (labels c) lo2 hi2) <-> nonempty_blocks c (kept (labels c) (zip2 max_lo lo1 lo2) (zip2 min_hi hi1 hi2))).
  { unfold nonempty_blocks. rewrite EL, Ec. split; intros HH l Hin; destruct (HH l Hin) as [x [H1 [H2 H3]]]; exists x.
    - apply filter_In in H1. rewrite KI. destruct H1 as [H1 ->]. rewrite H3. auto.
    - rewrite KI in H3. apply andb_true_iff in H3. rewrite filter_In. tauto. }
  assert (SOME : forall c', trim_k junk one c1 lo2 hi2 = Some c' <-> trim_k junk one c (zip2 max_lo lo1 lo2) (zip2 min_hi hi1 hi2) = Some c').
  { intro c'. rewrite !trim_k_iff, EL, NB, Ec. rewrite !zip2_length by lia.
    assert (T : take junk one c1 (posrec 0 (filter g1 (ccoords c)) (kept (labels c) lo2 hi2)) = take junk one c (posrec 0 (ccoords c) (kept (labels c) (zip2 max_lo lo1 lo2) (zip2 min_hi hi1 hi2)))).
    { unfold c1. rewrite take_take by assumption. apply take_ext. intros x _. now rewrite KI. }
    rewrite T. pose proof (lexsorted_filter g1 _ Hl). intuition congruence. }
  destruct (trim_k junk one c1 lo2 hi2) as [a|] eqn:Ea.
  - symmetry. now apply SOME.
  - destruct (trim_k junk one c _ _) as [b|] eqn:Eb; [|reflexivity]. assert (Some b = Some b) by reflexivity. apply SOME in H. discriminate.
Qed.
End Data.
