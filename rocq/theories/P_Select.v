From Coq Require Import List Arith ZArith QArith Qabs Bool Lia Lqa Sorted.
From Verif Require Import M_Select S_Select.
Import ListNotations.
Local Open Scope Z_scope.

Lemma memz_iff x l : memz x l = true <-> In x l.
Proof. unfold memz. rewrite existsb_exists. split; [intros (y & A & B); apply Z.eqb_eq in B; now subst|intro H; exists x; split; [exact H|apply Z.eqb_refl]]. Qed.
Lemma insert_set_in x y l : In y (insert_set x l) <-> y = x \/ In y l.
Proof.
  induction l as [|z l IH]; cbn [insert_set]; [cbn; intuition|]. destruct (x <? z); [cbn; intuition|].
  destruct (Z.eqb_spec x z) as [->|N]; [cbn; intuition|]. cbn. rewrite IH. intuition.
Qed.
Lemma insert_set_sorted x l : StronglySorted Z.lt l -> StronglySorted Z.lt (insert_set x l).
Proof.
  induction 1 as [|z l S IH F]; cbn [insert_set]; [repeat constructor|]. destruct (Z.ltb_spec x z).
  - constructor; [now constructor|]. constructor; [exact H|]. eapply Forall_impl; [|exact F]. cbn; intros; lia.
  - destruct (Z.eqb_spec x z); [now constructor|]. constructor; [exact IH|]. rewrite Forall_forall in *. intros y Y. apply insert_set_in in Y. destruct Y as [->|Y]; [lia|auto].
Qed.
Lemma sorted_set_in y l : In y (sorted_set l) <-> In y l.
Proof. induction l as [|x l IH]; cbn; [tauto|]. rewrite insert_set_in, IH. intuition. Qed.
Lemma sorted_set_sorted l : StronglySorted Z.lt (sorted_set l).
Proof. induction l; cbn; [constructor|now apply insert_set_sorted]. Qed.
Lemma range_in len : forall a p, In p (range a len) <-> a <= p < a + Z.of_nat len.
Proof. induction len as [|k IH]; intros a p; cbn [range In]; [lia|]. rewrite IH. lia. Qed.
Lemma positions_in m : forall i p, In p (positions_of i m) <-> i <= p /\ nth_error m (Z.to_nat (p - i)) = Some true.
Proof.
  induction m as [|b m IH]; intros i p; cbn [positions_of].
  - split; [intros []|]. intros [_ H]. destruct (Z.to_nat (p - i)); discriminate.
  - assert (X : p <> i -> i <= p -> nth_error (b :: m) (Z.to_nat (p - i)) = nth_error m (Z.to_nat (p - (i + 1)))).
    { intros N L. replace (Z.to_nat (p - i)) with (S (Z.to_nat (p - (i + 1)))) by lia. reflexivity. }
    destruct b; cbn [In]; rewrite IH; clear IH.
    + split.
      * intros [<-|[A B]]; [split; [lia|now rewrite Z.sub_diag]|]. split; [lia|]. rewrite X by lia. exact B.
      * intros [A B]. destruct (Z.eq_dec p i) as [->|N]; [now left|right]. split; [lia|]. now rewrite <- X.
    + split.
      * intros [A B]. split; [lia|]. rewrite X by lia. exact B.
      * intros [A B]. destruct (Z.eq_dec p i) as [->|N]; [rewrite Z.sub_diag in B; discriminate|]. split; [lia|]. now rewrite <- X by lia.
Qed.

Section Axis.
Variable n : Z.
Hypothesis N0 : 0 <= n.
Lemma low_ok a : 0 <= clipped n 0 a.
Proof. unfold clipped. destruct a as [x|]; [destruct (Z.ltb_spec x 0)|]; lia. Qed.
Lemma high_ok b : clipped n n b <= n.
Proof. unfold clipped. destruct b as [x|]; [destruct (Z.ltb_spec x 0)|]; lia. Qed.
Lemma low_iff a p : 0 <= p < n -> (clipped n 0 a <= p <-> forall x, a = Some x -> (if x <? 0 then x + n else x) <= p).
Proof.
  intro R. unfold clipped. destruct a as [x|]; [|split; [discriminate|lia]]. split.
  - intros H q E. injection E as <-. destruct (Z.ltb_spec x 0); lia.
  - intro H. specialize (H x eq_refl). destruct (Z.ltb_spec x 0); lia.
Qed.
Lemma high_iff b p : 0 <= p < n -> (p < clipped n n b <-> forall y, b = Some y -> p < (if y <? 0 then y + n else y)).
Proof.
  intro R. unfold clipped. destruct b as [x|]; [|split; [discriminate|lia]]. split.
  - intros H q E. injection E as <-. destruct (Z.ltb_spec x 0); lia.
  - intro H. specialize (H x eq_refl). destruct (Z.ltb_spec x 0); lia.
Qed.
Lemma expand_spec c : plain n c -> exists l, expand n c = Some l /\ forall p, In p l <-> 0 <= p < n /\ holds n c p.
Proof.
  destruct c as [i|l|m|a b]; cbn [plain expand]; intro H; [destruct H| | |].
  - exists l. split; [reflexivity|]. intro p. cbn [holds]. unfold names. split.
    + intro I. split; [auto|]. exists p. auto.
    + intros (B & z & I & [->|E]); [exact I|]. specialize (H z I). lia.
  - exists (positions_of 0 m). split; [reflexivity|]. intro p. rewrite positions_in, Z.sub_0_r. cbn [holds]. split; [|tauto].
    intros [A B]. repeat split; auto. assert (Z.to_nat p < length m)%nat by (apply nth_error_Some; congruence). lia.
  - eexists. split; [reflexivity|]. intro p. rewrite range_in. cbn [holds]. split.
    + intro R. assert (R' : 0 <= p < n) by (pose proof (low_ok a); pose proof (high_ok b); lia). split; [exact R'|]. split.
      * intros x ->. apply (low_iff (Some x) p R'); [lia|reflexivity].
      * intros y ->. apply (high_iff (Some y) p R'); [lia|reflexivity].
    + intros (R & A & B). apply (low_iff a p R) in A. apply (high_iff b p R) in B. lia.
Qed.
Lemma expand_all_spec cs : (forall c, In c cs -> plain n c) -> exists ls, expand_all n cs = Some ls /\ length ls = length cs /\
  forall p, (forall l, In l ls -> In p l) <-> (forall c, In c cs -> 0 <= p < n /\ holds n c p).
Proof.
  induction cs as [|c cs IH]; intro H; cbn [expand_all].
  - exists []. repeat split; auto; intros; contradiction.
  - destruct (expand_spec c (H c (or_introl eq_refl))) as (l & -> & E). destruct IH as (ls & -> & L & E2); [intros; apply H; now right|].
    exists (l :: ls). split; [reflexivity|]. split; [cbn; lia|]. intro p. split.
    + intros A c' [<-|I]; [apply E, A; now left|]. apply E2; [|exact I]. intros l' I'. apply A. now right.
    + intros A l' [<-|I]; [apply E, A; now left|]. revert l' I. apply E2. intros c' I'. apply A. now right.
Qed.
Lemma not_scalar c cs ls : expand_all n (c :: cs) = Some ls -> axis_key n (c :: cs) =
  let valid := sorted_set (filter (fun x => forallb (memz x) ls) (hd [] ls)) in if Nat.ltb 1 (length (c :: cs)) && Nat.eqb (length valid) 0 then None else Some (Many valid).
Proof. intro E. cbv zeta. destruct c; [discriminate E| | |]; unfold axis_key; rewrite E; reflexivity. Qed.
Lemma axis_spec cs : cs <> [] -> (forall c, In c cs -> plain n c) -> exists ps, StronglySorted Z.lt ps /\ (forall p, In p ps <-> wanted n cs p) /\
  axis_key n cs = (if Nat.ltb 1 (length cs) && Nat.eqb (length ps) 0 then None else Some (Many ps)).
Proof.
  intros NE H. destruct (expand_all_spec cs H) as (ls & E & L & S). destruct cs as [|c cs]; [congruence|].
  rewrite (not_scalar c cs ls E). eexists. split; [apply sorted_set_sorted|]. split; [|cbv zeta; reflexivity].
  intro p. rewrite sorted_set_in, filter_In, forallb_forall. destruct ls as [|l ls]; [discriminate|]. cbn [hd].
  assert ((In p l /\ (forall x, In x (l :: ls) -> memz p x = true)) <-> (forall x, In x (l :: ls) -> In p x)) as ->.
  { split; [intros [_ A] x X; now apply memz_iff, A|]. intro A. split; [apply A; now left|]. intros x X. apply memz_iff. auto. }
  rewrite S. unfold wanted. split.
  - intro A. split; [apply (A c); now left|]. intros c' I. now apply A.
  - intros [A B] c' I. auto.
Qed.
End Axis.

Lemma take_rows {A} (data : list A) ps : (forall p, In p ps -> 0 <= p < Z.of_nat (length data)) -> exists rs, all_some (map (at_ data) ps) = Some rs /\ rows_at data ps rs.
Proof.
  induction ps as [|p ps IH]; intro H; cbn [map all_some]; [exists []; split; [reflexivity|constructor]|].
  destruct IH as (rs & E & R); [intros; apply H; now right|]. pose proof (H p (or_introl eq_refl)) as B.
  destruct (nth_error data (Z.to_nat p)) as [r|] eqn:D; [|apply nth_error_None in D; lia].
  assert (at_ data p = Some r) as ->. { unfold at_. rewrite (proj2 (Z.leb_le 0 p)), (proj2 (Z.ltb_lt p _)) by lia. exact D. }
  rewrite E. exists (r :: rs). split; [reflexivity|]. constructor; auto. lia.
Qed.
Lemma select_spec {A} (data : list A) cs : cs <> [] -> (forall c, In c cs -> plain (Z.of_nat (length data)) c) ->
  exists ps, StronglySorted Z.lt ps /\ (forall p, In p ps <-> wanted (Z.of_nat (length data)) cs p) /\
  ((length cs = 1%nat \/ ps <> []) -> exists rs, select data cs = Some rs /\ rows_at data ps rs) /\
  ((1 < length cs)%nat -> ps = [] -> select data cs = None).
Proof.
  intros NE H. destruct (axis_spec (Z.of_nat (length data)) ltac:(lia) cs NE H) as (ps & S & W & K). exists ps. split; [exact S|]. split; [exact W|].
  destruct (take_rows data ps) as (rs & T & R). { intros p I. apply W in I. exact (proj1 I). }
  unfold select. rewrite K. split.
  - intro C. assert (Nat.ltb 1 (length cs) && Nat.eqb (length ps) 0 = false)%bool as ->; [|exists rs; auto].
    destruct C as [C|C]; [rewrite C; reflexivity|]. destruct ps; [congruence|]. cbn. apply andb_false_r.
  - intros C ->. rewrite (proj2 (Nat.ltb_lt 1 (length cs)) C). reflexivity.
Qed.

(** Nearest coordinates. *)
Local Open Scope Q_scope.
Lemma strictly_tail x l : strictly_rising (x :: l) -> strictly_rising l.
Proof. destruct l; cbn; [auto|tauto]. Qed.
Lemma strictly_above l : forall x, strictly_rising (x :: l) -> forall y, In y l -> x < y.
Proof.
  induction l as [|z l IH]; intros x H y Y; [destruct Y|]. destruct H as [H1 H2]. destruct Y as [<-|Y]; [exact H1|].
  eapply Qlt_trans; [exact H1|]. now apply IH.
Qed.
Lemma abs_pos x : 0 <= x -> Qabs x == x. Proof. apply Qabs_pos. Qed.
Lemma abs_neg x : x <= 0 -> Qabs x == - x. Proof. apply Qabs_neg. Qed.
Lemma nearest_spec l v : l <> [] -> strictly_rising l -> (nearest_in l v < length l)%nat /\ forall x, In x l -> Qabs (v - nth (nearest_in l v) l 0) <= Qabs (v - x).
Proof.
  induction l as [|x l IH]; intros NE R; [congruence|]. destruct l as [|y t].
  { split; [cbn; lia|]. intros z [<-|[]]. cbn. apply Qle_refl. }
  pose proof (strictly_above _ _ R) as AB. pose proof (strictly_tail _ _ R) as RT. destruct R as [XY _].
  pose proof (strictly_above _ _ RT) as AB2.
  change (nearest_in (x :: y :: t) v) with (if Qle_bool y v then S (nearest_in (y :: t) v) else if Qle_bool v x then O else if Qle_bool (y - v) (v - x) then 1%nat else O).
  destruct (Qle_bool y v) eqn:E1.
  - apply Qle_bool_iff in E1. destruct (IH ltac:(discriminate) RT) as [L M]. split; [cbn [length] in *; lia|].
    change (nth (S (nearest_in (y :: t) v)) (x :: y :: t) 0) with (nth (nearest_in (y :: t) v) (y :: t) 0).
    intros z [<-|Z]; [|now apply M]. eapply Qle_trans; [apply (M y); now left|].
    rewrite !abs_pos by lra. lra.
  - assert (v < y) as VY by (apply Qnot_le_lt; intro K; apply Qle_bool_iff in K; congruence).
    assert (UP : forall z, In z (y :: t) -> y <= z) by (intros z [<-|Z]; [apply Qle_refl|apply Qlt_le_weak, AB2, Z]).
    destruct (Qle_bool v x) eqn:E2.
    + apply Qle_bool_iff in E2. split; [cbn; lia|]. intros z [<-|Z]; cbn [nth]; [apply Qle_refl|]. specialize (UP z Z). rewrite !abs_neg by lra. lra.
    + assert (x < v) as XV by (apply Qnot_le_lt; intro K; apply Qle_bool_iff in K; congruence).
      destruct (Qle_bool (y - v) (v - x)) eqn:E3.
      * apply Qle_bool_iff in E3. split; [cbn; lia|]. cbn [nth]. intros z [<-|Z]; [rewrite abs_neg, abs_pos by lra; lra|]. specialize (UP z Z). rewrite !abs_neg by lra. lra.
      * assert (v - x < y - v) as D by (apply Qnot_le_lt; intro K; apply Qle_bool_iff in K; congruence).
        split; [cbn; lia|]. cbn [nth]. intros z [<-|Z]; [apply Qle_refl|]. specialize (UP z Z). rewrite abs_pos, abs_neg by lra. lra.
Qed.
Lemma memq_iff x l : memq x l = true <-> exists y, In y l /\ x == y.
Proof. unfold memq. rewrite existsb_exists. split; intros (y & A & B); exists y; (split; [exact A|]); now apply Qeq_bool_iff. Qed.
(** unique keeps one coordinate of each value, in the order of the first appearance *)
Lemma unique_in x : forall l seen, In x (unique seen l) -> In x l.
Proof. induction l as [|y l IH]; intros seen H; cbn [unique] in H; [exact H|]. destruct (memq y seen); [right; eauto|]. destruct H as [<-|H]; [now left|right; eauto]. Qed.
Lemma unique_all x : forall l seen, In x l -> (exists y, In y seen /\ x == y) \/ exists y, In y (unique seen l) /\ x == y.
Proof.
  induction l as [|z l IH]; intros seen H; [destruct H|]. cbn [unique]. destruct H as [->|H].
  - destruct (memq x seen) eqn:M; [left; now apply memq_iff|]. right. exists x. split; [now left|reflexivity].
  - destruct (memq z seen) eqn:M; [now apply IH|]. destruct (IH (z :: seen) H) as [(y & [<-|Y] & E)|(y & Y & E)].
    + right. exists z. split; [now left|exact E]. + left. eauto. + right. exists y. split; [now right|exact E].
Qed.
Lemma rising_tail x l : rising (x :: l) -> rising l.
Proof. destruct l; cbn; [auto|tauto]. Qed.
Lemma rising_above l : forall x, rising (x :: l) -> forall y, In y l -> x <= y.
Proof.
  induction l as [|z l IH]; intros x H y Y; [destruct Y|]. destruct H as [H1 H2]. destruct Y as [<-|Y]; [exact H1|].
  eapply Qle_trans; [exact H1|]. now apply IH.
Qed.
Lemma strictly_cons x l : strictly_rising l -> (forall y, In y l -> x < y) -> strictly_rising (x :: l).
Proof. destruct l as [|y l]; cbn; auto. Qed.
Lemma unique_rising : forall l seen, rising l -> (forall s x, In s seen -> In x l -> s <= x) -> strictly_rising (unique seen l).
Proof.
  induction l as [|x l IH]; intros seen R B; cbn [unique]; [cbn; auto|]. pose proof (rising_tail _ _ R) as RT. pose proof (rising_above _ _ R) as AB.
  destruct (memq x seen) eqn:M; [apply IH; auto; intros; apply B; auto; now right|].
  apply strictly_cons.
  - apply IH; auto. intros s y [<-|S] Y; [auto|]. apply B; auto. now right.
  - intros y Y. assert (x <= y) as XY by (apply AB; eapply unique_in; exact Y).
    assert (~ x == y) as N; [|lra]. intro E.
    (* y is not equal to anything seen *)
    assert (K : forall l0 seen0 y0, In y0 (unique seen0 l0) -> forall s, In s seen0 -> ~ s == y0).
    { clear. induction l0 as [|z l0 IH]; intros seen0 y0 H s S E; cbn [unique] in H; [destruct H|]. destruct (memq z seen0) eqn:M; [exact (IH _ _ H s S E)|].
      destruct H as [<-|H]; [|exact (IH _ _ H s (or_intror S) E)]. assert (memq z seen0 = true) as K by (apply memq_iff; exists s; split; [exact S|now symmetry]). congruence. }
    exact (K _ _ _ Y x (or_introl eq_refl) E).
Qed.
Lemma unique_ne x l : unique [] (x :: l) <> [].
Proof. cbn. discriminate. Qed.
Lemma get_nearest_spec coords v : coords <> [] -> rising coords -> nearest_to coords v (snd (get_nearest coords v)).
Proof.
  intros NE R. unfold get_nearest. cbv zeta. cbn [snd]. set (u := unique [] coords).
  assert (u <> []) as UN by (destruct coords; [congruence|apply unique_ne]).
  assert (strictly_rising u) as US by (apply unique_rising; [exact R|intros s x []]).
  destruct (nearest_spec u v UN US) as [L M]. split.
  - apply (unique_in _ coords []), nth_In, L.
  - intros x X. destruct (unique_all x coords [] X) as [(y & [] & _)|(y & Y & E)]. rewrite E. apply M, Y.
Qed.
Lemma unique_id : forall l seen, strictly_rising l -> (forall s x, In s seen -> In x l -> s < x) -> unique seen l = l.
Proof.
  induction l as [|x l IH]; intros seen R B; cbn [unique]; [reflexivity|].
  destruct (memq x seen) eqn:M.
  - apply memq_iff in M. destruct M as (y & Y & E). specialize (B y x Y (or_introl eq_refl)). lra.
  - f_equal. apply IH; [eapply strictly_tail; exact R|]. intros s y [<-|S] Y; [now apply (strictly_above _ _ R)|]. apply B; auto. now right.
Qed.
Lemma unique_pos : forall l seen i, rising l -> (forall s x, In s seen -> In x l -> s <= x) -> (i < length (unique seen l))%nat ->
  (exists j, (j < length l)%nat /\ nth i (unique seen l) 0 = nth j l 0 /\ (i <= j)%nat /\ (forall k, (k < j)%nat -> ~ nth k l 0 == nth j l 0) /\
     (((exists k, (k < j)%nat /\ nth k l 0 == nth (S k) l 0) \/ (exists s, In s seen /\ s == nth 0 l 0)) -> (i < j)%nat)).
Proof.
  induction l as [|x l IH]; intros seen i R B L; cbn [unique length] in *; [lia|]. pose proof (rising_tail _ _ R) as RT. pose proof (rising_above _ _ R) as AB.
  assert (NS : forall l0 seen0 y0, In y0 (unique seen0 l0) -> forall s, In s seen0 -> ~ s == y0).
  { clear. induction l0 as [|z l0 IH]; intros seen0 y0 H s S E; cbn [unique] in H; [destruct H|]. destruct (memq z seen0) eqn:M; [exact (IH _ _ H s S E)|].
    destruct H as [<-|H]; [|exact (IH _ _ H s (or_intror S) E)]. assert (memq z seen0 = true) as K by (apply memq_iff; exists s; split; [exact S|now symmetry]). congruence. }
  destruct (memq x seen) eqn:M.
  - destruct (IH seen i RT ltac:(intros; apply B; auto; now right) L) as (j & J1 & J2 & J3 & J4 & J5). exists (S j). split; [lia|]. split; [exact J2|]. split; [lia|]. split; [|lia].
    intros [|k] K; cbn [nth]; [|apply J4; lia]. rewrite <- J2. apply memq_iff in M. destruct M as (s & SI & E). intro Q.
    apply (NS l seen (nth i (unique seen l) 0) (nth_In _ _ L) s SI). now rewrite <- E.
  - assert (NM : forall s, In s seen -> ~ s == x) by (intros s SI E; assert (memq x seen = true) as K by (apply memq_iff; exists s; split; [exact SI|now symmetry]); congruence).
    destruct i as [|i].
    { exists 0%nat. cbn [length nth]. split; [lia|]. split; [reflexivity|]. split; [lia|]. split; [intros k K; lia|].
      intros [(k & K & _)|(s & SI & E)]; [lia|]. exfalso. exact (NM s SI E). }
    cbn [length nth] in *.
    destruct (IH (x :: seen) i RT) as (j & J1 & J2 & J3 & J4 & J5); [intros s y [<-|S] Y; [now apply AB|apply B; auto; now right]|lia|].
    exists (S j). split; [lia|]. split; [exact J2|]. split; [lia|]. split.
    2:{ intros [(k & K & E)|(s & SI & E)]; [|exfalso; exact (NM s SI E)]. apply -> Nat.succ_lt_mono. apply J5. destruct k as [|k]; [right; exists x; split; [now left|exact E]|left; exists k; split; [lia|exact E]]. }
    intros [|k] K; cbn [nth]; [|apply J4; lia]. rewrite <- J2.
    apply (NS l (x :: seen) (nth i (unique (x :: seen) l) 0)); [apply nth_In; lia|now left].
Qed.

Lemma rising_nth l : rising l -> forall i j, (i <= j)%nat -> (j < length l)%nat -> nth i l 0 <= nth j l 0.
Proof.
  induction l as [|x l IH]; intros R i j H J; [cbn in J; lia|]. pose proof (rising_above _ _ R) as AB. pose proof (rising_tail _ _ R) as RT.
  destruct i, j; cbn [nth]; try lia; [apply Qle_refl|apply AB, nth_In; cbn in J; lia|apply IH; auto; [lia|cbn in J; lia]].
Qed.
Lemma repeated coords v k : rising coords -> (S k < length coords)%nat -> nth k coords 0 == nth (S k) coords 0 -> nth k coords 0 < snd (get_nearest coords v) ->
  ~ nth (fst (get_nearest coords v)) coords 0 == snd (get_nearest coords v).
Proof.
  intros R L E W. unfold get_nearest in *. cbv zeta in *. cbn [fst snd] in *. set (u := unique [] coords) in *.
  assert (UN : u <> []) by (destruct coords; [cbn in L; lia|apply unique_ne]).
  assert (US : strictly_rising u) by (apply unique_rising; [exact R|intros s x []]).
  destruct (nearest_spec u v UN US) as [LU _].
  destruct (unique_pos coords [] (nearest_in u v) R ltac:(intros s x []) LU) as (j & J1 & J2 & J3 & J4 & J5). fold u in J2. rewrite J2 in *.
  apply J4. apply J5. left. exists k. split; [|exact E]. destruct (le_lt_dec j k) as [Z|]; [|auto]. exfalso.
  pose proof (rising_nth coords R j k Z ltac:(lia)). apply (Qlt_not_le _ _ W). exact H.
Qed.
