(** * Properties C32-C43: covariance matrices, measurements, text files, units *)
From Coq Require Import String Reals List Arith Bool ZArith Lia Sorting.Sorted.
From Verif Require Import S_Data M_Cov P_Cov P_CovTrim M_PowerData P_PowerData P_PowerData2.
Import ListNotations.
Set Implicit Arguments.
Local Open Scope nat_scope.
Local Arguments condensed_to_full : simpl never.
Local Arguments triu : simpl never.

Lemma ss_increasing l : StronglySorted lt l -> increasing l.
Proof. induction 1 as [|x l S IH F]; cbn; auto. Qed.
Lemma py_index_iff N i : (exists p, py_index N i p) <-> (- Z.of_nat N <= i < Z.of_nat N)%Z.
Proof.
  unfold py_index. split; [intros [p [Hp [->| ->]]]; lia|]. intro H. destruct (Z_lt_dec i 0).
  - exists (Z.to_nat (i + Z.of_nat N)). lia.
  - exists (Z.to_nat i). lia.
Qed.
Lemma py_index_wrap N i p : py_index N i p -> wrap N i = Z.of_nat p.
Proof. unfold py_index, wrap. intros [Hp [->| ->]]; destruct (Z.ltb_spec (Z.of_nat p) 0), (Z.ltb_spec (Z.of_nat p - Z.of_nat N) 0); lia. Qed.
Lemma contracted_py N i j p q : py_index N i p -> py_index N j q ->
  contracted_index N i j = Some (Z.of_nat (slot N (Nat.min p q) (Nat.max p q))).
Proof.
  intros Hp Hq. rewrite contracted_index_spec. rewrite (py_index_wrap Hp), (py_index_wrap Hq). destruct Hp as [Hp _], Hq as [Hq _].
  rewrite !(proj2 (Z.leb_le 0 (Z.of_nat _))) by lia. rewrite !(proj2 (Z.ltb_lt (Z.of_nat _) _)) by lia. cbn [andb]. now rewrite !Nat2Z.id.
Qed.
Lemma contracted_none N i j : contracted_index N i j = None <-> ~ ((- Z.of_nat N <= i < Z.of_nat N) /\ (- Z.of_nat N <= j < Z.of_nat N))%Z.
Proof.
  rewrite contracted_index_spec. unfold wrap.
  destruct (Z.ltb_spec i 0), (Z.ltb_spec j 0);
  destruct (_ && _ && (_ && _))%Z eqn:E; rewrite ?andb_true_iff, ?Z.leb_le, ?Z.ltb_lt in E;
  (split; [intro H1; try discriminate H1|]); try (intros; reflexivity); try lia;
  intros; try (rewrite <- not_true_iff_false, !andb_true_iff, !Z.leb_le, !Z.ltb_lt in E); try lia; try (exfalso; lia).
Qed.

(** ** C32 *)
Theorem C32_storage_is_a_bijection : forall N,
  (forall i j, contracted_index N i j = None <-> ~ ((- Z.of_nat N <= i < Z.of_nat N) /\ (- Z.of_nat N <= j < Z.of_nat N))%Z) /\
  (forall i j p q, py_index N i p -> py_index N j q ->
     exists s, contracted_index N i j = Some s /\ (0 <= s < Z.of_nat N * (Z.of_nat N + 1) / 2)%Z) /\
  (forall i j p q i' j' p' q', py_index N i p -> py_index N j q -> py_index N i' p' -> py_index N j' q' ->
     (contracted_index N i j = contracted_index N i' j' <-> (p = p' /\ q = q') \/ (p = q' /\ q = p'))) /\
  (forall s, (0 <= s < Z.of_nat N * (Z.of_nat N + 1) / 2)%Z -> exists p q, p < N /\ q < N /\ contracted_index N (Z.of_nat p) (Z.of_nat q) = Some s).
Proof.
  intro N. assert (TL : (Z.of_nat (length (triu N)) = Z.of_nat N * (Z.of_nat N + 1) / 2)%Z).
  { apply Z.div_unique_exact; [lia|]. pose proof (triu_length N). lia. }
  split; [apply contracted_none|]. split; [|split].
  - intros i j p q Hp Hq. rewrite (contracted_py Hp Hq). eexists. split; [reflexivity|]. rewrite <- TL.
    assert (slot N (Nat.min p q) (Nat.max p q) < length (triu N)); [|lia]. destruct Hp, Hq. apply slot_lt; lia.
  - intros i j p q i' j' p' q' Hp Hq Hp' Hq'. rewrite (contracted_py Hp Hq), (contracted_py Hp' Hq'). destruct Hp as [Hp _], Hq as [Hq _], Hp' as [Hp' _], Hq' as [Hq' _]. split.
    + intro H. injection H as H. apply Nat2Z.inj in H. apply slot_inj in H; lia.
    + intros [[-> ->]|[-> ->]]; [reflexivity|]. now rewrite Nat.min_comm, Nat.max_comm.
  - intros s Hs. rewrite <- TL in Hs. destruct (@slot_surj N (Z.to_nat s) ltac:(lia)) as [p [q [H E]]]. exists p, q. split; [lia|]. split; [lia|].
    rewrite (@contracted_py N _ _ p q); [|unfold py_index; lia|unfold py_index; lia]. rewrite Nat.min_l, Nat.max_r by lia. f_equal. lia.
Qed.
Theorem C32_element_access_reads_the_stored_entry : forall (X : Type) (one : X) N (m : nat -> nat -> X) coords i j p q,
  py_index N i p -> py_index N j q -> getitem (construct one N m coords) i j = Some (m (Nat.min p q) (Nat.max p q)).
Proof.
  intros X one N m coords i j p q Hp Hq. 
  assert (G := getitem_values (fun _ _ => m 0 0) (construct_wf one N m coords) (proj1 Hp) (proj1 Hq)).
  rewrite values_construct in G by (apply Hp || apply Hq). rewrite <- G. unfold getitem. cbn [cN construct].
  rewrite (contracted_py Hp Hq). rewrite (@contracted_py N _ _ p q); [reflexivity| |]; split; try (apply Hp); try (apply Hq); now left.
Qed.
Example C32_nonvacuous : contracted_index 4 (-1) 1 = Some 6%Z /\ py_index 4 (-1) 3 /\ contracted_index 4 4 0 = None.
Proof. repeat split; try reflexivity; unfold py_index; lia. Qed.

(** ** C33 *)
Theorem C33_round_trip : forall (X : Type) (junk : nat -> nat -> X) (one : X) N (m : nat -> nat -> X) coords,
  (forall i j, i < N -> j < N -> m i j = m j i) ->
  forall i j, i < N -> j < N -> values junk (construct one N m coords) i j = m i j.
Proof.
  intros X junk one N m coords Hs i j Hi Hj. rewrite values_construct by assumption. destruct (Nat.le_ge_cases i j).
  - now rewrite Nat.min_l, Nat.max_r by assumption.
  - rewrite Nat.min_r, Nat.max_l by assumption. now apply Hs.
Qed.
(** no hypothesis on the stored data beyond its length, so it covers every state reachable by the
    arithmetic operations: the full matrix is symmetric and does not depend on what np.empty held *)
Theorem C33_always_symmetric : forall (X : Type) (junk junk' : nat -> nat -> X) (c : cov X), length (cdata c) = length (triu (cN c)) ->
  forall i j, i < cN c -> j < cN c -> values junk c i j = values junk c j i /\ values junk c i j = values junk' c i j.
Proof.
  intros X junk junk' c Hw i j Hi Hj. split; [now apply values_sym|].
  assert (A := getitem_values junk Hw Hi Hj). assert (B := getitem_values junk' Hw Hi Hj). congruence.
Qed.
Theorem C33_diag : forall (X : Type) (junk : nat -> nat -> X) (c : cov X), length (cdata c) = length (triu (cN c)) ->
  exists l, diag c = Some l /\ length l = cN c /\ forall i x, i < cN c -> nth i l x = values junk c i i.
Proof.
  intros X junk c Hw. rewrite (diag_values junk Hw). eexists. split; [reflexivity|]. split; [now rewrite map_length, seq_length|].
  intros i x Hi. rewrite (nth_map_lt _ _ x 0) by now rewrite seq_length. now rewrite seq_nth.
Qed.
Example C33_nonvacuous : let c := construct 1%Z 3 (fun i j => Z.of_nat (i + j)) [] in
  values (fun _ _ => 77%Z) c 2 1 = 3%Z /\ diag c = Some [0; 2; 4]%Z.
Proof. vm_compute. auto. Qed.

(** ** C34 *)
Theorem C34_elementwise : forall (X : Type) (junk : nat -> nat -> X) (ev : bop -> X -> X -> X) (c : cov X), length (cdata c) = length (triu (cN c)) ->
  (forall o x, exists c', arith ev o c (Scalar x) = Some c' /\ cN c' = cN c /\
     forall i j, i < cN c -> j < cN c -> values junk c' i j = ev o (values junk c i j) x) /\
  (forall o d, length (cdata d) = length (triu (cN d)) -> cN d = cN c -> o <> Mul -> exists c', arith ev o c (Matrix d) = Some c' /\ cN c' = cN c /\
     forall i j, i < cN c -> j < cN c -> values junk c' i j = ev o (values junk c i j) (values junk d i j)) /\
  (forall o x, (forall a b, ev o a b = ev o b a) -> o <> Div -> exists c', rarith ev o x c = Some c' /\ cN c' = cN c /\
     forall i j, i < cN c -> j < cN c -> values junk c' i j = ev o x (values junk c i j)) /\
  (forall o d, cN d <> cN c -> arith ev o c (Matrix d) = None).
Proof.
  intros X junk ev c Hw. split; [|split; [|split]].
  - intros o x. destruct (arith_scalar junk ev o x Hw) as [c' [H1 [_ [H2 [_ [_ H3]]]]]]. eauto.
  - intros o d Hd HN Ho. destruct (arith_matrix junk ev Hw Hd (eq_sym HN) Ho) as [c' [H1 [_ [H2 H3]]]]. eauto.
  - intros o x Hcomm Ho. destruct (arith_scalar junk ev o x Hw) as [c' [H1 [_ [H2 [_ [_ H3]]]]]]. exists c'. split; [unfold rarith; destruct o; congruence|]. split; [exact H2|].
    intros i j Hi Hj. rewrite H3 by assumption. apply Hcomm.
  - intros o d Hd. unfold arith. destruct (Nat.eqb_spec (cN c) (cN d)); [congruence|reflexivity].
Qed.
Definition zev (o : bop) (a b : Z) : Z := match o with Add => a + b | Sub => a - b | Mul => a * b | Div => a / b end%Z.
(** s - C returns C - s, C * D and s / C raise *)
Theorem C86_reflected_operations_refuted :
  (forall (X : Type) (ev : bop -> X -> X -> X) x (c : cov X), rarith ev Sub x c = arith ev Sub c (Scalar x)) /\
  (forall (X : Type) (ev : bop -> X -> X -> X) (c d : cov X), arith ev Mul c (Matrix d) = None) /\
  (forall (X : Type) (ev : bop -> X -> X -> X) x (c : cov X), rarith ev Div x c = None) /\
  exists (c c' : cov Z), length (cdata c) = length (triu (cN c)) /\ rarith zev Sub 5%Z c = Some c' /\ values (fun _ _ => 0%Z) c' 0 0 <> Z.sub 5 (values (fun _ _ => 0%Z) c 0%nat 0%nat).
Proof.
  split; [reflexivity|]. split; [intros; unfold arith; now destruct (Nat.eqb _ _)|]. split; [reflexivity|].
  exists (construct 1%Z 1 (fun _ _ => 3%Z) [(0, 0)%Z]). eexists. split; [reflexivity|]. split; [reflexivity|]. vm_compute. discriminate.
Qed.
Example C34_nonvacuous : exists c', arith zev Sub (construct 1%Z 2 (fun i j => Z.of_nat (i * j + 4)) []) (Scalar 1%Z) = Some c' /\ values (fun _ _ => 0%Z) c' 1 1 = 4%Z.
Proof. eexists. split; reflexivity. Qed.

(** ** C35 *)
Lemma within_iff lo hi k : ge_lo lo k && le_hi hi k = true <-> within lo hi k.
Proof.
  unfold within. destruct lo as [a|], hi as [b|]; cbn; rewrite ?andb_true_r, ?andb_true_iff, ?Z.leb_le; split;
    try (intro H; split; intros ? E; try discriminate E; injection E as <-; tauto);
    intros [H1 H2]; try specialize (H1 _ eq_refl); try specialize (H2 _ eq_refl); try split; try assumption; reflexivity.
Qed.
Lemma kept_row ls : NoDup ls -> forall lo hi x, kept ls lo hi x = true <-> row_within ls lo hi x.
Proof.
  unfold row_within. induction 1 as [|l ls Hn ND IH]; intros [|a lo] [|b hi] x; cbn [kept];
    try (split; [discriminate|intros [[|n] [a' [h' [H1 [H2 [H3 _]]]]]]; cbn in *; discriminate]).
  destruct (Z.eqb_spec (fst x) l) as [E|E].
  - rewrite within_iff. split.
    + intro H. exists 0, a, b. cbn. rewrite E. auto.
    + intros [[|n] [a' [h' [H1 [H2 [H3 H4]]]]]]; cbn in *; [congruence|]. exfalso. apply Hn. rewrite <- E. eapply nth_error_In; exact H1.
  - rewrite IH. split.
    + intros [n [a' [h' H]]]. exists (S n), a', h'. exact H.
    + intros [[|n] [a' [h' [H1 [H2 [H3 H4]]]]]]; cbn in *; [congruence|]. exists n, a', h'. auto.
Qed.
(** the trimmed matrix consists of exactly the rows within the bounds of their own block, in order *)
Theorem C35_trim_keeps_exactly_the_rows_in_range : forall (X : Type) (junk : nat -> nat -> X) (one : X) (c c' : cov X) lo hi,
  length (cdata c) = length (triu (cN c)) -> length (ccoords c) = cN c -> trim_k junk one c lo hi = Some c' ->
  exists idx, increasing idx /\
    (forall p, In p idx <-> exists row, nth_error (ccoords c) p = Some row /\ row_within (labels c) lo hi row) /\
    cN c' = length idx /\ ccoords c' = map (fun p => nth p (ccoords c) (0%Z, 0%Z)) idx /\
    forall i j, i < length idx -> j < length idx -> values junk c' i j = values junk c (nth i idx 0) (nth j idx 0).
Proof.
  intros X junk one c c' lo hi Hw Hc H. assert (H' := H). apply trim_k_iff in H'. destruct H' as [Hl _].
  destruct (@trim_k_spec X junk one c c' lo hi Hc H) as [idx [E [E' [HN [_ [_ [_ HV]]]]]]]. exists idx. split; [apply ss_increasing; rewrite E; apply ss_filter_seq|]. split; [|split; [exact HN|split; [now rewrite E'|]]].
  - intro p. rewrite E. unfold positions. rewrite filter_In, in_seq. unfold keepp. assert (ND := zss_NoDup (labels_sorted c Hl)).
    destruct (nth_error (ccoords c) p) as [row|] eqn:Ep.
    + rewrite kept_row by exact ND. split; [intros [_ Hr]; eauto|]. intros [r [Er Hr]]. injection Er as <-. split; [|exact Hr]. split; [lia|]. cbn. apply nth_error_Some. congruence.
    + split; [intros [_ F]; discriminate|intros [r [Er _]]; discriminate].
  - intros i j Hi Hj. rewrite HN in HV. now apply HV.
Qed.
(** success is decided: sorted coordinates, one bound pair per block, no block emptied *)
Theorem C35_trim_succeeds_iff : forall (X : Type) (junk : nat -> nat -> X) (one : X) (c : cov X) lo hi,
  (exists c', trim_k junk one c lo hi = Some c') <->
  lexsorted (ccoords c) = true /\ length lo = length (labels c) /\ length hi = length (labels c) /\
  forall l, In l (labels c) -> exists row, In row (ccoords c) /\ fst row = l /\ row_within (labels c) lo hi row.
Proof.
  intros X junk one c lo hi. split.
  - intros [c' H]. apply trim_k_iff in H. destruct H as [H1 [H2 [H3 [H4 _]]]]. repeat (split; [assumption|]). intros l Hin. destruct (H4 l Hin) as [x [A [B C]]].
    exists x. split; [exact A|]. split; [exact B|]. apply kept_row; [|exact C]. apply zss_NoDup, labels_sorted; exact H1.
  - intros [H1 [H2 [H3 H4]]]. eexists. apply trim_k_iff. repeat (split; [assumption|]). split; [|reflexivity]. intros l Hin. destruct (H4 l Hin) as [x [A [B C]]].
    exists x. split; [exact A|]. split; [exact B|]. apply kept_row; [|exact C]. apply zss_NoDup, labels_sorted; exact H1.
Qed.
(** trimming again is trimming the original to the tighter bounds (also when it raises) *)
Theorem C35_trim_twice : forall (X : Type) (junk : nat -> nat -> X) (one : X) (c c1 : cov X) lo1 hi1 lo2 hi2,
  length (cdata c) = length (triu (cN c)) -> length (ccoords c) = cN c -> trim_k junk one c lo1 hi1 = Some c1 ->
  length lo2 = length lo1 -> length hi2 = length hi1 ->
  exists lo hi, length lo = length lo1 /\ length hi = length hi1 /\
    (forall b a1 a2 h1 h2, nth_error lo1 b = Some a1 -> nth_error lo2 b = Some a2 -> nth_error hi1 b = Some h1 -> nth_error hi2 b = Some h2 ->
      exists a h, nth_error lo b = Some a /\ nth_error hi b = Some h /\ forall k, within a h k <-> within a1 h1 k /\ within a2 h2 k) /\
    trim_k junk one c1 lo2 hi2 = trim_k junk one c lo hi.
Proof.
  intros X junk one c c1 lo1 hi1 lo2 hi2 Hw Hc H L1 L2. exists (zip2 max_lo lo1 lo2), (zip2 min_hi hi1 hi2).
  split; [now rewrite zip2_length|]. split; [now rewrite zip2_length|]. split; [|now apply trim_trim].
  assert (Z : forall (A : Type) (g : A -> A -> A) l m b x y, nth_error l b = Some x -> nth_error m b = Some y -> nth_error (zip2 g l m) b = Some (g x y)).
  { intros A g l. induction l as [|x0 l IH]; intros [|y0 m] [|b] x y Hx Hy; cbn in *; try discriminate; [congruence|]. now apply IH. }
  intros b a1 a2 h1 h2 E1 E2 E3 E4. exists (max_lo a1 a2), (min_hi h1 h2). split; [now apply Z|]. split; [now apply Z|].
  intro k. rewrite <- !within_iff, ge_lo_max, le_hi_min, !andb_true_iff. tauto.
Qed.
Example C35_nonvacuous :
  let c := construct 1%Z 4 (fun i j => Z.of_nat (10 * i + j)) [(0, 1); (0, 2); (2, 1); (2, 2)]%Z in
  exists c', trim_k (fun _ _ => 0%Z) 1%Z c [Some 2%Z; None] [None; Some 1%Z] = Some c' /\ ccoords c' = [(0, 2); (2, 1)]%Z /\ values (fun _ _ => 0%Z) c' 0 1 = 12%Z.
Proof. eexists. vm_compute. auto. Qed.

(** ** C36 *)
(** right after the rescaling step of initialisation the inverse carries the factor, and arithmetic keeps it *)
Theorem C36_rescaling_set_and_kept_by_arithmetic_partial : forall (X : Type) (hart : nat -> nat -> X) (scale_err : X -> X -> X) (p : pd X) Ns l,
  0 < Ns -> combined_power p = Some l ->
  exists p', rescale_inverse_covar hart scale_err p Ns = Some p' /\ values (fun i j => hart i j) (p_cov p') = values (fun i j => hart i j) (p_cov p) /\
    (forall inv mulx junk i j, inverse junk inv mulx (p_cov p') i j = mulx (inv (cN (p_cov p)) (values junk (p_cov p)) i j) (hart Ns (length l))) /\
    (forall ev o x c', arith ev o (p_cov p') (Scalar x) = Some c' -> cresc c' = hart Ns (length l)).
Proof.
  intros X hart scale_err p Ns l HN Hl. destruct Ns as [|Ns]; [lia|]. unfold rescale_inverse_covar. rewrite Hl. eexists. split; [reflexivity|]. split; [reflexivity|]. split; [reflexivity|].
  intros ev o x c' H. injection H as <-. reflexivity.
Qed.
(** trimming (hence changing kmin or kmax) and selecting reset the factor to one *)
Theorem C36_rescaling_lost_by_slicing_refuted : forall (X : Type) (junk : nat -> nat -> X) (one : X) (c c' : cov X),
  (forall lo hi, trim_k junk one c lo hi = Some c' -> cresc c' = one) /\
  (forall ls, sel_labels junk one c ls = Some c' -> cresc c' = one) /\
  (forall p b p', set_kmin junk one p b = (p', true) -> cresc (p_cov p') = one).
Proof.
  intros X junk one c c'.
  assert (T : forall (c0 c1 : cov X) lo hi, trim_k junk one c0 lo hi = Some c1 -> cresc c1 = one) by (intros c0 c1 lo hi H; apply trim_k_iff in H; destruct H as [_ [_ [_ [_ ->]]]]; reflexivity).
  split; [intros; eapply T; eassumption|]. split.
  - intros ls H. unfold sel_labels in H. destruct (lexsorted _); [|discriminate]. injection H as <-. reflexivity.
  - intros p b p' H. unfold set_kmin in H. destruct (expand _ b) as [l|]; [|discriminate]. destruct (trim_cov _ _ _ _ _) as [c1|] eqn:E; [|discriminate]. injection H as <-. cbn.
    unfold trim_cov in E. destruct (expand _ (Many l)) as [a|]; [|discriminate]. destruct (expand _ (One None)) as [h|]; [|discriminate]. eapply T; exact E.
Qed.
Example C36_witness : exists c c' : cov Z, cresc c = 2%Z /\ trim_k (fun _ _ => 0%Z) 1%Z c [None] [None] = Some c' /\ cresc c' = 1%Z /\ cN c' = cN c.
Proof. exists (mkCov 1 [5%Z] [(0, 0)%Z] 2%Z). eexists. vm_compute. auto. Qed.

(** ** C37 *)
(** the input columns of a measurement all have n entries *)
Definition columns_n (X : Type) (m : meas X) (n : nat) : Prop :=
  length (m_k m) = n /\ length (m_power m) = n /\ (forall l, m_error m = Col l -> length l = n) /\ (forall l, m_mu m = Col l -> length l = n).
Definition kmin_of (o : mop) := match o with MKmin v => Some v | _ => None end.
Definition kmax_of (o : mop) := match o with MKmax v => Some v | _ => None end.
Lemma mrun_fields (X : Type) os : forall m : meas X, let m' := mrun m os in m_k m' = m_k m /\ m_power m' = m_power m /\ m_error m' = m_error m /\ m_mu m' = m_mu m /\
  m_kmin m' = last_of kmin_of (m_kmin m) os /\ m_kmax m' = last_of kmax_of (m_kmax m) os.
Proof. induction os as [|o os IH]; intro m; cbn; [auto 6|]. destruct (IH (mstep m o)) as [A [B [C [D [E F]]]]]. destruct o; cbn in *; auto 6. Qed.
Theorem C37_columns_stay_aligned : forall (X : Type) (m : meas X) n os (d : X), columns_n m n ->
  let m' := mrun m os in
  exists idx, increasing idx /\
    (forall p, In p idx <-> exists k, nth_error (m_k m) p = Some (Some k) /\ within (last_of kmin_of (m_kmin m) os) (last_of kmax_of (m_kmax m) os) k) /\
    rd_size m' = Some (length idx) /\
    rd_k m' = Some (map (fun p => nth p (m_k m) None) idx) /\
    rd_power m' = Some (map (fun p => nth p (m_power m) d) idx) /\
    (forall l, m_error m = Col l -> rd_error m' = Some (Col (map (fun p => nth p l d) idx))) /\
    (forall l, m_mu m = Col l -> rd_mu m' = Some (Col (map (fun p => nth p l d) idx))).
Proof.
  intros X m n os d [H1 [H2 [H3 H4]]] m'. destruct (mrun_fields os m) as [E1 [E2 [E3 [E4 [E5 E6]]]]]. fold m' in E1, E2, E3, E4, E5, E6.
  exists (offs 0 (trim_idx m')).
  assert (LT : length (trim_idx m') = n) by (unfold trim_idx; rewrite map_length, E1; exact H1).
  assert (K : rd_k m' = Some (map (fun p => nth p (m_k m) None) (offs 0 (trim_idx m')))).
  { unfold rd_k. rewrite mask_col_len by (rewrite E1; congruence). rewrite E1. now rewrite (pick_offs None) by congruence. }
  split; [|split; [|split; [|split; [exact K|split; [|split]]]]].
  - apply ss_increasing. rewrite offs_spec. apply ss_filter_seq.
  - intro p. rewrite offs_spec, filter_In, in_seq, LT, Nat.sub_0_r. unfold trim_idx. rewrite E1, E5, E6. split.
    + intros [Hp Hv]. rewrite (nth_map_lt _ (m_k m) false None) in Hv by lia. destruct (nth p (m_k m) None) as [k|] eqn:Ek; [|discriminate Hv]. exists k.
      split; [rewrite <- Ek; apply nth_error_nth'; lia|]. now apply within_iff.
    + intros [k [Ek Hw]]. assert (Hp : p < length (m_k m)) by (apply nth_error_Some; congruence). split; [lia|].
      rewrite (nth_map_lt _ (m_k m) false None) by exact Hp. rewrite (nth_error_nth _ _ None Ek). cbn. now apply within_iff.
  - unfold rd_size. rewrite K. cbn. now rewrite map_length.
  - unfold rd_power. rewrite E2, mask_col_len by congruence. now rewrite (pick_offs d) by congruence.
  - intros l Hl. unfold rd_error. rewrite E3, Hl. rewrite mask_col_len by (rewrite LT; symmetry; now apply H3). cbn. rewrite (pick_offs d); [reflexivity|]. rewrite LT. symmetry. now apply H3.
  - intros l Hl. unfold rd_mu. rewrite E4, Hl. rewrite mask_col_len by (rewrite LT; symmetry; now apply H4). cbn. rewrite (pick_offs d); [reflexivity|]. rewrite LT. symmetry. now apply H4.
Qed.
Example C37_nonvacuous : let m := mkMeas [Some 1; None; Some 3; Some 5]%Z [10; 20; 30; 50]%Z (Col [1; 2; 3; 5]%Z) (Missing Z) None None in
  columns_n m 4 /\ rd_power (mrun m [MKmin (Some 4%Z); MKmax (Some 9%Z); MKmin (Some 2%Z)]) = Some [30; 50]%Z.
Proof. split; [|reflexivity]. repeat split; intros l E; try discriminate; injection E as <-; reflexivity. Qed.

(** ** C38 *)
Theorem C38_slices_partition : forall (A : Type) (cols : list (list A)),
  let sl := flat_slices (map (@length A) cols) in
  length sl = length cols /\
  (forall i, i < length cols -> fst (nth i sl (0, 0)) + length (nth i cols []) = snd (nth i sl (0, 0)) /\ (i = 0 -> fst (nth i sl (0, 0)) = 0) /\ (S i < length cols -> fst (nth (S i) sl (0, 0)) = snd (nth i sl (0, 0)))) /\
  (forall p, p < length (concat cols) -> exists i, i < length cols /\ fst (nth i sl (0, 0)) <= p < snd (nth i sl (0, 0)) /\
      forall j, j < length cols -> fst (nth j sl (0, 0)) <= p < snd (nth j sl (0, 0)) -> j = i) /\
  map (slice (concat cols)) sl = cols.
Proof.
  intros A cols sl. unfold sl, flat_slices. assert (L : length (pairs (0 :: cumsum 0 (map (@length A) cols))) = length cols) by now rewrite slices_length, map_length. split; [exact L|]. split; [|split].
  - assert (G : forall (cols : list (list A)) acc i, i < length cols -> let s := pairs (acc :: cumsum acc (map (@length A) cols)) in
       fst (nth i s (0, 0)) + length (nth i cols []) = snd (nth i s (0, 0)) /\ (i = 0 -> fst (nth i s (0, 0)) = acc) /\ (S i < length cols -> fst (nth (S i) s (0, 0)) = snd (nth i s (0, 0)))).
    { clear. induction cols as [|c cols IH]; intros acc i Hi; cbn [length] in Hi; [lia|]. cbn [map]. rewrite flat_slices_eq. destruct i as [|i]; cbn zeta; cbn [nth fst snd].
      - split; [reflexivity|]. split; [reflexivity|]. cbn [length]. intro H. destruct cols as [|c' cols]; cbn [length] in H; [lia|]. cbn [map]. rewrite flat_slices_eq. reflexivity.
      - destruct (IH (acc + length c) i ltac:(lia)) as [A1 [A2 A3]]. split; [exact A1|]. split; [lia|]. cbn [length]. intro H. apply A3. lia. }
    intros i Hi. exact (G cols 0 i Hi).
  - intros p Hp. destruct (@slices_cover (map (@length A) cols) 0 p) as [i [Hi H]].
    + split; [lia|]. cbn. clear -Hp. revert p Hp. induction cols as [|c cols IH]; intros p Hp; cbn in *; [exact Hp|]. rewrite app_length in Hp. destruct (Nat.lt_ge_cases p (length c)); [lia|]. specialize (IH (p - length c)). lia.
    + rewrite map_length in Hi, H. eauto.
  - exact (slices_pick cols [] eq_refl).
Qed.
(** the theory side uses the same consecutive slices for its (k, mu) pairs *)
Theorem C38_kmu_pairs_slices : forall (X : Type) (ts : list (list X * list X)), (forall t, In t ts -> length (snd t) = length (fst t)) ->
  let '(k, mu, sl) := get_kmu_pairs ts in
  length sl = length ts /\ map (slice k) sl = map fst ts /\ map (slice mu) sl = map snd ts.
Proof.
  intros X ts H. unfold get_kmu_pairs. rewrite kmu_slices_flat. split; [now rewrite slices_length, map_length|].
  assert (S1 := slices_pick (map fst ts) [] eq_refl). assert (S2 := slices_pick (map snd ts) [] eq_refl). cbn [app] in S1, S2. rewrite map_map in S1, S2.
  split; [exact S1|]. rewrite <- S2 at 2. f_equal. do 3 f_equal. apply map_ext_in. intros t Ht. symmetry. now apply H.
Qed.
Example C38_nonvacuous : flat_slices [2; 0; 3] = [(0, 2); (2, 2); (2, 5)] /\ slice [10; 11; 12; 13; 14] (2, 5) = [12; 13; 14].
Proof. auto. Qed.

(** ** C39 *)
(** [aligned0]: at the start the covariance has one row per input row, block after block, and the
    wavenumbers agree; [narrow_run]: each set bound is at least as tight as the one in force *)
Theorem C39_aligned_after_narrowing : forall (X : Type) (junk : nat -> nat -> X) (one : X) (p0 p : pd X) kss os (d : X),
  aligned0 (p_ms p0) (p_cov p0) kss -> Forall (fun m => m_kmin m = None /\ m_kmax m = None) (p_ms p0) ->
  narrow_run junk one p0 os p ->
  exists idx, increasing idx /\ Forall (fun i => i < cN (p_cov p0)) idx /\
    combined_power p = Some (map (fun i => nth i (concat (map (@m_power X) (p_ms p0))) d) idx) /\
    combined_k p = Some (map (fun i => Some (snd (nth i (ccoords (p_cov p0)) (0%Z, 0%Z)))) idx) /\
    cN (p_cov p) = length idx /\ ccoords (p_cov p) = map (fun i => nth i (ccoords (p_cov p0)) (0%Z, 0%Z)) idx /\
    forall i j, i < length idx -> j < length idx -> values junk (p_cov p) i j = values junk (p_cov p0) (nth i idx 0) (nth j idx 0).
Proof.
  intros X junk one p0 p kss os d Ha Hb Hr. destruct p0 as [ms0 c0 e0]. cbn [p_ms p_cov] in *.
  assert (L : los ms0 = repeat None (length ms0) /\ his ms0 = repeat None (length ms0)).
  { unfold los, his. clear -Hb. induction Hb as [|m ms [H1 H2] HF [IH1 IH2]]; cbn; [auto|]. rewrite H1, H2, IH1, IH2. auto. }
  destruct L as [L1 L2]. assert (I := inv_start junk one e0 Ha L1 L2).
  assert (I' := @narrow_inv X junk one ms0 c0 kss _ os p Ha I Hr).
  destruct (inv_aligned Ha I' d) as [idx [S [F R]]]. exists idx. split; [now apply ss_increasing|]. split; [exact F|exact R].
Qed.
(** widening: the measurements come back, the covariance does not *)
Definition pd39 : pd Z := mkPd [mkMeas [Some 1; Some 2; Some 3]%Z [10; 20; 30]%Z (Missing Z) (Missing Z) None None] (construct 1%Z 3 (fun i j => if Nat.eqb i j then 1 else 0)%Z [(0, 1); (0, 2); (0, 3)]%Z) None.
Theorem C39_widening_refuted : exists p, prun (fun _ _ => 0%Z) 1%Z pd39 [PKmin (One (Some 2%Z)); PKmin (One (Some 1%Z))] = Some p /\
  combined_power p = Some [10; 20; 30]%Z /\ cN (p_cov p) = 2.
Proof. eexists. vm_compute. auto. Qed.
(** a limit that empties a block raises, after the measurements were already cut *)
Theorem C39_failed_change_refuted : exists p, set_kmin (fun _ _ => 0%Z) 1%Z pd39 (One (Some 9%Z)) = (p, false) /\ combined_power p = Some [] /\ cN (p_cov p) = 3.
Proof. eexists. vm_compute. auto. Qed.
Example C39_nonvacuous : aligned0 (p_ms pd39) (p_cov pd39) [[1; 2; 3]%Z] /\ exists p, narrow_run (fun _ _ => 0%Z) 1%Z pd39 [PKmin (One (Some 2%Z)); PKmax (Many [Some 2%Z])] p /\ combined_power p = Some [20]%Z /\ cN (p_cov p) = 1.
Proof.
  split; [constructor; try reflexivity; repeat constructor|]. eexists. split.
  - eapply nr_cons; [|reflexivity|eapply nr_cons; [|reflexivity|apply nr_nil]]; eexists; split; try reflexivity; repeat constructor.
  - split; reflexivity.
Qed.

(** ** C40 *)
Theorem C40_errors_belong_to_their_points : forall (X : Type) (junk : nat -> nat -> X) (sqrtx : X -> X) (p : pd X) kss n,
  length (cdata (p_cov p)) = length (triu (cN (p_cov p))) -> cN (p_cov p) = n * length (p_ms p) ->
  Forall2 (@nan_free X) (p_ms p) kss -> Forall (fun ks => length ks = n) kss ->
  Forall (fun m => m_kmin m = None /\ m_kmax m = None) (p_ms p) ->
  exists p', set_errors_from_cov sqrtx p = Some p' /\ length (p_ms p') = length (p_ms p) /\
    forall i (d : meas X), i < length (p_ms p) -> exists e, rd_error (nth i (p_ms p') d) = Some (Col e) /\ length e = n /\
      forall j x, j < n -> nth j e x = sqrtx (values junk (p_cov p) (n * i + j) (n * i + j)).
Proof. intros. eapply errors_from_cov; eassumption. Qed.
(** measurements of different sizes (rows dropped because k is NaN): the block boundaries are computed
    with each measurement's own size, so the second measurement gets the first one's variance, and the
    first cannot be read any more *)
Definition pd40 : pd Z := mkPd
  [mkMeas [Some 1; None]%Z [10; 20]%Z (Missing Z) (Missing Z) None None; mkMeas [Some 1; Some 2]%Z [30; 40]%Z (Missing Z) (Missing Z) None None]
  (construct 1%Z 3 (fun i j => if Nat.eqb i j then Z.of_nat (i + 100) else 0)%Z [(0, 1); (2, 1); (2, 2)]%Z) None.
Theorem C40_unequal_sizes_refuted : exists p', set_errors_from_cov (fun x => x) pd40 = Some p' /\
  opt_all (map (@rd_size Z) (p_ms p')) = Some [1; 2] /\ map (@rd_error Z) (p_ms p') = [None; None] /\ map (@m_error Z) (p_ms p') = [Col [100]; Col [102]]%Z.
Proof. eexists. vm_compute. auto. Qed.
Example C40_nonvacuous : exists p', set_errors_from_cov (fun x => x) pd39 = Some p' /\ map (@rd_error Z) (p_ms p') = [Some (Col [1; 1; 1]%Z)].
Proof. eexists. vm_compute. auto. Qed.

(** ** C41 *)
Theorem C41_usedata_keeps_rows : forall (X : Type) (junk : nat -> nat -> X) (one : X) (p : pd X) kss used,
  aligned0 (p_ms p) (p_cov p) kss -> Forall (fun u => 0 <= u < Z.of_nat (length (p_ms p)))%Z used ->
  match p_ells p with Some e => length e = length (p_ms p) | None => True end ->
  exists p' kss', slice_data junk one p used = Some p' /\
    p_ms p' = pick (map (fun i => existsb (Z.eqb (Z.of_nat i)) used) (seq 0 (length (p_ms p)))) (p_ms p) /\
    aligned0 (p_ms p') (p_cov p') kss' /\
    forall d, exists idx, increasing idx /\ Forall (fun i => i < cN (p_cov p)) idx /\ cN (p_cov p') = length idx /\
      concat (map (@m_power X) (p_ms p')) = map (fun i => nth i (concat (map (@m_power X) (p_ms p))) d) idx /\
      ccoords (p_cov p') = map (fun i => nth i (ccoords (p_cov p)) (0%Z, 0%Z)) idx /\
      forall i j, i < length idx -> j < length idx -> values junk (p_cov p') i j = values junk (p_cov p) (nth i idx 0) (nth j idx 0).
Proof.
  intros X junk one p kss used Ha HU He. destruct (@slice_data_aligned X junk one p kss used Ha HU He) as [p' [A [B [C [_ D]]]]].
  exists p'. eexists. split; [exact A|]. split; [exact B|]. split; [exact C|]. intro d. destruct (D d) as [idx [S R]]. exists idx. split; [now apply ss_increasing|exact R].
Qed.
(** the multipole numbers (or mu bounds) follow the measurements when usedata is increasing *)
Theorem C87_ells_follow_when_increasing_partial : forall (X : Type) (junk : nat -> nat -> X) (one : X) (p : pd X) kss used e,
  aligned0 (p_ms p) (p_cov p) kss -> p_ells p = Some e -> length e = length (p_ms p) ->
  Forall (fun u => 0 <= u < Z.of_nat (length (p_ms p)))%Z used -> StronglySorted Z.lt used ->
  exists p', slice_data junk one p used = Some p' /\
    p_ells p' = Some (pick (map (fun i => existsb (Z.eqb (Z.of_nat i)) used) (seq 0 (length (p_ms p)))) e) /\
    p_ms p' = pick (map (fun i => existsb (Z.eqb (Z.of_nat i)) used) (seq 0 (length (p_ms p)))) (p_ms p).
Proof.
  intros X junk one p kss used e Ha E Le HU HS.
  destruct (@slice_data_aligned X junk one p kss used Ha HU) as [p' [A [B [_ [C _]]]]]; [now rewrite E|].
  exists p'. split; [exact A|]. split; [|exact B]. rewrite C, E. cbn. f_equal. rewrite <- Le in *. clear -HU HS.
  rewrite (pick_offs 0%Z) by now rewrite map_length, seq_length.
  rewrite <- (map_map Z.to_nat (fun n => nth n e 0%Z)). f_equal. apply ss_ext.
  - clear -HU HS. induction HS as [|x l S IH F]; cbn; [constructor|]. inversion HU; subst. constructor; [now apply IH|].
    rewrite Forall_forall in *. intros y Hy. apply in_map_iff in Hy. destruct Hy as [z [<- Hz]]. specialize (F z Hz). lia.
  - rewrite offs_spec. apply ss_filter_seq.
  - intro x. rewrite offs_spec, filter_In, in_seq, map_length, seq_length, Nat.sub_0_r. rewrite Forall_forall in HU. split.
    + intro H. apply in_map_iff in H. destruct H as [z [<- Hz]]. specialize (HU z Hz). split; [lia|].
      rewrite (nth_map_lt _ (seq 0 (length e)) false 0) by (rewrite seq_length; lia). rewrite seq_nth by lia. apply existsb_exists. exists z. split; [exact Hz|]. apply Z.eqb_eq. lia.
    + intros [Hx H]. rewrite (nth_map_lt _ (seq 0 (length e)) false 0) in H by (rewrite seq_length; lia). rewrite seq_nth in H by lia. apply existsb_exists in H. destruct H as [z [Hz Ez]]. apply Z.eqb_eq in Ez.
      apply in_map_iff. exists z. split; [|exact Hz]. lia.
Qed.
Definition pd41 : pd Z := mkPd
  [mkMeas [Some 1%Z] [10%Z] (Missing Z) (Missing Z) None None; mkMeas [Some 1%Z] [20%Z] (Missing Z) (Missing Z) None None]
  (construct 1%Z 2 (fun i j => Z.of_nat (i + j)) [(0, 1); (2, 1)]%Z) (Some [0; 2]%Z).
(** another order: the ells are permuted, the measurements and covariance are not *)
Theorem C87_order_of_ells_refuted : exists p', slice_data (fun _ _ => 0%Z) 1%Z pd41 [1; 0]%Z = Some p' /\
  p_ells p' = Some [2; 0]%Z /\ map (@m_power Z) (p_ms p') = [[10]; [20]]%Z /\ ccoords (p_cov p') = [(0, 1); (2, 1)]%Z.
Proof. eexists. vm_compute. auto. Qed.
(** negative numbers select covariance rows but no measurement *)
Theorem C87_negative_refuted : exists p', slice_data (fun _ _ => 0%Z) 1%Z pd41 [-1]%Z = Some p' /\ p_ms p' = [] /\ cN (p_cov p') = 1.
Proof. eexists. vm_compute. auto. Qed.
Example C41_nonvacuous : aligned0 (p_ms pd41) (p_cov pd41) [[1]; [1]]%Z /\ exists p', slice_data (fun _ _ => 0%Z) 1%Z pd41 [1]%Z = Some p' /\ cN (p_cov p') = 1 /\ length (p_ms p') = 1.
Proof. split; [constructor; try reflexivity; repeat constructor|]. eexists. vm_compute. auto. Qed.

(** ** C42 *)
(** [rnd x] is the number read back from the text written for x *)
Theorem C42_measurements_round_trip : forall (X : Type) (rnd : X -> X) (d : X) (ms : list (list (list X))) n nc,
  ms <> [] -> 0 < nc -> Forall (fun m => length m = nc /\ Forall (fun c => length c = n) m) ms ->
  exists f, to_plaintext rnd ms d = Some f /\ from_plaintext f d = map (map (map rnd)) ms.
Proof. intros. eapply plaintext_roundtrip; eassumption. Qed.
Theorem C42_grid_round_trip : forall (X : Type) (rnd : X -> X) (d : X) (g : grid X) nk nmu, 0 < nk -> grid_ok g nk nmu ->
  grid_read (grid_lines rnd g) d = mkGrid (map rnd (g_kcen g)) (map rnd (g_mucen g)) (map (map rnd) (g_k g)) (map (map rnd) (g_mu g)) (map (map rnd) (g_modes g)).
Proof. intros. eapply grid_roundtrip; eassumption. Qed.
Example C42_nonvacuous : to_plaintext (fun x => x) [[[1; 2; 3]; [4; 5; 6]]; [[7; 8; 9]; [10; 11; 12]]] 0 = Some (3, 2, 2, [[1; 4]; [2; 5]; [3; 6]; [7; 10]; [8; 11]; [9; 12]]) /\
  grid_ok (mkGrid [1] [2; 3] [[1; 1]] [[2; 3]] [[5; 6]]) 1 2.
Proof. split; [reflexivity|]. constructor; repeat constructor. Qed.

(** ** C43 *)
Local Open Scope R_scope.
Local Open Scope string_scope.
Definition variable_types := ["wavenumber"; "distance"; "volume"; "power"].
Theorem C43_conversions_invert : forall v h, In v variable_types -> h <> 0 ->
  exists a b, h_conversion_factor v "absolute" "relative" h = Some a /\ h_conversion_factor v "relative" "absolute" h = Some b /\ a * b = 1 /\
    forall x : R, (x * a) * b = x.
Proof.
  intros v h Hv Hh. assert (H3 : h * (h * h) <> 0) by (repeat apply Rmult_integral_contrapositive_currified; assumption).
  unfold variable_types in Hv. repeat (destruct Hv as [<-|Hv]; [eexists; eexists; split; [reflexivity|]; split; [reflexivity|]; cbn [pow]; split; [field; auto|intro; field; auto]|]). destruct Hv.
Qed.
Theorem C43_factors : forall h, h <> 0 ->
  h_conversion_factor "wavenumber" "absolute" "relative" h = Some (/ h) /\ h_conversion_factor "distance" "absolute" "relative" h = Some h /\
  h_conversion_factor "volume" "absolute" "relative" h = Some (h ^ 3) /\ h_conversion_factor "power" "absolute" "relative" h = Some (h ^ 3).
Proof. intros h Hh. repeat split; unfold h_conversion_factor; cbn; f_equal; field; assumption. Qed.
Theorem C43_equal_units_and_errors : forall v u1 u2 h,
  (In v variable_types -> (u1 = "absolute" \/ u1 = "relative") -> h_conversion_factor v u1 u1 h = Some 1) /\
  (h_conversion_factor v u1 u2 h = None <-> ~ In v variable_types \/ ~ (u1 = "absolute" \/ u1 = "relative") \/ ~ (u2 = "absolute" \/ u2 = "relative")).
Proof.
  intros v u1 u2 h. unfold h_conversion_factor.
  assert (U : forall u, h_unit_ok u = true <-> u = "absolute" \/ u = "relative") by (intro u; unfold h_unit_ok; rewrite orb_true_iff, !String.eqb_eq; tauto).
  assert (V : h_variables v <> None <-> In v variable_types).
  { unfold h_variables, variable_types. destruct (String.eqb_spec v "wavenumber") as [->|H1]; [cbn; intuition discriminate|]. destruct (String.eqb_spec v "distance") as [->|H2]; [cbn; intuition discriminate|].
    destruct (String.eqb_spec v "volume") as [->|H3]; [cbn; intuition discriminate|]. destruct (String.eqb_spec v "power") as [->|H4]; [cbn; intuition discriminate|]. cbn. intuition congruence. }
  split.
  - intros Hv Hu. apply U in Hu. rewrite Hu. cbn. apply V in Hv. destruct (h_variables v) as [[o e]|]; [|congruence]. now rewrite String.eqb_refl.
  - rewrite <- V, <- !U. destruct (h_unit_ok u1), (h_unit_ok u2); cbn; destruct (h_variables v) as [[o e]|]; try destruct (String.eqb u1 u2); try destruct (String.eqb u1 "absolute"); intuition congruence.
Qed.
Example C43_nonvacuous : In "volume" variable_types /\ h_conversion_factor "volume" "absolute" "parsec" 1 = None.
Proof. split; [cbn; tauto|reflexivity]. Qed.

Print Assumptions C32_storage_is_a_bijection.
Print Assumptions C35_trim_twice.
Print Assumptions C39_aligned_after_narrowing.
Print Assumptions C41_usedata_keeps_rows.
Print Assumptions C43_conversions_invert.
