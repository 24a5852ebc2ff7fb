(** * Proofs about measurements and PowerData *)
From Coq Require Import List Arith Bool ZArith Lia Sorting.Sorted.
From Verif Require Import M_Cov P_Cov P_CovTrim M_PowerData.
Import ListNotations.
Set Implicit Arguments.
Local Open Scope nat_scope.
Local Arguments condensed_to_full : simpl never.
Local Arguments triu : simpl never.

(** ** picking *)
Lemma pick_length (A : Type) mask : forall (l : list A), length mask = length l -> length (pick mask l) = length (filter (fun b : bool => b) mask).
Proof. induction mask as [|b mask IH]; intros [|x l] H; cbn in *; try lia. destruct b; cbn; rewrite IH; lia. Qed.
Lemma pick_app (A : Type) m1 m2 (l1 l2 : list A) : length m1 = length l1 -> pick (m1 ++ m2) (l1 ++ l2) = pick m1 l1 ++ pick m2 l2.
Proof. revert l1. induction m1 as [|b m1 IH]; intros [|x l1] H; cbn in *; try lia; [reflexivity|]. destruct b; cbn; rewrite IH; auto; lia. Qed.
Fixpoint offs (off : nat) (mask : list bool) : list nat := match mask with [] => [] | b :: m => if b then off :: offs (S off) m else offs (S off) m end.
Lemma pick_offs (A : Type) (d : A) mask : forall l, length mask = length l -> pick mask l = map (fun p => nth p l d) (offs 0 mask).
Proof.
  assert (G : forall mask l pre, length mask = length l -> pick mask l = map (fun p => nth p (pre ++ l) d) (offs (length pre) mask)).
  { induction mask0 as [|b mask0 IH]; intros [|x l] pre H; cbn in *; try lia; [reflexivity|].
    specialize (IH l (pre ++ [x])). rewrite app_length in IH. cbn in IH. rewrite Nat.add_1_r, <- app_assoc in IH. cbn in IH.
    destruct b; cbn; rewrite IH by lia; [|reflexivity]. f_equal. rewrite app_nth2, Nat.sub_diag by lia. reflexivity. }
  intros l H. exact (G mask l [] H).
Qed.
Lemma offs_posrec g coords : forall off, offs off (map g coords) = posrec off coords g.
Proof. induction coords as [|x l IH]; intro off; cbn; [reflexivity|]. destruct (g x); now rewrite IH. Qed.
Lemma offs_spec mask : forall off, offs off mask = filter (fun p => nth (p - off) mask false) (seq off (length mask)).
Proof.
  induction mask as [|b mask IH]; intro off; [reflexivity|]. cbn [offs length seq filter]. rewrite Nat.sub_diag. change (nth 0 (b :: mask) false) with b.
  assert (E : filter (fun p => nth (p - off) (b :: mask) false) (seq (S off) (length mask)) = filter (fun p => nth (p - S off) mask false) (seq (S off) (length mask))).
  { apply filter_ext_in. intros p Hp. apply in_seq in Hp. replace (p - off) with (S (p - S off)) by lia. reflexivity. }
  rewrite E, <- IH. destruct b; reflexivity.
Qed.
Lemma offs_length mask : forall off, length (offs off mask) = length (filter (fun b : bool => b) mask).
Proof. induction mask as [|b m IH]; intro off; cbn; [reflexivity|]. destruct b; cbn; now rewrite IH. Qed.

(** ** flat slices *)
Lemma flat_slices_eq sizes : forall acc, pairs (acc :: cumsum acc sizes) =
  match sizes with [] => [] | n :: r => (acc, acc + n) :: pairs ((acc + n) :: cumsum (acc + n) r) end.
Proof. intro acc. destruct sizes; reflexivity. Qed.
Lemma slices_pick (A : Type) (ls : list (list A)) : forall acc pre, length pre = acc ->
  map (slice (pre ++ concat ls)) (pairs (acc :: cumsum acc (map (@length A) ls))) = ls.
Proof.
  induction ls as [|l ls IH]; intros acc pre H; [reflexivity|]. cbn [map]. rewrite flat_slices_eq. cbn [map concat]. f_equal.
  - unfold slice. cbn [fst snd]. rewrite skipn_app, skipn_all2 by lia. rewrite H, Nat.sub_diag. cbn. replace (acc + length l - acc) with (length l) by lia.
    rewrite firstn_app, Nat.sub_diag, firstn_O, firstn_all. apply app_nil_r.
  - rewrite app_assoc. apply IH. rewrite app_length. lia.
Qed.
Lemma slices_length sizes : forall acc, length (pairs (acc :: cumsum acc sizes)) = length sizes.
Proof. induction sizes as [|n r IH]; intro acc; [reflexivity|]. rewrite flat_slices_eq. cbn. f_equal. apply IH. Qed.
Fixpoint total (l : list nat) : nat := match l with [] => 0 | x :: l' => x + total l' end.
(** every position of the combined vector lies in exactly one slice *)
Lemma slices_cover sizes : forall acc p, acc <= p < acc + total sizes ->
  exists i, i < length sizes /\ fst (nth i (pairs (acc :: cumsum acc sizes)) (0, 0)) <= p < snd (nth i (pairs (acc :: cumsum acc sizes)) (0, 0)) /\
    forall j, j < length sizes -> fst (nth j (pairs (acc :: cumsum acc sizes)) (0, 0)) <= p < snd (nth j (pairs (acc :: cumsum acc sizes)) (0, 0)) -> j = i.
Proof.
  assert (LO : forall sizes acc j, j < length sizes -> acc <= fst (nth j (pairs (acc :: cumsum acc sizes)) (0, 0))).
  { induction sizes0 as [|n r IH]; intros acc j Hj; cbn [length] in Hj; [lia|]. rewrite flat_slices_eq. destruct j as [|j]; cbn [nth fst]; [lia|]. specialize (IH (acc + n) j ltac:(lia)). lia. }
  induction sizes as [|n r IH]; intros acc p Hp; cbn [total] in Hp; [lia|]. rewrite flat_slices_eq.
  destruct (Nat.lt_ge_cases p (acc + n)) as [H|H].
  - exists 0. cbn [nth fst snd length]. split; [lia|]. split; [lia|]. intros [|j] Hj Hp'; [reflexivity|]. cbn [nth] in Hp'. specialize (LO r (acc + n) j ltac:(lia)). lia.
  - destruct (IH (acc + n) p ltac:(lia)) as [i [Hi [Hin Hu]]]. exists (S i). cbn [length nth]. split; [lia|]. split; [exact Hin|].
    intros [|j] Hj Hp'; cbn [nth fst snd] in Hp'; [lia|]. f_equal. apply Hu; [lia|exact Hp'].
Qed.

Section Data.
Variable X : Type.
Variable junk : nat -> nat -> X.
Variable one : X.
Notation cov := (cov X).
Notation meas := (meas X).
Notation pd := (pd X).

Lemma kmu_slices_flat (ts : list (list X * list X)) : forall acc, kmu_slices acc ts = pairs (acc :: cumsum acc (map (fun t => length (fst t)) ts)).
Proof. induction ts as [|t ts IH]; intro acc; cbn [kmu_slices map]; [reflexivity|]. rewrite flat_slices_eq. f_equal. apply IH. Qed.

(** ** a measurement *)
Lemma mask_col_len (A : Type) mask (l : list A) : length mask = length l -> mask_col mask l = Some (pick mask l).
Proof. intro H. unfold mask_col. now rewrite (proj2 (Nat.eqb_eq _ _) H). Qed.
Lemma opt_all_some (A B : Type) (g : A -> option B) (h : A -> B) l : (forall x, In x l -> g x = Some (h x)) -> opt_all (map g l) = Some (map h l).
Proof. apply opt_all_map. Qed.

(** ** alignment of PowerData *)
(** the k values of a measurement, when none is NaN *)
Definition nan_free (m : meas) (ks : list Z) : Prop := m_k m = map Some ks /\ length (m_power m) = length ks.
Fixpoint blocks (ls : list Z) (kss : list (list Z)) : list (Z * Z) :=
  match ls, kss with l :: ls', ks :: kss' => map (fun k => (l, k)) ks ++ blocks ls' kss' | _, _ => [] end.
(** the covariance has one row per input row of the measurements, block after block *)
Record aligned0 (ms : list meas) (c : cov) (kss : list (list Z)) : Prop := {
  al_wf : wf c;
  al_len : length (ccoords c) = cN c;
  al_sorted : lexsorted (ccoords c) = true;
  al_nan : Forall2 nan_free ms kss;
  al_labels : length (labels c) = length ms;
  al_coords : ccoords c = blocks (labels c) kss }.

Definition ikeep (m : meas) (k : Z) : bool := ge_lo (m_kmin m) k && le_hi (m_kmax m) k.
Lemma trim_idx_nan m ks : nan_free m ks -> trim_idx m = map (ikeep m) ks.
Proof. intros [H _]. unfold trim_idx. rewrite H, map_map. reflexivity. Qed.
Lemma rd_power_nan m ks : nan_free m ks -> rd_power m = Some (pick (map (ikeep m) ks) (m_power m)).
Proof. intro H. unfold rd_power. rewrite (trim_idx_nan H). apply mask_col_len. rewrite map_length. symmetry. apply H. Qed.
Lemma rd_k_nan m ks : nan_free m ks -> rd_k m = Some (map Some (pick (map (ikeep m) ks) ks)).
Proof.
  intro H. unfold rd_k. rewrite (trim_idx_nan H). destruct H as [H _]. rewrite H. rewrite mask_col_len by now rewrite !map_length. f_equal.
  generalize (ikeep m). clear H. intro g. induction ks as [|k ks IH]; cbn; [reflexivity|]. destruct (g k); cbn; rewrite IH by auto; reflexivity.
Qed.

Lemma kept_notin ls x : forall lo hi, ~ In (fst x) ls -> kept ls lo hi x = false.
Proof.
  induction ls as [|l ls IH]; intros [|a lo] [|b hi] H; cbn [kept]; auto. cbn in H. rewrite (proj2 (Z.eqb_neq (fst x) l)) by (intro; apply H; left; congruence). apply IH. tauto.
Qed.
Lemma blocks_mask : forall ls kss lo hi, NoDup ls -> length kss = length ls -> length lo = length ls -> length hi = length ls ->
  map (kept ls lo hi) (blocks ls kss) = concat (zip2 (fun ks ab => map (fun k => ge_lo (fst ab) k && le_hi (snd ab) k) ks) kss (combine lo hi)).
Proof.
  induction ls as [|l ls IH]; intros [|ks kss] [|a lo] [|b hi] ND H1 H2 H3; cbn in H1, H2, H3; try lia; [reflexivity|].
  inversion ND; subst. cbn [blocks combine zip2 concat]. rewrite map_app. f_equal.
  - rewrite map_map. apply map_ext. intro k. cbn. now rewrite Z.eqb_refl.
  - rewrite <- (IH kss lo hi) by (auto; lia). apply map_ext_in. intros [l' k'] Hin.
    assert (Hl : In l' ls). { clear -Hin. revert kss Hin. induction ls as [|l0 ls IH]; intros [|ks kss] Hin; cbn in Hin; try tauto. apply in_app_iff in Hin. destruct Hin as [Hin|Hin]; [left|right; eauto].
      apply in_map_iff in Hin. destruct Hin as [k [E _]]. congruence. }
    cbn. rewrite (proj2 (Z.eqb_neq l' l)); [reflexivity|]. intro; subst; contradiction.
Qed.
Lemma zss_NoDup l : StronglySorted Z.lt l -> NoDup l.
Proof. induction 1 as [|x l H IH F]; constructor; auto. intro Hin. rewrite Forall_forall in F. apply F in Hin. lia. Qed.

(** bounds currently set on the measurements *)
Definition los (ms : list meas) := map (@m_kmin X) ms.
Definition his (ms : list meas) := map (@m_kmax X) ms.
Definition fullpower (ms : list meas) := concat (map (@m_power X) ms).
Definition fullk (kss : list (list Z)) := concat kss.

Lemma nan_free_bounds m ks lo hi : nan_free m ks -> nan_free (mkMeas (m_k m) (m_power m) (m_error m) (m_mu m) lo hi) ks.
Proof. intros [H1 H2]. split; assumption. Qed.
Lemma Forall2_len (A B : Type) (P : A -> B -> Prop) a b : Forall2 P a b -> length a = length b.
Proof. induction 1; cbn; congruence. Qed.

Lemma combined_power_pick ms kss : Forall2 nan_free ms kss ->
  opt_concat (map (@rd_power X) ms) = Some (pick (concat (zip2 (fun ks ab => map (fun k => ge_lo (fst ab) k && le_hi (snd ab) k) ks) kss (combine (los ms) (his ms)))) (fullpower ms)).
Proof.
  intro H. unfold opt_concat. induction H as [|m ks ms kss H HF IH]; [reflexivity|]. cbn [map opt_all]. rewrite (rd_power_nan H).
  destruct (opt_all (map (@rd_power X) ms)) as [r|]; [|discriminate IH]. cbn in IH |- *. injection IH as IH. f_equal. rewrite IH. unfold fullpower. cbn [map concat].
  rewrite pick_app; [reflexivity|]. rewrite map_length. symmetry. apply H.
Qed.
Lemma combined_k_pick ms kss : Forall2 nan_free ms kss ->
  opt_concat (map (@rd_k X) ms) = Some (map Some (pick (concat (zip2 (fun ks ab => map (fun k => ge_lo (fst ab) k && le_hi (snd ab) k) ks) kss (combine (los ms) (his ms)))) (fullk kss))).
Proof.
  intro H. unfold opt_concat. induction H as [|m ks ms kss H HF IH]; [reflexivity|]. cbn [map opt_all]. rewrite (rd_k_nan H).
  destruct (opt_all (map (@rd_k X) ms)) as [r|]; [|discriminate IH]. cbn in IH |- *. injection IH as IH. f_equal. rewrite IH. unfold fullk. cbn [map concat].
  rewrite pick_app by now rewrite map_length. now rewrite map_app.
Qed.

(** ** setters *)
Lemma zip_set_length f ms : forall l, length l = length ms -> length (zip_set f ms l) = @length meas ms.
Proof. induction ms as [|m ms IH]; intros [|v l] H; cbn in *; try lia. rewrite IH; lia. Qed.
Lemma zip_set_nan (f : meas -> option Z -> meas) : (forall m v ks, nan_free m ks -> nan_free (f m v) ks) -> forall ms kss l, length l = length ms -> Forall2 nan_free ms kss -> Forall2 nan_free (zip_set f ms l) kss.
Proof. intros Hf ms kss l Hl H. revert l Hl. induction H as [|m ks ms kss H HF IH]; intros [|v l] Hl; cbn in *; try lia; constructor; auto. Qed.
Lemma zip_set_power (f : meas -> option Z -> meas) : (forall m v, m_power (f m v) = m_power m) -> forall ms l, length l = length ms -> map (@m_power X) (zip_set f ms l) = map (@m_power X) ms.
Proof. intros Hf ms. induction ms as [|m ms IH]; intros [|v l] H; cbn in *; try lia; [reflexivity|]. rewrite Hf, IH; auto. Qed.
Lemma zip_set_kmin_los ms : forall l, length l = length ms -> los (zip_set (@set_m_kmin X) ms l) = l /\ his (zip_set (@set_m_kmin X) ms l) = his ms.
Proof. induction ms as [|m ms IH]; intros [|v l] H; cbn in *; try lia; [auto|]. destruct (IH l) as [H1 H2]; [lia|]. unfold los, his in *. cbn. now rewrite H1, H2. Qed.
Lemma zip_set_kmax_los ms : forall l, length l = length ms -> los (zip_set (@set_m_kmax X) ms l) = los ms /\ his (zip_set (@set_m_kmax X) ms l) = l.
Proof. induction ms as [|m ms IH]; intros [|v l] H; cbn in *; try lia; [auto|]. destruct (IH l) as [H1 H2]; [lia|]. unfold los, his in *. cbn. now rewrite H1, H2. Qed.
Lemma expand_length n b l : expand n b = Some l -> length l = n.
Proof.
  destruct b as [v|l']; cbn; [intro H; injection H as <-; apply repeat_length|].
  destruct (Nat.eqb_spec (length l') n); [intro H; injection H as <-; assumption|]. destruct l' as [|v [|w l']]; try discriminate. intro H. injection H as <-. apply repeat_length.
Qed.
Lemma expand_many n l : length l = n -> expand n (Many l) = Some l.
Proof. intro H. cbn. now rewrite (proj2 (Nat.eqb_eq _ _) H). Qed.
Lemma zip_max_none n : forall l, length l = n -> zip2 max_lo l (repeat None n) = l.
Proof. induction n as [|n IH]; intros [|x l] H; cbn in *; try lia; [reflexivity|]. rewrite IH by lia. now destruct x. Qed.
Lemma zip_min_none n : forall l, length l = n -> zip2 min_hi l (repeat None n) = l.
Proof. induction n as [|n IH]; intros [|x l] H; cbn in *; try lia; [reflexivity|]. rewrite IH by lia. now destruct x. Qed.
Lemma none_zip_max n : forall l, length l = n -> zip2 max_lo (repeat None n) l = l.
Proof. induction n as [|n IH]; intros [|x l] H; cbn in *; try lia; [reflexivity|]. rewrite IH by lia. reflexivity. Qed.
Lemma none_zip_min n : forall l, length l = n -> zip2 min_hi (repeat None n) l = l.
Proof. induction n as [|n IH]; intros [|x l] H; cbn in *; try lia; [reflexivity|]. rewrite IH by lia. reflexivity. Qed.

(** the covariance is the initial one cut to bounds LO, HI *)
Definition cut (c0 c : cov) (LO HI : list (option Z)) : Prop :=
  (c = c0 /\ LO = repeat None (length (labels c0)) /\ HI = repeat None (length (labels c0))) \/ trim_k junk one c0 LO HI = Some c.
Lemma cut_labels c0 c LO HI : lexsorted (ccoords c0) = true -> cut c0 c LO HI -> labels c = labels c0 /\ length LO = length (labels c0) /\ length HI = length (labels c0).
Proof.
  intros Hl [[-> [-> ->]]|H]; [rewrite !repeat_length; auto|]. apply trim_k_iff in H. destruct H as [_ [H1 [H2 [H3 ->]]]]. split; [|auto]. now apply take_labels.
Qed.
Lemma cut_trim c0 c c' LO HI lo hi : wf c0 -> length (ccoords c0) = cN c0 -> lexsorted (ccoords c0) = true -> cut c0 c LO HI ->
  length lo = length (labels c0) -> length hi = length (labels c0) ->
  trim_k junk one c lo hi = Some c' -> cut c0 c' (zip2 max_lo LO lo) (zip2 min_hi HI hi).
Proof.
  intros Hw Hc Hl [[-> [-> ->]]|H] L1 L2 T.
  - right. rewrite none_zip_max, none_zip_min by assumption. exact T.
  - right. assert (H' := H). apply trim_k_iff in H'. destruct H' as [_ [H1 [H2 _]]]. rewrite <- (@trim_trim X junk one c0 c LO HI lo hi) by congruence. exact T.
Qed.
(** what a cut is, element by element *)
Lemma cut_values c0 c LO HI : wf c0 -> length (ccoords c0) = cN c0 -> lexsorted (ccoords c0) = true -> cut c0 c LO HI ->
  let idx := posrec 0 (ccoords c0) (kept (labels c0) LO HI) in
  cN c = length idx /\ ccoords c = map (fun p => nth p (ccoords c0) (0%Z, 0%Z)) idx /\
  forall i j, i < length idx -> j < length idx -> values junk c i j = values junk c0 (nth i idx 0) (nth j idx 0).
Proof.
  intros Hw Hc Hl H idx.
  assert (R : forall n, n < length idx -> nth n idx 0 < cN c0).
  { intros n Hn. rewrite <- Hc. change (length (ccoords c0)) with (0 + length (ccoords c0)). eapply posrec_lt. apply nth_In. exact Hn. }
  destruct H as [[-> [-> ->]]|H].
  - assert (E : idx = seq 0 (cN c0)).
    { unfold idx. rewrite (posrec_ext (ccoords c0) _ (fun _ => true)).
      - rewrite <- Hc. clear. generalize 0. induction (ccoords c0) as [|x l IH]; intro off; cbn; [reflexivity|]. now rewrite IH.
      - intros x Hx. assert (Hin : In (fst x) (labels c0)) by (apply labels_In; now apply in_map).
        clear -Hin. induction (labels c0) as [|l ls IH]; cbn in *; [tauto|]. destruct (Z.eqb_spec (fst x) l); [reflexivity|]. apply IH. destruct Hin; [congruence|assumption]. }
    rewrite E. rewrite seq_length. split; [reflexivity|]. split.
    + rewrite <- Hc. clear. generalize (0%Z, 0%Z) as d. intro d. apply nth_error_ext. intro s. rewrite nth_error_map. destruct (Nat.lt_ge_cases s (length (ccoords c0))) as [Hs|Hs].
      * rewrite P_Cov.nth_error_seq by exact Hs. cbn. rewrite (nth_error_nth' _ d Hs). reflexivity.
      * rewrite (proj2 (nth_error_None _ _) Hs). rewrite (proj2 (nth_error_None (seq 0 _) s)) by (rewrite seq_length; exact Hs). reflexivity.
    + intros i j Hi Hj. rewrite !seq_nth by assumption. reflexivity.
  - apply trim_k_iff in H. destruct H as [_ [_ [_ [_ ->]]]]. fold idx. split; [reflexivity|]. split; [reflexivity|].
    intros i j Hi Hj. unfold take. rewrite values_construct by assumption.
    destruct (Nat.le_ge_cases i j).
    + rewrite Nat.min_l, Nat.max_r by assumption. reflexivity.
    + rewrite Nat.min_r, Nat.max_l by assumption. apply values_sym; auto.
Qed.

Fixpoint prun (p : pd) (os : list pop) : option pd :=
  match os with [] => Some p | o :: os' => match pstep junk one p o with (p', true) => prun p' os' | _ => None end end.

(** bounds set by an operation, as expanded *)
Definition op_los (n : nat) (o : pop) : list (option Z) := match o with PKmin b => match expand n b with Some l => l | None => [] end | PKmax _ => repeat None n end.
Definition op_his (n : nat) (o : pop) : list (option Z) := match o with PKmax b => match expand n b with Some l => l | None => [] end | PKmin _ => repeat None n end.

(** invariant: measurements keep their inputs, covariance is cut to the running intersection *)
Record inv (ms0 : list meas) (c0 : cov) (kss : list (list Z)) (p : pd) (LO HI : list (option Z)) : Prop := {
  iv_nan : Forall2 nan_free (p_ms p) kss;
  iv_pow : map (@m_power X) (p_ms p) = map (@m_power X) ms0;
  iv_cut : cut c0 (p_cov p) LO HI }.

Lemma pstep_inv ms0 c0 kss p LO HI o p' : aligned0 ms0 c0 kss -> inv ms0 c0 kss p LO HI -> pstep junk one p o = (p', true) ->
  inv ms0 c0 kss p' (zip2 max_lo LO (op_los (length ms0) o)) (zip2 min_hi HI (op_his (length ms0) o)) /\
  los (p_ms p') = (match o with PKmin _ => op_los (length ms0) o | _ => los (p_ms p) end) /\
  his (p_ms p') = (match o with PKmax _ => op_his (length ms0) o | _ => his (p_ms p) end).
Proof.
  intros [Hw Hc Hl Hn HL HC] [I1 I2 I3] H.
  assert (Len : length (p_ms p) = length ms0). { apply (f_equal (@length _)) in I2. now rewrite !map_length in I2. }
  destruct (cut_labels Hl I3) as [EL [LL LH]].
  destruct o as [b|b]; cbn [pstep op_los op_his] in *; unfold set_kmin, set_kmax in H; rewrite Len in H; destruct (expand (length ms0) b) as [l|] eqn:E; try discriminate;
  assert (Hll := expand_length _ _ E); unfold trim_cov in H; rewrite EL in H; rewrite (expand_many l) in H by congruence; cbn [expand] in H;
  destruct (trim_k junk one (p_cov p) _ _) as [c|] eqn:T in H; try discriminate; injection H as <-; cbn [p_ms p_cov].
  - destruct (zip_set_kmin_los (p_ms p) l ltac:(congruence)) as [B1 B2]. split; [|auto]. constructor; cbn [p_ms p_cov].
    + apply zip_set_nan; [intros; now apply nan_free_bounds|congruence|exact I1].
    + rewrite zip_set_power; [exact I2|reflexivity|congruence].
    + assert (Q := cut_trim l (repeat None (length (labels c0))) Hw Hc Hl I3 ltac:(congruence) (repeat_length _ _) T). rewrite HL in Q. exact Q.
  - destruct (zip_set_kmax_los (p_ms p) l ltac:(congruence)) as [B1 B2]. split; [|auto]. constructor; cbn [p_ms p_cov].
    + apply zip_set_nan; [intros; now apply nan_free_bounds|congruence|exact I1].
    + rewrite zip_set_power; [exact I2|reflexivity|congruence].
    + assert (Q := cut_trim (repeat None (length (labels c0))) l Hw Hc Hl I3 (repeat_length _ _) ltac:(congruence) T). rewrite HL in Q. exact Q.
Qed.

(** narrowing: every set bound is at least as tight as the bound in force *)
Definition le_lo (a b : option Z) : Prop := match a, b with None, _ => True | Some _, None => False | Some x, Some y => (x <= y)%Z end.
Definition ge_hi (a b : option Z) : Prop := match a, b with None, _ => True | Some _, None => False | Some x, Some y => (y <= x)%Z end.
Definition narrows (p : pd) (o : pop) : Prop :=
  match o with
  | PKmin b => exists l, expand (length (p_ms p)) b = Some l /\ Forall2 le_lo (los (p_ms p)) l
  | PKmax b => exists l, expand (length (p_ms p)) b = Some l /\ Forall2 ge_hi (his (p_ms p)) l
  end.
Inductive narrow_run : pd -> list pop -> pd -> Prop :=
| nr_nil p : narrow_run p [] p
| nr_cons p o p' os p'' : narrows p o -> pstep junk one p o = (p', true) -> narrow_run p' os p'' -> narrow_run p (o :: os) p''.
Lemma max_le a b : Forall2 le_lo a b -> zip2 max_lo a b = b.
Proof. induction 1 as [|x y a b H HF IH]; cbn; [reflexivity|]. rewrite IH. f_equal. destruct x, y; cbn in *; try reflexivity; try tauto. f_equal. lia. Qed.
Lemma min_ge a b : Forall2 ge_hi a b -> zip2 min_hi a b = b.
Proof. induction 1 as [|x y a b H HF IH]; cbn; [reflexivity|]. rewrite IH. f_equal. destruct x, y; cbn in *; try reflexivity; try tauto. f_equal. lia. Qed.

Lemma narrow_inv ms0 c0 kss p os p' : aligned0 ms0 c0 kss -> inv ms0 c0 kss p (los (p_ms p)) (his (p_ms p)) -> narrow_run p os p' ->
  inv ms0 c0 kss p' (los (p_ms p')) (his (p_ms p')).
Proof.
  intros Ha Hi Hr. induction Hr as [p|p o p' os p'' Hn Hs Hr IH]; [exact Hi|]. apply IH. clear IH Hr.
  destruct (pstep_inv _ Ha Hi Hs) as [I [B1 B2]]. rewrite B1, B2.
  assert (Len : length (p_ms p) = length ms0). { destruct Hi as [_ E _]. apply (f_equal (@length _)) in E. now rewrite !map_length in E. }
  destruct o as [b|b]; destruct Hn as [l [E F]]; rewrite Len in E; cbn [op_los op_his] in *; rewrite E in *.
  - rewrite max_le in I by exact F. rewrite zip_min_none in I by (unfold his; rewrite map_length; exact Len). exact I.
  - rewrite min_ge in I by exact F. rewrite zip_max_none in I by (unfold los; rewrite map_length; exact Len). exact I.
Qed.
Lemma inv_start ms0 c0 kss e : aligned0 ms0 c0 kss -> los ms0 = repeat None (length ms0) -> his ms0 = repeat None (length ms0) ->
  inv ms0 c0 kss (mkPd ms0 c0 e) (los ms0) (his ms0).
Proof. intros [Hw Hc Hl Hn HL HC] H1 H2. constructor; cbn; auto. left. now rewrite H1, H2, HL. Qed.

(** the aligned view: one list of original row numbers describes data vector and covariance alike *)
Lemma inv_aligned ms0 c0 kss p : aligned0 ms0 c0 kss -> inv ms0 c0 kss p (los (p_ms p)) (his (p_ms p)) -> forall d,
  exists idx, StronglySorted lt idx /\ Forall (fun i => i < cN c0) idx /\
    combined_power p = Some (map (fun i => nth i (fullpower ms0) d) idx) /\
    combined_k p = Some (map (fun i => Some (snd (nth i (ccoords c0) (0%Z, 0%Z)))) idx) /\
    cN (p_cov p) = length idx /\ ccoords (p_cov p) = map (fun i => nth i (ccoords c0) (0%Z, 0%Z)) idx /\
    forall i j, i < length idx -> j < length idx -> values junk (p_cov p) i j = values junk c0 (nth i idx 0) (nth j idx 0).
Proof.
  intros Ha Hi d. destruct Ha as [Hw Hc Hl Hn HL HC]. destruct Hi as [I1 I2 I3].
  assert (Len : length (p_ms p) = length ms0). { apply (f_equal (@length _)) in I2. now rewrite !map_length in I2. }
  destruct (cut_values Hw Hc Hl I3) as [V1 [V2 V3]]. set (idx := posrec 0 (ccoords c0) (kept (labels c0) (los (p_ms p)) (his (p_ms p)))) in *.
  assert (Lk : length kss = length ms0) by (symmetry; eapply Forall2_len; exact Hn).
  assert (M : map (kept (labels c0) (los (p_ms p)) (his (p_ms p))) (ccoords c0) = concat (zip2 (fun ks ab => map (fun k => ge_lo (fst ab) k && le_hi (snd ab) k) ks) kss (combine (los (p_ms p)) (his (p_ms p))))).
  { transitivity (map (kept (labels c0) (los (p_ms p)) (his (p_ms p))) (blocks (labels c0) kss)); [congruence|]. apply blocks_mask; [apply zss_NoDup, labels_sorted; exact Hl|congruence|unfold los; rewrite map_length; congruence|unfold his; rewrite map_length; congruence]. }
  assert (SS : StronglySorted lt idx) by (unfold idx; rewrite <- positions_posrec; apply ss_filter_seq).
  exists idx. split; [exact SS|]. split.
  { apply Forall_forall. intros q Hq. rewrite <- Hc. change (length (ccoords c0)) with (0 + length (ccoords c0)). eapply posrec_lt. exact Hq. }
  assert (LP : length (fullpower ms0) = length (ccoords c0) /\ length (fullk kss) = length (ccoords c0) /\ fullk kss = map snd (ccoords c0)).
  { rewrite HC. assert (LL : length (labels c0) = length kss) by congruence. clear -Hn LL. revert LL. generalize (labels c0). unfold fullpower, fullk.
    induction Hn as [|m ks ms kss H HF IH]; intros [|l ls] LL; cbn in *; try lia; [auto|]. destruct (IH ls ltac:(lia)) as [E1 [E2 E3]]. rewrite !app_length, map_app, !map_length, map_map.
    split; [rewrite E1; f_equal; apply H|]. split; [now rewrite E2|]. cbn. rewrite map_id. now f_equal. }
  destruct LP as [LP1 [LP2 LP3]].
  split; [|split].
  - unfold combined_power. rewrite (combined_power_pick I1). f_equal. unfold fullpower at 1. rewrite I2. fold (fullpower ms0).
    rewrite <- M, (pick_offs d) by (rewrite map_length; congruence). now rewrite offs_posrec.
  - unfold combined_k. rewrite (combined_k_pick I1). f_equal. rewrite <- M, (pick_offs 0%Z) by (rewrite map_length; congruence). rewrite offs_posrec. fold idx.
    rewrite map_map. apply map_ext_in. intros q Hq. rewrite LP3. f_equal. apply nth_map_lt. change (length (ccoords c0)) with (0 + length (ccoords c0)). eapply posrec_lt. exact Hq.
  - split; [exact V1|]. split; [exact V2|exact V3].
Qed.
End Data.
