(** * More proofs: errors from the covariance, usedata, text files, units *)
From Coq Require Import List Arith Bool ZArith Lia Sorting.Sorted.
From Verif Require Import M_Cov P_Cov P_CovTrim M_PowerData P_PowerData.
Import ListNotations.
Set Implicit Arguments.
Local Open Scope nat_scope.
Local Arguments condensed_to_full : simpl never.
Local Arguments triu : simpl never.

Lemma nth_concat_eq (A : Type) (d : A) n (ls : list (list A)) : Forall (fun l => length l = n) ls ->
  forall j i, j < length ls -> i < n -> nth (j * n + i) (concat ls) d = nth i (nth j ls []) d.
Proof.
  induction 1 as [|l ls H HF IH]; intros j i Hj Hi; cbn in Hj; [lia|]. cbn [concat]. destruct j as [|j]; cbn [nth].
  - cbn. apply app_nth1. lia.
  - rewrite app_nth2 by lia. replace (S j * n + i - length l) with (j * n + i) by lia. apply IH; lia.
Qed.
Lemma map_nth_seq (A : Type) (d : A) (l : list A) n : length l = n -> map (fun i => nth i l d) (seq 0 n) = l.
Proof.
  intros <-. apply nth_error_ext. intro s. rewrite nth_error_map. destruct (Nat.lt_ge_cases s (length l)) as [Hs|Hs].
  - rewrite P_Cov.nth_error_seq by exact Hs. cbn. symmetry. now apply nth_error_nth'.
  - rewrite (proj2 (nth_error_None _ _) Hs). rewrite (proj2 (nth_error_None (seq 0 _) s)) by (rewrite seq_length; exact Hs). reflexivity.
Qed.

Section Data.
Variable X : Type.
Variable junk : nat -> nat -> X.
Variable one : X.
Notation cov := (cov X).
Notation meas := (meas X).
Notation pd := (pd X).

(** ** set_errors_from_cov *)
Variable sqrtx : X -> X.
Lemma errs_from_eq n vars ms : (forall m, In m ms -> rd_size m = Some n) -> forall i0,
  exists ms', errs_from sqrtx vars i0 ms = Some ms' /\ length ms' = length ms /\
    forall i (d : meas), i < length ms -> nth i ms' d = set_m_error (nth i ms d) (Col (map sqrtx (slice vars (n * (i0 + i), n * (i0 + i + 1))))).
Proof.
  induction ms as [|m ms IH]; intros H i0; cbn [errs_from]; [exists []; repeat split; cbn; intros; lia|].
  rewrite (H m) by now left. destruct (IH (fun m' Hm => H m' (or_intror Hm)) (S i0)) as [ms' [E [L N]]]. rewrite E. eexists. split; [reflexivity|]. split; [cbn; congruence|].
  intros [|i] d Hi; cbn [nth]; [now rewrite Nat.add_0_r|]. cbn in Hi. rewrite N by lia. now replace (S i0 + i) with (i0 + S i) by lia.
Qed.
Lemma slice_block (A : Type) (l : list A) n i m : length l = n * m -> i < m -> length (slice l (n * i, n * (i + 1))) = n /\
  forall j d, j < n -> nth j (slice l (n * i, n * (i + 1))) d = nth (n * i + j) l d.
Proof.
  intros H Hi. unfold slice. cbn [fst snd]. replace (n * (i + 1) - n * i) with n by lia. split.
  - rewrite firstn_length, skipn_length. rewrite H. assert (n * (i + 1) <= n * m) by (apply Nat.mul_le_mono_l; lia). lia.
  - intros j d Hj. rewrite <- (firstn_skipn (n * i) l) at 2. rewrite app_nth2; rewrite firstn_length; assert (n * (i + 1) <= n * m) by (apply Nat.mul_le_mono_l; lia); [|lia].
    replace (n * i + j - Nat.min (n * i) (length l)) with j by lia. rewrite <- (firstn_skipn n (skipn (n * i) l)) at 2. rewrite app_nth1; [reflexivity|]. rewrite firstn_length, skipn_length. lia.
Qed.
(** k limits not set, no NaN: the size is the number of input rows *)
Lemma size_full (m : meas) ks : nan_free m ks -> m_kmin m = None -> m_kmax m = None -> rd_size m = Some (length ks).
Proof.
  intros H H1 H2. unfold rd_size. rewrite (rd_k_nan H). cbn. rewrite map_length. f_equal. rewrite pick_length by now rewrite map_length.
  unfold ikeep. rewrite H1, H2. cbn. clear. induction ks as [|k ks IH]; cbn; congruence.
Qed.
Theorem errors_from_cov (p : pd) kss n : wf (p_cov p) -> cN (p_cov p) = n * length (p_ms p) ->
  Forall2 (@nan_free X) (p_ms p) kss -> Forall (fun ks => length ks = n) kss ->
  Forall (fun m => m_kmin m = None /\ m_kmax m = None) (p_ms p) ->
  exists p', set_errors_from_cov sqrtx p = Some p' /\ length (p_ms p') = length (p_ms p) /\
    forall i (d : meas), i < length (p_ms p) -> exists e, rd_error (nth i (p_ms p') d) = Some (Col e) /\ length e = n /\
      forall j x, j < n -> nth j e x = sqrtx (values junk (p_cov p) (n * i + j) (n * i + j)).
Proof.
  intros Hw HN HF Hn Hb. unfold set_errors_from_cov. rewrite (diag_values junk Hw). set (v := map _ _).
  assert (Lv : length v = n * length (p_ms p)) by (unfold v; rewrite map_length, seq_length; exact HN).
  assert (Sz : forall m, In m (p_ms p) -> rd_size m = Some n /\ exists ks, nan_free m ks /\ length ks = n /\ m_kmin m = None /\ m_kmax m = None).
  { clear -HF Hn Hb. induction HF as [|m0 ks ms kss H HF IH]; intros m Hm; [destruct Hm|]. inversion Hn; subst. inversion Hb; subst. destruct Hm as [<-|Hm]; [|now apply IH].
    split; [apply size_full; tauto|]. exists ks. tauto. }
  destruct (errs_from_eq (n:=n) v (p_ms p) (fun m Hm => proj1 (Sz m Hm)) 0) as [ms' [E [L N]]]. rewrite E. cbn. eexists. split; [reflexivity|]. split; [exact L|]. cbn [p_ms].
  intros i d Hi. rewrite N by exact Hi. cbn [Nat.add]. destruct (slice_block v n Lv Hi) as [S1 S2].
  destruct (Sz (nth i (p_ms p) d) (nth_In _ _ Hi)) as [_ [ks [Hk [Hkl [B1 B2]]]]].
  exists (map sqrtx (slice v (n * i, n * (i + 1)))). split; [|split].
  - unfold rd_error. cbn [set_m_error m_error]. assert (T : trim_idx (set_m_error (nth i (p_ms p) d) (Col (map sqrtx (slice v (n * i, n * (i + 1)))))) = map (fun _ => true) ks).
    { unfold trim_idx. cbn. rewrite B1, B2. destruct Hk as [-> _]. rewrite map_map. reflexivity. }
    rewrite T, mask_col_len by (rewrite !map_length; lia). cbn [option_map]. do 2 f_equal.
    assert (Hl : length ks = length (map sqrtx (slice v (n * i, n * (i + 1))))) by (rewrite map_length; lia). revert Hl. generalize (map sqrtx (slice v (n * i, n * (i + 1)))). clear.
    induction ks as [|k ks IH]; intros [|x l] H; cbn in *; try lia; [reflexivity|]. rewrite IH; auto.
  - now rewrite map_length.
  - intros j x Hj. rewrite (nth_map_lt sqrtx _ x (sqrtx x)) by lia. f_equal. rewrite S2 by exact Hj.
    assert (n * i + j < cN (p_cov p)). { rewrite HN. assert (n * (i + 1) <= n * length (p_ms p)) by (apply Nat.mul_le_mono_l; lia). lia. }
    unfold v. rewrite (nth_map_lt _ _ (sqrtx x) 0) by (rewrite seq_length; assumption). now rewrite seq_nth by assumption.
Qed.

End Data.
Section Use.
Variable X : Type.
Variable junk : nat -> nat -> X.
Variable one : X.
Notation cov := (cov X).
Notation meas := (meas X).
Notation pd := (pd X).
(** ** usedata *)
Lemma take_values (c : cov) g : wf c -> length (ccoords c) = cN c ->
  let idx := posrec 0 (ccoords c) g in let c' := take junk one c idx in
  wf c' /\ cN c' = length idx /\ ccoords c' = filter g (ccoords c) /\ length (ccoords c') = cN c' /\
  forall i j, i < length idx -> j < length idx -> values junk c' i j = values junk c (nth i idx 0) (nth j idx 0).
Proof.
  intros Hw Hc idx c'. split; [apply construct_wf|]. split; [reflexivity|].
  split; [unfold c', idx; cbn; rewrite <- positions_posrec; apply positions_map|]. split; [unfold c'; cbn; now rewrite map_length|].
  assert (R : forall n, n < length idx -> nth n idx 0 < cN c).
  { intros n Hn. rewrite <- Hc. change (length (ccoords c)) with (0 + length (ccoords c)). eapply posrec_lt. apply nth_In. exact Hn. }
  intros i j Hi Hj. unfold c', take. rewrite values_construct by assumption.
  destruct (Nat.le_ge_cases i j).
  - rewrite Nat.min_l, Nat.max_r by assumption. reflexivity.
  - rewrite Nat.min_r, Nat.max_l by assumption. apply values_sym; auto.
Qed.
Lemma sel_labels_take (c : cov) ls : lexsorted (ccoords c) = true ->
  sel_labels junk one c ls = Some (take junk one c (posrec 0 (ccoords c) (fun x => existsb (Z.eqb (fst x)) ls))).
Proof.
  intro H. unfold sel_labels. rewrite H. f_equal. f_equal. rewrite <- positions_posrec. unfold positions. apply filter_ext. intro p. unfold keepp. destruct (nth_error (ccoords c) p) as [[l k]|]; reflexivity.
Qed.
Definition usemask (n : nat) (used : list Z) : list bool := map (fun i => existsb (Z.eqb (Z.of_nat i)) used) (seq 0 n).
Lemma enum_filter_pick (used : list Z) : forall (ms : list meas) i, enum_filter i used ms = pick (map (fun i => existsb (Z.eqb (Z.of_nat i)) used) (seq i (length ms))) ms.
Proof. induction ms as [|m ms IH]; intro i; cbn; [reflexivity|]. destruct (existsb _ _); now rewrite IH. Qed.
Lemma py_nth_in (A : Type) (l : list A) u d : (0 <= u < Z.of_nat (length l))%Z -> py_nth l u = Some (nth (Z.to_nat u) l d).
Proof. intro H. unfold py_nth. rewrite (proj2 (Z.ltb_ge u 0)) by lia. rewrite (proj2 (Z.ltb_ge u 0)) by lia. apply nth_error_nth'. lia. Qed.
Lemma opt_all_nth (A : Type) (l : list A) used d : Forall (fun u => 0 <= u < Z.of_nat (length l))%Z used -> opt_all (map (py_nth l) used) = Some (map (fun u => nth (Z.to_nat u) l d) used).
Proof. intro H. apply opt_all_some. intros u Hu. apply py_nth_in. rewrite Forall_forall in H. now apply H. Qed.
Lemma label_mask (ls : list Z) used : NoDup ls -> Forall (fun u => 0 <= u < Z.of_nat (length ls))%Z used ->
  map (fun l => existsb (Z.eqb l) (map (fun u => nth (Z.to_nat u) ls 0%Z) used)) ls = usemask (length ls) used.
Proof.
  intros ND HU. unfold usemask. set (g := fun l => existsb _ _). transitivity (map g (map (fun i => nth i ls 0%Z) (seq 0 (length ls)))); [now rewrite (map_nth_seq 0%Z ls eq_refl)|]. unfold g. rewrite map_map. apply map_ext_in. intros i Hi. apply in_seq in Hi.
  rewrite Forall_forall in HU. apply eq_true_iff_eq. rewrite !existsb_exists. split.
  - intros [l [Hl E]]. apply Z.eqb_eq in E. subst l. apply in_map_iff in Hl. destruct Hl as [u [Eu Hu]]. exists u. split; [exact Hu|]. apply Z.eqb_eq. specialize (HU u Hu).
    assert (Z.to_nat u = i). { eapply (proj1 (NoDup_nth ls 0%Z) ND); [lia|lia|exact Eu]. } lia.
  - intros [u [Hu E]]. apply Z.eqb_eq in E. subst u. exists (nth i ls 0%Z). split; [|apply Z.eqb_refl]. apply in_map_iff. exists (Z.of_nat i). split; [now rewrite Nat2Z.id|exact Hu].
Qed.
Lemma pick_filter (A : Type) (g : A -> bool) l : pick (map g l) l = filter g l.
Proof. induction l as [|x l IH]; cbn; [reflexivity|]. destruct (g x); now rewrite IH. Qed.
Lemma blocks_filter (g : Z -> bool) : forall ls kss, length ls = length kss -> filter (fun x => g (fst x)) (blocks ls kss) = blocks (filter g ls) (pick (map g ls) kss).
Proof.
  induction ls as [|l ls IH]; intros [|ks kss] H; cbn in H; try lia; [reflexivity|]. cbn [blocks map pick filter]. rewrite filter_app, IH by lia.
  assert (E : filter (fun x => g (fst x)) (map (fun k => (l, k)) ks) = if g l then map (fun k => (l, k)) ks else []).
  { clear. induction ks as [|k ks IH]; cbn; [destruct (g l); reflexivity|]. rewrite IH. destruct (g l); reflexivity. }
  rewrite E. destruct (g l); reflexivity.
Qed.
Lemma blocks_mask_label (g : Z -> bool) : forall ls kss, length ls = length kss -> map (fun x => g (fst x)) (blocks ls kss) = concat (zip2 (fun (b : bool) (ks : list Z) => map (fun _ => b) ks) (map g ls) kss).
Proof.
  induction ls as [|l ls IH]; intros [|ks kss] H; cbn in H; try lia; [reflexivity|]. cbn [blocks map zip2 concat]. rewrite map_app, IH by lia. f_equal. rewrite map_map. reflexivity.
Qed.
Lemma pick_const (A B : Type) (b : bool) : forall (ks : list A) (l : list B), length l = length ks -> pick (map (fun _ => b) ks) l = if b then l else [].
Proof. induction ks as [|k ks IH]; intros [|x l] H; cbn in *; try lia; [destruct b; reflexivity|]. rewrite IH by lia. destruct b; reflexivity. Qed.
Lemma fullpower_pick (ms : list meas) kss : Forall2 (@nan_free X) ms kss -> forall U, length U = length ms ->
  fullpower (pick U ms) = pick (concat (zip2 (fun (b : bool) (ks : list Z) => map (fun _ => b) ks) U kss)) (fullpower ms) /\ Forall2 (@nan_free X) (pick U ms) (pick U kss).
Proof.
  unfold fullpower. induction 1 as [|m ks ms kss H HF IH]; intros [|b U] HU; cbn in HU; try lia; [cbn; auto|]. destruct (IH U ltac:(lia)) as [I1 I2].
  cbn [pick map zip2 concat]. rewrite pick_app by (rewrite map_length; symmetry; apply H). rewrite pick_const by apply H. destruct b; cbn; rewrite I1; auto.
Qed.
Lemma labels_filter (c : cov) (g : Z -> bool) : lexsorted (ccoords c) = true ->
  labels (take junk one c (posrec 0 (ccoords c) (fun x => g (fst x)))) = filter g (labels c).
Proof.
  intro Hl. assert (Ec : ccoords (take junk one c (posrec 0 (ccoords c) (fun x => g (fst x)))) = filter (fun x => g (fst x)) (ccoords c)) by (cbn; rewrite <- positions_posrec; apply positions_map).
  apply zss_ext.
  - apply labels_sorted. rewrite Ec. now apply lexsorted_filter.
  - assert (S := labels_sorted c Hl). clear -S. induction S as [|x l S IH F]; cbn; [constructor|]. destruct (g x); [|exact IH]. constructor; [exact IH|].
    apply Forall_forall. intros y Hy. apply filter_In in Hy. rewrite Forall_forall in F. now apply F.
  - intro l. rewrite labels_In, Ec, filter_In, labels_In. rewrite !in_map_iff. split.
    + intros [x [<- Hx]]. apply filter_In in Hx. split; [exists x; tauto|tauto].
    + intros [[x [<- Hx]] Hg]. exists x. split; [reflexivity|]. apply filter_In. auto.
Qed.

(** all selections in range: covariance, measurements and rows stay together *)
Theorem slice_data_aligned (p : pd) kss used : aligned0 (p_ms p) (p_cov p) kss ->
  Forall (fun u => 0 <= u < Z.of_nat (length (p_ms p)))%Z used ->
  match p_ells p with Some e => length e = length (p_ms p) | None => True end ->
  let U := usemask (length (p_ms p)) used in
  exists p', slice_data junk one p used = Some p' /\ p_ms p' = pick U (p_ms p) /\ aligned0 (p_ms p') (p_cov p') (pick U kss) /\
    p_ells p' = option_map (fun e => map (fun u => nth (Z.to_nat u) e 0%Z) used) (p_ells p) /\
    forall d, exists idx, StronglySorted lt idx /\ Forall (fun i => i < cN (p_cov p)) idx /\ cN (p_cov p') = length idx /\
      fullpower (p_ms p') = map (fun i => nth i (fullpower (p_ms p)) d) idx /\
      ccoords (p_cov p') = map (fun i => nth i (ccoords (p_cov p)) (0%Z, 0%Z)) idx /\
      forall i j, i < length idx -> j < length idx -> values junk (p_cov p') i j = values junk (p_cov p) (nth i idx 0) (nth j idx 0).
Proof.
  intros Ha HU He U. destruct Ha as [Hw Hc Hl Hn HL HC].
  assert (HU' : Forall (fun u => 0 <= u < Z.of_nat (length (labels (p_cov p))))%Z used) by (rewrite HL; exact HU).
  assert (ND : NoDup (labels (p_cov p))) by (apply zss_NoDup, labels_sorted; exact Hl).
  unfold slice_data. rewrite (opt_all_nth _ 0%Z HU'). set (trim := map (fun u => nth (Z.to_nat u) (labels (p_cov p)) 0%Z) used).
  rewrite sel_labels_take by exact Hl. set (g := fun l => existsb (Z.eqb l) trim).
  assert (EM : map g (labels (p_cov p)) = U). { unfold g, trim, U. rewrite label_mask by assumption. now rewrite HL. }
  change (fun x : Z * Z => existsb (Z.eqb (fst x)) trim) with (fun x : Z * Z => g (fst x)).
  assert (Ee : (match p_ells p with None => Some None | Some v => if Nat.eqb (length v) (length (p_ms p)) then option_map Some (opt_all (map (py_nth v) used)) else Some (Some v) end)
     = Some (option_map (fun e => map (fun u => nth (Z.to_nat u) e 0%Z) used) (p_ells p))).
  { destruct (p_ells p) as [e|]; [|reflexivity]. rewrite (proj2 (Nat.eqb_eq _ _) He). rewrite (opt_all_nth e 0%Z) by (rewrite He; exact HU). reflexivity. }
  rewrite Ee. eexists. split; [reflexivity|]. cbn [p_ms p_cov p_ells].
  assert (Lk : length kss = length (p_ms p)) by (symmetry; eapply Forall2_len; exact Hn).
  assert (Lu : length U = length (p_ms p)) by (unfold U, usemask; rewrite map_length, seq_length; reflexivity).
  destruct (fullpower_pick Hn U Lu) as [FP NF].
  assert (Ems : enum_filter 0 used (p_ms p) = pick U (p_ms p)) by apply enum_filter_pick.
  rewrite Ems. split; [reflexivity|].
  destruct (take_values (c:=p_cov p) (fun x => g (fst x)) Hw Hc) as [T1 [T2 [T3 [T4 T5]]]].
  split; [|split; [reflexivity|]].
  - constructor.
    + exact T1.
    + exact T4.
    + rewrite T3. now apply lexsorted_filter.
    + exact NF.
    + rewrite labels_filter by exact Hl. rewrite <- EM. rewrite <- (pick_filter g). rewrite EM. rewrite !pick_length by congruence. reflexivity.
    + rewrite T3, labels_filter by exact Hl. rewrite HC at 1. rewrite blocks_filter by congruence. now rewrite EM.
  - intro d. exists (posrec 0 (ccoords (p_cov p)) (fun x => g (fst x))). split; [rewrite <- positions_posrec; apply ss_filter_seq|].
    split; [apply Forall_forall; intros q Hq; rewrite <- Hc; change (length (ccoords (p_cov p))) with (0 + length (ccoords (p_cov p))); eapply posrec_lt; exact Hq|].
    split; [exact T2|]. split; [|split; [reflexivity|exact T5]].
    rewrite FP. rewrite <- EM, <- blocks_mask_label, <- HC by congruence. rewrite (pick_offs d), offs_posrec; [reflexivity|].
    rewrite map_length, HC. assert (LL : length (labels (p_cov p)) = length kss) by congruence. clear -Hn LL. revert LL. generalize (labels (p_cov p)). unfold fullpower.
    induction Hn as [|m ks ms kss H HF IH]; intros [|l ls] LL; cbn in *; try lia. rewrite !app_length, map_length, (IH ls) by lia. f_equal. symmetry. apply H.
Qed.

End Use.
Section Text.
Variable X : Type.
(** ** text files *)
Variable rnd : X -> X.
Variable d : X.
Definition well_shaped (n nc : nat) (ms : list (list (list X))) : Prop := Forall (fun m => length m = nc /\ Forall (fun c => length c = n) m) ms.
Theorem plaintext_roundtrip (ms : list (list (list X))) n nc : ms <> [] -> 0 < nc -> well_shaped n nc ms ->
  exists f, to_plaintext rnd ms d = Some f /\ from_plaintext f d = map (map (map rnd)) ms.
Proof.
  intros Hne Hnc Hs. destruct ms as [|m0 ms0] eqn:E; [congruence|]. rewrite <- E in *. 
  assert (H0 : length m0 = nc /\ Forall (fun c => length c = n) m0) by (rewrite E in Hs; inversion Hs; assumption).
  assert (Hn0 : match m0 with c :: _ => length c | [] => 0 end = n). { destruct m0 as [|c m0']; [cbn in H0; lia|]. destruct H0 as [_ F]. now inversion F. }
  assert (Hf : forallb (fun m => Nat.eqb (length m) nc && forallb (fun c => Nat.eqb (length c) n) m) ms = true).
  { apply forallb_forall. intros m Hm. unfold well_shaped in Hs. rewrite Forall_forall in Hs. destruct (Hs m Hm) as [A B]. apply andb_true_iff. split; [now apply Nat.eqb_eq|].
    apply forallb_forall. intros c Hc. rewrite Forall_forall in B. apply Nat.eqb_eq. now apply B. }
  unfold to_plaintext. rewrite E. rewrite <- E. rewrite Hn0. rewrite (proj1 H0). rewrite Hf. eexists. split; [reflexivity|].
  unfold from_plaintext. unfold ravelF. rewrite concat_map, map_map.
  rewrite <- (map_nth_seq [] (map (map (map rnd)) ms) (n := length ms)) by now rewrite map_length.
  apply map_ext_in. intros j Hj. apply in_seq in Hj.
  assert (Hm : length (nth j ms []) = nc /\ Forall (fun c => length c = n) (nth j ms [])).
  { unfold well_shaped in Hs. rewrite Forall_forall in Hs. apply Hs. apply nth_In. lia. }
  assert (Hjl : j < length ms) by lia. rewrite (nth_map_lt (map (map rnd)) ms [] [] Hjl).
  rewrite <- (map_nth_seq [] (map (map rnd) (nth j ms [])) (n := nc)) by (rewrite map_length; tauto).
  apply map_ext_in. intros c Hc. apply in_seq in Hc. unfold reshapeF.
  rewrite (nth_map_lt _ (seq 0 (length ms)) [] 0) by (rewrite seq_length; lia). rewrite seq_nth by lia. cbn [Nat.add].
  assert (Hcl : c < length (nth j ms [])) by lia. rewrite (nth_map_lt (map rnd) (nth j ms []) [] [] Hcl).
  assert (Lc : length (nth c (nth j ms []) []) = n). { destruct Hm as [Hm1 Hm2]. rewrite Forall_forall in Hm2. apply Hm2. apply nth_In. lia. }
  rewrite <- (map_nth_seq d (map rnd (nth c (nth j ms []) [])) (n := n)) by (rewrite map_length; exact Lc).
  apply map_ext_in. intros i Hi. apply in_seq in Hi. rewrite concat_map, map_map.
  rewrite (@nth_concat_eq X d n).
  - rewrite (nth_map_lt _ ms [] [] Hjl). unfold record_cols. rewrite !map_map. rewrite (nth_map_lt _ (seq 0 n) d 0) by (rewrite seq_length; lia). rewrite seq_nth by lia. cbn [Nat.add].
    rewrite map_map. rewrite (nth_map_lt _ (nth j ms []) d []) by lia. rewrite (nth_map_lt rnd _ d d) by lia. reflexivity.
  - apply Forall_forall. intros l Hl. apply in_map_iff in Hl. destruct Hl as [m [<- Hm']]. unfold record_cols. now rewrite !map_length, seq_length.
  - rewrite map_length. lia.
  - lia.
Qed.

Lemma zip3_spec : forall a b c, length a = length b -> length c = length b -> map rnd a = map (fun l => nth 0 l d) (map (map rnd) (zip3 a b c)) /\
   map rnd b = map (fun l => nth 1 l d) (map (map rnd) (zip3 a b c)) /\ map rnd c = map (fun l => nth 2 l d) (map (map rnd) (zip3 a b c)).
Proof.
  induction a as [|x a IH]; intros [|y b] [|z c] H1 H2; cbn in *; try lia; [auto|]. destruct (IH b c ltac:(lia) ltac:(lia)) as [A [B C]]. rewrite <- A, <- B, <- C. auto.
Qed.
Lemma chunks_concat (rows : list (list X)) m : Forall (fun r => length r = m) rows -> chunks (length rows) m (map rnd (concat rows)) = map (map rnd) rows.
Proof.
  induction 1 as [|r rows H HF IH]; [reflexivity|]. cbn [length chunks concat]. rewrite map_app. rewrite firstn_app, skipn_app. rewrite map_length, H, Nat.sub_diag. cbn [firstn skipn].
  rewrite firstn_all2, skipn_all2 by (rewrite map_length; lia). rewrite app_nil_r. cbn [app map]. now rewrite IH.
Qed.
Record grid_ok (g : grid X) (nk nmu : nat) : Prop := {
  go_k : length (g_k g) = nk; go_mu : length (g_mu g) = nk; go_mo : length (g_modes g) = nk;
  go_kc : length (g_kcen g) = nk; go_mc : length (g_mucen g) = nmu;
  go_rk : Forall (fun r => length r = nmu) (g_k g); go_rmu : Forall (fun r => length r = nmu) (g_mu g); go_rmo : Forall (fun r => length r = nmu) (g_modes g) }.
Lemma concat_len (rows : list (list X)) m : Forall (fun r => length r = m) rows -> length (concat rows) = length rows * m.
Proof. induction 1 as [|r rows H HF IH]; cbn; [reflexivity|]. rewrite app_length, IH, H. reflexivity. Qed.
Theorem grid_roundtrip (g : grid X) nk nmu : 0 < nk -> grid_ok g nk nmu ->
  grid_read (grid_lines rnd g) d = mkGrid (map rnd (g_kcen g)) (map rnd (g_mucen g)) (map (map rnd) (g_k g)) (map (map rnd) (g_mu g)) (map (map rnd) (g_modes g)).
Proof.
  intros Hnk [H1 H2 H3 H4 H5 H6 H7 H8]. unfold grid_lines, grid_read.
  assert (Hm : match g_k g with r :: _ => length r | [] => 0 end = nmu). { destruct (g_k g) as [|r rs]; [cbn in H1; lia|]. now inversion H6. }
  rewrite Hm, H1. rewrite !map_app.
  set (A := map (map rnd) (map (fun x => [x]) (g_kcen g))). set (B := map (map rnd) (map (fun x => [x]) (g_mucen g))). set (C := map (map rnd) (zip3 _ _ _)).
  assert (LA : length A = nk) by (unfold A; now rewrite !map_length). assert (LB : length B = nmu) by (unfold B; now rewrite !map_length).
  assert (F1 : firstn nk (A ++ B ++ C) = A) by (rewrite firstn_app, LA, Nat.sub_diag; cbn; rewrite app_nil_r; apply firstn_all2; lia).
  assert (F2 : skipn nk (A ++ B ++ C) = B ++ C) by (rewrite skipn_app, LA, Nat.sub_diag, skipn_all2 by lia; reflexivity).
  assert (F3 : skipn (nk + nmu) (A ++ B ++ C) = C).
  { rewrite app_assoc, skipn_app, app_length, LA, LB, Nat.sub_diag, skipn_all2 by (rewrite app_length; lia). reflexivity. }
  assert (F4 : firstn nmu (B ++ C) = B) by (rewrite firstn_app, LB, Nat.sub_diag; cbn; rewrite app_nil_r; apply firstn_all2; lia).
  rewrite F1, F2, F3, F4.
  assert (L1 := concat_len H6). assert (L2 := concat_len H7). assert (L3 := concat_len H8). rewrite H1 in L1. rewrite H2 in L2. rewrite H3 in L3.
  destruct (zip3_spec (concat (g_k g)) (concat (g_mu g)) (concat (g_modes g)) ltac:(congruence) ltac:(congruence)) as [Z0 [Z1 Z2]].
  fold C in Z0, Z1, Z2. rewrite <- Z0, <- Z1, <- Z2.
  f_equal.
  - unfold A. rewrite !map_map. apply map_ext. reflexivity.
  - unfold B. rewrite !map_map. apply map_ext. reflexivity.
  - rewrite <- H1. now apply chunks_concat.
  - rewrite <- H2. now apply chunks_concat.
  - rewrite <- H3. now apply chunks_concat.
Qed.
End Text.
