From Coq Require Import List Arith Bool Lia Permutation.
From Verif Require Import M_Groups S_Groups.
Import ListNotations.

Lemma memn_In x l : memn x l = true <-> In x l.
Proof.
  unfold memn. rewrite existsb_exists. split.
  - intros (y & H & E). apply Nat.eqb_eq in E. now subst.
  - intros H. exists x. split; auto. apply Nat.eqb_refl.
Qed.
Lemma memn_not x l : memn x l = false <-> ~ In x l.
Proof. rewrite <- memn_In. destruct (memn x l); split; congruence. Qed.
Lemma seq_nth_map {A B} (f : A -> B) (d : A) l : map (fun j => f (nth j l d)) (seq 0 (length l)) = map f l.
Proof. induction l as [|x l IH]; cbn; auto. f_equal. rewrite <- seq_shift, map_map. exact IH. Qed.

(** the cell of one measurement under the parameters mp and the name s *)
Definition cell_at (mp : option nat) (dec : nat -> bool) (s : nat) (m : meas) (k : nat) : cell :=
  if dec s then Dec s (map (fun x => Sym mp x k) (mid m)) else match mid m with x :: _ => Sym mp x k | [] => NaN end.

Lemma columns_map mp ts k l : (forall x, In x l -> (match ts with None => Some (map (Sym mp x) k) | Some t => sel_column mp t x end) = Some (map (Sym mp x) k)) ->
  columns mp ts k l = Some (map (fun x => map (Sym mp x) k) l).
Proof.
  induction l as [|x l IH]; intros H; [reflexivity|]. cbn [columns]. rewrite H by (left; auto).
  fold (columns mp ts k). rewrite IH; [reflexivity|]. intros; apply H; right; auto.
Qed.
Lemma decorate_ok dec s m mp : mid m <> [] -> (dec s = false -> length (mid m) = 1) ->
  decorate dec s (map (fun x => map (Sym mp x) (mk m)) (mid m)) = Some (map (cell_at mp dec s m) (mk m)).
Proof.
  intros H1 H2. unfold decorate, cell_at. destruct (dec s).
  - destruct (mid m) as [|x0 xl]; [congruence|]. cbn [map]. rewrite map_length.
    assert (E : forall j, j < length (mk m) -> Dec s (nth j (map (Sym mp x0) (mk m)) NaN :: map (fun a => nth j a NaN) (map (fun x => map (Sym mp x) (mk m)) xl)) =
        (fun k => Dec s (Sym mp x0 k :: map (fun x => Sym mp x k) xl)) (nth j (mk m) 0)).
    { intros j Hj. cbn. f_equal. f_equal.
      - rewrite (nth_indep _ NaN (Sym mp x0 0)) by (rewrite map_length; auto). apply map_nth.
      - rewrite map_map. apply map_ext. intros x. rewrite (nth_indep _ NaN (Sym mp x 0)) by (rewrite map_length; auto). apply map_nth. }
    rewrite <- (seq_nth_map (fun k => Dec s (Sym mp x0 k :: map (fun x => Sym mp x k) xl)) 0 (mk m)).
    f_equal. apply map_ext_in. intros j Hj. apply in_seq in Hj. apply E. lia.
  - specialize (H2 eq_refl). destruct (mid m) as [|x [|y l]]; cbn in H2; try lia. reflexivity.
Qed.

(** pairs (name under which it is computed, measurement) *)
Definition assoc_ok (D : pdata) (dec : nat -> bool) (p : nat * meas) : Prop :=
  meas_k D (fst p) = Some (mk (snd p)) /\ mid (snd p) <> [] /\ (dec (fst p) = false -> length (mid (snd p)) = 1).
Definition same_k (ps : list (nat * meas)) : Prop := forall p q, In p ps -> In q ps -> mk (snd p) = mk (snd q).

Lemma smooth_transfers_ok D dec ps : Forall (assoc_ok D dec) ps ->
  smooth_transfers D (map fst ps) (map (fun p => mid (snd p)) ps) = Some (map (fun p => (mk (snd p), mid (snd p))) ps).
Proof. induction 1 as [|p ps (H & _) HF IH]; cbn; auto. now rewrite H, IH. Qed.
Lemma joined_same ps p : same_k ps -> In p ps -> joined_k (map (fun p => (mk (snd p), mid (snd p))) ps) = mk (snd p).
Proof.
  intros H Hp. destruct ps as [|q ps]; [destruct Hp|]. cbn. replace (forallb _ _) with true.
  - apply H; auto. left; auto.
  - symmetry. apply forallb_forall. intros t Ht. apply in_map_iff in Ht. destruct Ht as (r & <- & Hr). cbn. unfold eqln.
    destruct (list_eq_dec Nat.eq_dec (mk (snd r)) (mk (snd q))) as [_|N]; auto. exfalso. apply N. apply H; [right; auto|left; auto].
Qed.
Lemma sel_ok mp ps p x : same_k ps -> In p ps -> In x (mid (snd p)) ->
  sel_column mp (map (fun p => (mk (snd p), mid (snd p))) ps) x = Some (map (Sym mp x) (mk (snd p))).
Proof.
  intros H Hp Hx. unfold sel_column. destruct (find _ _) as [t|] eqn:E.
  - apply find_some in E. destruct E as [E _]. apply in_map_iff in E. destruct E as (q & <- & Hq). cbn [fst snd].
    rewrite (joined_same ps p) by auto. f_equal. apply map_ext_in. intros k Hk. rewrite (H q p) by auto.
    now rewrite (proj2 (memn_In k _) Hk).
  - exfalso. eapply find_none in E; [|apply in_map; exact Hp]. cbn in E. apply memn_not in E. auto.
Qed.
Lemma apply_ok D dec mp ts all ps : Forall (assoc_ok D dec) ps -> incl ps all ->
  (ts = None \/ ts = Some (map (fun p => (mk (snd p), mid (snd p))) all) /\ same_k all) ->
  apply_transfers D mp dec ts (map (fun p => (fst p, mid (snd p))) ps) = Some (flat_map (fun p => map (cell_at mp dec (fst p) (snd p)) (mk (snd p))) ps).
Proof.
  intros HF Hi Hts. induction HF as [|p ps (H1 & H2 & H3) HF IH]; [reflexivity|]. cbn. rewrite H1.
  rewrite columns_map.
  - rewrite decorate_ok by auto. rewrite IH by (intros q Hq; apply Hi; right; auto). reflexivity.
  - intros x Hx. destruct Hts as [->|[-> HS]]; [reflexivity|]. apply sel_ok; auto. apply Hi. left; auto.
Qed.

(** *** selecting the identifiers of a group *)
Lemma select_ok ms g : select (map mid ms) (map mname ms) g = Some (map mid (filter (fun m => memn (mname m) g) ms)).
Proof. induction ms as [|m ms IH]; cbn; auto. rewrite IH. destruct (memn (mname m) g); reflexivity. Qed.
Lemma index_ok ms m : NoDup (map mname ms) -> In m ms -> exists i, index (mname m) (map mname ms) = Some i /\ nth_error ms i = Some m.
Proof.
  induction ms as [|a ms IH]; cbn; intros HN Hm; [destruct Hm|]. inversion HN as [|? ? Hn HN']; subst.
  destruct Hm as [->|Hm].
  - rewrite Nat.eqb_refl. exists 0. auto.
  - destruct (Nat.eqb_spec (mname m) (mname a)) as [E|E]. { exfalso. apply Hn. rewrite <- E. now apply in_map. }
    destruct (IH HN' Hm) as (i & E1 & E2). rewrite E1. exists (S i). auto.
Qed.
Lemma meas_k_ok w ms m : NoDup (map mname ms) -> In m ms -> meas_k (data_of w ms) (mname m) = Some (mk m).
Proof.
  intros HN Hm. unfold meas_k, data_of. cbn. destruct (index_ok ms m HN Hm) as (i & -> & E). rewrite nth_error_map, E. reflexivity.
Qed.
(** evaluation of one group whose i-th name is paired with the i-th selected measurement *)
Lemma group_ok w ms dec g ps gs sp : (forall s, In s g -> In s (map mname ms)) ->
  filter (fun m => memn (mname m) g) ms = map snd ps -> g = map fst ps -> Forall (assoc_ok (data_of w ms) dec) ps ->
  (w = true \/ same_k ps) ->
  combined_model (data_of w ms) sp dec (g :: gs) =
    match combined_model (data_of w ms) sp dec gs with
    | Some b => Some (flat_map (fun p => map (cell_at (group_params sp (map (fun p => (fst p, mid (snd p))) ps)) dec (fst p) (snd p)) (mk (snd p))) ps ++ b)
    | None => None end.
Proof.
  intros Hg Hf Hp HF Hw. cbn [combined_model]. unfold calculate_transfer.
  replace (forallb _ g) with true. 2: { symmetry. apply forallb_forall. intros s Hs. apply memn_In. cbn. auto. }
  cbn [negb]. change (xs (data_of w ms)) with (map mid ms). change (stats (data_of w ms)) with (map mname ms).
  rewrite select_ok, Hf, map_map. change (window (data_of w ms)) with w.
  assert (E : combine g (map (fun p : nat * meas => mid (snd p)) ps) = map (fun p => (fst p, mid (snd p))) ps).
  { subst g. clear. induction ps as [|p ps IH]; cbn; auto. now rewrite IH. }
  rewrite E. destruct w.
  - rewrite (apply_ok _ dec _ None ps ps); auto. apply incl_refl.
  - destruct Hw as [|Hw]; [discriminate|]. subst g. rewrite (smooth_transfers_ok _ dec) by auto.
    rewrite (apply_ok _ dec _ (Some (map (fun p => (mk (snd p), mid (snd p))) ps)) ps ps); auto. apply incl_refl.
Qed.
Lemma filter_single ms m : NoDup (map mname ms) -> In m ms -> filter (fun x => memn (mname x) [mname m]) ms = [m].
Proof.
  induction ms as [|a ms IH]; intros HN Hm; [destruct Hm|]. inversion HN as [|? ? Hn HN']; subst. cbn [filter].
  assert (Hnil : forall l, ~ In (mname m) (map mname l) -> filter (fun x => memn (mname x) [mname m]) l = []).
  { induction l as [|b l IHl]; cbn; auto. intros H. destruct (Nat.eqb_spec (mname b) (mname m)); [exfalso; auto|]. cbn. apply IHl. auto. }
  destruct Hm as [->|Hm].
  - cbn. rewrite Nat.eqb_refl. cbn. f_equal. apply Hnil. auto.
  - destruct (memn (mname a) [mname m]) eqn:E; [|auto]. apply memn_In in E. destruct E as [E|[]]. exfalso. apply Hn. rewrite <- E. now apply in_map.
Qed.
Lemma wanted_cell_eq sp dec m k : wanted_cell sp dec m k = cell_at (if memn (mname m) sp then Some (mname m) else None) dec (mname m) m k.
Proof.
  unfold wanted_cell, cell_at. destruct (in_dec Nat.eq_dec (mname m) sp) as [H|H].
  - now rewrite (proj2 (memn_In _ _) H). - now rewrite (proj2 (memn_not _ _) H).
Qed.
Lemma specific_part w ms dec sp gs b l : NoDup (map mname ms) -> well_posed dec ms -> incl l ms ->
  combined_model (data_of w ms) sp dec gs = Some b ->
  combined_model (data_of w ms) sp dec (map (fun s => [s]) (map mname l) ++ gs) = Some (wanted sp dec l ++ b).
Proof.
  intros HN HW Hl Hb. induction l as [|m l IH]; [exact Hb|]. cbn [map app].
  assert (Hm : In m ms) by (apply Hl; left; auto). unfold well_posed in HW. rewrite Forall_forall in HW.
  rewrite (group_ok w ms dec [mname m] [(mname m, m)]).
  - rewrite IH by (intros q Hq; apply Hl; right; auto). cbn. rewrite app_nil_r, app_assoc. do 3 f_equal.
    apply map_ext. intros k. now rewrite wanted_cell_eq.
  - intros s [<-|[]]. now apply in_map.
  - cbn. apply filter_single; auto.
  - reflexivity.
  - constructor; auto. split; [apply meas_k_ok; auto|]. cbn. apply HW. auto.
  - right. intros p q [<-|[]] [<-|[]]. reflexivity.
Qed.
(** the rest in the data order *)
Lemma filter_suffix ms1 ms2 : NoDup (map mname (ms1 ++ ms2)) -> filter (fun m => memn (mname m) (map mname ms2)) (ms1 ++ ms2) = ms2.
Proof.
  intros HN. rewrite filter_app. rewrite map_app in HN.
  assert (A : filter (fun m => memn (mname m) (map mname ms2)) ms2 = ms2).
  { assert (K : forall l, incl l ms2 -> filter (fun m => memn (mname m) (map mname ms2)) l = l).
    { induction l as [|x l IH]; cbn; auto. intros H. rewrite (proj2 (memn_In _ _)) by (apply in_map, H; left; auto). f_equal. apply IH. intros q Hq; apply H; right; auto. }
    apply K, incl_refl. }
  rewrite A. induction ms1 as [|x ms1 IH]; [reflexivity|]. cbn in *. inversion HN as [|? ? Hn HN']; subst.
  rewrite (proj2 (memn_not _ _)); auto. intros H. apply Hn. apply in_or_app. auto.
Qed.
Lemma in_order w ms1 ms2 dec : NoDup (map mname (ms1 ++ ms2)) -> well_posed dec (ms1 ++ ms2) ->
  (w = true \/ forall m m', In m ms2 -> In m' ms2 -> mk m = mk m') ->
  combined_model (data_of w (ms1 ++ ms2)) (map mname ms1) dec (groups (map mname ms1) (map mname ms2)) = Some (wanted (map mname ms1) dec (ms1 ++ ms2)).
Proof.
  intros HN HW Hk. unfold groups. destruct ms2 as [|m0 r].
  - cbn. rewrite (specific_part w (ms1 ++ []) dec _ [] []); auto; rewrite ?app_nil_r; auto. apply incl_refl.
  - set (ms2 := m0 :: r) in *. replace (match map mname ms2 with [] => [] | _ :: _ => [map mname ms2] end) with [map mname ms2] by reflexivity.
    replace (wanted (map mname ms1) dec (ms1 ++ ms2)) with (wanted (map mname ms1) dec ms1 ++ wanted (map mname ms1) dec ms2) by (unfold wanted; now rewrite flat_map_app).
    apply specific_part; auto; [intros q Hq; apply in_or_app; auto|].
    rewrite (group_ok w (ms1 ++ ms2) dec (map mname ms2) (map (fun m => (mname m, m)) ms2)).
    + cbn [combined_model]. rewrite app_nil_r. f_equal. unfold wanted. rewrite flat_map_concat_map, map_map, <- flat_map_concat_map.
      rewrite !flat_map_concat_map. f_equal. apply map_ext_in. intros m Hm. apply map_ext. intros k. cbn [fst snd]. rewrite wanted_cell_eq. f_equal.
      assert (Hn : forall m, In m ms2 -> memn (mname m) (map mname ms1) = false).
      { intros m' Hm'. apply memn_not. intros H. rewrite map_app in HN. clear -HN H Hm'. induction (map mname ms1) as [|x l IH]; [auto|].
        cbn in HN. inversion HN; subst. destruct H as [->|H]; auto. apply H2. apply in_or_app. right. exact (in_map mname ms2 m' Hm'). }
      rewrite (Hn m Hm). unfold group_params. rewrite map_map. cbn. destruct r; cbn; auto. rewrite (Hn m0); auto. left; auto.
    + intros s Hs. rewrite map_app. apply in_or_app. auto.
    + rewrite map_map, map_id. now apply filter_suffix.
    + now rewrite map_map.
    + apply Forall_map, Forall_forall. intros m Hm. unfold well_posed in HW. rewrite Forall_forall in HW.
      assert (In m (ms1 ++ ms2)) by (apply in_or_app; auto). split; [apply meas_k_ok; auto|]. cbn. apply HW. auto.
    + destruct Hk as [->|Hk]; auto. right. intros p q Hp Hq. apply in_map_iff in Hp. apply in_map_iff in Hq.
      destruct Hp as (a & <- & Ha). destruct Hq as (c & <- & Hc). cbn. auto.
Qed.
(** any set order, no specific parameters, common k, no decorator *)
Lemma any_order w ms order : NoDup (map mname ms) -> Permutation order (map mname ms) -> Forall (fun m => length (mid m) = 1) ms ->
  (forall m m', In m ms -> In m' ms -> mk m = mk m') ->
  combined_model (data_of w ms) [] (fun _ => false) (groups [] order) = Some (wanted [] (fun _ => false) ms).
Proof.
  intros HN HP H1 Hk. unfold groups. cbn [map app]. destruct order as [|s0 o].
  - apply Permutation_nil in HP. apply map_eq_nil in HP. subst. reflexivity.
  - set (order := s0 :: o) in *. set (ps := combine order ms).
    assert (HL : length order = length ms) by (apply Permutation_length in HP; rewrite map_length in HP; auto).
    assert (E1 : map fst ps = order) by (unfold ps; clear -HL; revert ms HL; induction order as [|x l IH]; intros [|m ms] H; cbn in *; try lia; auto; f_equal; auto).
    assert (E2 : map snd ps = ms) by (unfold ps; clear -HL; revert ms HL; induction order as [|x l IH]; intros [|m ms] H; cbn in *; try lia; auto; f_equal; auto).
    assert (In2 : forall p, In p ps -> In (fst p) order /\ In (snd p) ms) by (intros [a c] Hp; split; [apply in_combine_l in Hp|apply in_combine_r in Hp]; auto).
    rewrite (group_ok w ms (fun _ => false) order ps).
    + cbn [combined_model]. rewrite app_nil_r. f_equal. unfold wanted. rewrite <- E2 at 1. rewrite !flat_map_concat_map, map_map. f_equal.
      apply map_ext_in. intros p Hp. apply map_ext. intros k. rewrite wanted_cell_eq.
      assert (G : group_params [] (map (fun p => (fst p, mid (snd p))) ps) = None) by (destruct ps as [|? [|? ?]]; reflexivity). rewrite G. reflexivity.
    + intros s Hs. eapply Permutation_in; eauto.
    + rewrite E2. assert (K : forall l, incl l ms -> filter (fun m => memn (mname m) order) l = l).
      { induction l as [|x l IH]; cbn [filter]; auto. intros H. rewrite (proj2 (memn_In _ _)). - f_equal. apply IH. intros q Hq; apply H; right; auto.
        - eapply Permutation_in; [apply Permutation_sym; exact HP|]. apply in_map, H. left; auto. }
      apply K, incl_refl.
    + auto.
    + apply Forall_forall. intros p Hp. destruct (In2 p Hp) as [A B]. rewrite Forall_forall in H1. specialize (H1 _ B).
      assert (C : In (fst p) (map mname ms)) by (eapply Permutation_in; eauto). apply in_map_iff in C. destruct C as (m & Em & Hm).
      split; [rewrite <- Em, (meas_k_ok w ms m) by auto; f_equal; apply Hk; auto|]. split; auto. destruct (mid (snd p)); cbn in *; congruence.
    + right. intros p q Hp Hq. apply Hk; apply In2; auto.
Qed.

(** several identifiers without a decorator *)
Lemma columns_length mp ts k : forall l cs, columns mp ts k l = Some cs -> length cs = length l.
Proof.
  induction l as [|x l IH]; cbn [columns]; intros cs; [intros [= <-]; reflexivity|]. fold (columns mp ts k).
  destruct (match ts with None => Some (map (Sym mp x) k) | Some t => sel_column mp t x end); [|discriminate].
  destruct (columns mp ts k l) as [r|]; [|discriminate]. intros [= <-]. cbn. f_equal. now apply IH.
Qed.
Lemma apply_refuses D mp dec ts x : 2 <= length x -> (forall s, dec s = false) -> forall ids s, In (s, x) ids -> apply_transfers D mp dec ts ids = None.
Proof.
  intros L N. induction ids as [|[s y] ids IH]; intros s' H; [destruct H|]. cbn [apply_transfers]. destruct (meas_k D s) as [k|]; [|reflexivity].
  destruct H as [[= -> ->]|H].
  - destruct (columns mp ts k x) as [cs|] eqn:E; [|reflexivity]. apply columns_length in E. unfold decorate. rewrite N.
    destruct cs as [|c [|c' cs]]; [reflexivity| |reflexivity]. cbn in E. lia.
  - rewrite (IH s' H). destruct (match columns mp ts k y with Some c => decorate dec s c | None => None end); reflexivity.
Qed.
Lemma in_combine_right {A B} (y : B) : forall (l' : list B) (l : list A), In y l' -> length l' <= length l -> exists a, In (a, y) (combine l l').
Proof.
  induction l' as [|z l' IH]; intros l H L; [destruct H|]. destruct l as [|a l]; [cbn in L; lia|]. cbn in L. destruct H as [-> | H].
  - exists a. now left.
  - destruct (IH l H ltac:(lia)) as (b & Hb). exists b. now right.
Qed.
Lemma filter_names ms g : NoDup (map mname ms) -> NoDup (map mname (filter (fun m => memn (mname m) g) ms)) /\ incl (map mname (filter (fun m => memn (mname m) g) ms)) g.
Proof.
  induction ms as [|a ms IH]; cbn; intro N; [split; [constructor|intros x []]|]. inversion N as [|? ? H1 H2]; subst. destruct (IH H2) as [A B].
  destruct (memn (mname a) g) eqn:E; [|split; auto]. cbn. split.
  - constructor; [|exact A]. intro K. apply H1. apply in_map_iff in K. destruct K as (b & Eb & Kb). apply filter_In in Kb. rewrite <- Eb. apply in_map, Kb.
  - intros x [<- | K]; [now apply memn_In|now apply B].
Qed.
Lemma group_refuses w ms dec sp m g : NoDup (map mname ms) -> In m ms -> (forall s, dec s = false) -> 2 <= length (mid m) ->
  In (mname m) g -> forall gs, In g gs -> combined_model (data_of w ms) sp dec gs = None.
Proof.
  intros N M D L G. induction gs as [|g' gs IH]; intro H; [destruct H|]. cbn [combined_model].
  destruct H as [-> | H].
  - destruct (calculate_transfer (data_of w ms) g) as [[ts ids]|] eqn:E; [|reflexivity].
    assert (K : exists s, In (s, mid m) ids).
    { assert (C : ids = combine g (map mid (filter (fun m => memn (mname m) g) ms))).
      { unfold calculate_transfer in E. destruct (negb _); [discriminate|]. change (xs (data_of w ms)) with (map mid ms) in E. change (stats (data_of w ms)) with (map mname ms) in E.
        rewrite select_ok in E. destruct (window (data_of w ms)); [now injection E as _ <-|]. destruct (smooth_transfers _ _ _); [now injection E as _ <-|discriminate]. }
      rewrite C. apply in_combine_right.
      - apply in_map. apply filter_In. split; [exact M|now apply memn_In].
      - destruct (filter_names ms g N) as [A B]. rewrite map_length, <- (map_length mname). now apply NoDup_incl_length. }
    destruct K as (s & K). now rewrite (apply_refuses _ _ _ ts _ L D ids s K).
  - rewrite (IH H). destruct (calculate_transfer (data_of w ms) g') as [[ts ids]|]; [|reflexivity].
    destruct (apply_transfers _ _ _ _ _); reflexivity.
Qed.
Lemma several_refused w ms specific dec order m : distinct ms -> In m ms -> (forall s, dec s = false) -> 2 <= length (mid m) ->
  set_difference (map mname ms) specific order -> combined_model (data_of w ms) specific dec (groups specific order) = None.
Proof.
  intros [N _] M D L [_ O]. unfold groups. destruct (in_dec Nat.eq_dec (mname m) specific) as [H|H].
  - apply (group_refuses w ms dec specific m [mname m] N M D L); [now left|]. apply in_or_app. left. now apply (in_map (fun s => [s])).
  - assert (K : In (mname m) order) by (apply O; split; [now apply in_map|exact H]).
    apply (group_refuses w ms dec specific m order N M D L K). apply in_or_app. right. destruct order; [destruct K|now left].
Qed.
