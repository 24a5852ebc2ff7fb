(** Properties C184-C188: tables of best-fit parameters. *)
From Coq Require Import Ascii String Reals Arith Bool Lia Lra.
From Coq Require Import List.
From Verif Require Import M_Bestfit S_Bestfit P_Bestfit.
Import ListNotations.
Local Open Scope char_scope.

Lemma rows_names f : complete f -> Forall (fun r => writable (fst r)) (f_rows f).
Proof. intros (_ & _ & H). eapply Forall_impl; [|exact H]. intros r (A & _). exact A. Qed.
Lemma pad_full w l : length l = w -> pad w l = map opt_cell l.
Proof. intros <-. unfold pad. rewrite Nat.sub_diag. apply app_nil_r. Qed.
Lemma wide_rows (rows : list (str * list (option str))) nc : Forall (fun r => writable (fst r) /\ length (snd r) = nc /\ Forall (fun c => exists s, c = Some s /\ writable s) (snd r)) rows ->
  let ts := map (fun r => fst r :: map cell_text (snd r)) rows in
  existsb (fun r : list str => (S nc <? length r)%nat) ts = false /\ map (firstn 1) ts = map (fun r => [fst r]) rows /\ map (fun r => skipn 1 (pad (S nc) r)) ts = map snd rows.
Proof.
  induction 1 as [|[n l] rows (W & L & H) _ (I1 & I2 & I3)]; [repeat split|]. cbn [fst snd] in *. cbv zeta in *. cbn [map existsb fst snd].
  assert (LR : @length str (@cons str n (map cell_text l)) = S nc) by (cbn [length]; f_equal; exact (eq_trans (map_length cell_text l) L)). rewrite LR, Nat.ltb_irrefl. split; [exact I1|]. split; [rewrite I2; reflexivity|].
  rewrite I3, pad_full by exact LR. cbn [map skipn]. rewrite (proj2 (cells_ok l H)). reflexivity.
Qed.
Lemma read_complete f lines : complete f -> filter nonnil (map tokens lines) = f_cols f :: map (fun r => fst r :: map cell_text (snd r)) (f_rows f) ->
  read_table lines = Some (f_cols f, map (fun r => [fst r]) (f_rows f), map snd (f_rows f)).
Proof.
  intros HC E. unfold read_table. change (fun l : list str => match l with [] => false | _ => true end) with nonnil. rewrite E. destruct HC as (_ & _ & HR). destruct (wide_rows (f_rows f) _ HR) as (A & B & D). cbv zeta in *.
  destruct (f_rows f) as [|[n l] rows] eqn:ER.
  - cbn [map existsb]. reflexivity.
  - assert (LN : length (fst (n, l) :: map cell_text (snd (n, l))) = S (length (f_cols f))) by (inversion HR as [|? ? (_ & L & _) _]; subst; cbn [fst snd length] in *; f_equal; exact (eq_trans (map_length cell_text l) L)).
    cbn [map] in A, B, D |- *. rewrite LN. rewrite Nat.max_r by lia. replace (S (length (f_cols f)) - length (f_cols f))%nat with 1%nat by lia. rewrite A, B, D. reflexivity.
Qed.
(** C184: an info file with metadata restores the table, whatever the file held before. *)
Lemma table_meta0 f d : f_cols f <> [] -> Forall (fun r => writable (fst r)) (f_rows f) -> read_meta (table_lines f) d = Some d.
Proof. intros A B. pose proof (table_meta f d [] A B) as H. rewrite app_nil_r in H. exact H. Qed.
Theorem C184_info_round_trip : forall old meta f, complete f -> meta <> [] -> NoDup (map fst meta) -> Forall (fun kv => word (fst kv) /\ storable (snd kv)) meta ->
  from_info (to_info old meta f) = Some {| i_meta := meta; i_cols := f_cols f; i_index := map (fun r => [fst r]) (f_rows f); i_rows := map snd (f_rows f) |}.
Proof.
  intros old meta f HC HM ND HS. unfold to_info. destruct meta as [|kv meta'] eqn:EM; [contradiction HM; reflexivity|]. rewrite <- EM in *. clear HM.
  unfold from_info. rewrite (read_meta_all meta _ [] HS ND) by (intros k _ []). cbn [app]. rewrite table_meta0 by (try apply rows_names; try exact HC; apply HC). cbn [read_meta].
  rewrite (read_complete f); [reflexivity|exact HC|]. rewrite metas_gone. apply table_tokens. exact HC.
Qed.
Print Assumptions C184_info_round_trip.
(** Without metadata a new file restores the table too. *)
Theorem C184_new_file_round_trip : forall f, complete f ->
  from_info (to_info [] [] f) = Some {| i_meta := []; i_cols := f_cols f; i_index := map (fun r => [fst r]) (f_rows f); i_rows := map snd (f_rows f) |}.
Proof.
  intros f HC. unfold to_info. cbn [app]. unfold from_info. rewrite table_meta0 by (try apply rows_names; try exact HC; apply HC). cbn [read_meta].
  rewrite (read_complete f); [reflexivity|exact HC|]. apply table_tokens. exact HC.
Qed.
Print Assumptions C184_new_file_round_trip.
Definition demo : frame := {| f_cols := [lit "tex_name"; lit "best_fit"]; f_rows := [(lit "f", [Some (lit "$f \# 1$"); Some (lit "0.78")]); (lit "b1_cA", [Some (lit "a""b"); Some (lit "1.9")])] |}.
Definition demo_meta : list (str * pyv) := [(lit "Np", PNum (lit "int") (lit "13")); (lit "min_minus_lkl", PNum (lit "float64") (lit "51.2")); (lit "tag", PStr (lit "cmass"))].
Lemma demo_complete : complete demo.
Proof.
  split; [discriminate|]. split; [repeat (constructor; [split; [discriminate|right; right; cbn; intuition discriminate]|]); constructor|].
  cbn [demo f_rows f_cols length]. constructor; [|constructor; [|constructor]]; (split; [split; [discriminate|right; right; cbn; intuition discriminate]|]); (split; [reflexivity|]); cbn [snd]; constructor.
  - eexists. split; [reflexivity|]. split; [discriminate|]. left. cbn. tauto.
  - constructor; [|constructor]. eexists. split; [reflexivity|]. split; [discriminate|]. right. right. cbn. intuition discriminate.
  - eexists. split; [reflexivity|]. split; [discriminate|]. right. left. cbn. tauto.
  - constructor; [|constructor]. eexists. split; [reflexivity|]. split; [discriminate|]. right. right. cbn. intuition discriminate.
Qed.
Example C184_nonvacuous : complete demo /\ demo_meta <> [] /\ NoDup (map fst demo_meta) /\ Forall (fun kv => word (fst kv) /\ storable (snd kv)) demo_meta /\ i_meta (match from_info (to_info [lit "old"] demo_meta demo) with Some x => x | None => {| i_meta := []; i_cols := []; i_index := []; i_rows := [] |} end) = demo_meta.
Proof.
  split; [exact demo_complete|]. split; [discriminate|]. split; [|split].
  - cbn. repeat (constructor; [cbn; intuition discriminate|]). constructor.
  - repeat (constructor; [split; [apply word_lit; [discriminate|reflexivity]|cbn [storable snd map]; repeat split; try (cbn; tauto); try discriminate; apply nosp; reflexivity]|]). constructor.
  - reflexivity.
Qed.

(** C185: what does not survive. (a) A set made by from_nlopt: no parameter keeps its name as index, the column best_fit holds the names. *)
Lemma nlopt_row n b fr : writable n -> writable b -> tokens (write_line (n :: map cell_text [Some b; None; None; None; None; None; Some (if (fr : bool) then lit "True" else lit "False"); Some (lit "1.0"); None; None; None; None])) = [n; b; if fr then lit "True" else lit "False"; lit "1.0"].
Proof.
  intros Hn Hb. rewrite line_tokens.
  - cbn [map cell_text filter]. rewrite (wr_ne n Hn), (wr_ne b Hb). destruct fr; reflexivity.
  - assert (L : forall s, s <> [] -> existsb (Ascii.eqb HASH) s = false -> writable s). { intros s A B. split; [exact A|]. right. right. intros I. assert (existsb (Ascii.eqb HASH) s = true) by (apply existsb_exists; exists HASH; split; [exact I|apply Ascii.eqb_refl]). congruence. }
    cbn [map cell_text]. repeat (constructor; [first [left; reflexivity|right; assumption|right; destruct fr; apply L; [discriminate|reflexivity|discriminate|reflexivity]|right; apply L; [discriminate|reflexivity]]|]). constructor.
Qed.
Lemma std_writable : Forall writable std_cols.
Proof.
  assert (L : forall s, s <> [] -> existsb (Ascii.eqb HASH) s = false -> writable s). { intros s A B. split; [exact A|]. right. right. intros I. assert (existsb (Ascii.eqb HASH) s = true) by (apply existsb_exists; exists HASH; split; [exact I|apply Ascii.eqb_refl]). congruence. }
  unfold std_cols. cbn [map]. repeat (constructor; [apply L; [discriminate|reflexivity]|]). constructor.
Qed.
Theorem C185_nlopt_not_restored_refuted : forall old meta values, values <> [] -> Forall (fun x => writable (fst (fst x)) /\ writable (snd (fst x))) values ->
  meta <> [] -> NoDup (map fst meta) -> Forall (fun kv => word (fst kv) /\ storable (snd kv)) meta ->
  exists i, from_info (to_info old meta (from_nlopt values)) = Some i /\ i_cols i = std_cols /\ i_index i = map (fun _ => []) values /\
    map (fun r => (nth 0 r None, nth 1 r None)) (i_rows i) = map (fun x => (Some (fst (fst x)), Some (snd (fst x)))) values.
Proof.
  intros old meta values HV HW HM ND HS. unfold to_info. destruct meta as [|kv meta'] eqn:EM; [contradiction HM; reflexivity|]. rewrite <- EM in *. clear HM.
  unfold from_info. rewrite (read_meta_all meta _ [] HS ND) by (intros k _ []). cbn [app]. rewrite table_meta0.
  2: discriminate. 2: { unfold from_nlopt. cbn [f_rows]. clear HV. induction HW as [|[[n b] fr] vs [A B] _ IH]; [constructor|]. cbn [map]. constructor; [exact A|exact IH]. }
  cbn [read_meta]. unfold read_table. change (fun l : list str => match l with [] => false | _ => true end) with nonnil. rewrite metas_gone. unfold table_lines. cbn [from_nlopt f_cols f_rows map filter]. rewrite header_tokens by apply std_writable. change (nonnil std_cols) with true. cbv iota.
  set (T := fun x : str * str * bool => [fst (fst x); snd (fst x); if snd x then lit "True" else lit "False"; lit "1.0"]).
  assert (ET : filter nonnil (map tokens (map (fun r => write_line (fst r :: map cell_text (snd r))) (map (fun x : str * str * bool => match x with (n, b, free) => (n, [Some b; None; None; None; None; None; Some (if (free : bool) then lit "True" else lit "False"); Some (lit "1.0"); None; None; None; None]) end) values))) = map T values).
  { clear HV. induction HW as [|[[n b] fr] vs [A B] _ IH]; [reflexivity|]. cbn [map filter]. cbn [fst snd] in A, B |- *. rewrite nlopt_row by assumption. cbn [nonnil]. f_equal. exact IH. }
  rewrite ET. clear ET. destruct values as [|x0 vs]; [contradiction HV; reflexivity|]. cbn [map]. change (length (T x0)) with 4%nat. change (length std_cols) with 12%nat. cbn [Nat.max Nat.sub].
  replace (existsb (fun r : list str => (12 <? length r)%nat) (T x0 :: map T vs)) with false.
  2: { symmetry. clear. cbn [existsb]. change (12 <? length (T x0))%nat with false. cbn [orb]. induction vs as [|v vs IH]; [reflexivity|]. cbn [map existsb]. change (12 <? length (T v))%nat with false. exact IH. }
  eexists. split; [reflexivity|]. cbn [i_cols i_index i_rows]. split; [reflexivity|]. split.
  - change (map (firstn 0) (map T (x0 :: vs)) = map (fun _ : str * str * bool => []) (x0 :: vs)). rewrite map_map. apply map_ext. reflexivity.
  - change (map (fun r : list (option str) => (nth 0 r None, nth 1 r None)) (map (fun r => skipn 0 (pad 12 r)) (map T (x0 :: vs))) = map (fun x : str * str * bool => (Some (fst (fst x)), Some (snd (fst x)))) (x0 :: vs)).
    rewrite !map_map. apply map_ext_in. intros x Hx. rewrite Forall_forall in HW. destruct (HW x Hx) as [A B]. destruct x as [[n b] fr]. cbn [fst snd] in *. unfold T, pad. cbn [fst snd skipn map app nth].
    destruct n; [destruct A as [A _]; contradiction A; reflexivity|]. destruct b; [destruct B as [B _]; contradiction B; reflexivity|]. reflexivity.
Qed.
Print Assumptions C185_nlopt_not_restored_refuted.
(** (b) Saving twice without metadata appends: the file then holds every parameter twice and the header as a row. *)
Theorem C185_second_save_appends_refuted : forall f, complete f -> f_rows f <> [] ->
  exists i, from_info (to_info (to_info [] [] f) [] f) = Some i /\ length (i_rows i) = (2 * length (f_rows f) + 1)%nat /\
    i_index i = map (fun r => [fst r]) (f_rows f) ++ [firstn 1 (f_cols f)] ++ map (fun r => [fst r]) (f_rows f).
Proof.
  intros f HC HR. unfold to_info. cbn [app]. unfold from_info. rewrite table_meta by (try apply rows_names; try exact HC; apply HC). rewrite table_meta0 by (try apply rows_names; try exact HC; apply HC). cbn [read_meta].
  unfold read_table. change (fun l : list str => match l with [] => false | _ => true end) with nonnil. rewrite map_app, filter_app, table_tokens by exact HC. cbn [app].
  destruct HC as (H1 & _ & H3). destruct (wide_rows (f_rows f) _ H3) as (A & B & D). cbv zeta in *. set (ts := map (fun r : str * list (option str) => fst r :: map cell_text (snd r)) (f_rows f)) in *.
  assert (LN : match ts ++ f_cols f :: ts with [] => 0%nat | r :: _ => length r end = S (length (f_cols f))).
  { unfold ts. destruct (f_rows f) as [|[n l] rows]; [contradiction HR; reflexivity|]. inversion H3 as [|? ? (_ & L & _) _]; subst. cbn [map app fst snd length] in *. f_equal. exact (eq_trans (map_length cell_text l) L). }
  rewrite LN. rewrite Nat.max_r by lia. replace (S (length (f_cols f)) - length (f_cols f))%nat with 1%nat by lia. rewrite existsb_app. cbn [existsb]. rewrite A. replace (S (length (f_cols f)) <? length (f_cols f))%nat with false by (symmetry; apply Nat.ltb_ge; lia). cbn [orb].
  eexists. split; [reflexivity|]. cbn [i_rows i_index]. split.
  - rewrite map_length, app_length. cbn [length]. unfold ts. rewrite map_length. lia.
  - rewrite map_app. cbn [map]. rewrite B. reflexivity.
Qed.
Print Assumptions C185_second_save_appends_refuted.
(** (c) Metadata: False comes back True, a string with a space is cut at it, None makes the file unreadable. *)
Theorem C185_metadata_changed_refuted : forall old f k a b, complete f -> word k -> word a -> word b ->
  option_map i_meta (from_info (to_info old [(k, PBool false)] f)) = Some [(k, PBool true)] /\
  option_map i_meta (from_info (to_info old [(k, PStr (a ++ " " :: b))] f)) = Some [(k, PStr a)] /\
  from_info (to_info old [(k, PNone)] f) = None.
Proof.
  intros old f k a b HC K HA HB. assert (R : forall kv rest, read_table (meta_line kv :: table_lines f) = Some (f_cols f, map (fun r => [fst r]) (f_rows f), map snd (f_rows f)) \/ rest = tt).
  { intros kv []. left. apply read_complete; [exact HC|]. exact (eq_trans (metas_gone [kv] (table_lines f)) (table_tokens f HC)). }
  assert (M : forall d, read_meta (table_lines f) d = Some d). { intros d. apply table_meta0; [apply HC|apply rows_names; exact HC]. }
  assert (RT : forall kv, read_table (meta_line kv :: table_lines f) = Some (f_cols f, map (fun r => [fst r]) (f_rows f), map snd (f_rows f))) by (intros kv; apply read_complete; [exact HC|]; exact (eq_trans (metas_gone [kv] (table_lines f)) (table_tokens f HC))).
  clear R. unfold to_info. cbn [map app]. split; [|split].
  - unfold from_info. rewrite (read_meta_line k (PBool false) (PBool true)); [|exact K|apply word_lit; [discriminate|reflexivity]|apply word_lit; [discriminate|reflexivity]|reflexivity]. rewrite M, RT. reflexivity.
  - unfold from_info. assert (E : read_meta (meta_line (k, PStr (a ++ " " :: b)) :: table_lines f) [] = read_meta (table_lines f) (dset [] k (PStr a))).
    { unfold meta_line. cbn [fst snd show type_name read_meta]. rewrite Ascii.eqb_refl. destruct K as [K1 K2]. destruct HA as [A1 A2]. destruct HB as [B1 B2].
      assert (W : words (SP :: k ++ SP :: (a ++ " " :: b) ++ SP :: lit "str") = [k; a; b; lit "str"]).
      { unfold words. cbn [wordsf]. rewrite Ascii.eqb_refl. rewrite (words_more k []) by assumption. rewrite <- app_assoc. cbn [app]. rewrite (words_more a []) by assumption. rewrite (words_more b []) by assumption. reflexivity. }
      rewrite W. reflexivity. }
    rewrite E, M, RT. reflexivity.
  - unfold from_info. unfold meta_line at 1. cbn [fst snd show type_name read_meta]. rewrite Ascii.eqb_refl. rewrite words3; [|exact K|apply word_lit; [discriminate|reflexivity]|apply word_lit; [discriminate|reflexivity]]. reflexivity.
Qed.
Print Assumptions C185_metadata_changed_refuted.
Example C185_nonvacuous : complete demo /\ f_rows demo <> [] /\ word (lit "Np") /\ Forall (fun x : str * str * bool => writable (fst (fst x)) /\ writable (snd (fst x))) [(lit "f", lit "0.78", true)].
Proof.
  split; [exact demo_complete|]. split; [discriminate|]. split; [apply word_lit; [discriminate|reflexivity]|]. constructor; [|constructor]. split; (split; [discriminate|]); right; right; cbn; intuition discriminate.
Qed.
Local Open Scope R_scope.
(** C186: the error columns. *)
Theorem C186_columns_partial : forall p s, q_lo1 p <= 0 -> 0 < s ->
  column "sigma" (mcmc_row p) = Some ((q_hi1 p - q_lo1 p)/2) /\ column "gt_1sigma" (mcmc_row p) = Some (q_median p + q_lo1 p) /\ column "lt_1sigma" (mcmc_row p) = Some (q_median p + q_hi1 p) /\
  column "gt_2sigma" (mcmc_row p) = Some (q_median p + q_lo2 p) /\
  (forall c v, In (c, v) [("best_fit", q_best p); ("median", q_median p); ("sigma", (q_hi1 p - q_lo1 p)/2); ("lower_1sigma", q_lo1 p); ("upper_1sigma", q_hi1 p); ("lower_2sigma", q_lo2 p); ("upper_2sigma", q_hi2 p);
       ("gt_1sigma", q_median p + q_lo1 p); ("lt_1sigma", q_median p + q_hi1 p)]%string -> exists w, column c (driver_row s p) = Some w /\ s * w = v).
Proof.
  intros p s H1 Hs. split; [|split; [reflexivity|split; [reflexivity|split; [reflexivity|]]]].
  - unfold column, mcmc_row. cbn. f_equal. rewrite Rabs_left1 by exact H1. field.
  - intros c v H. cbn [In] in H. repeat (destruct H as [H|H]; [injection H as H5 H6; subst c; subst v; eexists; split; [reflexivity|cbn [snd]; field; lra]|]). contradiction.
Qed.
Print Assumptions C186_columns_partial.
(** lt_2sigma is never the upper two-sigma bound: from_mcmc puts the lower one there, the driver exchanges the two. *)
Theorem C186_two_sigma_columns_refuted : forall p s, q_lo2 p < q_hi2 p -> 0 < s ->
  (exists v, column "lt_2sigma" (mcmc_row p) = Some v /\ v <> q_median p + q_hi2 p) /\
  (exists v w, column "lt_2sigma" (driver_row s p) = Some v /\ column "gt_2sigma" (driver_row s p) = Some w /\ s * v = q_median p + q_lo2 p /\ s * w = q_median p + q_hi2 p /\ v < w).
Proof.
  intros p s H Hs. split; [eexists; split; [reflexivity|cbn [snd]; lra]|]. eexists. eexists. split; [reflexivity|]. split; [reflexivity|]. cbn [snd]. split; [field; lra|]. split; [field; lra|].
  apply Rplus_lt_compat_l. apply Rmult_lt_compat_r; [apply Rinv_0_lt_compat; exact Hs|exact H].
Qed.
Print Assumptions C186_two_sigma_columns_refuted.
Example C186_nonvacuous : exists p, q_lo1 p <= 0 /\ q_lo2 p < q_hi2 p /\ q_median p = 2. Proof. exists {| q_best := 2; q_median := 2; q_lo1 := -1; q_hi1 := 1; q_lo2 := -2; q_hi2 := 3 |}. cbn. lra. Qed.

(** C187: metadata follow selections: after any assignments to a set, every set obtained from it by selections (of selections) has its metadata. *)
Definition adds (kvs : list (str * pyv)) : list op := map (fun kv => AddMeta 0 (fst kv) (snd kv)) kvs.
Lemma run_adds kvs : forall names attrs, fold_left step (adds kvs) {| s_lists := [names]; s_objs := [{| o_ref := 0; o_attrs := attrs |}] |} =
  {| s_lists := [names ++ map fst kvs]; s_objs := [{| o_ref := 0; o_attrs := rev kvs ++ attrs |}] |}.
Proof.
  induction kvs as [|[k v] kvs IH]; intros names attrs; [cbn; rewrite app_nil_r; reflexivity|]. cbn [adds map fold_left]. cbn [step nth_error s_objs s_lists upd_nth set_nth o_ref o_attrs fst snd]. unfold upd_nth. cbn [nth_error set_nth o_ref o_attrs].
  change (map (fun kv : str * pyv => AddMeta 0 (fst kv) (snd kv)) kvs) with (adds kvs). rewrite IH. cbn [rev]. rewrite <- !app_assoc. reflexivity.
Qed.
Lemma get_latest k kvs : forall attrs, get_attr {| o_ref := 0; o_attrs := rev kvs ++ attrs |} k = latest k kvs (get_attr {| o_ref := 0; o_attrs := attrs |} k).
Proof.
  induction kvs as [|[k' v] kvs IH]; intros attrs; [reflexivity|]. cbn [rev latest]. rewrite <- app_assoc. rewrite IH. f_equal. unfold get_attr. cbn [app find o_attrs fst]. unfold str_eqb. destruct (list_eq_dec ascii_dec k k'); reflexivity.
Qed.
Lemma latest_some k kvs : forall d, In k (map fst kvs) -> exists v, latest k kvs d = Some v.
Proof.
  assert (G : forall kvs d v, d = Some v -> exists w, latest k kvs d = Some w). { induction kvs0 as [|[k' v'] l IH]; intros d v E; cbn [latest]; [exists v; exact E|]. destruct (list_eq_dec ascii_dec k k'); eapply IH; [reflexivity|exact E]. }
  induction kvs as [|[k' v'] l IH]; intros d H; [contradiction|]. cbn [latest]. cbn [map fst] in H. destruct (list_eq_dec ascii_dec k k') as [E|E]; [eapply G; reflexivity|]. destruct H as [H|H]; [congruence|]. apply IH, H.
Qed.
Definition inv (names : list str) (val : str -> option pyv) (s : store) : Prop := s_lists s = [names] /\ Forall (fun o => o_ref o = 0%nat /\ forall k, In k names -> get_attr o k = val k) (s_objs s).
Lemma find_map (names : list str) (g : str -> pyv) k : In k names -> find (fun kv => str_eqb k (fst kv)) (map (fun k => (k, g k)) names) = Some (k, g k).
Proof. induction names as [|a names IH]; intros H; [contradiction|]. cbn [map find fst]. unfold str_eqb at 1. destruct (list_eq_dec ascii_dec k a) as [->|N]; [reflexivity|]. destruct H as [H|H]; [congruence|]. apply IH, H. Qed.
Lemma select_inv names val s i : (forall k, In k names -> exists v, val k = Some v) -> inv names val s -> inv names val (step s (Select i)).
Proof.
  intros HV (L & O). cbn [step]. destruct (nth_error (s_objs s) i) as [a|] eqn:E; [|split; assumption]. split; [exact L|]. cbn [s_objs]. apply Forall_app. split; [exact O|]. constructor; [|constructor].
  rewrite Forall_forall in O. destruct (O a (nth_error_In _ _ E)) as [R G]. split; [exact R|]. intros k Hk. unfold get_attr. cbn [o_attrs]. rewrite R, L. cbn [nth]. rewrite (find_map names (fun k => match get_attr a k with Some v => v | None => PNone end)) by exact Hk. cbn [snd]. rewrite (G k Hk). destruct (HV k Hk) as [v ->]. reflexivity.
Qed.
Lemma gather_inv names (val : str -> option pyv) o (l : list str) : (forall k, In k names -> get_attr o k = val k) -> incl l names -> (forall k, In k l -> exists v, val k = Some v) ->
  exists r, gather o l = Some r /\ map (fun kv => (fst kv, Some (snd kv))) r = map (fun k => (k, val k)) l.
Proof.
  intros G. induction l as [|k l IH]; intros I V; [exists []; split; reflexivity|]. destruct IH as (r & E & M); [intros x X; apply I; right; exact X|intros x X; apply V; right; exact X|].
  destruct (V k (or_introl eq_refl)) as [v HV]. exists ((k, v) :: r). cbn [gather]. rewrite (G k (I k (or_introl eq_refl))), HV, E. split; [reflexivity|]. cbn [map fst snd]. rewrite M, HV. reflexivity.
Qed.
Theorem C187_metadata_follow_selections : forall kvs sels i, (i < length (s_objs (run (New :: adds kvs ++ map Select sels))))%nat ->
  exists r, metadata (run (New :: adds kvs ++ map Select sels)) i = Some r /\ map (fun kv => (fst kv, Some (snd kv))) r = map (fun kv => (fst kv, latest (fst kv) kvs None)) kvs.
Proof.
  intros kvs sels i. unfold run. cbn [fold_left]. rewrite fold_left_app. cbn [step s_lists s_objs app length]. rewrite run_adds. cbn [app]. rewrite app_nil_r.
  set (names := map fst kvs). set (val := fun k => latest k kvs None). assert (HV : forall k, In k names -> exists v, val k = Some v) by (intros k Hk; apply latest_some; exact Hk).
  assert (I : forall sels s, inv names val s -> inv names val (fold_left step (map Select sels) s)) by (induction sels0 as [|j l IH]; intros s H; [exact H|]; cbn [map fold_left]; apply IH, select_inv; assumption).
  specialize (I sels {| s_lists := [names]; s_objs := [{| o_ref := 0; o_attrs := rev kvs |}] |}). set (st := fold_left step (map Select sels) _) in *. intros Hi. destruct I as (L & O).
  { split; [reflexivity|]. constructor; [|constructor]. split; [reflexivity|]. intros k Hk. pose proof (get_latest k kvs []) as G. rewrite app_nil_r in G. rewrite G. reflexivity. }
  unfold metadata. destruct (nth_error (s_objs st) i) as [o|] eqn:E; [|apply nth_error_None in E; lia]. rewrite Forall_forall in O. destruct (O o (nth_error_In _ _ E)) as [R G]. rewrite R, L. cbn [nth].
  destruct (gather_inv names val o names G (fun k H => H) HV) as (r & E1 & E2). exists r. split; [exact E1|]. rewrite E2. unfold names, val. rewrite map_map. reflexivity.
Qed.
Print Assumptions C187_metadata_follow_selections.
Example C187_nonvacuous : length (s_objs (run (New :: adds demo_meta ++ map Select [0; 1; 0]%nat))) = 4%nat. Proof. reflexivity. Qed.
(** C188: but the list of names is shared: giving a selection one more metadatum makes the original's to_info raise AttributeError, after the file has been
    emptied. *)
Theorem C188_selection_breaks_original_refuted : forall kvs k v, ~ In k (map fst kvs) ->
  metadata (run (New :: adds kvs ++ [Select 0])) 0 <> None /\ metadata (run (New :: adds kvs ++ [Select 0; AddMeta 1 k v])) 0 = None.
Proof.
  intros kvs k v Hk. split.
  - destruct (C187_metadata_follow_selections kvs [0%nat] 0) as (r & E & _).
    + unfold run. cbn [fold_left]. rewrite fold_left_app. cbn [step s_lists s_objs app length]. rewrite run_adds. cbn. lia.
    + cbn [map] in E. rewrite E. discriminate.
  - unfold run. cbn [fold_left]. rewrite fold_left_app. cbn [step s_lists s_objs app length]. rewrite run_adds. cbn [app]. rewrite app_nil_r. cbn [fold_left step nth_error s_objs s_lists app o_ref]. unfold upd_nth. cbn [nth_error set_nth o_ref o_attrs].
    unfold metadata. cbn [nth_error s_objs s_lists o_ref nth]. set (o := {| o_ref := 0; o_attrs := rev kvs |}).
    assert (NK : get_attr o k = None). { unfold get_attr, o. cbn [o_attrs]. destruct (find (fun kv => str_eqb k (fst kv)) (rev kvs)) as [kv|] eqn:E; [|reflexivity]. apply find_some in E. destruct E as [E1 E2]. unfold str_eqb in E2. destruct (list_eq_dec ascii_dec k (fst kv)) as [E|]; [|discriminate].
      exfalso. apply Hk. rewrite E. apply in_map. apply in_rev. exact E1. }
    induction (map fst kvs) as [|a l IH]; cbn [app gather]; [rewrite NK; reflexivity|]. rewrite IH by (intros I; apply Hk; right; exact I). destruct (get_attr o a); reflexivity.
Qed.
Print Assumptions C188_selection_breaks_original_refuted.
