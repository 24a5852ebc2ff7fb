(** * Proofs about reordering and adding results *)
From Coq Require Import String List Bool Arith Lia Permutation.
From Verif Require Import M_Results S_Results.
Import ListNotations.
Open Scope list_scope.

(** ** names *)
Lemma remove1_perm : forall k l r, remove1 k l = Some r -> Permutation l (k :: r).
Proof.
  intros k l. induction l as [|x l IH]; intros r H; cbn in H; [discriminate|]. destruct (String.eqb_spec x k) as [->|E].
  - injection H as <-. auto.
  - destruct (remove1 k l) as [r'|]; [|discriminate]. injection H as <-. rewrite (IH r') by auto. apply perm_swap.
Qed.
Lemma remove1_none : forall k l, remove1 k l = None -> ~ In k l.
Proof.
  intros k l. induction l as [|x l IH]; intros H; cbn in *; auto. destruct (String.eqb_spec x k) as [->|E]; [discriminate|].
  destruct (remove1 k l) as [r'|]; [discriminate|]. intros [K|K]; auto. now apply IH.
Qed.
Lemma same_names_perm : forall a b, same_names a b = true <-> Permutation a b.
Proof.
  induction a as [|x a IH]; intros b; cbn.
  - destruct b; split; intros H; auto; try discriminate. apply Permutation_nil in H. discriminate.
  - destruct (remove1 x b) as [b'|] eqn:E.
    + apply remove1_perm in E. rewrite IH. split; intros H.
      * rewrite E. now constructor.
      * rewrite E in H. now apply Permutation_cons_inv in H.
    + apply remove1_none in E. split; [discriminate|]. intros H. exfalso. apply E. apply (Permutation_in x H). now left.
Qed.
Lemma list_eqb_spec : forall a b, list_eqb a b = true <-> a = b.
Proof. intros. unfold list_eqb. destruct (list_eq_dec string_dec a b); split; intros; auto; try discriminate; contradiction. Qed.
Lemma index_in : forall k l, In k l -> nth_error l (index k l) = Some k.
Proof.
  intros k l. induction l as [|x l IH]; intros H; [destruct H|]. cbn. destruct (String.eqb_spec x k) as [->|E]; auto. cbn. apply IH. destruct H; auto. contradiction.
Qed.
Lemma index_nth : forall l i k, NoDup l -> nth_error l i = Some k -> index k l = i.
Proof.
  induction l as [|x l IH]; intros i k H E; [destruct i; discriminate|]. inversion H; subst. destruct i; cbn in E |- *.
  - injection E as ->. now rewrite String.eqb_refl.
  - destruct (String.eqb_spec x k) as [->|Ek]. { exfalso. apply H2. now apply nth_error_In in E. } f_equal. auto.
Qed.
Lemma index_lt : forall k l, In k l -> index k l < length l.
Proof. intros. apply nth_error_Some. rewrite index_in; auto. discriminate. Qed.

Lemma NoDup_app_l : forall A (l l' : list A), NoDup (l ++ l') -> NoDup l.
Proof. induction l; intros l' H; cbn in *; constructor; inversion H; subst; [intros K; apply H2; apply in_or_app; auto|eauto]. Qed.
(** ** glue *)
Lemma glue_length : forall A (a b : list (list A)), length a = length b -> length (glue a b) = length a.
Proof. induction a; intros b H; destruct b; cbn in *; try discriminate; auto. Qed.
Lemma glue_assoc : forall A (a b c : list (list A)), glue (glue a b) c = glue a (glue b c).
Proof. induction a; intros b c; destruct b; cbn; auto; destruct c; cbn; auto. rewrite IHa, app_assoc. auto. Qed.
Lemma glue_map : forall A B (f : A -> B) a b, map (map f) (glue a b) = glue (map (map f) a) (map (map f) b).
Proof. induction a; intros b; destruct b; cbn; auto. rewrite map_app, IHa. auto. Qed.
Lemma glue_nth : forall A (a b : list (list A)) w, length a = length b -> nth w (glue a b) [] = nth w a [] ++ nth w b [].
Proof. induction a; intros b w H; destruct b; cbn in *; try discriminate; destruct w; auto. Qed.
Lemma glue_follows : forall A (a b : list (list A)), length a = length b -> follows a b (glue a b).
Proof. intros. repeat split; auto. - now apply glue_length. - intros. now apply glue_nth. Qed.
Lemma glue_block : forall V m n d (a b : list (list (list V))), block m d a -> block n d b -> block (m + n) d (glue a b).
Proof.
  intros V m n d a. induction a as [|x a IH]; intros b Ha Hb; destruct b as [|y b]; cbn; try constructor.
  - inversion Ha as [|? ? [A1 A2] A3]; inversion Hb as [|? ? [B1 B2] B3]; subst. split; [now rewrite app_length|]. apply Forall_app. auto.
  - inversion Ha; inversion Hb; subst. now apply IH.
Qed.
Lemma glue_lens : forall A m n (a b : list (list A)), Forall (fun w => length w = m) a -> Forall (fun w => length w = n) b ->
  Forall (fun w => length w = m + n) (glue a b).
Proof.
  intros A m n a. induction a as [|x a IH]; intros b Ha Hb; destruct b as [|y b]; cbn; try constructor; inversion Ha; inversion Hb; subst.
  - now rewrite app_length. - now apply IH.
Qed.

Section R.
Variable V : Type.
Variable d : V.
Notation reorder := (reorder V d). Notation column := (column V d). Notation good := (good d).
Notation results := (results V).

(** ** association lists *)
Lemma assoc_app : forall A (l1 l2 : list (string * A)) k, assoc (l1 ++ l2) k = match assoc l1 k with Some a => Some a | None => assoc l2 k end.
Proof. induction l1 as [|[k' a] l1 IH]; intros; cbn; auto. destruct (String.eqb k' k); auto. Qed.
Lemma assoc_none : forall A (l : list (string * A)) k, assoc l k = None <-> ~ In k (map fst l).
Proof.
  intros A l k. induction l as [|[k' a] l IH]; cbn; [intuition|]. destruct (String.eqb_spec k' k) as [->|E]; split; intros H; try discriminate; try tauto.
Qed.
Lemma assoc_some_in : forall A (l : list (string * A)) k, In k (map fst l) -> exists a, assoc l k = Some a /\ In (k, a) l.
Proof.
  intros A l k. induction l as [|[k' a] l IH]; intros H; [destruct H|]. cbn. destruct (String.eqb_spec k' k) as [->|E]; [exists a; auto|].
  destruct H as [H|H]; [contradiction|]. destruct (IH H) as (b & H1 & H2). eauto.
Qed.
Lemma free_table_fst : forall names i ch, map fst (free_table V d i names ch) = names.
Proof. induction names; intros; cbn; auto. now f_equal. Qed.
Lemma free_table_assoc : forall names i ch j k, NoDup names -> nth_error names j = Some k ->
  assoc (free_table V d i names ch) k = Some (column (i + j) ch, 0).
Proof.
  induction names as [|x names IH]; intros i ch j k H E; [destruct j; discriminate|]. inversion H; subst. destruct j; cbn in E |- *.
  - injection E as ->. rewrite String.eqb_refl. now rewrite Nat.add_0_r.
  - destruct (String.eqb_spec x k) as [->|Ek]. { exfalso. apply H2. now apply nth_error_In in E. } rewrite (IH (S i) ch j k) by auto. do 2 f_equal. f_equal. lia.
Qed.
Lemma con_table_some : forall names (cc : list (string * trace V)), (forall k, In k names -> In k (map fst cc)) -> exists ct, con_table V names cc = Some ct /\
  map fst ct = names /\ (forall k, In k names -> assoc ct k = option_map (fun t => (t, 0)) (assoc cc k)).
Proof.
  induction names as [|x names IH]; intros cc H; cbn.
  - exists []. repeat split; auto. intros k [].
  - destruct (assoc_some_in _ cc x (H x (or_introl eq_refl))) as (t & Ht & _). rewrite Ht. destruct (IH cc) as (ct & A & B & C). { intros; apply H; now right. }
    rewrite A. eexists. split; [reflexivity|]. split; [cbn; now f_equal|]. intros k Hk. cbn. destruct (String.eqb_spec x k) as [->|E]; [now rewrite Ht|].
    destruct Hk; [contradiction|]. auto.
Qed.

(** ** reordering a sample *)
Lemma reorder_same : forall f s, NoDup f -> length s = length f -> reorder f f s = s.
Proof.
  intros f s H L. unfold M_Results.reorder. apply nth_ext with (d := d) (d' := d); [now rewrite map_length|]. rewrite map_length. intros i Hi.
  destruct (nth_error f i) as [k|] eqn:E; [|apply nth_error_None in E; lia].
  erewrite nth_error_nth; [|apply map_nth_error; exact E]. now rewrite (index_nth f i k).
Qed.
Lemma reorder_length : forall f g s, length (reorder f g s) = length g.
Proof. intros. unfold M_Results.reorder. apply map_length. Qed.
Lemma reorder_nth : forall f g s i k, nth_error g i = Some k -> nth i (reorder f g s) d = nth (index k f) s d.
Proof. intros. unfold M_Results.reorder. erewrite nth_error_nth; [|apply map_nth_error; exact H]. reflexivity. Qed.
Lemma reorder_comp : forall f g h s, (forall k, In k h -> In k g) -> reorder g h (reorder f g s) = reorder f h s.
Proof.
  intros f g h s H. unfold M_Results.reorder at 1 3. apply map_ext_in. intros k Hk. apply (reorder_nth f g s). now apply index_in, H.
Qed.
Lemma reorder_column : forall f g ch i k, nth_error g i = Some k -> column i (map (map (reorder f g)) ch) = column (index k f) ch.
Proof.
  intros f g ch i k E. unfold M_Results.column. rewrite map_map. apply map_ext. intros w. rewrite map_map. apply map_ext. intros s. now apply reorder_nth.
Qed.
Lemma reorder_block : forall m f g ch, block m (length f) ch -> block m (length g) (map (map (reorder f g)) ch).
Proof.
  intros m f g ch H. unfold block in *. apply Forall_map. eapply Forall_impl; [|exact H]. intros w [H1 _]. split; [now rewrite map_length|].
  apply Forall_map. apply Forall_forall. intros s _. apply reorder_length.
Qed.
Lemma reorder_chain_same : forall m f ch, NoDup f -> block m (length f) ch -> map (map (reorder f f)) ch = ch.
Proof.
  intros m f ch H B. induction B as [|w ch [_ Hw] B IH]; cbn; auto. rewrite IH. f_equal. clear IH B.
  induction Hw as [|s w Hs Hw IH]; cbn; auto. rewrite IH. f_equal. now apply reorder_same.
Qed.

(** ** _save_results *)
Lemma save_good : forall m f c ch (cc : list (string * trace V)) lp b tb, NoDup (f ++ c) -> block m (length f) ch ->
  length lp = length ch -> Forall (fun w => length w = m) lp ->
  c <> [] -> Permutation (map fst cc) c -> Forall (fun x => length (snd x) = length ch /\ Forall (fun w => length w = m) (snd x)) cc ->
  exists r, save_results V d {| free := f; con := c; chain := ch; cchain := Some cc; lnprobs := lp; burnin := b; table := tb |} = Ok r /\
    good m r /\ free r = f /\ con r = c /\ chain r = ch /\ cchain r = Some cc /\ lnprobs r = lp /\ burnin r = b /\
    (forall k e, assoc (table r) k = Some e -> snd e = 0).
Proof.
  intros m f c ch cc lp b tb Hn Hb L1 L2 Hc0 Hp Hc. unfold save_results. cbn [cchain con free chain lnprobs burnin].
  destruct (con_table_some c cc) as (ct & A & B & C). { intros k Hk. apply Permutation_sym in Hp. eapply Permutation_in; eauto. }
  rewrite A. eexists. split; [reflexivity|]. assert (Nf : NoDup f) by (eapply NoDup_app_l; eauto). split; [constructor; cbn; auto|].
  - intros k. repeat split.
    + intros i Hi. unfold trace_of. cbn. rewrite assoc_app.
      assert (Hk : assoc ct k = None). { apply assoc_none. rewrite B. intros Hk. apply nth_error_In in Hi. clear -Hn Hi Hk.
        induction f; [destruct Hi|]. inversion Hn; subst. destruct Hi as [->|Hi]; auto. apply H1. apply in_or_app. auto. }
      rewrite Hk. rewrite (free_table_assoc f 0 ch i k) by auto. reflexivity.
    + intros Hk. unfold trace_of. cbn. rewrite assoc_app, (C k Hk).
      assert (In k (map fst cc)) as Hk' by (apply Permutation_sym in Hp; eapply Permutation_in; eauto). destruct (assoc_some_in _ cc k Hk') as (t & Ht & _).
      rewrite Ht. reflexivity.
    + intros Hk. unfold trace_of. cbn. rewrite assoc_app.
      replace (assoc ct k) with (@None (trace V * nat)). 2:{ symmetry. apply assoc_none. rewrite B. intros K. apply Hk. apply in_or_app. auto. }
      replace (assoc (free_table V d 0 f ch) k) with (@None (trace V * nat)); auto. symmetry. apply assoc_none. rewrite free_table_fst. intros K. apply Hk. apply in_or_app. auto.
  - repeat split; auto. cbn. intros k e He. rewrite assoc_app in He. destruct (in_dec string_dec k c) as [K|K].
    + rewrite (C k K) in He. assert (In k (map fst cc)) as Hk' by (apply Permutation_sym in Hp; eapply Permutation_in; eauto).
      destruct (assoc_some_in _ cc k Hk') as (t & Ht & _). rewrite Ht in He. cbn in He. now injection He as <-.
    + replace (assoc ct k) with (@None (trace V * nat)) in He. 2:{ symmetry. apply assoc_none. now rewrite B. }
      clear -He. revert He. generalize 0 at 1. induction f as [|x f IH]; intros i He; cbn in He; [discriminate|]. destruct (String.eqb x k); [now injection He as <-|eauto].
Qed.
Lemma save_good_none : forall m f ch lp b tb, NoDup (f ++ []) -> block m (length f) ch -> length lp = length ch -> Forall (fun w => length w = m) lp ->
  exists r, save_results V d {| free := f; con := []; chain := ch; cchain := None; lnprobs := lp; burnin := b; table := tb |} = Ok r /\
    good m r /\ free r = f /\ con r = [] /\ chain r = ch /\ cchain r = None /\ lnprobs r = lp /\ burnin r = b.
Proof.
  intros m f ch lp b tb Hn Hb L1 L2. unfold save_results. cbn [cchain con free chain lnprobs burnin]. eexists. split; [reflexivity|].
  assert (Nf : NoDup f) by (now rewrite app_nil_r in Hn). split; [constructor; cbn; auto|repeat split; auto].
  intros k. repeat split.
  - intros i Hi. unfold trace_of. cbn. rewrite (free_table_assoc f 0 ch i k) by auto. reflexivity.
  - intros [].
  - intros Hk. unfold trace_of. cbn. replace (assoc (free_table V d 0 f ch) k) with (@None (trace V * nat)); auto. symmetry. apply assoc_none. rewrite free_table_fst. intros K. apply Hk. apply in_or_app. auto.
Qed.

(** ** verify_param_ordering *)
Lemma good_trace_free : forall m r k, good m r -> In k (free r) -> trace_of r k = Some (column (index k (free r)) (chain r)).
Proof. intros m r k G H. apply (g_table _ _ _ G k). now apply index_in. Qed.
Lemma perm_in : forall (a b : list string) k, Permutation a b -> (In k a <-> In k b).
Proof. intros a b k H. split; apply Permutation_in; auto. now apply Permutation_sym. Qed.
Theorem verify_good : forall m r f c, good m r -> Permutation (free r) f -> Permutation (con r) c ->
  exists r', verify_ordering V d r f c = Ok r' /\ good m r' /\ free r' = f /\ con r' = c /\ chain r' = map (map (reorder (free r) f)) (chain r) /\
    cchain r' = cchain r /\ lnprobs r' = lnprobs r /\ burnin r' = burnin r /\ (forall k, trace_of r' k = trace_of r k).
Proof.
  intros m r f c G Pf Pc. unfold verify_ordering. rewrite (proj2 (same_names_perm _ _) Pf), (proj2 (same_names_perm _ _) Pc). cbn [negb].
  assert (Nfc := g_names _ _ _ G). assert (Nf : NoDup (free r)) by (eapply NoDup_app_l; eauto).
  set (ch := if list_eqb (free r) f then chain r else map (map (reorder (free r) f)) (chain r)).
  assert (Hch : ch = map (map (reorder (free r) f)) (chain r)).
  { unfold ch. destruct (list_eqb (free r) f) eqn:E; auto. apply list_eqb_spec in E. rewrite <- E. symmetry. apply reorder_chain_same with m; auto. apply G. }
  clearbody ch. destruct (list_eqb (free r) f && list_eqb (con r) c) eqn:E.
  - apply andb_true_iff in E. destruct E as [E1 E2]. apply list_eqb_spec in E1, E2. exists r. split; [reflexivity|]. split; [exact G|]. split; [exact E1|]. split; [exact E2|]. split; [|auto].
    rewrite <- E1. symmetry. apply reorder_chain_same with m; auto. apply G.
  - assert (N' : NoDup (f ++ c)). { eapply Permutation_NoDup; [|exact Nfc]. now apply Permutation_app. }
    assert (Hb : block m (length f) ch). { rewrite Hch. apply reorder_block. apply G. }
    assert (Hl : length ch = length (chain r)) by (rewrite Hch; apply map_length).
    assert (T : forall r', good m r' -> free r' = f -> con r' = c -> chain r' = ch -> cchain r' = cchain r -> forall k, trace_of r' k = trace_of r k).
    { intros r' G' Hf' Hc' Hch' Hcc' k. destruct (in_dec string_dec k (free r)) as [K|K].
      - rewrite (good_trace_free m r) by auto. assert (K' : In k (free r')) by (rewrite Hf'; now apply (perm_in _ _ k Pf)).
        rewrite (good_trace_free m r') by auto. rewrite Hch', Hch. f_equal. apply reorder_column. rewrite <- Hf'. now apply index_in.
      - destruct (in_dec string_dec k (con r)) as [K2|K2].
        + rewrite (proj1 (proj2 (g_table _ _ _ G k)) K2). assert (K' : In k (con r')) by (rewrite Hc'; now apply (perm_in _ _ k Pc)).
          rewrite (proj1 (proj2 (g_table _ _ _ G' k)) K'). now rewrite Hcc'.
        + rewrite (proj2 (proj2 (g_table _ _ _ G k))) by (intros Q; apply in_app_or in Q; tauto). apply (g_table _ _ _ G' k). rewrite Hf', Hc'.
          intros Q. apply in_app_or in Q. rewrite <- (perm_in _ _ k Pf), <- (perm_in _ _ k Pc) in Q. tauto. }
    destruct (cchain r) as [cc|] eqn:Ec.
    + assert (Gc := g_cchain _ _ _ G). rewrite Ec in Gc. destruct Gc as (Gc0 & Gc1 & Gc2).
      destruct (save_good m f c ch cc (lnprobs r) (burnin r) (table r)) as (r' & A & B & C & D & E1 & E2 & E3 & E4 & _); auto.
      * rewrite Hl. apply G. * apply G. * intros ->. apply Gc0. apply Permutation_sym in Pc. now apply Permutation_nil in Pc. * etransitivity; eauto. * now rewrite Hl.
      * exists r'. split; [exact A|]. split; [exact B|]. repeat (split; [congruence|]). now apply T.
    + assert (Gc := g_cchain _ _ _ G). rewrite Ec in Gc. rewrite Gc in Pc. apply Permutation_nil in Pc. subst c.
      destruct (save_good_none m f ch (lnprobs r) (burnin r) (table r)) as (r' & A & B & C & D & E1 & E2 & E3 & E4); auto.
      * rewrite Hl. apply G. * apply G.
      * exists r'. split; [exact A|]. split; [exact B|]. repeat (split; [congruence|]). now apply T.
Qed.
Theorem verify_refuses : forall r f c, ~ (Permutation (free r) f /\ Permutation (con r) c) -> verify_ordering V d r f c = ValueError.
Proof.
  intros r f c H. unfold verify_ordering. destruct (same_names (free r) f) eqn:E1; cbn; auto. destruct (same_names (con r) c) eqn:E2; cbn; auto.
  exfalso. apply H. now rewrite <- !same_names_perm.
Qed.

(** ** __add__ *)
Lemma fields_some : forall (cb ca : list (string * trace V)), (forall k, In k (map fst ca) -> In k (map fst cb)) -> exists cc, fields V cb ca = Some cc /\ map fst cc = map fst ca /\
  (forall k, assoc cc k = match assoc ca k, assoc cb k with Some t, Some u => Some (glue t u) | _, _ => None end) /\
  (forall P : string * trace V -> Prop, (forall k t u, In (k, t) ca -> In (k, u) cb -> P (k, glue t u)) -> Forall P cc).
Proof.
  intros cb ca. induction ca as [|[k t] ca IH]; intros H; cbn.
  - exists []. repeat split; auto. 
  - destruct (assoc_some_in _ cb k (H k (or_introl eq_refl))) as (u & Hu & Iu). rewrite Hu. destruct IH as (cc & A & B & C & D). { intros; apply H; now right. }
    rewrite A. eexists. split; [reflexivity|]. split; [cbn; now f_equal|]. split.
    + intros j. cbn. destruct (String.eqb_spec k j) as [->|E]; [now rewrite Hu|]. apply C.
    + intros P HP. constructor. { apply HP; [now left|exact Iu]. } apply D. intros j t0 u0 I1 I2. apply HP; [now right|exact I2].
Qed.
Definition joined (a b : option (trace V)) : option (trace V) := match a, b with Some x, Some y => Some (glue x y) | _, _ => None end.
Theorem add_good : forall m n a b, good m a -> good n b -> walkers a = walkers b -> Permutation (free b) (free a) -> Permutation (con b) (con a) -> cchain a <> None ->
  exists c b', add V d a b = Ok (c, b') /\ good (m + n) c /\ free c = free a /\ con c = con a /\ burnin c = burnin a /\ cchain c <> None /\
    chain c = glue (chain a) (map (map (reorder (free b) (free a))) (chain b)) /\ lnprobs c = glue (lnprobs a) (lnprobs b) /\
    (forall k, trace_of c k = joined (trace_of a k) (trace_of b k)) /\ (forall k e, assoc (table c) k = Some e -> snd e = 0) /\
    (forall k, trace_of b' k = trace_of b k).
Proof.
  intros m n a b Ga Gb Hw Pf Pc Hca. unfold add. rewrite Hw, Nat.eqb_refl. cbn [negb].
  destruct (verify_good n b (free a) (con a) Gb Pf Pc) as (b' & -> & Gb' & F1 & F2 & F3 & F4 & F5 & F6 & F7).
  destruct (cchain a) as [ca|] eqn:Ea; [|congruence]. rewrite F4.
  assert (Gca := g_cchain _ _ _ Ga). rewrite Ea in Gca. destruct Gca as (Gca0 & Gca1 & Gca2).
  assert (Gcb := g_cchain _ _ _ Gb). destruct (cchain b) as [cb|] eqn:Eb.
  2:{ exfalso. rewrite Gcb in Pc. apply Permutation_nil in Pc. contradiction. }
  destruct Gcb as (Gcb0 & Gcb1 & Gcb2).
  destruct (fields_some cb ca) as (cc & A & B & C & D).
  { intros k Hk. apply (perm_in _ _ k Gca1) in Hk. apply (perm_in _ _ k Pc) in Hk. now apply (perm_in _ _ k Gcb1). }
  rewrite A. unfold walkers in Hw. assert (Lc : length (chain b') = length (chain a)) by (rewrite F3, map_length; auto).
  destruct (g_lnp _ _ _ Ga) as [La1 La2]. destruct (g_lnp _ _ _ Gb) as [Lb1 Lb2].
  assert (Lg : length (glue (chain a) (chain b')) = length (chain a)) by (apply glue_length; auto).
  destruct (save_good (m + n) (free a) (con a) (glue (chain a) (chain b')) cc (glue (lnprobs a) (lnprobs b')) (burnin a) []) as (r & S1 & S2 & S3 & S4 & S5 & S6 & S7 & S8 & S9).
  - apply Ga.
  - apply glue_block; [apply Ga|]. rewrite <- F1. apply Gb'.
  - rewrite Lg, glue_length; auto. rewrite F5. congruence.
  - apply glue_lens; auto. now rewrite F5.
  - auto.
  - now rewrite B.
  - apply D. intros k t u It Iu. cbn. rewrite Forall_forall in Gca2, Gcb2. destruct (Gca2 _ It) as [T1 T2]. destruct (Gcb2 _ Iu) as [U1 U2]. cbn in *.
    rewrite Lg, glue_length by congruence. split; auto. now apply glue_lens.
  - rewrite S1. exists r, b'. rewrite F3 in S5. rewrite F5 in S7. split; auto. repeat (split; [now auto|]). split; [rewrite S6; discriminate|]. repeat (split; [now auto|]). split; auto.
    intros k. destruct (in_dec string_dec k (free a)) as [K|K].
    + rewrite (good_trace_free (m + n) r), (good_trace_free m a) by (auto; now rewrite S3). rewrite <- F7. rewrite (good_trace_free n b') by (auto; now rewrite F1).
      cbn. rewrite S3, F1, S5, <- F3. f_equal. unfold M_Results.column. apply glue_map.
    + destruct (in_dec string_dec k (con a)) as [K2|K2].
      * rewrite (proj1 (proj2 (g_table _ _ _ S2 k))) by (now rewrite S4). rewrite (proj1 (proj2 (g_table _ _ _ Ga k)) K2).
        rewrite (proj1 (proj2 (g_table _ _ _ Gb k))) by (now apply (perm_in _ _ k Pc)). rewrite S6, Ea, Eb. apply C.
      * rewrite (proj2 (proj2 (g_table _ _ _ S2 k))) by (rewrite S3, S4; intros Q; apply in_app_or in Q; tauto).
        rewrite (proj2 (proj2 (g_table _ _ _ Ga k))) by (intros Q; apply in_app_or in Q; tauto). reflexivity.
Qed.
Theorem add_no_constrained : forall m a b, good m a -> con a = [] -> add V d a b = ValueError \/ add V d a b = AttributeError.
Proof.
  intros m a b G H. unfold add. destruct (negb _); auto. assert (Gc := g_cchain _ _ _ G). destruct (cchain a) as [cc|]; [destruct Gc; contradiction|].
  destruct (verify_ordering V d b (free a) (con a)) eqn:E; auto.
  all: unfold verify_ordering, save_results in E; repeat match type of E with context [if ?x then _ else _] => destruct x end; try discriminate;
       cbn in E; destruct (cchain b); try discriminate; destruct (con_table V (con a) l); discriminate.
Qed.
Theorem add_no_constrained_always : forall m n a b, good m a -> good n b -> con a = [] -> walkers a = walkers b -> Permutation (free b) (free a) -> con b = [] ->
  add V d a b = AttributeError.
Proof.
  intros m n a b G Gb H Hw Pf Hb. unfold add. rewrite Hw, Nat.eqb_refl. cbn [negb]. assert (Gc := g_cchain _ _ _ G). destruct (cchain a) as [cc|]; [destruct Gc; contradiction|].
  destruct (verify_good n b (free a) (con a) Gb Pf) as (b' & -> & _); auto. now rewrite H, Hb.
Qed.
Theorem add_refuses : forall a b, walkers a <> walkers b \/ ~ Permutation (free b) (free a) \/ ~ Permutation (con b) (con a) -> add V d a b = ValueError.
Proof.
  intros a b H. unfold add. destruct (Nat.eqb_spec (walkers a) (walkers b)) as [E|E]; cbn; auto. rewrite verify_refuses; auto. tauto.
Qed.
Lemma flat_zero : forall r k, (forall k e, assoc (table r) k = Some e -> snd e = 0) -> flat_trace r k = option_map (@concat V) (trace_of r k).
Proof.
  intros r k H. unfold flat_trace, trace_of. destruct (assoc (table r) k) as [[t b]|] eqn:E; cbn; auto. assert (K := H k _ E). cbn in K. subst b. cbn. f_equal. f_equal.
  clear. induction t; cbn; auto. now f_equal.
Qed.
Theorem add_assoc : forall m n p a b c, good m a -> good n b -> good p c -> walkers a = walkers b -> walkers b = walkers c ->
  Permutation (free b) (free a) -> Permutation (free c) (free b) -> Permutation (con b) (con a) -> Permutation (con c) (con b) -> cchain a <> None ->
  exists ab b1 l c1 bc c2 r bc1, add V d a b = Ok (ab, b1) /\ add V d ab c = Ok (l, c1) /\ add V d b c = Ok (bc, c2) /\ add V d a bc = Ok (r, bc1) /\
    free l = free r /\ con l = con r /\ chain l = chain r /\ lnprobs l = lnprobs r /\ burnin l = burnin r /\
    (forall k, trace_of l k = trace_of r k) /\ (forall k, flat_trace l k = flat_trace r k).
Proof.
  intros m n p a b c Ga Gb Gc W1 W2 P1 P2 P3 P4 Hca.
  assert (Hcb : cchain b <> None). { intros E. assert (G := g_cchain _ _ _ Gb). rewrite E in G. rewrite G in P3. apply Permutation_nil in P3.
    assert (G' := g_cchain _ _ _ Ga). destruct (cchain a); [destruct G'|]; contradiction. }
  destruct (add_good m n a b) as (ab & b1 & A1 & A2 & A3 & A4 & A5 & A5' & A6 & A7 & A8 & A9 & _); auto.
  destruct (add_good n p b c) as (bc & c2 & B1 & B2 & B3 & B4 & B5 & B5' & B6 & B7 & B8 & B9 & _); auto.
  assert (Wab : walkers ab = walkers a). { unfold walkers. rewrite A6. apply glue_length. rewrite map_length. exact W1. }
  assert (Wbc : walkers bc = walkers b). { unfold walkers. rewrite B6. apply glue_length. rewrite map_length. exact W2. }
  destruct (add_good (m + n) p ab c) as (l & c1 & C1 & C2 & C3 & C4 & C5 & C5' & C6 & C7 & C8 & C9 & _); auto.
  { congruence. } { rewrite A3. etransitivity; eauto. } { rewrite A4. etransitivity; eauto. }
  destruct (add_good m (n + p) a bc) as (r & bc1 & D1 & D2 & D3 & D4 & D5 & D5' & D6 & D7 & D8 & D9 & _); auto.
  { congruence. } { now rewrite B3. } { now rewrite B4. }
  exists ab, b1, l, c1, bc, c2, r, bc1.
  assert (T : forall k, trace_of l k = trace_of r k).
  { intros k. rewrite C8, D8, A8, B8. unfold joined. destruct (trace_of a k), (trace_of b k), (trace_of c k); auto. now rewrite glue_assoc. }
  repeat (split; [first [assumption|congruence]|]). split.
  - rewrite C6, D6, A6, B6, A3, B3, glue_assoc. f_equal. rewrite glue_map. f_equal. rewrite map_map. apply map_ext. intros w. rewrite map_map. apply map_ext.
    intros s. symmetry. apply reorder_comp. intros k Hk. now apply (perm_in _ _ k P1).
  - split; [rewrite C7, D7, A7, B7; apply glue_assoc|]. split; [congruence|]. split; auto. intros k. rewrite !flat_zero; auto. now rewrite T.
Qed.
End R.
