From Coq Require Import List Arith Bool Lia Wf_nat.
From Verif Require Import M_Prep S_Prep.
Import ListNotations.

Lemma mem_In x l : mem x l = true <-> In x l.
Proof.
  unfold mem. rewrite existsb_exists. split.
  - intros [y [H E]]. apply Nat.eqb_eq in E. now subst.
  - intro H. exists x. split; [exact H|apply Nat.eqb_refl].
Qed.
Lemma mem_false x l : mem x l = false <-> ~ In x l.
Proof. rewrite <- mem_In. destruct (mem x l); split; congruence. Qed.
Lemma upd_same {A} (f : nat -> A) n v : upd f n v n = v.
Proof. unfold upd. now rewrite Nat.eqb_refl. Qed.
Lemma upd_other {A} (f : nat -> A) n v m : m <> n -> upd f n v m = f m.
Proof. unfold upd. intro H. apply Nat.eqb_neq in H. now rewrite H. Qed.
Lemma rf_incl x y l : In y (remove_first x l) -> In y l.
Proof. induction l as [|z l IH]; cbn; [tauto|]. destruct (Nat.eqb x z); cbn; intuition. Qed.
Lemma rf_keep x y l : In y l -> y <> x -> In y (remove_first x l).
Proof.
  induction l as [|z l IH]; cbn; [tauto|]. intros [E|H] N.
  - subst z. destruct (Nat.eqb_spec x y); [congruence|left; reflexivity].
  - destruct (Nat.eqb_spec x z); [exact H|right; auto].
Qed.
Lemma rf_nodup x l : NoDup l -> NoDup (remove_first x l) /\ ~ In x (remove_first x l).
Proof.
  induction l as [|z l IH]; cbn; intro H; [split; [constructor|tauto]|].
  apply NoDup_cons_iff in H. destruct H as [H1 H2]. destruct (IH H2) as [A B].
  destruct (Nat.eqb_spec x z); [subst; auto|]. split.
  - constructor; [|exact A]. intro K. apply H1. eapply rf_incl; eassumption.
  - cbn. intuition congruence.
Qed.

Section Prep.
Variable names : list nat.
Variable expr : nat -> option (list nat).
Notation edge := (edge names expr).
Notation depends := (depends names expr).
Notation con := (constrained expr).
Hypothesis nodup_names : NoDup names.
Variable rank : nat -> nat.
Hypothesis acyc : forall n c, edge n c -> rank c < rank n.

Lemma dep_rank n c : depends n c -> rank c < rank n.
Proof. induction 1 as [n c H|n c x H _ IH]; [auto|]. pose proof (acyc _ _ H). lia. Qed.
Lemma dep_trans a b c : depends a b -> depends b c -> depends a c.
Proof. induction 1 as [n x H|n x y H _ IH]; intro K; eapply dep_via; eauto. Qed.
Lemma dep_names n c : depends n c -> In n names /\ In c names.
Proof. induction 1 as [n c H|n c x H _ IH]; destruct H as [A [B _]]; tauto. Qed.
Lemma edge_con n c : edge n c -> con n = true.
Proof. intros [_ [_ [l [E _]]]]. unfold constrained. now rewrite E. Qed.

Record Inv (st : pst) : Prop := {
  I1 : forall c n, kids st c n = true -> edge n c;
  I2 : forall c n, con c = false -> edge n c -> kids st c n = true;
  I3 : forall c n, kids st c n = true -> con c = true -> In c (deps st n);
  I4 : forall n x, In x (deps st n) -> depends n x;
  I5 : forall n u, depends n u -> con u = false -> exists x, In x (deps st n) /\ (x = u \/ depends x u);
  I6 : forall n, NoDup (deps st n) }.

(** ** parsing *)
Definition PInv (done : nat -> nat -> Prop) (st : pst) : Prop :=
  (forall c n, kids st c n = true <-> done n c) /\
  (forall n c, In c (deps st n) <-> done n c) /\ (forall n, NoDup (deps st n)).
Lemma parse_sym_ok done st n s : PInv done st ->
  PInv (fun a c => done a c \/ (a = n /\ c = s /\ In s names)) (parse_sym names n st s).
Proof.
  intros [A [B C]]. unfold parse_sym.
  destruct (mem s names) eqn:E1; [apply mem_In in E1|apply mem_false in E1]; cbn [andb].
  2:{ split; [|split].
      - intros c m. rewrite A. tauto.
      - intros m c. rewrite B. tauto.
      - exact C. }
  destruct (mem s (deps st n)) eqn:E2; [apply mem_In in E2|apply mem_false in E2]; cbn [negb].
  - pose proof (proj1 (B n s) E2). split; [|split].
    + intros c m. rewrite A. intuition (subst; auto).
    + intros m c. rewrite B. intuition (subst; auto).
    + exact C.
  - split; [|split]; cbn [deps kids].
    + intros c m. destruct (Nat.eq_dec c s) as [->|N].
      * rewrite upd_same. destruct (Nat.eq_dec m n) as [->|N'].
        -- rewrite upd_same. tauto.
        -- rewrite upd_other by exact N'. rewrite A. intuition congruence.
      * rewrite upd_other by exact N. rewrite A. intuition congruence.
    + intros m c. destruct (Nat.eq_dec m n) as [->|N].
      * rewrite upd_same, in_app_iff, B. cbn. intuition (subst; auto).
      * rewrite upd_other by exact N. rewrite B. intuition congruence.
    + intro m. destruct (Nat.eq_dec m n) as [->|N].
      * rewrite upd_same. 
        clear - C E2. specialize (C n). induction (deps st n) as [|x l IH]; cbn; [repeat constructor; auto|].
        apply NoDup_cons_iff in C. destruct C as [C1 C2]. constructor.
        -- rewrite in_app_iff. cbn. intros [K|[K|[]]]; [auto|subst; apply E2; left; reflexivity].
        -- apply IH; [exact C2|]. intro K. apply E2. right. exact K.
      * rewrite upd_other by exact N. apply C.
Qed.
Lemma PInv_ext (d1 d2 : nat -> nat -> Prop) st : (forall a b, d1 a b <-> d2 a b) -> PInv d1 st -> PInv d2 st.
Proof.
  intros E [A [B C]]. split; [|split; [|exact C]]; intros; rewrite <- E; auto.
Qed.
Lemma parse_syms_ok n l : forall done st, PInv done st ->
  PInv (fun a c => done a c \/ (a = n /\ In c l /\ In c names)) (fold_left (parse_sym names n) l st).
Proof.
  induction l as [|s l IH]; intros done st H; cbn [fold_left].
  - eapply PInv_ext; [|exact H]. cbn. tauto.
  - eapply PInv_ext; [|apply IH, parse_sym_ok, H]. cbn. intros a b. intuition (subst; auto).
Qed.
Lemma parse_par_ok ns : forall done st, PInv done st -> (forall n c, In n ns -> ~ done n c) -> NoDup ns ->
  (forall n, In n ns -> deps st n = []) ->
  PInv (fun a c => done a c \/ (In a ns /\ In c names /\ exists l, expr a = Some l /\ In c l))
       (fold_left (parse_par names expr) ns st).
Proof.
  induction ns as [|n ns IH]; intros done st H Hd Hn He; cbn [fold_left].
  - eapply PInv_ext; [|exact H]. cbn. tauto.
  - apply NoDup_cons_iff in Hn. destruct Hn as [Hn1 Hn2].
    unfold parse_par at 2. destruct (expr n) as [l|] eqn:El.
    + assert (H0 : PInv done (mkP (upd (deps st) n []) (kids st))).
      { destruct H as [A [B C]]. split; [exact A|split].
        - intros m c. cbn. destruct (Nat.eq_dec m n) as [->|N]; [rewrite upd_same|rewrite upd_other by exact N; apply B].
          cbn. split; [tauto|]. intro K. exact (Hd n c (or_introl eq_refl) K).
        - intro m. cbn. destruct (Nat.eq_dec m n) as [->|N]; [rewrite upd_same; constructor|rewrite upd_other by exact N; apply C]. }
      pose proof (parse_syms_ok n l _ _ H0) as H1.
      eapply PInv_ext; [|apply (IH _ _ H1)].
      * cbn. intros a b. split.
        -- intros [[K|[-> [K1 K2]]]|[K1 K2]]; eauto 10.
        -- intros [K|[[<-|K] [K1 [l' [K2 K3]]]]]; eauto 10. rewrite El in K2. injection K2 as <-. eauto 10.
      * intros m c Hm [K|[-> _]]; [exact (Hd m c (or_intror Hm) K)|exact (Hn1 Hm)].
      * exact Hn2.
      * intros m Hm. destruct H1 as [_ [B _]]. destruct (deps _ m) as [|x t] eqn:E; [reflexivity|].
        exfalso. assert (In x (deps (fold_left (parse_sym names n) l (mkP (upd (deps st) n []) (kids st))) m)) by (rewrite E; left; reflexivity).
        apply B in H1. destruct H1 as [K|[-> _]]; [exact (Hd m x (or_intror Hm) K)|exact (Hn1 Hm)].
    + eapply PInv_ext; [|apply (IH done st H); [intros; apply Hd; cbn; tauto|exact Hn2|intros; apply He; cbn; tauto]].
      cbn. intros a b. split; [intuition|]. intros [K|[[<-|K] [K1 [l' [K2 K3]]]]]; eauto 10. rewrite El in K2. discriminate.
Qed.
Lemma parse_inv : Inv (parse names expr).
Proof.
  assert (H0 : PInv (fun _ _ => False) p0).
  { split; [|split]; cbn; intros; [split; [discriminate|tauto]|tauto|constructor]. }
  pose proof (parse_par_ok names _ _ H0 (fun _ _ _ K => K) nodup_names (fun _ _ => eq_refl)) as [A [B C]].
  assert (E : forall n c, (False \/ In n names /\ In c names /\ (exists l, expr n = Some l /\ In c l)) <-> edge n c).
  { intros n c. unfold S_Prep.edge. tauto. }
  unfold parse. constructor.
  - intros c n K. apply E, A, K.
  - intros c n _ K. apply A, E, K.
  - intros c n K _. apply B, A, K.
  - intros n x K. apply dep_direct, E, B, K.
  - intros n u K _. inversion K as [? ? K1|? c ? K1 K2]; subst.
    + exists u. split; [apply B, E, K1|auto].
    + exists c. split; [apply B, E, K1|auto].
  - exact C.
Qed.

(** ** elimination *)
Lemma elim_dep_inv st n dep : Inv st -> In dep (deps st n) -> con dep = true -> Inv (elim_dep st n dep).
Proof.
  intros [A1 A2 A3 A4 A5 A6] Hd Hc. unfold elim_dep.
  assert (Hnd : dep <> n). { intro E. pose proof (dep_rank _ _ (A4 _ _ Hd)). subst. lia. }
  rewrite (upd_other _ n _ dep Hnd).
  set (d0 := remove_first dep (deps st n)).
  destruct (rf_nodup dep _ (A6 n)) as [N1 N2]. fold d0 in N1, N2.
  constructor; cbn [deps kids].
  - intros c m. destruct (Nat.eq_dec c dep) as [->|N]; [rewrite upd_same|rewrite upd_other by exact N; apply A1].
    destruct (Nat.eq_dec m n) as [->|N']; [rewrite upd_same; discriminate|rewrite upd_other by exact N'; apply A1].
  - intros c m K1 K2. rewrite upd_other by congruence. auto.
  - intros c m K1 K2. destruct (Nat.eq_dec m n) as [->|N'].
    + rewrite upd_same, in_app_iff. left. destruct (Nat.eq_dec c dep) as [->|N].
      * rewrite !upd_same in K1. discriminate.
      * rewrite upd_other in K1 by exact N. apply rf_keep; auto.
    + rewrite !upd_other by exact N'. destruct (Nat.eq_dec c dep) as [->|N].
      * rewrite upd_same, upd_other in K1 by exact N'. auto.
      * rewrite upd_other in K1 by exact N. auto.
  - intros m x. destruct (Nat.eq_dec m n) as [->|N'].
    + rewrite upd_same, in_app_iff, filter_In. intros [K|[K _]].
      * apply A4. eapply rf_incl; exact K.
      * eapply dep_trans; [apply A4; exact Hd|apply A4; exact K].
    + rewrite !upd_other by exact N'. apply A4.
  - intros m u K1 K2. destruct (Nat.eq_dec m n) as [->|N'].
    + rewrite upd_same. destruct (A5 n u K1 K2) as [x [X1 X2]]. destruct (Nat.eq_dec x dep) as [->|N].
      * destruct X2 as [->|X2]; [congruence|]. destruct (A5 dep u X2 K2) as [y [Y1 Y2]]. exists y. split; [|exact Y2].
        rewrite in_app_iff, filter_In. destruct (mem y d0) eqn:E; [apply mem_In in E; auto|right; split; [exact Y1|reflexivity]].
      * exists x. split; [|exact X2]. rewrite in_app_iff. left. apply rf_keep; auto.
    + rewrite !upd_other by exact N'. auto.
  - intro m. destruct (Nat.eq_dec m n) as [->|N'].
    + rewrite upd_same. clear - N1 A6. specialize (A6 dep). revert A6. generalize (deps st dep) as l. intros l Hl.
      assert (HF : NoDup (filter (fun x => negb (mem x d0)) l)) by (apply NoDup_filter; exact Hl).
      assert (HD : forall x, In x d0 -> ~ In x (filter (fun x => negb (mem x d0)) l)).
      { intros x Hx K. apply filter_In in K. destruct K as [_ K]. apply mem_In in Hx. rewrite Hx in K. discriminate. }
      revert HF HD. generalize (filter (fun x => negb (mem x d0)) l) as l'. clear l Hl. intros l' HF HD.
      induction d0 as [|x d IH]; cbn; [exact HF|]. apply NoDup_cons_iff in N1. destruct N1 as [N1 N2]. constructor.
      * rewrite in_app_iff. intros [K|K]; [auto|]. exact (HD x (or_introl eq_refl) K).
      * apply IH; [exact N2|]. intros y Hy. apply HD. right. exact Hy.
    + rewrite !upd_other by exact N'. apply A6.
Qed.

(** ** termination measure *)
Definition B := S (length names).
Definition w (d : nat) : nat := B ^ rank d.
Fixpoint wsum (l : list nat) : nat := match l with [] => 0 | d :: l => w d + wsum l end.
Definition M (st : pst) : nat := fold_right (fun n s => wsum (deps st n) + s) 0 names.
Lemma wsum_app a b : wsum (a ++ b) = wsum a + wsum b.
Proof. induction a as [|x a IH]; cbn; [reflexivity|]. rewrite IH. lia. Qed.
Lemma wsum_filter f l : wsum (filter f l) <= wsum l.
Proof. induction l as [|x l IH]; cbn; [lia|]. destruct (f x); cbn; lia. Qed.
Lemma wsum_rf x l : In x l -> wsum (remove_first x l) + w x = wsum l.
Proof.
  induction l as [|y l IH]; cbn; [tauto|]. intros [->|H].
  - rewrite Nat.eqb_refl. lia.
  - destruct (Nat.eqb_spec x y) as [->|N]; [lia|]. cbn. specialize (IH H). lia.
Qed.
Lemma wpos d : 1 <= w d.
Proof. unfold w. apply Nat.neq_0_lt_0, Nat.pow_nonzero. discriminate. Qed.
Lemma wsum_lt l r : (forall x, In x l -> rank x < r) -> length l <= length names -> wsum l < B ^ r.
Proof.
  intros H HL. destruct r as [|r].
  - destruct l as [|x l]; [cbn; lia|]. specialize (H x (or_introl eq_refl)). lia.
  - assert (K : wsum l <= length l * B ^ r).
    { clear HL. induction l as [|x l IH]; cbn; [lia|].
      assert (w x <= B ^ r). { unfold w. apply Nat.pow_le_mono_r; [discriminate|]. specialize (H x (or_introl eq_refl)). lia. }
      assert (wsum l <= length l * B ^ r) by (apply IH; intros y Hy; apply H; right; exact Hy). lia. }
    cbn [Nat.pow]. assert (length l * B ^ r < B * B ^ r); [|lia].
    apply Nat.mul_lt_mono_pos_r; [|unfold B; lia]. apply Nat.neq_0_lt_0, Nat.pow_nonzero. discriminate.
Qed.
Lemma M_upd st n ds k : In n names -> 
  M (mkP (upd (deps st) n ds) k) + wsum (deps st n) = M st + wsum ds.
Proof.
  unfold M. cbn [deps]. revert nodup_names. generalize names as l. induction l as [|x l IH]; cbn; [tauto|].
  intros Hn. apply NoDup_cons_iff in Hn. destruct Hn as [Hn1 Hn2]. intros [->|H].
  - rewrite upd_same. assert (E : fold_right (fun n0 s => wsum (upd (deps st) n ds n0) + s) 0 l = fold_right (fun n0 s => wsum (deps st n0) + s) 0 l).
    { clear - Hn1. induction l as [|y l IH]; cbn; [reflexivity|]. cbn in Hn1. rewrite upd_other by (intro; subst; tauto). rewrite IH by tauto. reflexivity. }
    rewrite E. lia.
  - specialize (IH Hn2 H). rewrite upd_other by (intro; subst; tauto). lia.
Qed.
Lemma M_ext st st' : (forall m, deps st m = deps st' m) -> M st = M st'.
Proof.
  intro H. unfold M.
  assert (E : forall l, fold_right (fun n s => wsum (deps st n) + s) 0 l = fold_right (fun n s => wsum (deps st' n) + s) 0 l); [|apply E].
  induction l as [|x l IH]; cbn; [reflexivity|]. rewrite H, IH. reflexivity.
Qed.
Lemma elim_dep_M st n dep : Inv st -> In dep (deps st n) -> M (elim_dep st n dep) < M st.
Proof.
  intros HI Hd. destruct HI as [A1 A2 A3 A4 A5 A6].
  assert (Hnd : dep <> n). { intro E. pose proof (dep_rank _ _ (A4 _ _ Hd)). subst. lia. }
  destruct (dep_names _ _ (A4 _ _ Hd)) as [Hn _].
  unfold elim_dep. rewrite (upd_other _ n _ dep Hnd).
  set (d0 := remove_first dep (deps st n)). set (d1 := d0 ++ _).
  assert (E : forall k, M (mkP (upd (upd (deps st) n d0) n d1) k) = M (mkP (upd (deps st) n d1) k)).
  { intro k. apply M_ext. intro m. cbn. unfold upd. destruct (Nat.eqb m n); reflexivity. }
  rewrite E. pose proof (M_upd st n d1 (upd (kids st) dep (upd (kids st dep) n false)) Hn) as HM.
  pose proof (wsum_rf dep _ Hd) as H1. fold d0 in H1.
  assert (H2 : wsum d1 <= wsum d0 + wsum (deps st dep)).
  { unfold d1. rewrite wsum_app. pose proof (wsum_filter (fun x => negb (mem x d0)) (deps st dep)). lia. }
  assert (H3 : wsum (deps st dep) < w dep).
  { apply wsum_lt.
    - intros x Hx. apply dep_rank, A4, Hx.
    - apply NoDup_incl_length; [apply A6|]. intros x Hx. apply (dep_names _ _ (A4 _ _ Hx)). }
  lia.
Qed.

(** ** the loops *)
Lemma elim_par_mono n : forall f f' i st red r, elim_par expr f n i st red = Some r -> f <= f' -> elim_par expr f' n i st red = Some r.
Proof.
  induction f as [|f IH]; intros f' i st red r; cbn; [discriminate|]. intros H Hf. destruct f' as [|f']; [lia|]. cbn.
  destruct (nth_error (deps st n) i) as [d|]; [|exact H]. destruct (con d); (eapply IH; [exact H|lia]).
Qed.
Lemma elim_par_ok n : forall m k st i red, M st = m -> length (deps st n) - i = k -> Inv st ->
  exists f st' red', elim_par expr f n i st red = Some (st', red') /\ Inv st' /\
    M st' <= M st /\ ((red = true /\ red' = true) \/ (red = false /\ red' = true /\ M st' < M st) \/
      (red = false /\ red' = false /\ st' = st /\ forall j d, i <= j -> nth_error (deps st n) j = Some d -> con d = false)).
Proof.
  induction m as [m IHm] using lt_wf_ind. induction k as [k IHk] using lt_wf_ind. intros st i red Hm Hk HI.
  destruct (nth_error (deps st n) i) as [d|] eqn:E.
  - destruct (con d) eqn:Ec.
    + pose proof (nth_error_In _ _ E) as Hd. pose proof (elim_dep_M st n d HI Hd) as HM.
      destruct (IHm (M (elim_dep st n d)) ltac:(lia) _ (elim_dep st n d) (S i) true eq_refl eq_refl (elim_dep_inv _ _ _ HI Hd Ec))
        as [f [st' [red' [H1 [H2 [H3 H4]]]]]].
      exists (S f), st', red'. cbn. rewrite E, Ec. split; [exact H1|]. split; [exact H2|]. split; [lia|].
      destruct H4 as [[_ ->]|[[K _]|[K _]]]; [|discriminate|discriminate]. destruct red; [left; auto|right; left; repeat split; lia].
    + assert (HL : i < length (deps st n)) by (apply nth_error_Some; congruence).
      destruct (IHk (length (deps st n) - S i) ltac:(lia) st (S i) red Hm eq_refl HI) as [f [st' [red' [H1 [H2 [H3 H4]]]]]].
      exists (S f), st', red'. cbn. rewrite E, Ec. split; [exact H1|]. split; [exact H2|]. split; [lia|].
      destruct H4 as [H4|[H4|[H4 [H5 [H6 H7]]]]]; [auto|auto|]. right. right. repeat split; auto.
      intros j e Hj He. destruct (Nat.eq_dec j i) as [->|N]; [congruence|]. apply (H7 j e); [lia|exact He].
  - exists 1, st, red. cbn. rewrite E. split; [reflexivity|]. split; [exact HI|]. split; [lia|].
    destruct red; [left; auto|]. right. right. repeat split; auto. intros j d Hj Hd.
    apply nth_error_None in E. assert (j < length (deps st n)) by (apply nth_error_Some; congruence). lia.
Qed.
Lemma pass_mono ns : forall f f' st red r, pass expr f ns st red = Some r -> f <= f' -> pass expr f' ns st red = Some r.
Proof.
  induction ns as [|n ns IH]; intros f f' st red r; cbn; [auto|].
  destruct (elim_par expr f n 0 st red) as [[st1 red1]|] eqn:E; [|discriminate]. intros H Hf.
  rewrite (elim_par_mono _ _ _ _ _ _ _ E Hf). eapply IH; eauto.
Qed.
Lemma pass_ok ns : forall st red, Inv st ->
  exists f st' red', pass expr f ns st red = Some (st', red') /\ Inv st' /\ M st' <= M st /\
    ((red = true /\ red' = true) \/ (red = false /\ red' = true /\ M st' < M st) \/
     (red = false /\ red' = false /\ st' = st /\ forall n d, In n ns -> In d (deps st n) -> con d = false)).
Proof.
  induction ns as [|n ns IH]; intros st red HI.
  - exists 0, st, red. cbn. split; [reflexivity|]. split; [exact HI|]. split; [lia|]. destruct red; [auto|right; right; repeat split; auto; tauto].
  - destruct (elim_par_ok n _ _ st 0 red eq_refl eq_refl HI) as [f1 [st1 [red1 [H1 [H2 [H3 H4]]]]]].
    destruct (IH st1 red1 H2) as [f2 [st2 [red2 [K1 [K2 [K3 K4]]]]]].
    exists (max f1 f2), st2, red2. cbn. rewrite (elim_par_mono _ _ _ _ _ _ _ H1 (Nat.le_max_l f1 f2)).
    rewrite (pass_mono _ _ _ _ _ _ K1 (Nat.le_max_r f1 f2)). split; [reflexivity|]. split; [exact K2|]. split; [lia|].
    destruct H4 as [[-> ->]|[[-> [-> H4]]|[-> [-> [-> H4]]]]].
    + destruct K4 as [[_ ->]|[[K _]|[K _]]]; try discriminate. auto.
    + destruct K4 as [[_ ->]|[[K _]|[K _]]]; try discriminate. right. left. repeat split. lia.
    + destruct K4 as [[K _]|[[_ [-> K]]|[_ [-> [-> K]]]]]; [discriminate|right; left; auto|].
      right. right. repeat split. intros m d [<-|Hm] Hd; [|eapply K; eauto].
      apply In_nth_error in Hd. destruct Hd as [j Hj]. eapply H4; [|exact Hj]. lia.
Qed.
Lemma loop_mono : forall f f' st r, loop names expr f st = Some r -> f <= f' -> loop names expr f' st = Some r.
Proof.
  induction f as [|f IH]; intros f' st r H Hf; [discriminate|]. destruct f' as [|f']; [lia|].
  cbn [loop] in *. destruct (pass expr (S f) names st false) as [[st1 red1]|] eqn:E; [|discriminate].
  rewrite (pass_mono _ _ _ _ _ _ E Hf). destruct red1; [eapply IH; [exact H|lia]|exact H].
Qed.
Lemma loop_ok : forall m st, M st = m -> Inv st ->
  exists f st', loop names expr f st = Some st' /\ Inv st' /\ forall n d, In d (deps st' n) -> con d = false.
Proof.
  induction m as [m IH] using lt_wf_ind. intros st Hm HI.
  destruct (pass_ok names st false HI) as [f [st1 [red1 [H1 [H2 [H3 H4]]]]]].
  destruct H4 as [[K _]|[[_ [-> H4]]|[_ [-> [-> H4]]]]]; [discriminate| |].
  - destruct (IH (M st1) ltac:(lia) st1 eq_refl H2) as [f2 [st2 [K1 [K2 K3]]]].
    exists (S (max f f2)), st2. cbn [loop]. rewrite (pass_mono _ _ (S (max f f2)) _ _ _ H1) by lia.
    rewrite (loop_mono _ (max f f2) _ _ K1) by lia. auto.
  - exists (S f), st. cbn [loop]. rewrite (pass_mono _ _ (S f) _ _ _ H1) by lia. split; [reflexivity|]. split; [exact HI|].
    intros n d Hd. apply (H4 n d); [|exact Hd]. exact (proj1 (dep_names _ _ (I4 _ HI _ _ Hd))).
Qed.

Lemma prepare_spec : exists f0 st, (forall f, f0 <= f -> prepare names expr f = Some st) /\
  (forall n u, In u (deps st n) <-> depends n u /\ con u = false) /\
  (forall n, NoDup (deps st n)) /\
  (forall c n, con c = false -> (kids st c n = true <-> edge n c)) /\
  (forall c n, con c = true -> kids st c n = false).
Proof.
  destruct (loop_ok _ (parse names expr) eq_refl parse_inv) as [f [st [H1 [[A1 A2 A3 A4 A5 A6] H3]]]].
  exists f, st. split; [|split; [|split; [|split]]].
  - intros f' Hf. unfold prepare. eapply loop_mono; eauto.
  - intros n u. split.
    + intro K. split; [apply A4, K|eapply H3, K].
    + intros [K1 K2]. destruct (A5 n u K1 K2) as [x [X1 X2]]. destruct X2 as [->|X2]; [exact X1|].
      assert (con x = true). { inversion X2; subst; eapply edge_con; eassumption. } pose proof (H3 n x X1). congruence.
  - exact A6.
  - intros c n Hc. split; [apply A1|apply A2, Hc].
  - intros c n Hc. destruct (kids st c n) eqn:E; [|reflexivity]. pose proof (H3 n c (A3 _ _ E Hc)). congruence.
Qed.
Lemma prepare_any f st : prepare names expr f = Some st ->
  (forall n u, In u (deps st n) <-> depends n u /\ con u = false) /\
  (forall n, NoDup (deps st n)) /\
  (forall c n, con c = false -> (kids st c n = true <-> edge n c)) /\
  (forall c n, con c = true -> kids st c n = false).
Proof.
  intro H. destruct prepare_spec as [f0 [st0 [H0 K]]].
  assert (E : st0 = st); [|subst; exact K].
  pose proof (H0 (max f f0) ltac:(lia)) as E1. unfold prepare in *. rewrite (loop_mono _ (max f f0) _ _ H) in E1 by lia. congruence.
Qed.
End Prep.
