(** * Proofs about cache keys *)
From Coq Require Import List Arith Bool ZArith QArith String Lia Permutation.
From Verif Require Import M_Lru S_Lru M_LruKey S_LruKey.
Import ListNotations.
Local Open Scope nat_scope.

Lemma pyeq_tuple l m : pyeq (PTuple l) (PTuple m) = pyeqs l m.
Proof. cbn. revert m. induction l as [|x l IH]; intros [|y m]; cbn; auto; now rewrite IH. Qed.

Section Ind.
Variable P : pyval -> Prop.
Hypotheses (H1 : forall z, P (PInt z)) (H2 : forall z, P (PBool z)) (H3 : forall z, P (PFloat z)) (H4 : forall z, P (PStr z))
  (H5 : P PNone) (H6 : forall l, Forall P l -> P (PTuple l)) (H7 : forall z, P (PType z)) (H8 : forall z, P (PFrozen z)) (H9 : forall z, P (PObj z)).
Fixpoint pyval_ind' (v : pyval) : P v :=
  match v with
  | PInt z => H1 z | PBool b => H2 b | PFloat q => H3 q | PStr s => H4 s | PNone => H5
  | PTuple l => H6 l ((fix go (l : list pyval) : Forall P l := match l with [] => Forall_nil P | x :: l' => Forall_cons x (pyval_ind' x) (go l') end) l)
  | PType t => H7 t | PFrozen t => H8 t | PObj t => H9 t
  end.
End Ind.

Lemma pyeq_refl a : pyeq a a = true.
Proof.
  induction a using pyval_ind'; try (cbn; auto using Nat.eqb_refl, String.eqb_refl; apply Qeq_bool_refl).
  rewrite pyeq_tuple. induction H; cbn; [reflexivity|]. now rewrite H, IHForall.
Qed.
Lemma Qeqb_sym a b : Qeq_bool a b = Qeq_bool b a.
Proof. destruct (Qeq_bool a b) eqn:E; symmetry; [now apply Qeq_bool_sym|]. destruct (Qeq_bool b a) eqn:E'; [|reflexivity]. apply Qeq_bool_sym in E'. congruence. Qed.
Lemma pyeq_sym a : forall b, pyeq a b = pyeq b a.
Proof.
  induction a using pyval_ind'; intros []; try (cbn; auto; first [apply Qeqb_sym | apply Nat.eqb_sym | apply String.eqb_sym]).
  rewrite !pyeq_tuple. revert l0. induction H as [|x l Hx H IH]; intros [|y m]; cbn; auto. now rewrite Hx, IH.
Qed.
Lemma pyeq_trans b : forall a c, pyeq a b = true -> pyeq b c = true -> pyeq a c = true.
Proof.
  induction b using pyval_ind'; intros [] []; try (cbn; auto; discriminate);
  try (cbn; intros E1 E2; apply Qeq_bool_eq in E1; apply Qeq_bool_eq in E2; apply Qeq_eq_bool; now rewrite E1);
  try (cbn; rewrite ?Nat.eqb_eq, ?String.eqb_eq; congruence).
  rewrite !pyeq_tuple. revert l0 l1. induction H as [|y l Hy H IH]; intros [|x l0] [|z l1]; cbn; auto; try discriminate.
  rewrite !andb_true_iff. intros [A1 A2] [B1 B2]. split; eauto.
Qed.
Lemma pyeqs_Forall2 l m : pyeqs l m = true <-> Forall2 py_equal l m.
Proof.
  revert m. induction l as [|x l IH]; intros [|y m]; cbn; split; intro H; try discriminate; try constructor; try (now inversion H).
  - now apply andb_true_iff in H.
  - apply IH. now apply andb_true_iff in H.
  - inversion H; subst. apply andb_true_iff. split; [assumption|now apply IH].
Qed.
Lemma pyeqs_refl l : pyeqs l l = true.
Proof. induction l; cbn; [reflexivity|]. now rewrite pyeq_refl. Qed.
Lemma pyeqs_sym l : forall m, pyeqs l m = pyeqs m l.
Proof. induction l as [|x l IH]; intros [|y m]; cbn; auto. now rewrite pyeq_sym, IH. Qed.
Lemma pyeqs_trans b : forall a c, pyeqs a b = true -> pyeqs b c = true -> pyeqs a c = true.
Proof.
  induction b as [|y l IH]; intros [|x l0] [|z l1]; cbn; auto; try discriminate.
  rewrite !andb_true_iff. intros [A1 A2] [B1 B2]. split; [eapply pyeq_trans; eauto|eauto].
Qed.
Lemma keyeq_equivalence : key_equivalence keyeq.
Proof.
  split; [|split].
  - intros []; cbn; auto using pyeq_refl, pyeqs_refl.
  - intros [] []; cbn; auto using pyeq_sym, pyeqs_sym.
  - intros [] [] []; cbn; try discriminate; eauto using pyeq_trans, pyeqs_trans.
Qed.

(** ** separation *)
Lemma kinsert_perm e l : Permutation (kinsert e l) (e :: l).
Proof. induction l as [|x l IH]; cbn; [auto|]. destruct (String.leb (fst e) (fst x)); [auto|]. rewrite IH. apply perm_swap. Qed.
Lemma ksort_perm l : Permutation (ksort l) l.
Proof. induction l as [|x l IH]; cbn; [auto|]. rewrite kinsert_perm. auto. Qed.
Lemma kwget_In n kw v : NoDup (map fst kw) -> (kwget n kw = Some v <-> In (n, v) kw).
Proof.
  induction kw as [|[m w] kw IH]; cbn; intro Hn; [split; [discriminate|tauto]|]. inversion Hn; subst.
  destruct (String.eqb_spec m n) as [->|Hne].
  - split; [intro E; injection E as ->; auto|]. intros [E|E]; [congruence|]. exfalso. apply H1. now apply (in_map fst) in E.
  - rewrite IH by assumption. split; [auto|]. intros [E|E]; [congruence|exact E].
Qed.
Lemma kwget_None n kw : kwget n kw = None <-> ~ In n (map fst kw).
Proof.
  induction kw as [|[m w] kw IH]; cbn; [tauto|]. destruct (String.eqb_spec m n); [split; [discriminate|tauto]|]. rewrite IH. tauto.
Qed.
Lemma kwget_perm n kw kw' : NoDup (map fst kw) -> Permutation kw kw' -> kwget n kw = kwget n kw'.
Proof.
  intros Hn P. assert (Hn' : NoDup (map fst kw')) by (eapply Permutation_NoDup; [apply Permutation_map; exact P|exact Hn]).
  destruct (kwget n kw) as [v|] eqn:E; symmetry.
  - apply kwget_In; [exact Hn'|]. apply kwget_In in E; [|exact Hn]. eapply Permutation_in; eauto.
  - apply kwget_None. apply kwget_None in E. intro H. apply E. eapply Permutation_in; [apply Permutation_map, Permutation_sym; exact P|exact H].
Qed.

Lemma Forall2_len {X Y} {R : X -> Y -> Prop} {a b} : Forall2 R a b -> List.length a = List.length b.
Proof. induction 1; cbn; congruence. Qed.
Lemma flat_len l : List.length (flat_items l) = 2 * List.length l.
Proof. induction l as [|[n v] l IH]; cbn; lia. Qed.
Lemma flat_sep l : forall m r r', Forall2 py_equal (flat_items l ++ r) (flat_items m ++ r') -> List.length l = List.length m ->
  Forall2 (fun a b => fst a = fst b /\ py_equal (snd a) (snd b)) l m /\ Forall2 py_equal r r'.
Proof.
  induction l as [|[n v] l IH]; intros [|[n' v'] m] r r' H Hl; try discriminate Hl; cbn in *.
  - auto.
  - inversion H as [|? ? ? ? E1 H']; subst. inversion H' as [|? ? ? ? E2 H'']; subst. destruct (IH _ _ _ H'' ltac:(lia)) as [A B].
    split; [|exact B]. constructor; [|exact A]. split; [|exact E2]. cbn. unfold py_equal in E1. cbn in E1. now apply String.eqb_eq in E1.
Qed.
Lemma types_sep (l m : list pyval) r r' : Forall2 py_equal (map (fun v => PType (pytype v)) l ++ r) (map (fun v => PType (pytype v)) m ++ r') -> List.length l = List.length m ->
  Forall2 (fun a b => pytype a = pytype b) l m /\ Forall2 py_equal r r'.
Proof.
  revert m. induction l as [|v l IH]; intros [|v' m] H Hl; try discriminate Hl; cbn in *; [auto|].
  inversion H as [|? ? ? ? E1 H']; subst. destruct (IH _ H' ltac:(lia)). split; [|assumption]. constructor; [|assumption].
  unfold py_equal in E1. cbn in E1. now apply Nat.eqb_eq in E1.
Qed.
Lemma mark_only v : py_equal v kwd_mark -> v = kwd_mark.
Proof. unfold py_equal, kwd_mark. destruct v; cbn; try discriminate. intro H. apply Nat.eqb_eq in H. now subst. Qed.
Lemma mark_only' v : py_equal kwd_mark v -> v = kwd_mark.
Proof. intro H. apply mark_only. unfold py_equal in *. now rewrite pyeq_sym. Qed.
(** the marker ends the positional part *)
Lemma mark_sep a : forall a' r r', Forall (fun v => v <> kwd_mark) a -> Forall (fun v => v <> kwd_mark) a' ->
  Forall2 py_equal (a ++ kwd_mark :: r) (a' ++ kwd_mark :: r') -> Forall2 py_equal a a' /\ Forall2 py_equal r r'.
Proof.
  induction a as [|x a IH]; intros [|y a'] r r' Ha Ha' H; cbn in *; inversion H as [|? ? ? ? E H']; subst; auto.
  - apply mark_only' in E. inversion Ha'. congruence.
  - apply mark_only in E. inversion Ha. congruence.
  - inversion Ha; inversion Ha'; subst. destruct (IH _ _ _ H3 H7 H'). auto.
Qed.
Lemma mark_in a a' r : Forall (fun v => v <> kwd_mark) a -> ~ Forall2 py_equal a (a' ++ kwd_mark :: r).
Proof.
  intros Ha H. apply Forall2_app_inv_r in H. destruct H as [l1 [l2 [_ [H ->]]]]. inversion H as [|? ? ? ? E]; subst.
  apply mark_only in E. apply Forall_app in Ha. destruct Ha as [_ Ha]. inversion Ha. congruence.
Qed.
Lemma mark_in' a a' r : Forall (fun v => v <> kwd_mark) a -> ~ Forall2 py_equal (a' ++ kwd_mark :: r) a.
Proof.
  intros Ha H. apply Forall2_app_inv_l in H. destruct H as [l1 [l2 [_ [H ->]]]]. inversion H as [|? ? ? ? E]; subst.
  apply mark_only' in E. apply Forall_app in Ha. destruct Ha as [_ Ha]. inversion Ha. congruence.
Qed.
(** the whole key as a flat list *)
Definition flat_key (typed : bool) (args : list pyval) (kwds : list (string * pyval)) : list pyval :=
  let k1 := if is_nil kwds then args else args ++ [kwd_mark] ++ flat_items (ksort kwds) in
  if typed then
    let k2 := k1 ++ map (fun v => PType (pytype v)) args in
    if is_nil kwds then k2 else k2 ++ map (fun e => PType (pytype (snd e))) (ksort kwds)
  else k1.
Lemma keyeq_flat typed a kw a' kw' :
  (keyeq (make_key typed a kw) (make_key typed a' kw') = true \/ keyeq (bounded_key typed a kw) (bounded_key typed a' kw') = true) ->
  Forall2 py_equal (flat_key typed a kw) (flat_key typed a' kw').
Proof.
  assert (M : keyeq (make_key typed a kw) (make_key typed a' kw') = true -> Forall2 py_equal (flat_key typed a kw) (flat_key typed a' kw')).
  { unfold make_key, flat_key. destruct typed.
    - cbn. apply pyeqs_Forall2.
    - set (x := if is_nil kw then a else a ++ [kwd_mark] ++ flat_items (ksort kw)). set (y := if is_nil kw' then a' else a' ++ [kwd_mark] ++ flat_items (ksort kw')).
      clearbody x y. destruct x as [|v [|w x]]; destruct y as [|v' [|w' y]]; repeat match goal with |- context[if fasttype ?v then _ else _] => destruct (fasttype v) end; cbn [keyeq]; try discriminate;
      try (now apply pyeqs_Forall2). intro E. constructor; [exact E|constructor]. }
  intros [H|H]; [auto|]. unfold bounded_key in H. destruct typed.
  - rewrite !orb_true_r in H. auto.
  - destruct kw as [|e kw], kw' as [|e' kw']; cbn [is_nil negb orb] in H; try (now apply M).
    + cbn in H. unfold flat_key. cbn. now apply pyeqs_Forall2.
    + exfalso. revert H. unfold make_key. cbn [is_nil]. destruct (a' ++ [kwd_mark] ++ flat_items (ksort (e' :: kw'))) as [|? [|]]; cbn; try discriminate. now destruct (fasttype p).
    + exfalso. revert H. unfold make_key. cbn [is_nil]. destruct (a ++ [kwd_mark] ++ flat_items (ksort (e :: kw))) as [|? [|]]; cbn; try discriminate. now destruct (fasttype p).
Qed.
Lemma items_rel (R : pyval -> pyval -> Prop) l m : Forall2 (fun a b => fst a = fst b /\ R (snd a) (snd b)) l m -> forall n, opt_rel R (kwget n l) (kwget n m).
Proof.
  induction 1 as [|[a x] [b y] l m [E1 E2] H IH]; intro n; cbn; [exact I|]. cbn in E1, E2. subst b. destruct (String.eqb a n); [exact E2|apply IH].
Qed.
Lemma ksort_len l : List.length (ksort l) = List.length l.
Proof. apply Permutation_length, ksort_perm. Qed.
Lemma ksort_items_rel (R : pyval -> pyval -> Prop) kw kw' : NoDup (map fst kw) -> NoDup (map fst kw') ->
  Forall2 (fun a b => fst a = fst b /\ R (snd a) (snd b)) (ksort kw) (ksort kw') -> forall n, opt_rel R (kwget n kw) (kwget n kw').
Proof.
  intros H1 H2 H n. rewrite (kwget_perm n kw (ksort kw)) by (auto; apply Permutation_sym, ksort_perm).
  rewrite (kwget_perm n kw' (ksort kw')) by (auto; apply Permutation_sym, ksort_perm). now apply items_rel.
Qed.
Lemma Forall2_and {X Y} (R S : X -> Y -> Prop) a b : Forall2 R a b -> Forall2 S a b -> Forall2 (fun x y => R x y /\ S x y) a b.
Proof. induction 1; intro H'; inversion H'; subst; constructor; auto. Qed.

Lemma flat_key_sep (typed : bool) a kw a' kw' : proper_call (a, kw) -> proper_call (a', kw') ->
  Forall2 py_equal (flat_key typed a kw) (flat_key typed a' kw') ->
  same_call (if typed then py_equal_typed else py_equal) (a, kw) (a', kw').
Proof.
  intros [N1 M1] [N2 M2] H. cbn in *. unfold flat_key in H. destruct typed.
  - destruct kw as [|e kw], kw' as [|e' kw']; cbn [is_nil] in H.
    + assert (L : List.length a = List.length a') by (apply Forall2_len in H; rewrite !app_length, !map_length in H; lia).
      apply Forall2_app_inv_l in H. destruct H as [l1 [l2 [A [B E]]]].
      assert (l1 = a' /\ l2 = map (fun v => PType (pytype v)) a') as [-> ->].
      { pose proof (Forall2_len A) as LA. assert (X : firstn (List.length a) (a' ++ map (fun v => PType (pytype v)) a') = a') by (rewrite L, firstn_app, Nat.sub_diag, firstn_all; cbn; apply app_nil_r).
        rewrite E in X. rewrite LA in X. rewrite firstn_app, Nat.sub_diag, firstn_all in X. cbn in X. rewrite app_nil_r in X. subst l1. apply app_inv_head in E. auto. }
      destruct (types_sep a a' [] []) as [C _]; [now rewrite !app_nil_r|exact L|]. split; [|intro n; exact I]. cbn. exact (Forall2_and _ _ _ _ A C).
    + exfalso. rewrite <- !app_assoc in H. cbn [app] in H. revert H. apply mark_in. apply Forall_app. split; [exact M1|].
      apply Forall_forall. intros v Hv. apply in_map_iff in Hv. destruct Hv as [x [<- _]]. discriminate.
    + exfalso. rewrite <- !app_assoc in H. cbn [app] in H. revert H. apply mark_in'. apply Forall_app. split; [exact M2|].
      apply Forall_forall. intros v Hv. apply in_map_iff in Hv. destruct Hv as [x [<- _]]. discriminate.
    + set (kws := e :: kw) in *. set (kws' := e' :: kw') in *. rewrite <- !app_assoc in H. cbn [app] in H.
      apply mark_sep in H; [|assumption|assumption]. destruct H as [A H].
      assert (L : List.length (ksort kws) = List.length (ksort kws')).
      { apply Forall2_len in H. pose proof (Forall2_len A). rewrite !app_length, !map_length, !flat_len in H. lia. }
      apply flat_sep in H; [|exact L]. destruct H as [B H]. apply types_sep in H; [|exact (Forall2_len A)]. destruct H as [C H].
      split; [exact (Forall2_and _ _ _ _ A C)|]. apply (ksort_items_rel _ kws kws'); [exact N1|exact N2|].
      assert (D : Forall2 (fun a b => pytype (snd a) = pytype (snd b)) (ksort kws) (ksort kws')).
      { clear -H L. revert H L. generalize (ksort kws') as m. induction (ksort kws) as [|x l IH]; intros [|y m] H L; try discriminate L; constructor.
        - inversion H as [|? ? ? ? E1 _]; subst. unfold py_equal in E1. cbn in E1. now apply Nat.eqb_eq in E1.
        - apply IH; [now inversion H|cbn in L; lia]. }
      pose proof (Forall2_and _ _ _ _ B D) as F. clear -F. induction F as [|x y l m [[E1 E2] E3] F IH]; constructor; [|exact IH]. unfold py_equal_typed, py_equal in *. auto.
  - destruct kw as [|e kw], kw' as [|e' kw']; cbn [is_nil] in H.
    + split; [exact H|intro n; exact I].
    + exfalso. revert H. cbn [app]. apply mark_in. exact M1.
    + exfalso. revert H. cbn [app]. apply mark_in'. exact M2.
    + set (kws := e :: kw) in *. set (kws' := e' :: kw') in *. cbn [app] in H.
      apply mark_sep in H; [|assumption|assumption]. destruct H as [A H].
      assert (L : List.length (ksort kws) = List.length (ksort kws')) by (apply Forall2_len in H; rewrite !flat_len in H; lia).
      rewrite <- (app_nil_r (flat_items (ksort kws))), <- (app_nil_r (flat_items (ksort kws'))) in H.
      apply flat_sep in H; [|exact L]. destruct H as [B _]. split; [exact A|]. apply (ksort_items_rel _ kws kws'); assumption.
Qed.
Lemma pykey_separates c typed x y : proper_call x -> proper_call y ->
  keyeq (pykey c typed x) (pykey c typed y) = true -> same_call (if typed then py_equal_typed else py_equal) x y.
Proof.
  destruct x as [a kw], y as [a' kw']. intros Hx Hy H. apply flat_key_sep; auto. apply keyeq_flat. destruct c; cbn in H; auto.
Qed.

(** ** keyword order does not matter *)
Lemma leb_trans a : forall b c, String.leb a b = true -> String.leb b c = true -> String.leb a c = true.
Proof.
  unfold String.leb. induction a as [|x a IH]; intros [|y b] [|z c]; cbn; auto; try discriminate.
  unfold Ascii.compare. destruct (N.compare_spec (Ascii.N_of_ascii x) (Ascii.N_of_ascii y)); destruct (N.compare_spec (Ascii.N_of_ascii y) (Ascii.N_of_ascii z)); try discriminate; intros H1 H2;
  destruct (N.compare_spec (Ascii.N_of_ascii x) (Ascii.N_of_ascii z)); try reflexivity; try lia. eauto.
Qed.
Lemma kinsert_comm e e' l : fst e <> fst e' -> kinsert e (kinsert e' l) = kinsert e' (kinsert e l).
Proof.
  intro Hne. induction l as [|x l IH]; cbn.
  - destruct (String.leb (fst e) (fst e')) eqn:E1; destruct (String.leb (fst e') (fst e)) eqn:E2; try reflexivity.
    + exfalso. apply Hne. now apply String.leb_antisym.
    + destruct (String.leb_total (fst e) (fst e')); congruence.
  - destruct (String.leb (fst e') (fst x)) eqn:A; destruct (String.leb (fst e) (fst x)) eqn:B; cbn; rewrite ?A, ?B; cbn.
    + destruct (String.leb (fst e) (fst e')) eqn:E1; destruct (String.leb (fst e') (fst e)) eqn:E2; rewrite ?A, ?B; try reflexivity.
      * exfalso. apply Hne. now apply String.leb_antisym.
      * destruct (String.leb_total (fst e) (fst e')); congruence.
    + destruct (String.leb (fst e) (fst e')) eqn:E1; [|reflexivity]. pose proof (leb_trans _ _ _ E1 A). congruence.
    + destruct (String.leb (fst e') (fst e)) eqn:E1; [|reflexivity]. pose proof (leb_trans _ _ _ E1 B). congruence.
    + now rewrite IH.
Qed.
Lemma ksort_perm_eq l m : Permutation l m -> NoDup (map fst l) -> ksort l = ksort m.
Proof.
  induction 1; cbn; intro Hn.
  - reflexivity.
  - inversion Hn; subst. now rewrite IHPermutation.
  - inversion Hn as [|? ? Hi Hn']; subst. apply kinsert_comm. intro E. apply Hi. left. congruence.
  - rewrite IHPermutation1 by exact Hn. apply IHPermutation2. eapply Permutation_NoDup; [apply Permutation_map; eassumption|exact Hn].
Qed.
Lemma pykey_order c typed a kw kw' : NoDup (map fst kw) -> Permutation kw kw' -> pykey c typed (a, kw) = pykey c typed (a, kw').
Proof.
  intros Hn P. assert (E : is_nil kw = is_nil kw').
  { destruct kw, kw'; auto. - now apply Permutation_nil in P. - apply Permutation_sym, Permutation_nil in P. discriminate. }
  assert (M : make_key typed a kw = make_key typed a kw') by (unfold make_key; now rewrite E, (ksort_perm_eq _ _ P Hn)).
  destruct c; cbn; auto. unfold bounded_key. now rewrite E, M.
Qed.
