From Coq Require Import String Reals ZArith Bool Arith Lra Lia Sorted Permutation.
From Coq Require Import List.
From Verif Require Import M_Results S_Results P_Results2 M_Anal S_Anal P_Anal.
Import ListNotations.
Local Open Scope R_scope.
Notation good := (S_Results.good (V := R) 0).

(** ** sorting names *)
Lemma str_leb_total a b : str_leb a b = false -> str_leb b a = true.
Proof. unfold str_leb. rewrite (String.compare_antisym b a). destruct (String.compare a b); intros H; try discriminate H. reflexivity. Qed.
Lemma insert_perm k l : Permutation (insert k l) (k :: l).
Proof. induction l as [|x l IH]; cbn; [reflexivity|]. destruct (str_leb k x); [reflexivity|]. rewrite IH. apply perm_swap. Qed.
Lemma sorted_perm l : Permutation (sorted_names l) l.
Proof. induction l as [|x l IH]; cbn; [reflexivity|]. rewrite insert_perm, IH. reflexivity. Qed.
Lemma insert_sorted k l : alphabetical l -> alphabetical (insert k l).
Proof.
  unfold alphabetical. intros H. induction H as [|x l H IH HR]; cbn; [repeat constructor|]. destruct (str_leb k x) eqn:E.
  - constructor; [constructor; assumption|]. constructor. exact E.
  - constructor; [exact IH|]. apply str_leb_total in E. destruct l as [|y l]; cbn; [constructor; exact E|]. destruct (str_leb k y); constructor; [exact E|]. inversion HR. assumption.
Qed.
Lemma sorted_sorted l : alphabetical (sorted_names l).
Proof. induction l as [|x l IH]; cbn; [constructor|]. apply insert_sorted, IH. Qed.
Lemma sorted_id l : alphabetical l -> sorted_names l = l.
Proof. intros H. induction H as [|x l H IH HR]; cbn; [reflexivity|]. rewrite IH. destruct HR as [|y l E]; cbn; [reflexivity|]. rewrite E. reflexivity. Qed.
(** ** columns of the matrices *)
Lemma mem_in k l : mem k l = true <-> In k l.
Proof. unfold mem. rewrite existsb_exists. split; [intros (x & H & E); apply String.eqb_eq in E; subst; exact H|intros H; exists k; split; [exact H|apply String.eqb_refl]]. Qed.
Lemma param_index_eq fn cn k : param_index fn cn k = index k (fn ++ cn).
Proof.
  unfold param_index. induction fn as [|x fn IH]; cbn [mem existsb app index length]; [reflexivity|]. cbn [mem existsb]. rewrite (String.eqb_sym k x). destruct (String.eqb x k) eqn:E; cbn [orb]; [reflexivity|].
  unfold mem in IH. destruct (existsb (String.eqb k) fn); cbn; rewrite <- IH; lia.
Qed.
Lemma nth_scale_at i j c row : nth i (scale_at j c row) 0 = if Nat.eqb i j then nth i row 0 * c else nth i row 0.
Proof.
  revert i j. induction row as [|x row IH]; intros i j; [destruct j; cbn; destruct i; destruct (Nat.eqb _ _); ring|]. destruct j as [|j], i as [|i]; cbn; try reflexivity. apply IH.
Qed.
Lemma rescale_nth fn cn sc k : NoDup (fn ++ cn) -> In k (fn ++ cn) -> forall names row, NoDup names -> incl names (fn ++ cn) ->
  nth (index k (fn ++ cn)) (rescale fn cn sc names row) 0 = if in_dec string_dec k names then nth (index k (fn ++ cn)) row 0 * (1 / sc k) else nth (index k (fn ++ cn)) row 0.
Proof.
  intros N Hk names. induction names as [|a names IH]; intros row ND HI; [reflexivity|]. cbn [rescale]. inversion ND as [|? ? Na ND']; subst. rewrite IH; [|exact ND'|intros x Hx; apply HI; right; exact Hx].
  rewrite param_index_eq, nth_scale_at. assert (Ha : In a (fn ++ cn)) by (apply HI; left; reflexivity).
  destruct (string_dec a k) as [->|D].
  - rewrite Nat.eqb_refl. destruct (in_dec string_dec k names); [contradiction|]. destruct (in_dec string_dec k (k :: names)) as [_|Q]; [reflexivity|exfalso; apply Q; left; reflexivity].
  - assert (E : Nat.eqb (index k (fn ++ cn)) (index a (fn ++ cn)) = false).
    { apply Nat.eqb_neq. intros E. assert (A := index_in _ _ Hk). assert (B := index_in _ _ Ha). rewrite E, B in A. injection A as A. contradiction. }
    rewrite E. destruct (in_dec string_dec k names) as [I|I], (in_dec string_dec k (a :: names)) as [J|J]; try reflexivity; [exfalso; apply J; right; exact I|]. destruct J; [contradiction|contradiction].
Qed.
Lemma columns_some cc : forall cn, incl cn (map fst cc) -> columns cn cc = Some (map (fun k => match assoc cc k with Some c => concat c | None => [] end) cn).
Proof.
  induction cn as [|k cn IH]; intros H; [reflexivity|]. cbn [columns map]. destruct (assoc_some_in _ cc k) as (a & Ha & _); [apply H; left; reflexivity|]. rewrite Ha, IH; [reflexivity|]. intros x Hx. apply H. right. exact Hx.
Qed.
Lemma map_seq_nth (l : list R) n : length l = n -> map (fun i => nth i l 0) (seq 0 n) = l.
Proof.
  intros <-. induction l as [|x l IH]; [reflexivity|]. cbn [length seq map nth]. f_equal. rewrite <- seq_shift, map_map. exact IH.
Qed.
Lemma map_combine_snd {A B C} (f : B -> C) (a : list A) (b : list B) : length a = length b -> map (fun p => f (snd p)) (combine a b) = map f b.
Proof. revert b. induction a as [|x a IH]; intros [|y b] H; try discriminate H; [reflexivity|]. cbn. f_equal. apply IH. injection H as H. exact H. Qed.
Lemma map_combine_fst {A B C} (f : A -> C) (a : list A) (b : list B) : length a = length b -> map (fun p => f (fst p)) (combine a b) = map f a.
Proof. revert b. induction a as [|x a IH]; intros [|y b] H; try discriminate H; [reflexivity|]. cbn. f_equal. apply IH. injection H as H. exact H. Qed.
Lemma concat_len {A} m (l : list (list A)) : Forall (fun w => length w = m) l -> length (concat l) = (length l * m)%nat.
Proof. intros H. induction H as [|w l Hw H IH]; [reflexivity|]. cbn. rewrite app_length, Hw, IH. reflexivity. Qed.
Lemma index_app_l k a b : In k a -> index k (a ++ b) = index k a.
Proof. induction a as [|x a IH]; intros H; [destruct H|]. cbn. destruct (String.eqb_spec x k); [reflexivity|]. rewrite IH; [reflexivity|]. destruct H; [contradiction|assumption]. Qed.
Lemma index_app_r k a b : ~ In k a -> index k (a ++ b) = (length a + index k b)%nat.
Proof. induction a as [|x a IH]; intros H; [reflexivity|]. cbn. destruct (String.eqb_spec x k) as [->|]; [exfalso; apply H; left; reflexivity|]. rewrite IH; [reflexivity|]. intros K. apply H. right. exact K. Qed.
Lemma matrix_cols m r cn : good m r -> con r <> [] -> Permutation cn (con r) ->
  exists rows, matrix cn r = Done rows /\ (forall k, In k (free r ++ cn) -> col (index k (free r ++ cn)) rows = concat (tr r k)).
Proof.
  intros G Hc P. assert (X := g_cchain _ _ _ G). destruct (cchain r) as [cc|] eqn:Hcc; [|contradiction]. destruct X as (_ & Hp & Hs). assert (B := g_chain _ _ _ G).
  assert (Hi : incl cn (map fst cc)). { intros k Hk. apply (Permutation_in k (Permutation_sym Hp)). exact (Permutation_in k P Hk). }
  set (cs := map (fun k => match assoc cc k with Some c => concat c | None => [] end) cn). set (x := concat (chain r)).
  exists (map (fun p => snd p ++ map (fun c => nth (fst p) c 0) cs) (combine (seq 0 (length x)) x)). split.
  - unfold matrix. assert (Z := columns_some cc cn Hi). rewrite Hcc. destruct cn as [|c0 cn0]; [exfalso; apply Hc; apply Permutation_nil; exact P|]. rewrite Z. reflexivity.
  - intros k Hk. assert (LS : forall s, In s x -> length s = length (free r)). { intros s H. apply in_concat in H. destruct H as (w & Hw & Hs'). assert (Y := proj1 (Forall_forall _ _) B w Hw). cbn beta in Y. exact (proj1 (Forall_forall _ _) (proj2 Y) s Hs'). }
    assert (LX : length (seq 0 (length x)) = length x) by apply seq_length. unfold col. rewrite map_map. destruct (in_dec string_dec k (free r)) as [I|NI].
    + rewrite (index_app_l k _ _ I). unfold tr. rewrite (good_trace_free R 0 _ r k G I).
      rewrite (map_ext_in _ (fun p => nth (index k (free r)) (snd p) 0)).
      * rewrite (map_combine_snd (fun s => nth (index k (free r)) s 0) _ _ LX). unfold column, x. rewrite concat_map. reflexivity.
      * intros [p s] Hin. cbn [fst snd]. apply in_combine_r in Hin. apply app_nth1. rewrite (LS s Hin). apply index_lt. exact I.
    + rewrite (index_app_r k _ _ NI). assert (J : In k cn) by (apply in_app_iff in Hk; tauto). assert (J' : In k (con r)) by exact (Permutation_in k P J).
      destruct (g_table _ _ _ G k) as (_ & T & _). unfold tr. rewrite (T J'), Hcc. destruct (assoc_some_in _ cc k (Hi k J)) as (t & Ht & Hin). rewrite Ht.
      rewrite (map_ext_in _ (fun p => nth (fst p) (concat t) 0)).
      * rewrite (map_combine_fst (fun p => nth p (concat t) 0) _ _ LX). apply map_seq_nth. assert (Y := proj1 (Forall_forall _ _) Hs _ Hin). cbn [snd] in Y. destruct Y as (Y1 & Y2). unfold x. rewrite (concat_len m t Y2), Y1. symmetry. apply concat_len.
        apply Forall_forall. intros w Hw. exact (proj1 (proj1 (Forall_forall _ _) B w Hw)).
      * intros [p s] Hps. cbn [fst snd]. apply in_combine_r in Hps. rewrite app_nth2 by (rewrite (LS s Hps); lia). rewrite (LS s Hps). replace (length (free r) + index k cn - length (free r))%nat with (index k cn) by lia.
        unfold cs. rewrite map_map. set (h := fun k0 => nth p (match assoc cc k0 with Some c => concat c | None => [] end) 0). assert (Z := map_nth_error h (index k cn) cn (index_in k cn J)). rewrite (nth_error_nth _ _ _ Z). unfold h. rewrite Ht. reflexivity.
Qed.
Lemma matrix_same cn a b : same_data a b -> matrix cn a = matrix cn b.
Proof. intros [H1 H2 H3 H4 H5 H6]. unfold matrix. rewrite H3, H4. reflexivity. Qed.
Lemma matrices_cols fn cn sc l l' : NoDup (fn ++ cn) -> Forall2 (fun e e' => same_data e e' /\ exists n, good n e') l l' -> Forall (fun e => free e = fn /\ con e <> [] /\ Permutation cn (con e)) l' ->
  exists ms, matrices fn cn sc l = Done ms /\ Forall2 (fun e' m => forall k, In k (fn ++ cn) -> col (index k (fn ++ cn)) m = map (fun v => v * (1 / sc k)) (concat (tr e' k))) l' ms.
Proof.
  intros ND H. induction H as [|e e' l l' (Hs & n & Gn) H IH]; intros HN; [exists []; split; [reflexivity|constructor]|]. inversion HN as [|? ? (N1 & N2 & N3) HN']; subst. destruct (IH HN') as (ms & Hm & HF).
  destruct (matrix_cols n e' cn Gn N2 N3) as (rows & Hr & Hcol). exists (map (rescale (free e') cn sc (free e' ++ cn)) rows :: ms). split.
  - cbn [matrices]. rewrite (matrix_same cn _ _ Hs), Hr, Hm. reflexivity.
  - constructor; [|exact HF]. intros k Hk. rewrite <- (Hcol k Hk). unfold col. rewrite !map_map. apply map_ext. intros row. rewrite (rescale_nth _ _ sc k ND Hk (free e' ++ cn) row ND (fun x Hx => Hx)). destruct (in_dec string_dec k (free e' ++ cn)); [reflexivity|contradiction].
Qed.
