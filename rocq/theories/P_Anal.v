From Coq Require Import String Reals ZArith Bool Arith Lra Lia Sorted Permutation.
From Coq Require Import List.
From Verif Require Import M_Results S_Results P_Results2 M_Anal S_Anal.
Import ListNotations.
Local Open Scope R_scope.

(** ** natural list functions *)
Definition natural (F : forall A, list A -> list A) : Prop := forall A B (g : A -> B) l, F B (map g l) = map g (F A l).
Lemma select_map A B (g : A -> B) : forall m l, select m (map g l) = map g (select m l).
Proof. induction m as [|b m IH]; intros [|x l]; cbn; auto. destruct b; cbn; rewrite IH; reflexivity. Qed.
Lemma natural_select m : natural (fun A => @select A m).
Proof. intros A B g l. apply select_map. Qed.
Lemma natural_third m i : natural (fun A l => select (phase i (length (select m l))) (select m l)).
Proof. intros A B g l. rewrite select_map, map_length, select_map. reflexivity. Qed.
Definition flen (F : forall A, list A -> list A) (m : nat) : nat := length (F unit (repeat tt m)).
Lemma natural_len F : natural F -> forall A (l : list A), length (F A l) = flen F (length l).
Proof.
  intros N A l. unfold flen. rewrite <- (map_length (fun _ => tt) (F A l)), <- (N A unit (fun _ => tt) l). f_equal. f_equal. induction l as [|x l IH]; cbn; [reflexivity|]. rewrite IH. reflexivity.
Qed.
(* the elements come from the list *)
Lemma natural_in F : natural F -> forall A (l : list A) x, In x (F A l) -> In x l.
Proof.
  intros N A l x H. set (l' := map (fun y => y) l). destruct l as [|a l0] eqn:E.
  - exfalso. assert (K := natural_len F N A []). cbn [length] in K. assert (K' := N A Empty_set).
    (* map from the empty list: F (map g []) with any g; use the type Empty_set *)
    assert (Z : F A [] = []). { assert (Q := N Empty_set A (fun e => match e with end) []). cbn [map] in Q. rewrite Q. destruct (F Empty_set []) as [|[] ?]. reflexivity. }
    rewrite Z in H. destruct H.
  - assert (Q := N {y | In y l} A (fun y => proj1_sig y)).
    assert (X : exists s : list {y | In y l}, map (fun y => proj1_sig y) s = l).
    { clear. assert (G : forall q, (forall y, In y q -> In y l) -> exists s : list {y | In y l}, map (fun y => proj1_sig y) s = q).
      { induction q as [|a q IH]; intros Hq; [exists []; reflexivity|]. destruct IH as (s & Hs); [intros y Hy; apply Hq; right; exact Hy|]. exists (exist _ a (Hq a (or_introl eq_refl)) :: s). cbn. rewrite Hs. reflexivity. }
      apply G. auto. }
    destruct X as (s & Hs). rewrite <- E in H |- *. rewrite <- Hs, Q in H. apply in_map_iff in H. destruct H as ([y Hy] & <- & _). exact Hy.
Qed.
(** ** results *)
Notation good := (good (V := R) 0).
Record same_data (a b : results R) : Prop := { sd_f : free a = free b; sd_c : con a = con b; sd_ch : chain a = chain b; sd_cc : cchain a = cchain b; sd_l : lnprobs a = lnprobs b; sd_b : burnin a = burnin b }.
Lemma verify_self r : verify_ordering R 0 r (free r) (con r) = Ok r.
Proof.
  unfold verify_ordering. rewrite (proj2 (same_names_perm _ _) (Permutation_refl _)), (proj2 (same_names_perm _ _) (Permutation_refl _)). cbn [negb].
  rewrite (proj2 (list_eqb_spec _ _) eq_refl), (proj2 (list_eqb_spec _ _) eq_refl). reflexivity.
Qed.
Definition sum (a b : results R) : option (results R) := match add R 0 a b with Ok (c, _) => Some c | _ => None end.
Lemma sum_same a a' b b' : same_data a a' -> same_data b b' -> free b = free a -> con b = con a -> sum a b = sum a' b'.
Proof.
  intros [A1 A2 A3 A4 A5 A6] [B1 B2 B3 B4 B5 B6] Hf Hc. unfold sum, add. replace (verify_ordering R 0 b (free a) (con a)) with (Ok b) by (rewrite <- Hf, <- Hc; symmetry; apply verify_self).
  replace (verify_ordering R 0 b' (free a') (con a')) with (Ok b') by (rewrite <- A1, <- A2, <- Hf, <- Hc, B1, B2; symmetry; apply verify_self).
  unfold walkers. rewrite <- A3, <- B3, <- A4, <- B4, <- A1, <- A2, <- A5, <- A6, <- B5. destruct (negb _); [reflexivity|].
  destruct (cchain a) as [ca|]; [|reflexivity]. destruct (cchain b) as [cb|]; [|reflexivity]. destruct (fields R cb ca); [|reflexivity]. destruct (save_results R 0 _); reflexivity.
Qed.
Lemma combine_same a a' r r' t : same_data a a' -> same_data r r' -> free r = free a -> con r = con a -> combine_all a (r :: t) = combine_all a' (r' :: t).
Proof.
  intros H1 H2 Hf Hc. cbn [combine_all]. assert (S := sum_same a a' r r' H1 H2 Hf Hc). unfold sum in S. destruct (add R 0 a r) as [[c u]| | | |], (add R 0 a' r') as [[c' u']| | | |]; try discriminate S; try reflexivity. injection S as <-. reflexivity.
Qed.
Lemma assoc_map {A B} (g : A -> B) (l : list (string * A)) k : assoc (map (fun e => (fst e, g (snd e))) l) k = option_map g (assoc l k).
Proof. induction l as [|[a x] l IH]; cbn; [reflexivity|]. destruct (String.eqb a k); [reflexivity|exact IH]. Qed.
(* replacing the arrays and making the parameter objects again *)
Lemma on_good F m r : natural F -> good m r -> con r <> [] -> exists r', same_data (on_iterations F r) r' /\ good (flen F m) r' /\ (forall k, trace_of r' k = option_map (map (F R)) (trace_of r k)).
Proof.
  intros N G Hc. assert (Hcc : exists cc, cchain r = Some cc). { assert (X := g_cchain _ _ _ G). destruct (cchain r) as [cc|]; [exists cc; reflexivity|contradiction]. }
  destruct Hcc as (cc & Hcc). assert (X := g_cchain _ _ _ G). rewrite Hcc in X. destruct X as (_ & Hp & Hs). destruct (g_lnp _ _ _ G) as (L1 & L2). assert (B := g_chain _ _ _ G).
  set (ch' := map (F (list R)) (chain r)). set (cc' := map (fun e : string * list (list R) => (fst e, map (F R) (snd e))) cc). set (lp' := map (F R) (lnprobs r)).
  destruct (save_good R 0 (flen F m) (free r) (con r) ch' cc' lp' (burnin r) (table r)) as (r' & Hr & Gr & R1 & R2 & R3 & R4 & R5 & R6 & _).
  - apply G.
  - unfold block, ch'. apply Forall_forall. intros w Hw. apply in_map_iff in Hw. destruct Hw as (w0 & <- & Hw0). assert (Y := proj1 (Forall_forall _ _) B w0 Hw0). cbn beta in Y. destruct Y as (Y1 & Y2). split; [rewrite (natural_len F N), Y1; reflexivity|].
    apply Forall_forall. intros s Hs'. apply (natural_in F N) in Hs'. exact (proj1 (Forall_forall _ _) Y2 s Hs').
  - unfold lp', ch'. rewrite !map_length. exact L1.
  - apply Forall_forall. intros w Hw. apply in_map_iff in Hw. destruct Hw as (w0 & <- & Hw0). rewrite (natural_len F N). rewrite (proj1 (Forall_forall _ _) L2 w0 Hw0). reflexivity.
  - exact Hc.
  - unfold cc'. rewrite map_map. exact Hp.
  - unfold cc'. apply Forall_forall. intros e He. apply in_map_iff in He. destruct He as (e0 & <- & He0). cbn [snd]. assert (Y := proj1 (Forall_forall _ _) Hs e0 He0). cbn beta in Y. destruct Y as (Y1 & Y2). unfold ch'. rewrite !map_length. split; [exact Y1|].
    apply Forall_forall. intros w Hw. apply in_map_iff in Hw. destruct Hw as (w0 & <- & Hw0). rewrite (natural_len F N). rewrite (proj1 (Forall_forall _ _) Y2 w0 Hw0). reflexivity.
  - exists r'. split; [constructor; cbn [on_iterations free con chain cchain lnprobs burnin]; rewrite ?R1, ?R2, ?R3, ?R4, ?R5, ?R6, ?Hcc; reflexivity|]. split; [exact Gr|].
    intros k. destruct (in_dec string_dec k (free r)) as [I|NI].
    + rewrite (good_trace_free R 0 _ r k G I). rewrite (good_trace_free R 0 _ r' k Gr) by (rewrite R1; exact I). rewrite R1, R3. cbn [option_map]. f_equal. unfold column, ch'. rewrite !map_map. apply map_ext. intros w. symmetry. apply N.
    + destruct (in_dec string_dec k (con r)) as [J|NJ].
      * destruct (g_table _ _ _ G k) as (_ & T & _). rewrite (T J), Hcc. destruct (g_table _ _ _ Gr k) as (_ & T' & _). rewrite T' by (rewrite R2; exact J). rewrite R4. unfold cc'. apply (assoc_map (map (F R))).
      * assert (K : ~ In k (free r ++ con r)) by (rewrite in_app_iff; tauto). destruct (g_table _ _ _ G k) as (_ & _ & T). rewrite (T K). destruct (g_table _ _ _ Gr k) as (_ & _ & T'). rewrite T' by (rewrite R1, R2; exact K). reflexivity.
Qed.
Lemma trace_len m r k t : good m r -> trace_of r k = Some t -> length t = walkers r /\ Forall (fun w => length w = m) t.
Proof.
  intros G H. unfold walkers. destruct (in_dec string_dec k (free r)) as [I|NI].
  - rewrite (good_trace_free R 0 _ r k G I) in H. injection H as <-. unfold column. rewrite map_length. split; [reflexivity|]. apply Forall_forall. intros w Hw. apply in_map_iff in Hw. destruct Hw as (w0 & <- & Hw0). rewrite map_length.
    assert (Y := proj1 (Forall_forall _ _) (g_chain _ _ _ G) w0 Hw0). apply Y.
  - destruct (g_table _ _ _ G k) as (_ & T & T'). destruct (in_dec string_dec k (con r)) as [J|NJ].
    + rewrite (T J) in H. assert (X := g_cchain _ _ _ G). destruct (cchain r) as [cc|]; [|discriminate H]. destruct X as (_ & Hp & Hs). destruct (assoc_some_in _ cc k) as (a & Ha & Hin).
      { apply (Permutation_in k (Permutation_sym Hp)). exact J. }
      rewrite H in Ha. injection Ha as <-. assert (Y := proj1 (Forall_forall _ _) Hs _ Hin). exact Y.
    + rewrite T' in H; [discriminate H|]. rewrite in_app_iff. tauto.
Qed.
Lemma trace_some m r k : good m r -> In k (free r ++ con r) -> exists t, trace_of r k = Some t.
Proof.
  intros G H. apply in_app_iff in H. destruct (in_dec string_dec k (free r)) as [I|NI]; [rewrite (good_trace_free R 0 _ r k G I); eexists; reflexivity|]. destruct H as [H|J]; [contradiction|].
  destruct (g_table _ _ _ G k) as (_ & T & _). rewrite (T J). assert (X := g_cchain _ _ _ G). destruct (cchain r) as [cc|]; [|rewrite X in J; destruct J]. destruct X as (_ & Hp & _).
  destruct (assoc_some_in _ cc k) as (a & Ha & _); [apply (Permutation_in k (Permutation_sym Hp)); exact J|]. exists a. exact Ha.
Qed.
(** ** the sum of several results *)
Lemma set_burnin_trace (r : results R) b k : trace_of (set_burnin r b) k = trace_of r k.
Proof.
  unfold trace_of, set_burnin. cbn [table]. set (b' := if (iterations r <? b)%nat then 0%nat else b). induction (table r) as [|[a [t x]] l IH]; cbn; [reflexivity|]. destruct (String.eqb a k); [reflexivity|exact IH].
Qed.
Lemma set_burnin_flat (r : results R) k : flat_trace (set_burnin r 0) k = option_map (@concat R) (trace_of r k).
Proof.
  unfold flat_trace, trace_of, set_burnin. cbn [table]. change (if (iterations r <? 0)%nat then 0%nat else 0%nat) with 0%nat. induction (table r) as [|[a [t x]] l IH]; cbn; [reflexivity|]. destruct (String.eqb a k); [|exact IH]. cbn. f_equal. f_equal.
  clear. induction t as [|w t IH]; cbn; [reflexivity|]. rewrite IH. reflexivity.
Qed.
Lemma combine_good l : forall l' M acc, Forall2 (fun e e' => same_data e e' /\ exists n, good n e') l l' -> good M acc -> con acc <> [] -> Forall (fun e => free e = free acc /\ con e = con acc /\ walkers e = walkers acc) l' ->
  exists c M', combine_all acc l = Done (set_burnin c 0) /\ good M' c /\ free c = free acc /\ con c = con acc /\ walkers c = walkers acc /\
    (forall k w, In k (free acc ++ con acc) -> nth w (tr c k) [] = nth w (tr acc k) [] ++ concat (map (fun e' => nth w (tr e' k) []) l')) /\
    (forall w, nth w (lnprobs c) [] = nth w (lnprobs acc) [] ++ concat (map (fun e' => nth w (lnprobs e') []) l')).
Proof.
  induction l as [|e l IH]; intros l' M acc H G Hc HN.
  - inversion H; subst. exists acc, M. split; [reflexivity|]. split; [exact G|]. repeat (split; [reflexivity|]). split; intros; cbn; rewrite app_nil_r; reflexivity.
  - inversion H as [|? e' ? t' (Hs & n & Gn) Ht]; subst. inversion HN as [|? ? (N1 & N2 & N3) HN']; subst.
    assert (S : sum acc e = sum acc e') by (apply sum_same; [constructor; reflexivity|exact Hs|rewrite (sd_f _ _ Hs); exact N1|rewrite (sd_c _ _ Hs); exact N2]).
    assert (Hcc : cchain acc <> None). { intros E. assert (X := g_cchain _ _ _ G). rewrite E in X. contradiction. }
    destruct (add_good R 0 M n acc e' G Gn (eq_sym N3)) as (c & b' & A & Gc & C1 & C2 & _ & _ & C5 & C6 & C7 & _); [rewrite N1; reflexivity|rewrite N2; reflexivity|exact Hcc|].
    assert (Wc : walkers c = walkers acc). { unfold walkers in *. rewrite C5. apply glue_length. rewrite map_length. symmetry. exact N3. }
    destruct (IH t' (M + n)%nat c Ht Gc) as (c2 & M' & K1 & K2 & K3 & K4 & K5 & K6 & K7); [rewrite C2; exact Hc|rewrite C1, C2, Wc; exact HN'|].
    exists c2, M'. split; [cbn [combine_all]; unfold sum in S; rewrite A in S; destruct (add R 0 acc e) as [[c' u]| | | |]; try discriminate S; injection S as ->; exact K1|].
    split; [exact K2|]. split; [rewrite K3; exact C1|]. split; [rewrite K4; exact C2|]. split; [rewrite K5; exact Wc|]. split.
    + intros k w Hk. rewrite K6 by (rewrite C1, C2; exact Hk). cbn [map concat]. rewrite app_assoc. f_equal. destruct (trace_some M acc k G Hk) as (ta & Ta). destruct (trace_some n e' k Gn) as (tb & Tb); [rewrite N1, N2; exact Hk|].
      assert (J := C7 k). rewrite Ta, Tb in J. cbn in J. unfold tr. rewrite J, Ta, Tb. apply glue_nth. destruct (trace_len M acc k ta G Ta) as (L1 & _). destruct (trace_len n e' k tb Gn Tb) as (L2 & _). congruence.
    + intros w. rewrite K7, C6. cbn [map concat]. rewrite app_assoc. f_equal. apply glue_nth. destruct (g_lnp _ _ _ G) as (L1 & _). destruct (g_lnp _ _ _ Gn) as (L2 & _). unfold walkers in N3. congruence.
Qed.
