(** Properties of the nonlinear bias functions. *)
From Coq Require Import Reals List Bool Arith Lia Lra.
Import ListNotations.
From Verif Require Import M_Bias S_Bias P_Bias.
Local Open Scope R_scope.

(** * C149: the bias functions are the documented ones *)
Theorem C149_bias_functions_of_a_new_model_are_the_documented_ones : forall lim c t n, (6 <= lim)%nat -> reads_right lim (start c t) n.
Proof. intros lim c t n L. apply inv_reads; auto. apply start_inv. Qed.
Theorem C149_bias_functions_follow_every_session : forall lim c t os n, (6 <= lim)%nat -> always_self_contained lim (start c t) os -> reads_right lim (run lim (start c t) os) n.
Proof. intros lim c t os n L A. apply inv_reads; auto. apply run_inv; auto. apply start_inv. Qed.
(** what use_vlah_biasing does, whatever was set before *)
Theorem C149_vlah_biasing_uses_one_function_of_each_kind : forall lim c t os fit b n, (6 <= lim)%nat ->
  let s := run lim (start c t) (os ++ [UseVlah true]) in
  exists g, fst (get lim s n) = Ok g /\ call fit g b = fit (match n with A01 | B01 => A01 | _ => A00 end) b.
Proof.
  intros lim c t os fit b n L s. assert (R : exists s0, s = step lim s0 (UseVlah true)).
  { exists (run lim (start c t) os). unfold s. clear. generalize (start c t). induction os as [|o os IH]; intros s0; simpl; auto. apply IH. }
  destruct R as (s0 & ->). set (s1 := step lim s0 (UseVlah true)).
  assert (I : inv s1) by apply set_types_inv.
  assert (T : forall m, tys s1 m = TVlah) by (intros m; destruct m; reflexivity).
  assert (V : value (tys s1) (co s1) fit n b (fit (match n with A01 | B01 => A01 | _ => A00 end) b)).
  { destruct n; [apply v_vlah_first | apply v_vlah00 | apply v_vlah00 | apply v_vlah00 | apply v_vlah_first | apply v_vlah01]; auto; apply v_vlah_first; auto. }
  exact (inv_reads lim s1 n L I fit b _ V).
Qed.
Theorem C149_without_vlah_biasing_each_name_has_its_own_fit : forall lim c t os fit b n, (6 <= lim)%nat ->
  let s := run lim (start c t) (os ++ [UseVlah false]) in exists g, fst (get lim s n) = Ok g /\ call fit g b = fit n b.
Proof.
  intros lim c t os fit b n L s. assert (R : exists s0, s = step lim s0 (UseVlah false)).
  { exists (run lim (start c t) os). unfold s. clear. generalize (start c t). induction os as [|o os IH]; intros s0; simpl; auto. apply IH. }
  destruct R as (s0 & ->). set (s1 := step lim s0 (UseVlah false)).
  assert (I : inv s1) by apply set_types_inv.
  assert (T : forall m, tys s1 m = TNone) by (intros m; destruct m; reflexivity).
  exact (inv_reads lim s1 n L I fit b _ (v_default _ _ _ n b (or_introl (T n)))).
Qed.
(** tables for which sessions are safe *)
Theorem C149_tables_without_maps_are_self_contained : forall t,
  (forall n, t n = TNone \/ t n = TPoly \/ t n = TMap n \/ (t n = TVlah /\ (t (first_of n) = TVlah \/ t (first_of n) = TNone))) -> self_contained t.
Proof. exact direct_self_contained. Qed.
Print Assumptions C149_bias_functions_of_a_new_model_are_the_documented_ones.
Print Assumptions C149_bias_functions_follow_every_session.
Print Assumptions C149_vlah_biasing_uses_one_function_of_each_kind.
Print Assumptions C149_without_vlah_biasing_each_name_has_its_own_fit.
Print Assumptions C149_tables_without_maps_are_self_contained.

Definition ex_t : types := fun n => match n with B00 => TPoly | C00 => TMap B00 | _ => TNone end.
Definition ex_c : coefs := fun _ => (1, 2, 3).
Example C149_nonvacuous :
  (forall fit, value ex_t ex_c fit C00 2 57) /\ always_self_contained 10 (start ex_c (fun _ => TPoly)) [Read B00; SetCoef B00 (0, 0, 1); Read B00]
  /\ exists g, fst (get 10 (run 10 (start ex_c (fun _ => TPoly)) [Read B00; SetCoef B00 (0, 0, 1); Read B00]) B00) = Ok g /\ forall fit, call fit g 2 = 16.
Proof.
  split; [|split].
  - intros fit. apply v_map with B00; [reflexivity | discriminate|]. replace 57 with (1 + 2 * 2 ^ 2 + 3 * 2 ^ 4) by ring. apply v_poly00; auto.
  - intros o1 o2 E. assert (T : tys (run 10 (start ex_c (fun _ => TPoly)) o1) = fun _ => TPoly).
    { destruct o1 as [|a [|b0 [|c0 [|d0 o1]]]]; simpl in E; try reflexivity; injection E; intros; subst; try reflexivity. discriminate. }
    rewrite T. apply direct_self_contained. auto.
  - eexists. split; [reflexivity|]. intros fit. cbn. lra.
Qed.

(** * C150: every documented way of choosing the bias functions works and takes effect *)
Theorem C150_the_group_keywords_always_raise_refuted : forall s kws v, In (KAll00, v) kws \/ In (KAll01, v) kws -> update_biasing s kws = None.
Proof.
  intros s kws v H. unfold update_biasing. match goal with |- context [forallb is_name ?d] => assert (F : forallb is_name d = false) end.
  { apply Bool.not_true_is_false. intros F. rewrite forallb_forall in F. destruct H as [H|H]; [specialize (F (KAll00, v)) | specialize (F (KAll01, v))]; discriminate F; apply in_or_app; auto. }
  rewrite F. reflexivity.
Qed.
Theorem C150_a_changed_coefficient_may_not_take_effect_refuted :
  exists c t os n fit b v, value (tys (run 10 (start c t) os)) (co (run 10 (start c t) os)) fit n b v
    /\ exists g, fst (get 10 (run 10 (start c t) os) n) = Ok g /\ call fit g b <> v.
Proof.
  exists ex_c, ex_t, [Read C00; SetCoef B00 (5, 0, 0)], C00, (fun _ _ => 7), 2, (5 + 0 * 2 ^ 2 + 0 * 2 ^ 4). split.
  - cbn [run step]. apply v_map with B00; [reflexivity | discriminate|]. apply v_poly00; auto.
  - eexists. split; [reflexivity|]. cbn. lra.
Qed.
Theorem C150_cyclic_tables_exhaust_the_recursion_limit_refuted : forall lim c,
  fst (get lim (start c (fun n => match n with A00 => TMap B00 | B00 => TMap A00 | _ => TNone end)) A00) = RecursionError.
Proof.
  intros lim c. apply cycle_raises; [reflexivity| |exists B00; reflexivity]. intros x p P.
  assert (H : x <> A00 /\ x <> B00); [|tauto]. induction P as [n E|n n' p E P IH].
  - destruct n; try discriminate E; split; discriminate.
  - destruct n; try discriminate E; injection E as <-; tauto.
Qed.
Theorem C150_an_unknown_type_is_accepted_and_fails_later_refuted : forall lim s n, exists s', update_biasing s [(KName n, TOther)] = Some s' /\ fst (get (S lim) s' n) = ValueError.
Proof. intros lim s n. eexists. split; [reflexivity|]. destruct n; reflexivity. Qed.
Theorem C150_the_recorded_defaults_are_those_of_the_last_name_refuted : forall (ds : name -> list R) acc, bias_defaults names ds acc = ds B01.
Proof. reflexivity. Qed.
Theorem C150_named_keywords_take_effect_partial : forall s n v, exists s', update_biasing s [(KName n, v)] = Some s' /\ tys s' n = v /\ (forall m, m <> n -> tys s' m = tys s m) /\ co s' = co s.
Proof.
  intros s n v. eexists. split; [reflexivity|]. simpl. split; [|split].
  - destruct (name_eq n n); congruence. - intros m H. destruct (name_eq m n); congruence. - reflexivity.
Qed.
Print Assumptions C150_the_group_keywords_always_raise_refuted.
Print Assumptions C150_a_changed_coefficient_may_not_take_effect_refuted.
Print Assumptions C150_cyclic_tables_exhaust_the_recursion_limit_refuted.
Print Assumptions C150_an_unknown_type_is_accepted_and_fails_later_refuted.
Print Assumptions C150_the_recorded_defaults_are_those_of_the_last_name_refuted.
Print Assumptions C150_named_keywords_take_effect_partial.

(** Several named keywords, each given once as in a Python call: each takes effect, the other types and the coefficients stay, whatever the order. *)
Theorem C150_several_named_keywords_partial : forall s kws, NoDup (map fst kws) -> (forall k v, In (k, v) kws -> exists n, k = KName n) ->
  exists s', update_biasing s kws = Some s' /\ (forall n v, In (KName n, v) kws -> tys s' n = v) /\ (forall m, (forall v, ~ In (KName m, v) kws) -> tys s' m = tys s m) /\ co s' = co s.
Proof.
  intros s kws N K. unfold update_biasing.
  assert (E0 : klook00 kws = None). { clear N. induction kws as [|[k v] l IH]; [reflexivity|]. destruct (K k v (or_introl eq_refl)) as [n ->]. cbn. apply IH. intros a b I. exact (K a b (or_intror I)). }
  assert (E1 : klook01 kws = None). { clear N E0. induction kws as [|[k v] l IH]; [reflexivity|]. destruct (K k v (or_introl eq_refl)) as [n ->]. cbn. apply IH. intros a b I. exact (K a b (or_intror I)). }
  rewrite E0, E1, !app_nil_r.
  assert (F : forallb is_name kws = true). { apply forallb_forall. intros [k v] I. destruct (K k v I) as [n ->]. reflexivity. }
  rewrite F. eexists. split; [reflexivity|]. cbn [tys set_types co]. clear E0 E1 F.
  assert (G : forall l t m, (forall k v, In (k, v) l -> exists n, k = KName n) -> (forall v, ~ In (KName m, v) l) -> upd t l m = t m).
  { induction l as [|[k v] l IH]; intros t m Kl H; [reflexivity|]. destruct (Kl k v (or_introl eq_refl)) as [n ->]. cbn [upd]. rewrite IH.
    - destruct (name_eq m n) as [->|]; [exfalso; exact (H v (or_introl eq_refl))|reflexivity].
    - intros a b I. exact (Kl a b (or_intror I)).
    - intros b I. exact (H b (or_intror I)). }
  split; [|split; [|reflexivity]].
  - generalize (tys s). induction kws as [|[k v] l IH]; intros t n w I; [destruct I|]. cbn [map fst] in N. inversion N as [|? ? N1 N2]; subst.
    destruct (K k v (or_introl eq_refl)) as [x Ex]. subst k. assert (Kl : forall a b, In (a, b) l -> exists n, a = KName n) by (intros a b Z; exact (K a b (or_intror Z))).
    cbn [upd]. destruct I as [I|I].
    + injection I as -> ->. rewrite G; [destruct (name_eq n n); congruence|exact Kl|]. intros b Z. apply N1. apply (in_map fst) in Z. exact Z.
    + exact (IH N2 Kl _ n w I).
  - intros m H. now apply G.
Qed.
Print Assumptions C150_several_named_keywords_partial.
Example C150_several_nonvacuous : forall s, exists s', update_biasing s [(KName A01, TVlah); (KName B00, TPoly)] = Some s' /\ tys s' A01 = TVlah /\ tys s' B00 = TPoly /\ tys s' A00 = tys s A00.
Proof. intro s. eexists. split; [reflexivity|]. repeat split. Qed.
