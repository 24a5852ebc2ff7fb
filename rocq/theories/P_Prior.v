From Coq Require Import List Arith Bool Reals Lra Lia Sorting.Sorted Permutation.
From Coquelicot Require Import Coquelicot.
From Verif Require Import M_Prep S_Prep P_Prep M_ParamVal S_ParamVal P_ParamVal M_Prior S_Params.
Import ListNotations.
Open Scope R_scope.

Lemma Rleb_true a b : Rleb a b = true <-> a <= b.
Proof. unfold Rleb. destruct (Rle_dec a b); split; auto; discriminate. Qed.
Lemma Rleb_false a b : Rleb a b = false <-> b < a.
Proof. unfold Rleb. destruct (Rle_dec a b); split; try discriminate; try lra; auto. Qed.
Lemma Rltb_true a b : Rltb a b = true <-> a < b.
Proof. unfold Rltb. destruct (Rlt_dec a b); split; auto; discriminate. Qed.
Lemma Rltb_false a b : Rltb a b = false <-> b <= a.
Proof. unfold Rltb. destruct (Rlt_dec a b); split; try discriminate; try lra; auto. Qed.


Lemma within_iff s x : within_bounds s x = true <-> in_bounds s x /\ in_prior s x.
Proof.
  unfold within_bounds, in_bounds, in_prior. rewrite !andb_true_iff. split.
  - intros [H1 [H2 H3]]. split; [split|].
    + intros b E. rewrite E in H2. now apply Rleb_true.
    + intros b E. rewrite E in H3. now apply Rleb_true.
    + intros l u E. rewrite E in H1. apply andb_true_iff in H1. destruct H1 as [A B]. apply Rleb_true in A, B. lra.
  - intros [[H2 H3] H1]. split; [|split].
    + destruct (pprior s) as [|l u|]; try reflexivity. destruct (H1 l u eq_refl). apply andb_true_iff. split; now apply Rleb_true.
    + destruct (pmin s); [apply Rleb_true; auto|reflexivity].
    + destruct (pmax s); [apply Rleb_true; auto|reflexivity].
Qed.
Lemma ladd_fin a b : ladd a b <> None <-> a <> None /\ b <> None.
Proof. destruct a, b; cbn; split; try tauto; intuition discriminate. Qed.
Lemma bound_min_fin b x : bound_log false 1 b x <> None <-> (forall v, b = Some v -> v <= x).
Proof.
  destruct b as [v|]; cbn; [|split; [intros _ ? [=]|discriminate]].
  destruct (Rltb (1 * (x - v)) 0) eqn:E; split; try tauto; try discriminate.
  - intro H. apply Rltb_true in E. specialize (H v eq_refl). lra.
  - intros _ v' [= <-]. apply Rltb_false in E. lra.
Qed.
Lemma bound_max_fin b x : bound_log false (-1) b x <> None <-> (forall v, b = Some v -> x <= v).
Proof.
  destruct b as [v|]; cbn; [|split; [intros _ ? [=]|discriminate]].
  destruct (Rltb (-1 * (x - v)) 0) eqn:E; split; try tauto; try discriminate.
  - intro H. apply Rltb_true in E. specialize (H v eq_refl). lra.
  - intros _ v' [= <-]. apply Rltb_false in E. lra.
Qed.
Lemma unif_frac l u x : l < u -> (0 <= (x - l) / (u - l) <= 1 <-> l <= x <= u).
Proof.
  intro H. assert (D : 0 < u - l) by lra. assert (I : 0 < / (u - l)) by (apply Rinv_0_lt_compat; lra).
  assert (E : (x - l) = (x - l) / (u - l) * (u - l)) by (field; lra). split; intros [A B].
  - split.
    + assert (0 <= x - l); [|lra]. rewrite E. apply Rmult_le_pos; lra.
    + assert (x - l <= u - l); [|lra]. rewrite E. rewrite <- (Rmult_1_l (u - l)) at 3. apply Rmult_le_compat_r; lra.
  - split.
    + apply Rmult_le_pos; [lra|lra].
    + apply Rmult_le_reg_r with (u - l); [lra|]. rewrite <- E. lra.
Qed.
Lemma lnprior_fin s x : pana s = false -> prior_ok s -> (lnprior s x <> None <-> within_bounds s x = true).
Proof.
  intros Ha Hok. rewrite within_iff. unfold lnprior. rewrite Ha.
  assert (K : ladd (bound_log false 1 (pmin s) x) (bound_log false (-1) (pmax s) x) <> None <-> in_bounds s x).
  { rewrite ladd_fin, bound_min_fin, bound_max_fin. reflexivity. }
  unfold in_prior. destruct (pprior s) as [|l u|mu sg] eqn:Ep.
  - rewrite K. split; [intro H; split; [exact H|discriminate]|tauto].
  - rewrite ladd_fin, K. cbn. specialize (Hok l u Ep).
    destruct (Rleb 0 ((x - l) / (u - l)) && Rleb ((x - l) / (u - l)) 1) eqn:E.
    + apply andb_true_iff in E. destruct E as [E1 E2]. apply Rleb_true in E1, E2.
      pose proof (proj1 (unif_frac l u x Hok) (conj E1 E2)) as B.
      split; [intros [H _]; split; [exact H|intros l' u' [= <- <-]; exact B]|intros [H _]; split; [exact H|discriminate]].
    + split; [tauto|]. intros [H1 H2]. specialize (H2 l u eq_refl). apply (unif_frac l u x Hok) in H2.
      destruct H2 as [H2 H3]. apply Rleb_true in H2, H3. rewrite H2, H3 in E. discriminate.
  - rewrite ladd_fin, K. cbn. split; [intros [H _]; split; [exact H|discriminate]|intros [H _]; split; [exact H|discriminate]].
Qed.
(** the value, when finite and not analytic *)
Lemma lnprior_value s x : pana s = false -> prior_ok s -> within_bounds s x = true ->
  lnprior s x = Some (match pprior s with NoPrior => 0 | Unif l u => - ln (u - l)
                      | Norm mu sg => - / 2 * ln (2 * PI * sg ^ 2) - / 2 * ((x - mu) / sg) ^ 2 end).
Proof.
  intros Ha Hok H. pose proof (proj2 (lnprior_fin s x Ha Hok) H) as F. apply within_iff in H. destruct H as [[H1 H2] H3].
  unfold lnprior in *. rewrite Ha in *.
  assert (E1 : bound_log false 1 (pmin s) x = Some 0).
  { destruct (pmin s) as [b|]; cbn; [|reflexivity]. specialize (H1 b eq_refl). destruct (Rltb (1 * (x - b)) 0) eqn:E; [apply Rltb_true in E; lra|reflexivity]. }
  assert (E2 : bound_log false (-1) (pmax s) x = Some 0).
  { destruct (pmax s) as [b|]; cbn; [|reflexivity]. specialize (H2 b eq_refl). destruct (Rltb (-1 * (x - b)) 0) eqn:E; [apply Rltb_true in E; lra|reflexivity]. }
  rewrite E1, E2 in *. destruct (pprior s) as [|l u|mu sg]; cbn [ladd prior_log] in *.
  - f_equal; lra.
  - destruct (Rleb 0 ((x - l) / (u - l)) && Rleb ((x - l) / (u - l)) 1); [|now elim F]. f_equal; ring.
  - f_equal. ring.
Qed.
Lemma clamp_spec s v : (forall a b, pmin s = Some a -> pmax s = Some b -> a <= b) ->
  in_bounds s (clampR s v) /\ (in_bounds s v -> clampR s v = v) /\
  (forall b, pmax s = Some b -> b < v -> clampR s v = b) /\ (forall a, pmin s = Some a -> v < a -> clampR s v = a).
Proof.
  intro H. unfold clampR, in_bounds, Rltb. destruct (pmin s) as [a|], (pmax s) as [b|];
  try specialize (H a b eq_refl eq_refl);
  try (destruct (Rlt_dec b v)); try (match goal with |- context [Rlt_dec ?p ?q] => destruct (Rlt_dec p q) end);
  (split; [split; intros ? E; try discriminate E; injection E as <-; lra|]);
  (split; [intros [A B]; try specialize (A _ eq_refl); try specialize (B _ eq_refl); lra|]);
  (split; intros ? E; try discriminate E; injection E as <-; lra).
Qed.

(** derivative of the (analytic) prior *)
Lemma d_logaddexp0 (g : R -> R) x g' : is_derive g x g' ->
  is_derive (fun t => logaddexp0 (g t)) x (g' * exp (g x - logaddexp0 (g x))).
Proof.
  intro H. unfold logaddexp0.
  assert (P : 0 < 1 + exp (g x)) by (pose proof (exp_pos (g x)); lra).
  replace (g' * exp (g x - ln (1 + exp (g x)))) with (g' * exp (g x) / (1 + exp (g x))).
  - evar (l : R). replace (g' * exp (g x) / (1 + exp (g x))) with l; unfold l; [|clear l].
    + apply (is_derive_comp ln (fun t => 1 + exp (g t))).
      * apply is_derive_Reals, derivable_pt_lim_ln. exact P.
      * apply (is_derive_plus (fun _ => 1) (fun t => exp (g t))); [apply is_derive_const|].
        apply (is_derive_comp exp g); [apply is_derive_exp|exact H].
    + unfold plus, zero, scal, mult; cbn; unfold mult; cbn. field. lra.
  - unfold Rminus, Rdiv. rewrite exp_plus, exp_Ropp, exp_ln by exact P. ring.
Qed.
Lemma bound_deriv_ok sign b x : is_derive (fun t => lnval (bound_log true sign b t)) x (bound_deriv sign b x).
Proof.
  destruct b as [v|]; cbn; [|apply @is_derive_const].
  evar (l : R). match goal with |- is_derive _ _ ?d => replace d with l; unfold l; [|clear l] end.
  - apply (is_derive_opp (fun t => logaddexp0 (- 2 * 1000 * (sign * (t - v))))).
    apply (d_logaddexp0 (fun t => - 2 * 1000 * (sign * (t - v))) x (- 2 * 1000 * sign)). auto_derive; auto; ring.
  - unfold opp; cbn. ring.
Qed.
Lemma prior_deriv_ok p x : (forall l u, p = Unif l u -> l < u) -> (forall m s, p = Norm m s -> s <> 0) ->
  is_derive (fun t => lnval (prior_log true p t)) x (prior_deriv p x).
Proof.
  intros H1 H2. destruct p as [|l u|m s]; cbn [prior_log lnval prior_deriv].
  - apply @is_derive_const.
  - specialize (H1 l u eq_refl). evar (z : R). match goal with |- is_derive _ _ ?d => replace d with z; unfold z; [|clear z] end.
    + apply (is_derive_minus (fun _ => - ln (u - l)) (fun t => logaddexp0 (- 2 * 1000 * (/ 4 - unif_y l u t ^ 2)))).
      * apply @is_derive_const.
      * apply (d_logaddexp0 (fun t => - 2 * 1000 * (/ 4 - unif_y l u t ^ 2)) x (4 * 1000 * unif_y l u x / (u - l))).
        unfold unif_y. auto_derive; [lra|]. field. lra.
    + unfold minus, plus, opp, zero; cbn. field. lra.
  - specialize (H2 m s eq_refl). auto_derive; [auto|]. field. exact H2.
Qed.
Lemma dlnprior_ok s x : pana s = true -> prior_ok s -> (forall m sg, pprior s = Norm m sg -> sg <> 0) ->
  (forall t, lnprior s t <> None) /\ is_derive (fun t => lnval (lnprior s t)) x (dlnprior s x).
Proof.
  intros Ha H1 H2. unfold lnprior, dlnprior. rewrite Ha.
  assert (B : forall sign b t, bound_log true sign b t = Some (lnval (bound_log true sign b t))) by (intros sign [b|] t; reflexivity).
  assert (P : forall p t, prior_log true p t = Some (lnval (prior_log true p t))) by (intros [| |] t; reflexivity).
  split.
  - intro t. rewrite (B 1 (pmin s) t), (B (-1) (pmax s) t). destruct (pprior s); cbn; discriminate.
  - assert (D0 : is_derive (fun t => lnval (bound_log true 1 (pmin s) t) + lnval (bound_log true (-1) (pmax s) t)) x (bound_deriv 1 (pmin s) x + bound_deriv (-1) (pmax s) x)).
    { apply (is_derive_plus (fun t => lnval (bound_log true 1 (pmin s) t)) (fun t => lnval (bound_log true (-1) (pmax s) t))); apply bound_deriv_ok. }
    assert (D1 := prior_deriv_ok (pprior s) x H1 H2).
    destruct (pprior s) as [|l u|m sg] eqn:Ep.
    + eapply is_derive_ext; [|exact D0]. intro t. rewrite (B 1 (pmin s) t), (B (-1) (pmax s) t). reflexivity.
    + eapply is_derive_ext; [|exact (is_derive_plus _ _ _ _ _ D0 D1)]. intro t. rewrite (B 1 (pmin s) t), (B (-1) (pmax s) t). reflexivity.
    + eapply is_derive_ext; [|exact (is_derive_plus _ _ _ _ _ D0 D1)]. intro t. rewrite (B 1 (pmin s) t), (B (-1) (pmax s) t). reflexivity.
Qed.

(** scaling *)
Lemma seqo_spec {A} (l : list (option A)) r : seqo l = Some r -> l = map Some r.
Proof. revert r; induction l as [|[a|] l IH]; intros r; cbn; [intros [= <-]; reflexivity| |discriminate]. destruct (seqo l); [|discriminate]. intros [= <-]. cbn. f_equal. auto. Qed.
Definition scale_ok (ss : list pspec) : Prop := forall s, In s ss -> exists c, pscale s = Some c /\ c <> 0.
Lemma scale_ok_of s : (exists l u, pprior s = Unif l u /\ l < u) \/ (exists m sg, pprior s = Norm m sg /\ 0 < sg) -> exists c, pscale s = Some c /\ c <> 0.
Proof. unfold pscale. intros [[l [u [-> H]]]|[m [sg [-> H]]]]; eexists; (split; [reflexivity|]); lra. Qed.
Lemma locs_scales ss : scale_ok ss -> exists l c, locs ss = Some l /\ scales ss = Some c /\ length l = length ss /\ length c = length ss /\ List.Forall (fun x => x <> 0) c.
Proof.
  induction ss as [|s ss IH]; intro H; [exists [], []; repeat split; constructor|].
  destruct IH as [l [c [E1 [E2 [L1 [L2 F]]]]]]; [intros x Hx; apply H; right; exact Hx|].
  destruct (H s (or_introl eq_refl)) as [c0 [Ec Hc]]. unfold pscale in Ec.
  assert (exists l0, ploc s = Some l0) as [l0 El]. { unfold ploc. destruct (pprior s); [discriminate|eauto|eauto]. }
  exists (l0 :: l), (c0 :: c). unfold locs, scales in *. cbn. rewrite El. unfold pscale at 1. rewrite Ec, E1, E2. repeat split; cbn; try lia. constructor; auto.
Qed.
Lemma map3_len f a : forall b c, length b = length a -> length c = length a -> length (map3 f a b c) = length a.
Proof. induction a as [|x a IH]; intros [|y b] [|z c]; cbn; try discriminate; auto; intros; f_equal; apply IH; lia. Qed.
Lemma map3_inv f g (H : forall t l c, c <> 0 -> g (f t l c) l c = t) a : forall l c, length l = length a -> length c = length a -> List.Forall (fun x => x <> 0) c ->
  map3 g (map3 f a l c) l c = a.
Proof. induction a as [|x a IH]; intros [|y b] [|z c]; cbn; try discriminate; auto. intros L1 L2 F. inversion F; subst. rewrite H by assumption. f_equal. apply IH; auto; lia. Qed.
Lemma scale_inverse ss th : scale_ok ss -> length th = length ss ->
  exists s, scale_theta ss th = Some s /\ length s = length ss /\ inverse_scale ss s = Some th.
Proof.
  intros H HL. destruct (locs_scales ss H) as [l [c [E1 [E2 [L1 [L2 F]]]]]]. unfold scale_theta, inverse_scale. rewrite E1, E2.
  eexists. split; [reflexivity|]. split; [rewrite map3_len; lia|]. f_equal. apply map3_inv; try lia; [|exact F]. intros. field. assumption.
Qed.
Lemma inverse_scale_scale ss th : scale_ok ss -> length th = length ss ->
  exists x, inverse_scale ss th = Some x /\ length x = length ss /\ scale_theta ss x = Some th.
Proof.
  intros H HL. destruct (locs_scales ss H) as [l [c [E1 [E2 [L1 [L2 F]]]]]]. unfold scale_theta, inverse_scale. rewrite E1, E2.
  eexists. split; [reflexivity|]. split; [rewrite map3_len; lia|]. f_equal. apply map3_inv; try lia; [|exact F]. intros. field. assumption.
Qed.
(** component i of inverse_scale, and its derivative *)
Lemma map3_nth f a : forall b c i x y z, nth_error a i = Some x -> nth_error b i = Some y -> nth_error c i = Some z -> nth_error (map3 f a b c) i = Some (f x y z).
Proof. induction a as [|p a IH]; intros [|q b] [|r c] [|i] x y z; cbn; try discriminate; [congruence|apply IH]. Qed.
Lemma map3_setnth f (a : list R) : forall b c i v y z, nth_error b i = Some y -> nth_error c i = Some z ->
  length b = length a -> length c = length a ->
  map3 f (setnth a i v) b c = setnth (map3 f a b c) i (f v y z).
Proof. induction a as [|p a IH]; intros [|q b] [|r c] [|i] v y z; cbn; try discriminate; [congruence|]. intros. f_equal. apply IH; auto; lia. Qed.
Lemma scale_gradient_ok ss (F : list R -> R) th g i gi x0 :
  scale_ok ss -> length th = length ss -> length g = length ss -> inverse_scale ss th = Some x0 ->
  nth_error g i = Some gi -> (forall xi, nth_error x0 i = Some xi -> is_derive (fun v => F (setnth x0 i v)) xi gi) ->
  exists G Gi, scale_gradient ss g = Some G /\ nth_error G i = Some Gi /\
    forall ti, nth_error th i = Some ti ->
    is_derive (fun v => match inverse_scale ss (setnth th i v) with Some x => F x | None => 0 end) ti Gi.
Proof.
  intros H HL HG Hx Hg Hd. destruct (locs_scales ss H) as [l [c [E1 [E2 [L1 [L2 Fo]]]]]].
  unfold inverse_scale in *. unfold scale_gradient. rewrite E1, E2 in *. injection Hx as <-.
  assert (Hi : (i < length ss)%nat) by (rewrite <- HG; apply nth_error_Some; congruence).
  destruct (nth_error c i) as [ci|] eqn:Ec; [|apply nth_error_None in Ec; lia].
  destruct (nth_error l i) as [li|] eqn:El; [|apply nth_error_None in El; lia].
  exists (map (fun x => fst x * snd x) (combine g c)), (gi * ci). split; [reflexivity|]. split.
  { assert (K : nth_error (combine g c) i = Some (gi, ci)).
    { clear -Hg Ec. revert g i Hg Ec. induction c as [|q c IH]; intros [|p g] [|i]; cbn; try discriminate; [congruence|apply IH]. }
    rewrite (map_nth_error _ _ _ K). reflexivity. }
  intros ti Ht. specialize (Hd (ti * ci + li) (map3_nth _ _ _ _ _ _ _ _ Ht El Ec)).
  eapply is_derive_ext; [intro v; rewrite (map3_setnth _ th l c i v li ci El Ec) by lia; reflexivity|].
  evar (z : R). replace (gi * ci) with z; unfold z; [|clear z].
  - apply (is_derive_comp (fun w => F (setnth (map3 (fun t l c => t * c + l) th l c) i w)) (fun v => v * ci + li) ti gi ci); [exact Hd|]. auto_derive; auto; ring.
  - unfold scal; cbn; unfold mult; cbn. ring.
Qed.

(** names *)
Lemma insert_perm x l : Permutation (insert x l) (x :: l).
Proof. induction l as [|y l IH]; cbn; [reflexivity|]. destruct (Nat.leb x y); [reflexivity|]. rewrite IH. apply perm_swap. Qed.
Lemma sort_perm l : Permutation (sort l) l.
Proof. induction l as [|x l IH]; cbn; [reflexivity|]. rewrite insert_perm. now constructor. Qed.
Lemma insert_sorted x l : Sorted le l -> Sorted le (insert x l).
Proof.
  induction l as [|y l IH]; cbn; intro H; [repeat constructor|]. destruct (Nat.leb_spec x y).
  - constructor; [exact H|]. constructor; assumption.
  - inversion H as [|? ? HS HR]; subst. constructor; [auto|]. destruct l as [|z l]; cbn; [constructor; lia|].
    destruct (Nat.leb x z); constructor; [lia|]. inversion HR; subst. assumption.
Qed.
Lemma sort_sorted l : Sorted le (sort l).
Proof. induction l; cbn; [constructor|apply insert_sorted; assumption]. Qed.
Lemma sorted_perm_eq : forall l l' : list nat, StronglySorted le l -> StronglySorted le l' -> Permutation l l' -> l = l'.
Proof.
  induction l as [|x l IH]; intros [|y l'] S1 S2 P; auto.
  - apply Permutation_nil in P. discriminate.
  - symmetry in P. apply Permutation_nil in P. discriminate.
  - inversion S1 as [|? ? A1 A2]; inversion S2 as [|? ? B1 B2]; subst.
    assert (x = y).
    { assert (In y (x :: l)) as Hy by (apply (Permutation_in _ (Permutation_sym P)); left; reflexivity).
      assert (In x (y :: l')) as Hx by (apply (Permutation_in _ P); left; reflexivity).
      rewrite Forall_forall in A2, B2. destruct Hy as [->|Hy]; [reflexivity|]. destruct Hx as [->|Hx]; [reflexivity|].
      specialize (A2 _ Hy). specialize (B2 _ Hx). lia. }
    subst. f_equal. apply IH; auto. eapply Permutation_cons_inv; eauto.
Qed.
Lemma SS l : Sorted le l -> StronglySorted le l.
Proof. apply Sorted_StronglySorted. intros a b c; lia. Qed.
Lemma sort_ext l l' : Permutation l l' -> sort l = sort l'.
Proof. intro P. apply sorted_perm_eq; try apply SS, sort_sorted. now rewrite !sort_perm. Qed.
Lemma free_spec names vary con : NoDup names ->
  NoDup (free_names names vary con) /\ StronglySorted lt (free_names names vary con) /\
  forall k, In k (free_names names vary con) <-> In k names /\ vary k = true /\ con k = false.
Proof.
  intro Hn. unfold free_names. assert (N : NoDup (sort names)) by (eapply Permutation_NoDup; [symmetry; apply sort_perm|exact Hn]).
  assert (Z : StronglySorted le (sort names)) by apply SS, sort_sorted.
  split; [apply NoDup_filter; exact N|]. split.
  - revert N Z. generalize (sort names). induction l as [|x l IH]; cbn; intros N Z; [constructor|].
    apply NoDup_cons_iff in N. inversion Z; subst. destruct (vary x && negb (con x)); [|apply IH; tauto].
    constructor; [apply IH; tauto|]. apply Forall_forall. intros y Hy. apply filter_In in Hy. destruct Hy as [Hy _].
    rewrite Forall_forall in H2. specialize (H2 _ Hy). assert (x <> y) by (intros ->; tauto). lia.
  - intro k. rewrite filter_In, andb_true_iff, negb_true_iff. split; intros [H1 H2]; split; auto.
    + apply (Permutation_in _ (sort_perm names)). exact H1.
    + apply (Permutation_in _ (Permutation_sym (sort_perm names))). exact H1.
Qed.
Lemma free_order names names' vary con : Permutation names names' -> free_names names vary con = free_names names' vary con.
Proof. intro P. unfold free_names. now rewrite (sort_ext _ _ P). Qed.
