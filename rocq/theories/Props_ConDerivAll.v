(** * Property theorems: the derivative of any parameter with respect to any other (C220) *)
From Coq Require Import List Arith Bool Reals Lra Lia.
From Coquelicot Require Import Coquelicot.
From Verif Require Import M_Prep M_ParamVal M_ConDeriv S_ConDeriv P_ConDeriv Props_ConDeriv M_ConDerivAll.
Import ListNotations.
Local Open Scope R_scope.

Lemma mem_in x l : mem x l = true <-> In x l.
Proof. unfold mem. rewrite existsb_exists. split; [intros (y & H & E); apply Nat.eqb_eq in E; now subst|intro H; exists x; split; [exact H|apply Nat.eqb_refl]]. Qed.
Lemma mem_out x l : mem x l = false <-> ~ In x l.
Proof. rewrite <- mem_in. destruct (mem x l); split; congruence. Qed.
Lemma position_nth : forall l x, In x l -> nth_error l (position x l) = Some x.
Proof. induction l as [|y l IH]; intros x H; [destruct H|]. cbn. destruct (Nat.eqb_spec x y) as [->|N]; [reflexivity|]. apply IH. destruct H; [congruence|assumption]. Qed.

(** Which questions are refused: those about two different parameters that are not one free and one constrained parameter of the set. *)
Theorem C220_refused_exactly :
  forall V names expr vary (fexp : nat -> list V -> V) clamp kids free order grad one inv,
  (forall u, In u free -> In u names /\ expr u = None) ->
  forall fuel name wrt theta st,
  derivative names expr vary fexp clamp kids free order grad one inv fuel name wrt theta st = ValueError <->
  name <> wrt /\ ~ (In name names /\ In wrt names /\ ((In wrt free /\ expr name <> None) \/ (In name free /\ expr wrt <> None))).
Proof.
  intros V names expr vary fexp clamp kids free order grad one inv Ff fuel name wrt theta st. unfold derivative.
  destruct (Nat.eqb_spec name wrt) as [->|N]; [split; [discriminate|intros [H _]; contradiction]|].
  destruct (mem name names) eqn:Mn; cbn [negb]; [|apply mem_out in Mn; split; [intros _; split; [exact N|tauto]|reflexivity]].
  destruct (mem wrt names) eqn:Mw; cbn [negb]; [|apply mem_out in Mw; split; [intros _; split; [exact N|tauto]|reflexivity]].
  apply mem_in in Mn. apply mem_in in Mw. unfold direct.
  destruct (mem wrt free) eqn:Fw; cbn [negb andb].
  - apply mem_in in Fw. destruct (expr name) as [l|] eqn:E.
    + split; [destruct (constraint_derivative _ _ _ _ _ _ _ _ _ _ _ _ _) as [[d s]|]; discriminate|]. intros [_ H]. exfalso. apply H. repeat split; auto. left. split; [exact Fw|discriminate].
    + split; [intros _; split; [exact N|]|reflexivity]. intros (_ & _ & [[_ H]|[_ H]]); [congruence|]. apply H. apply (Ff wrt Fw).
  - apply mem_out in Fw. destruct (mem name free) eqn:Fn; cbn [negb andb].
    + apply mem_in in Fn. destruct (expr wrt) as [l|] eqn:E.
      * split; [destruct (constraint_derivative _ _ _ _ _ _ _ _ _ _ _ _ _) as [[d s]|]; discriminate|]. intros [_ H]. exfalso. apply H. repeat split; auto. right. split; [exact Fn|discriminate].
      * split; [intros _; split; [exact N|]|reflexivity]. intros (_ & _ & [[H _]|[_ H]]); [contradiction|congruence].
    + apply mem_out in Fn. split; [intros _; split; [exact N|]|reflexivity]. tauto.
Qed.
Print Assumptions C220_refused_exactly.

(** A constrained parameter with respect to a free one: the total derivative. *)
Theorem C220_constrained_by_free :
  forall names expr vary (fexp : nat -> list R -> R) clamp kids free order grad,
  (forall c n, expr c <> None -> kids c n = false) -> (forall n v, clamp n (clamp n v) = clamp n v) ->
  (forall u, In u free <-> expr u = None /\ vary u = true) -> NoDup free -> differentiates grad -> (forall n, expr n <> None -> In n order) ->
  forall fuel name wrt st point i x W d st', In wrt free -> expr name <> None -> sound expr free st -> length point = length free ->
  nth_error free i = Some wrt -> nth_error point i = Some x -> (forall t, determined expr fexp clamp free st (replaced i t point) (W t)) ->
  derivative names expr vary fexp clamp kids free order grad 1 Rinv fuel name wrt (Some point) st = Derivative d st' ->
  is_derive (fun t => W t name) x d.
Proof.
  intros names expr vary fexp clamp kids free order grad K2 Ci Ff Nd Gr Ho fuel name wrt st point i x W d st' Fw En So Lp Hi Hx HW H.
  assert (N : name <> wrt) by (intros ->; apply Ff in Fw; destruct Fw; contradiction).
  assert (P : position wrt free = i).
  { pose proof (position_nth free wrt Fw) as Q. apply (proj1 (NoDup_nth_error free) Nd); [apply nth_error_Some; congruence|congruence]. }
  unfold derivative in H. destruct (Nat.eqb_spec name wrt) as [|_]; [contradiction|].
  destruct (mem name names); cbn [negb] in H; [|discriminate]. destruct (mem wrt names); cbn [negb] in H; [|discriminate].
  rewrite (proj2 (mem_in wrt free) Fw) in H. cbn [negb andb] in H. unfold direct in H. rewrite (proj2 (mem_in wrt free) Fw) in H. cbn [negb] in H.
  destruct (expr name) as [l|] eqn:E; [|contradiction]. rewrite P in H.
  destruct (constraint_derivative expr vary fexp clamp kids fuel free order grad name i (Some point) st) as [[dd s]|] eqn:C; [|discriminate]. injection H as <- <-.
  apply (C217_total_derivative expr vary fexp clamp kids free grad K2 Ci Ff Nd Gr fuel order name i (Some point) st point x W dd s); auto. congruence.
Qed.
Print Assumptions C220_constrained_by_free.

(** A free parameter with respect to a constrained one: the derivative of the inverse relation, the other free parameters held. *)
Theorem C220_free_by_constrained :
  forall names expr vary (fexp : nat -> list R -> R) clamp kids free order grad,
  (forall c n, expr c <> None -> kids c n = false) -> (forall n v, clamp n (clamp n v) = clamp n v) ->
  (forall u, In u free <-> expr u = None /\ vary u = true) -> NoDup free -> differentiates grad -> (forall n, expr n <> None -> In n order) ->
  forall fuel name wrt st point i x W d st' g g', In name free -> expr wrt <> None -> sound expr free st -> length point = length free ->
  nth_error free i = Some name -> nth_error point i = Some x -> (forall t, determined expr fexp clamp free st (replaced i t point) (W t)) ->
  (forall t, g (W t wrt) = t) -> is_derive g (W x wrt) g' ->
  derivative names expr vary fexp clamp kids free order grad 1 Rinv fuel name wrt (Some point) st = Derivative d st' ->
  d = g'.
Proof.
  intros names expr vary fexp clamp kids free order grad K2 Ci Ff Nd Gr Ho fuel name wrt st point i x W d st' g g' Fn Ew So Lp Hi Hx HW Hg Dg H.
  assert (N : name <> wrt) by (intros ->; apply Ff in Fn; destruct Fn; contradiction).
  assert (Nw : ~ In wrt free) by (intro F; apply Ff in F; destruct F; contradiction).
  assert (P : position name free = i).
  { pose proof (position_nth free name Fn) as Q. apply (proj1 (NoDup_nth_error free) Nd); [apply nth_error_Some; congruence|congruence]. }
  unfold derivative in H. destruct (Nat.eqb_spec name wrt) as [|_]; [contradiction|].
  destruct (mem name names); cbn [negb] in H; [|discriminate]. destruct (mem wrt names); cbn [negb] in H; [|discriminate].
  rewrite (proj2 (mem_out wrt free) Nw), (proj2 (mem_in name free) Fn) in H. cbn [negb andb] in H. unfold direct in H. rewrite (proj2 (mem_in name free) Fn) in H. cbn [negb] in H.
  destruct (expr wrt) as [l|] eqn:E; [|contradiction]. rewrite P in H.
  destruct (constraint_derivative expr vary fexp clamp kids fuel free order grad wrt i (Some point) st) as [[dd s]|] eqn:C; [|discriminate]. injection H as <- <-.
  assert (D : is_derive (fun t => W t wrt) x dd).
  { apply (C217_total_derivative expr vary fexp clamp kids free grad K2 Ci Ff Nd Gr fuel order wrt i (Some point) st point x W dd s); auto. congruence. }
  assert (I : is_derive (fun t => g (W t wrt)) x (dd * g')) by (apply (is_derive_comp g (fun t => W t wrt) x g' dd Dg D)).
  assert (J : is_derive (fun t : R => t) x (dd * g')) by (apply (is_derive_ext _ _ _ _ Hg I)).
  assert (Q : dd * g' = 1) by (rewrite <- (is_derive_unique _ _ _ J); apply Derive_id).
  apply (Rmult_eq_reg_l dd); [rewrite Rinv_r; [lra|]|]; intro Z; rewrite Z in Q; lra.
Qed.
Print Assumptions C220_free_by_constrained.

Example C220_nonvacuous : exists s, derivative [0; 1; 2]%nat ex_expr ex_vary ex_fexp (fun _ v => v) ex_kids [0%nat] [2%nat; 1%nat] true_grad 1 Rinv 5 2 0 (Some [2]) ex_st = Derivative 13 s.
Proof.
  destruct C217_nonvacuous as (s & H & _). exists s. unfold derivative, direct. cbn [Nat.eqb mem existsb orb andb negb ex_expr position]. rewrite H. reflexivity.
Qed.
(** p1 = 3 p0 + 1: the derivative of p0 with respect to p1 is a third; g is the inverse relation *)
Definition inv_expr (n : nat) : option (list nat) := match n with 1%nat => Some [0%nat] | _ => None end.
Definition inv_fexp (n : nat) (l : list R) : R := 3 * nth 0 l 0 + 1.
Definition inv_W (t : R) (n : nat) : R := match n with 0%nat => t | 1%nat => 3 * t + 1 | _ => 0 end.
Example C220_inverse_nonvacuous :
  (forall t, determined inv_expr inv_fexp (fun _ v => v) [0%nat] ex_st (replaced 0 t [2]) (inv_W t)) /\
  (forall t, (inv_W t 1 - 1) / 3 = t) /\ is_derive (fun y => (y - 1) / 3) (inv_W 2 1) (/ 3) /\
  exists s, derivative [0; 1]%nat inv_expr ex_vary inv_fexp (fun _ v => v) ex_kids [0%nat] [1%nat] true_grad 1 Rinv 5 0 1 (Some [2]) ex_st = Derivative (/ 3) s.
Proof.
  split; [|split; [|split]].
  - intro t. split; [|split].
    + intros [|[|i]] u v; cbn; try discriminate. now intros [= <-] [= <-].
    + intros [|[|u]] E F; cbn in *; try discriminate; [exfalso; apply F; now left|reflexivity].
    + intros [|[|n]] l E; cbn in E; try discriminate; injection E as <-; reflexivity.
  - intro t. cbn. field.
  - auto_derive; [exact I|lra].
  - assert (H : exists s v s', values inv_expr ex_vary inv_fexp (fun _ v => v) ex_kids 5 ex_st [0%nat] = Some ([7], s) /\
      (forall t, option_map fst (obj inv_expr ex_vary inv_fexp (fun _ v => v) ex_kids 5 [0%nat] [1%nat] 1 s (replaced 0 t [2])) = Some (3 * t + 1)) /\
      obj inv_expr ex_vary inv_fexp (fun _ v => v) ex_kids 5 [0%nat] [1%nat] 1 s [2] = Some (v, s')).
    { eexists _, _, _. split; [cbn; reflexivity|]. split; [intro t; cbn; reflexivity|cbn; reflexivity]. }
    destruct H as (s & v & s' & H1 & H2 & H3). eexists. unfold derivative, direct. cbn [Nat.eqb mem existsb orb andb negb inv_expr position].
    unfold constraint_derivative. rewrite H1. cbv zeta. rewrite H3.
    rewrite (true_grad_value _ 0 [2] 2 3 (fun t => 3 * t + 1)); [reflexivity|reflexivity|exact H2|]. auto_derive; [exact I|lra].
Qed.
