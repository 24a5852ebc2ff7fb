(** * Property theorems: derivatives of constraints (C217, C218) *)
From Coq Require Import List Arith Bool Reals Lra Lia.
From Coquelicot Require Import Coquelicot.
From Verif Require Import M_Prep M_ParamVal M_ConDeriv S_ConDeriv P_ConDeriv.
Import ListNotations.
Local Open Scope R_scope.

Lemma replaced_length {V} i (t : V) theta x : nth_error theta i = Some x -> length (replaced i t theta) = length theta.
Proof.
  intros H. assert (i < length theta)%nat by (apply nth_error_Some; congruence). unfold replaced.
  rewrite app_length, firstn_length. cbn [length]. rewrite skipn_length. lia.
Qed.
Lemma replaced_self {V} : forall i (theta : list V) x, nth_error theta i = Some x -> replaced i x theta = theta.
Proof. induction i as [|i IH]; intros [|y theta] x H; try discriminate H; [injection H as ->; reflexivity|]. unfold replaced. cbn. f_equal. exact (IH theta x H). Qed.

(** The parameters: free ones without expression that vary, fixed ones, constrained ones, in any graph of constraints and any order of the updates.
    [W t]: the values of all parameters when the free one number i has the value t and the other free ones those of the point. *)
Theorem C217_total_derivative :
  forall expr vary (fexp : nat -> list R -> R) clamp kids free grad,
  (forall c n, expr c <> None -> kids c n = false) -> (forall n v, clamp n (clamp n v) = clamp n v) ->
  (forall u, In u free <-> expr u = None /\ vary u = true) -> NoDup free -> differentiates grad ->
  forall fuel order name i theta st point x W d st', (forall n, expr n <> None -> In n order) -> expr name <> None -> sound expr free st ->
  (point = match theta with Some t => t | None => map (fun n => clamp n (val st n)) free end) -> length point = length free ->
  nth_error point i = Some x -> (forall t, determined expr fexp clamp free st (replaced i t point) (W t)) ->
  constraint_derivative expr vary fexp clamp kids fuel free order grad name i theta st = Some (d, st') ->
  is_derive (fun t => W t name) x d.
Proof.
  intros expr vary fexp clamp kids free grad K2 Ci Ff Nd Gr fuel order name i theta st point x W d st' Ho Hn So Hp Lp Hx HW H.
  unfold constraint_derivative in H. destruct (values expr vary fexp clamp kids fuel st free) as [[now s]|] eqn:Hv; [|discriminate].
  destruct (values_ok expr vary fexp clamp kids fuel free st now s Nd (fun u X => proj1 (Ff u) X) Hv) as [E1 E2].
  assert (Ep : match theta with Some t => t | None => now end = point) by (rewrite Hp; destruct theta; [reflexivity|exact E1]).
  cbv zeta in H. rewrite Ep in H.
  destruct (grad (fun args => option_map fst (obj expr vary fexp clamp kids fuel free order name s args)) i point) as [dd|] eqn:G; [|discriminate].
  destruct (obj expr vary fexp clamp kids fuel free order name s point) as [[v s']|] eqn:O; [|discriminate]. injection H as <- <-.
  apply (Gr _ i point x dd (fun t => W t name) Hx G). intro t.
  assert (Lt : length (replaced i t point) = length free) by (rewrite (replaced_length i t point x Hx); exact Lp).
  assert (D : obj expr vary fexp clamp kids fuel free order name s (replaced i t point) <> None).
  { apply (obj_defined expr vary fexp clamp kids fuel free order name s point); [congruence|congruence]. }
  destruct (obj expr vary fexp clamp kids fuel free order name s (replaced i t point)) as [[w s2]|] eqn:Ow; [|contradiction]. cbn. f_equal.
  assert (Fx : forall u, expr u = None -> ~ In u free -> vary u = false).
  { intros u E F. destruct (vary u) eqn:Vu; [|reflexivity]. exfalso. apply F, Ff. auto. }
  apply (obj_value expr vary fexp clamp kids free s (replaced i t point) (W t) K2 Ci Fx (fun u X => proj1 (proj1 (Ff u) X)) Nd) with (order := order) (fuel := fuel) (st' := s2); auto.
  - intros u y E F Y. destruct (E2 u F) as [B1 [B2|B2]]; [congruence|]. rewrite B1. apply (So u y E F). congruence.
  - destruct (HW t) as (W1 & W2 & W3). split; [exact W1|split; [|exact W3]]. intros u E F. rewrite (proj1 (E2 u F)). auto.
Qed.
Print Assumptions C217_total_derivative.

(** The order in which the set of constrained parameters is traversed, and the current values of the free parameters, do not matter. *)
Theorem C217_unique :
  forall expr vary (fexp : nat -> list R -> R) clamp kids free grad,
  (forall c n, expr c <> None -> kids c n = false) -> (forall n v, clamp n (clamp n v) = clamp n v) ->
  (forall u, In u free <-> expr u = None /\ vary u = true) -> NoDup free -> differentiates grad ->
  forall fuel fuel' order order' name i point st st2 x W d d' st' st2', (forall n, expr n <> None -> In n order /\ In n order') -> expr name <> None ->
  sound expr free st -> sound expr free st2 -> (forall u, expr u = None -> vary u = false -> val st u = val st2 u) -> length point = length free ->
  nth_error point i = Some x -> (forall t, determined expr fexp clamp free st (replaced i t point) (W t)) ->
  constraint_derivative expr vary fexp clamp kids fuel free order grad name i (Some point) st = Some (d, st') ->
  constraint_derivative expr vary fexp clamp kids fuel' free order' grad name i (Some point) st2 = Some (d', st2') -> d = d'.
Proof.
  intros expr vary fexp clamp kids free grad K2 Ci Ff Nd Gr fuel fuel' order order' name i point st st2 x W d d' st' st2' Ho Hn So So2 Sf Lp Hx HW H H'.
  assert (A : is_derive (fun t => W t name) x d).
  { apply (C217_total_derivative expr vary fexp clamp kids free grad K2 Ci Ff Nd Gr fuel order name i (Some point) st point x W d st'); auto. intros n X. apply (Ho n X). }
  assert (B : is_derive (fun t => W t name) x d').
  { apply (C217_total_derivative expr vary fexp clamp kids free grad K2 Ci Ff Nd Gr fuel' order' name i (Some point) st2 point x W d' st2'); auto.
    - intros n X. apply (Ho n X).
    - intro t. destruct (HW t) as (W1 & W2 & W3). split; [exact W1|split; [|exact W3]]. intros u E F. rewrite (W2 u E F). apply Sf; [exact E|].
      destruct (vary u) eqn:Vu; [|reflexivity]. exfalso. apply F, Ff. auto. }
  rewrite <- (is_derive_unique _ _ _ A). exact (is_derive_unique _ _ _ B).
Qed.
Print Assumptions C217_unique.

(** Two constraints, the second through the first: p1 = 3 p0^2, p2 = p1 + p0, at p0 = 2; p0 holds 7. All hypotheses are met; 13 = 6 p0 + 1. *)
Definition ex_expr (n : nat) : option (list nat) := match n with 1%nat => Some [0%nat] | 2%nat => Some [1%nat; 0%nat] | _ => None end.
Definition ex_vary (n : nat) : bool := Nat.eqb n 0.
Definition ex_fexp (n : nat) (l : list R) : R := match n with 1%nat => 3 * (nth 0 l 0) * (nth 0 l 0) | _ => nth 0 l 0 + nth 1 l 0 end.
Definition ex_W (t : R) (n : nat) : R := match n with 0%nat => t | 1%nat => 3 * t * t | 2%nat => 3 * t * t + t | _ => 0 end.
Definition ex_st : vst R := mkV (fun n => match n with 0%nat => 7 | _ => 0 end) (fun _ => None).
Definition ex_kids (c n : nat) : bool := Nat.eqb c 0 && (Nat.eqb n 1 || Nat.eqb n 2).
(** an oracle that keeps the contract: the derivative if there is one, else a failure *)
Definition part (F : list R -> option R) (i : nat) (theta : list R) (t : R) : R := match F (replaced i t theta) with Some y => y | None => 0 end.
Definition true_grad (F : list R -> option R) (i : nat) (theta : list R) : option R :=
  match nth_error theta i with
  | None => None
  | Some x => if ClassicalDedekindReals.sig_not_dec (ex_derive (part F i theta) x) then Some (Derive (part F i theta) x) else None
  end.
Lemma true_grad_value (F : list R -> option R) (i : nat) (theta : list R) (x d : R) (f : R -> R) : nth_error theta i = Some x -> (forall t, F (replaced i t theta) = Some (f t)) -> is_derive f x d -> true_grad F i theta = Some d.
Proof.
  intros Hx HF D. assert (E : forall t, part F i theta t = f t) by (intro t; unfold part; now rewrite HF).
  unfold true_grad. rewrite Hx. assert (X : is_derive (part F i theta) x d) by (apply (is_derive_ext f); [intro t; now rewrite E|exact D]).
  destruct (ClassicalDedekindReals.sig_not_dec (ex_derive (part F i theta) x)) as [_|N]; [|exfalso; apply N; now exists d]. f_equal. now apply is_derive_unique.
Qed.
Example C217_contract : differentiates true_grad.
Proof.
  intros F i theta x d f Hx G HF. assert (E : forall t, part F i theta t = f t) by (intro t; unfold part; now rewrite HF).
  unfold true_grad in G. rewrite Hx in G. destruct (ClassicalDedekindReals.sig_not_dec (ex_derive (part F i theta) x)) as [N|]; [|discriminate].
  injection G as <-. apply (is_derive_ext (part F i theta)); [exact E|]. apply Derive_correct. now apply Classical_Prop.NNPP.
Qed.
Example C217_determined : forall t, determined ex_expr ex_fexp (fun _ v => v) [0%nat] ex_st (replaced 0 t [2]) (ex_W t).
Proof.
  intro t. split; [|split].
  - intros [|[|i]] u v; cbn; try discriminate. now intros [= <-] [= <-].
  - intros [|[|[|u]]] E F; cbn in *; try discriminate; [exfalso; apply F; now left|reflexivity].
  - intros [|[|[|n]]] l E; cbn in E; try discriminate; injection E as <-; cbn; reflexivity.
Qed.
Example C217_nonvacuous : exists s, constraint_derivative ex_expr ex_vary ex_fexp (fun _ v => v) ex_kids 5 [0%nat] [2%nat; 1%nat] true_grad 2 0 (Some [2]) ex_st = Some (13, s) /\
  sound ex_expr [0%nat] ex_st /\ (forall u, In u [0%nat] <-> ex_expr u = None /\ ex_vary u = true) /\ (forall c n, ex_expr c <> None -> ex_kids c n = false).
Proof.
  assert (H : exists s v s', values ex_expr ex_vary ex_fexp (fun _ v => v) ex_kids 5 ex_st [0%nat] = Some ([7], s) /\
    (forall t, option_map fst (obj ex_expr ex_vary ex_fexp (fun _ v => v) ex_kids 5 [0%nat] [2%nat; 1%nat] 2 s (replaced 0 t [2])) = Some (3 * t * t + t)) /\
    obj ex_expr ex_vary ex_fexp (fun _ v => v) ex_kids 5 [0%nat] [2%nat; 1%nat] 2 s [2] = Some (v, s')).
  { eexists _, _, _. split; [cbn; reflexivity|]. split; [intro t; cbn; reflexivity|cbn; reflexivity]. }
  destruct H as (s & v & s' & H1 & H2 & H3). eexists. split; [|split; [|split]].
  - unfold constraint_derivative. rewrite H1. cbv zeta. rewrite H3.
    rewrite (true_grad_value _ 0 [2] 2 13 (fun t => 3 * t * t + t)); [reflexivity|reflexivity|exact H2|]. auto_derive; [exact I|lra].
  - intros u x _ _ X. discriminate.
  - intros [|[|[|u]]]; cbn; split; try (intros [X|[]]; discriminate X); try (intros [X Y]; discriminate); auto.
  - intros [|c] n X; [contradiction|reflexivity].
Qed.

(** ** C218: the parameters afterwards *)
Theorem C218_free_and_fixed_kept_partial :
  forall V expr vary (fexp : nat -> list V -> V) clamp kids free grad,
  (forall n v, clamp n (clamp n v) = clamp n v) -> (forall u, In u free <-> expr u = None /\ vary u = true) -> NoDup free ->
  forall fuel order name i theta st d st', constraint_derivative expr vary fexp clamp kids fuel free order grad name i theta st = Some (d, st') ->
  (forall u, In u free -> val st' u = clamp u (val st u)) /\ (forall u, expr u = None -> vary u = false -> val st' u = val st u).
Proof.
  intros V expr vary fexp clamp kids free grad Ci Ff Nd fuel order name i theta st d st' H.
  unfold constraint_derivative in H. destruct (values expr vary fexp clamp kids fuel st free) as [[now s]|] eqn:Hv; [|discriminate].
  destruct (values_ok expr vary fexp clamp kids fuel free st now s Nd (fun u X => proj1 (Ff u) X) Hv) as [E1 E2]. cbv zeta in H.
  set (pt := match theta with Some t => t | None => now end) in *.
  destruct (grad (fun args => option_map fst (obj expr vary fexp clamp kids fuel free order name s args)) i pt) as [dd|]; [|discriminate].
  destruct (obj expr vary fexp clamp kids fuel free order name s pt) as [[v s']|] eqn:O; [|discriminate]. injection H as <- <-. split.
  - intros u F. destruct (In_nth_error _ _ F) as [k Hk]. apply (restore_in expr vary fexp kids free now s' k u _ Nd Hk). rewrite E1, nth_error_map, Hk. reflexivity.
  - intros u E F. assert (Nf : ~ In u free) by (intro X; apply Ff in X; destruct X; congruence).
    rewrite (restore_out expr vary fexp kids free now s' u Nf), (obj_fixed expr vary fexp clamp kids u E F fuel free order name s pt v s' O). exact (proj1 (E2 u Nf)).
Qed.
Print Assumptions C218_free_and_fixed_kept_partial.
(** Refuted: the constrained parameters are left as they were.  p1 = p0 + 1, p2 = p1 + 1, p3 = p2 + 1: prepare_params keeps p1 as the only child of p0; after the derivative of p3
    at the point p0 = 5 the parameter p0 is again 1, and reading p3 gives 8, the value at the point, instead of 4, which it was before. *)
Definition chain3 (n : nat) : option (list nat) := match n with 1%nat => Some [0%nat] | 2%nat => Some [1%nat] | 3%nat => Some [2%nat] | _ => None end.
Definition plus1 (n : nat) (l : list nat) : nat := S (nth 0 l 0%nat).
Theorem C218_constrained_stale_refuted :
  exists ps, prepare [0; 1; 2; 3]%nat chain3 10 = Some ps /\
  let st := mkV (fun n => match n with 0%nat => 1%nat | _ => 0%nat end) (fun _ => None) in
  let read := getval chain3 ex_vary plus1 (fun _ v => v) (kids ps) 10 in
  option_map fst (read st 3%nat) = Some 4%nat /\
  forall grad : (list nat -> option nat) -> nat -> list nat -> option nat, (forall F i theta, grad F i theta <> None) ->
  exists d st' st'', constraint_derivative chain3 ex_vary plus1 (fun _ v => v) (kids ps) 10 [0%nat] [1; 2; 3]%nat grad 3 0 (Some [5%nat]) st = Some (d, st') /\
    val st' 0%nat = 1%nat /\ read st' 3%nat = Some (8%nat, st'').
Proof.
  destruct (prepare [0; 1; 2; 3]%nat chain3 10) as [ps|] eqn:E; [|vm_compute in E; discriminate]. exists ps. split; [reflexivity|].
  vm_compute in E. injection E as <-. cbv zeta. split; [reflexivity|]. intros grad Hg. unfold constraint_derivative. cbn [values getval chain3 ex_vary Nat.eqb]. cbv zeta.
  match goal with |- context [grad ?F 0%nat [5%nat]] => pose proof (Hg F 0%nat [5%nat]) as G; destruct (grad F 0%nat [5%nat]) as [d|]; [|contradiction] end.
  eexists d, _, _. split; [cbn; reflexivity|]. split; reflexivity.
Qed.
Print Assumptions C218_constrained_stale_refuted.
