(** Properties of the initial walkers drawn from the priors. *)
From Coq Require Import Reals List Bool Arith Lia Lra.
Import ListNotations.
From Verif Require Import M_Init S_Init P_Init.
Local Open Scope R_scope.

(** * C151: walkers are drawn until they are allowed, at most 101 times *)
Theorem C151_each_walker_is_its_first_allowed_draw_of_at_most_102 : forall ps p0 draws,
  ps <> [] -> (forall p, In p ps -> pri p <> NoPrior) -> Forall (fun w => length w = length ps) p0 -> (forall i, length (draws i) = length ps) ->
  exists o us, from_scratch ps FromPrior p0 draws = Init o
    /\ length (rows o) = length p0 /\ length us = length p0
    /\ (forall r, (r < length p0)%nat -> first_allowed ps (candidate (nth r p0 zero) draws (total (firstn r us))) (nth r us 0%nat) (nth r (rows o) zero))
    /\ counted (fun u => u = 101%nat) us (exceeded o) /\ counted (fun u => (50 < u <= 100)%nat) us (difficult o)
    /\ next_draw o = total us.
Proof.
  intros ps p0 draws NE HP LP LD. destruct (init_spec ps draws LD p0 0 LP) as (us & L1 & L2 & R & C1 & C2 & Nx).
  exists (init_rows ps draws p0 0), us. split.
  - unfold from_scratch, multivariate_init. destruct ps as [|p ps]; [congruence|]. unfold univariate_init.
    assert (F : forallb has_prior (p :: ps) = true). { apply forallb_forall. intros x Hx. specialize (HP x Hx). unfold has_prior. destruct (pri x); congruence. }
    rewrite F. reflexivity.
  - split; [exact L2|]. split; [exact L1|]. split; [exact R|]. split; [exact C1|]. split; [exact C2|]. exact Nx.
Qed.
Lemma counted_none P l n : counted P l n -> n = 0%nat -> forall x, In x l -> ~ P x.
Proof. induction 1 as [|x l n HP C IH|x l n HP C IH]; intros Z y Hy; [destruct Hy | discriminate Z |]. destruct Hy as [<-|Hy]; auto. Qed.
(** a walker that needed at most 100 redraws has finite log prior, parameter by parameter *)
Theorem C151_walkers_found_in_time_have_finite_prior : forall ps p0 draws o r p i,
  ps <> [] -> (forall q, In q ps -> pri q <> NoPrior) -> Forall (fun w => length w = length ps) p0 -> (forall j, length (draws j) = length ps) ->
  from_scratch ps FromPrior p0 draws = Init o -> exceeded o = 0%nat -> (r < length p0)%nat -> nth_error ps i = Some p ->
  exists v, lnprior p (nth i (nth r (rows o) zero) 0) = Some v /\ allowed p (nth i (nth r (rows o) zero) 0).
Proof.
  intros ps p0 draws o r p i NE HP LP LD E EX Hr Hi.
  destruct (C151_each_walker_is_its_first_allowed_draw_of_at_most_102 ps p0 draws NE HP LP LD) as (o' & us & E' & L2 & L1 & R & C1 & _ & _).
  rewrite E in E'. injection E' as <-. destruct (R r Hr) as (Eo & Lu & _ & Y).
  assert (U : (nth r us 0 < 101)%nat).
  { rewrite EX in C1. pose proof (counted_none _ _ _ C1 eq_refl) as H.
    specialize (H (nth r us 0%nat)). assert (In (nth r us 0%nat) us) by (apply nth_In; lia). specialize (H H0). cbv beta in H. lia. }
  specialize (Y U). rewrite <- Eo in Y. assert (A : allowed p (nth i (nth r (rows o) zero) 0)).
  { clear -Y Hi. revert i Hi. induction Y as [|q x qs xs A F IH]; intros i Hi; [destruct i; discriminate|]. destruct i as [|i]; simpl in *; [injection Hi as <-; exact A | apply IH; exact Hi]. }
  destruct (allowed_finite p _ A) as (v & V). exists v. split; auto.
Qed.
Print Assumptions C151_each_walker_is_its_first_allowed_draw_of_at_most_102.
Print Assumptions C151_walkers_found_in_time_have_finite_prior.
Definition ex_p : par := {| pmin := Some 0; pmax := None; pri := Normal 0 1 |}.
Example C151_nonvacuous : exists o, from_scratch [ex_p] FromPrior [[-1]; [2]] (fun i => [INR i - 1]) = Init o /\ rows o = [[0]; [2]].
Proof.
  destruct (C151_each_walker_is_its_first_allowed_draw_of_at_most_102 [ex_p] [[-1]; [2]] (fun i => [INR i - 1])) as (o & us & E & L2 & L1 & R & _).
  - discriminate.
  - intros p [<-|[]]. discriminate.
  - constructor; [reflexivity|]. constructor; [reflexivity|]. constructor.
  - reflexivity.
  - exists o. split; [exact E|]. assert (Y : forall x, 0 <= x -> Forall2 allowed [ex_p] [x]).
    { intros x Hx. constructor; [|constructor]. split; [|split]; [|discriminate|discriminate]. intros l El. injection El as <-. exact Hx. }
    assert (N : ~ Forall2 allowed [ex_p] [-1]). { intros F. inversion F as [|? ? ? ? (A & _) _]; subst. specialize (A 0 eq_refl). lra. }
    assert (R0 : nth 0 (rows o) zero = [0]).
    { destruct (R 0%nat ltac:(simpl; lia)) as (Eo & _ & B & A). cbn [nth firstn total] in *. destruct (nth 0 us 0%nat) as [|[|[|u]]].
      - exfalso. apply N, A. lia.
      - exfalso. apply N. specialize (A ltac:(lia)). cbn [candidate Nat.add] in A. replace (INR 0 - 1) with (-1) in A by (simpl; lra). exact A.
      - rewrite Eo. cbn [candidate Nat.add]. f_equal. simpl. lra.
      - exfalso. apply (B 2%nat ltac:(lia)). cbn [candidate Nat.add]. apply Y. simpl. lra. }
    assert (R1 : nth 1 (rows o) zero = [2]).
    { destruct (R 1%nat ltac:(simpl; lia)) as (Eo & _ & B & _). cbn [nth] in *. destruct (nth 1 us 0%nat) as [|u]; [exact Eo|]. exfalso. apply (B 0%nat ltac:(lia)). cbn [candidate]. apply Y. lra. }
    destruct (rows o) as [|a [|b [|? ?]]]; cbn [length] in L2; try discriminate L2. cbn [nth] in R0, R1. rewrite R0, R1. reflexivity.
Qed.

(** * C152: what the initialisation promises beyond that *)
Theorem C152_a_walker_outside_the_prior_can_be_returned_refuted : forall ps w draws,
  ps <> [] -> (forall p, In p ps -> pri p <> NoPrior) -> length w = length ps -> (forall i, length (draws i) = length ps) ->
  ~ Forall2 allowed ps w -> (forall i, (i <= 100)%nat -> ~ Forall2 allowed ps (draws i)) ->
  exists o, from_scratch ps FromPrior [w] draws = Init o /\ rows o = [draws 100%nat] /\ ~ Forall2 allowed ps (draws 100%nat).
Proof.
  intros ps w draws NE HP LW LD NW ND.
  destruct (C151_each_walker_is_its_first_allowed_draw_of_at_most_102 ps [w] draws NE HP ltac:(constructor; auto) LD) as (o & us & E & L2 & L1 & R & _).
  exists o. split; [exact E|]. destruct (R 0%nat ltac:(simpl; lia)) as (Eo & Lu & _ & Y). cbn [firstn total nth] in *.
  assert (U : nth 0 us 0%nat = 101%nat).
  { destruct (Nat.lt_ge_cases (nth 0 us 0%nat) 101) as [H|H]; [|lia]. exfalso. specialize (Y H). destruct (nth 0 us 0%nat) as [|u]; [exact (NW Y)|]. simpl in Y. apply (ND u); [lia | exact Y]. }
  rewrite U in Eo. split; [|apply ND; lia]. destruct (rows o) as [|x [|y l]]; simpl in L2; try lia. simpl in Eo. rewrite Eo. reflexivity.
Qed.
(** a walker whose 101st redraw is allowed is reported as impossible *)
Theorem C152_the_warning_counts_a_valid_walker_as_impossible_refuted : forall ps w draws,
  ps <> [] -> (forall p, In p ps -> pri p <> NoPrior) -> length w = length ps -> (forall i, length (draws i) = length ps) ->
  ~ Forall2 allowed ps w -> (forall i, (i < 100)%nat -> ~ Forall2 allowed ps (draws i)) -> Forall2 allowed ps (draws 100%nat) ->
  exists o, from_scratch ps FromPrior [w] draws = Init o /\ rows o = [draws 100%nat] /\ exceeded o = 1%nat.
Proof.
  intros ps w draws NE HP LW LD NW ND YD.
  destruct (C151_each_walker_is_its_first_allowed_draw_of_at_most_102 ps [w] draws NE HP ltac:(constructor; auto) LD) as (o & us & E & L2 & L1 & R & C1 & _).
  exists o. split; [exact E|]. destruct (R 0%nat ltac:(simpl; lia)) as (Eo & Lu & _ & Y). cbn [firstn total nth] in *.
  assert (U : nth 0 us 0%nat = 101%nat).
  { destruct (Nat.lt_ge_cases (nth 0 us 0%nat) 101) as [H|H]; [|lia]. exfalso. specialize (Y H). destruct (nth 0 us 0%nat) as [|u]; [exact (NW Y)|]. simpl in Y. apply (ND u); [lia | exact Y]. }
  rewrite U in Eo. split. { destruct (rows o) as [|x [|y l]]; simpl in L2; try lia. simpl in Eo. rewrite Eo. reflexivity. }
  destruct us as [|u [|u' l]]; simpl in L1; try lia. simpl in U. subst u. inversion C1 as [|x l n P C|x l n P C]; subst; [inversion C; reflexivity | congruence].
Qed.
Theorem C152_multivariate_and_posterior_initialisation_never_work_refuted : forall p ps src p0 draws,
  (forall o, multivariate_init (p :: ps) src <> Init o) /\ from_scratch (p :: ps) FromPosterior p0 draws = AttributeError.
Proof. intros p ps src p0 draws. split; [intros o; destruct src; discriminate | reflexivity]. Qed.
Print Assumptions C152_a_walker_outside_the_prior_can_be_returned_refuted.
Print Assumptions C152_the_warning_counts_a_valid_walker_as_impossible_refuted.
Print Assumptions C152_multivariate_and_posterior_initialisation_never_work_refuted.
Example C152_nonvacuous : ~ Forall2 allowed [ex_p] [-1] /\ Forall2 allowed [ex_p] [1] /\ pri ex_p <> NoPrior.
Proof.
  split; [|split].
  - intros H. inversion H as [|? ? ? ? (A & _) _]; subst. specialize (A 0 eq_refl). lra.
  - constructor; [|constructor]. split; [|split]. + intros l E. injection E as <-. lra. + discriminate. + discriminate.
  - discriminate.
Qed.
