(** C213: the scattered start of a minimisation. *)
From Coq Require Import Reals List Bool Arith Lra Lia.
From Verif Require Import M_Init S_Init M_Scatter S_Scatter.
Import ListNotations.
Local Open Scope R_scope.

Lemma leb_iff x y : leb x y = true <-> x <= y.
Proof. unfold leb. destruct (Rle_dec x y); split; auto; try discriminate. Qed.
Lemma within_iff p x : within_bounds p x = true <-> allowed p x.
Proof.
  unfold within_bounds, allowed, above, below. rewrite !andb_true_iff. split.
  - intros (A & B & C). split; [|split].
    + intros l E. rewrite E in B. now apply leb_iff.
    + intros u E. rewrite E in C. now apply leb_iff.
    + intros l u E. rewrite E in A. apply andb_true_iff in A. rewrite !leb_iff in A. exact A.
  - intros (A & B & C). split; [|split].
    + destruct (pri p) as [|l u|]; auto. apply andb_true_iff. rewrite !leb_iff. now apply C.
    + destruct (pmin p); auto. apply leb_iff. now apply A.
    + destruct (pmax p); auto. apply leb_iff. now apply B.
Qed.
Lemma all_within_iff : forall ps p, length ps = length p -> (all_within ps p = true <-> all_allowed ps p).
Proof.
  unfold all_within, all_allowed. induction ps as [|q ps IH]; intros [|x p] L; cbn in L; try discriminate; cbn [zip forallb].
  - split; auto.
  - rewrite andb_true_iff, within_iff, IH by congruence. split; [intros []; constructor; auto|intro H; inversion H; subst; auto].
Qed.
Lemma proposal_spec s : forall x z, length z = length x -> displaced s x z (proposal s x z).
Proof.
  unfold proposal. induction x as [|a x IH]; intros [|b z] L; cbn in L; try discriminate; cbn [zip].
  - split; [reflexivity|]. intros [|i] u v E; discriminate.
  - destruct (IH z ltac:(congruence)) as [A B]. split; [cbn; now rewrite A|]. intros [|i] u v; cbn; [intros [= ->] [= ->]; reflexivity|apply B].
Qed.
Lemma displaced_unique s x z p q : length z = length x -> displaced s x z p -> displaced s x z q -> p = q.
Proof.
  intros L [A1 A2] [B1 B2].
  assert (G : forall i, nth_error p i = nth_error q i).
  { intro i. destruct (nth_error x i) as [a|] eqn:Ex.
    - assert (i < length x)%nat by (apply nth_error_Some; congruence). destruct (nth_error z i) as [b|] eqn:Ez; [|apply nth_error_None in Ez; lia].
      now rewrite (A2 i a b Ex Ez), (B2 i a b Ex Ez).
    - apply nth_error_None in Ex. rewrite !(proj2 (nth_error_None _ _)) by lia. reflexivity. }
  clear - G. revert q G. induction p as [|a p IH]; intros [|b q] G; [reflexivity|specialize (G 0%nat); discriminate|specialize (G 0%nat); discriminate|].
  f_equal; [specialize (G 0%nat); cbn in G; congruence|]. apply IH. intro i. exact (G (S i)).
Qed.
Lemma redraw_spec ps s x draws : length ps = length x -> (forall i, length (draws i) = length x) -> forall fuel i,
  match redraw fuel ps s x draws i with
  | Start p v => v = p /\ exists j, (i <= j < i + fuel)%nat /\ displaced s x (draws j) p /\ all_allowed ps p /\ (forall k q, (i <= k < j)%nat -> displaced s x (draws k) q -> ~ all_allowed ps q)
  | Running => forall k q, (i <= k < i + fuel)%nat -> displaced s x (draws k) q -> ~ all_allowed ps q
  | ValueError => False
  end.
Proof.
  intros L D. induction fuel as [|fuel IH]; intro i; cbn [redraw]; [intros; lia|]. cbv zeta.
  pose proof (proposal_spec s x (draws i) (D i)) as P. assert (LP : length ps = length (proposal s x (draws i))) by (destruct P as [-> _]; exact L).
  destruct (all_within ps (proposal s x (draws i))) eqn:E.
  - split; [reflexivity|]. exists i. split; [lia|]. split; [exact P|]. split; [now apply all_within_iff|]. intros; lia.
  - assert (N : forall q, displaced s x (draws i) q -> ~ all_allowed ps q).
    { intros q Q A. rewrite (displaced_unique _ _ _ _ _ (D i) Q P) in A. apply all_within_iff in A; [congruence|exact LP]. }
    specialize (IH (S i)). destruct (redraw fuel ps s x draws (S i)) as [p v| |].
    + destruct IH as (V & j & J & A & B & C). split; [exact V|]. exists j. split; [lia|]. split; [exact A|]. split; [exact B|].
      intros k q K Q. destruct (Nat.eq_dec k i) as [-> |]; [now apply N|]. apply (C k q); [lia|exact Q].
    + exact IH.
    + intros k q K Q. destruct (Nat.eq_dec k i) as [-> |]; [now apply N|]. apply (IH k q); [lia|exact Q].
Qed.

(** ** C213 A scattered start is the first allowed one of the draws around the initial values, and the parameters hold it.
    Proved for initial values that are not negative: if some draw is allowed the search ends with the first one. *)
Theorem C213_first_allowed_partial : forall from ps s x held draws, from = Fiducial \/ from = Result -> 0 < s -> (forall a, In a x -> 0 <= a) ->
  length ps = length x -> (forall i, length (draws i) = length x) ->
  (forall fuel p v, start fuel from ps s x held draws = Start p v -> v = p /\ all_allowed ps p /\
     exists j, displaced s x (draws j) p /\ forall k q, (k < j)%nat -> displaced s x (draws k) q -> ~ all_allowed ps q) /\
  (forall j q, displaced s x (draws j) q -> all_allowed ps q -> exists p, start (S j) from ps s x held draws = Start p p).
Proof.
  intros from ps s x held draws F S0 X L D.
  assert (E : forall fuel, start fuel from ps s x held draws = redraw fuel ps s x draws 0).
  { intro fuel. assert (W : with_scatter fuel ps s x draws = redraw fuel ps s x draws 0).
    { unfold with_scatter. destruct (existsb _ x) eqn:E; [|reflexivity]. apply existsb_exists in E. destruct E as (a & Ha & N). unfold negb_real in N.
      destruct (Rlt_dec (s * a) 0) as [N'|]; [|discriminate]. specialize (X a Ha). assert (0 <= s * a) by (apply Rmult_le_pos; lra). lra. }
    unfold start. destruct F as [-> | ->]; (destruct (Rlt_dec 0 s); [exact W|contradiction]). }
  split.
  - intros fuel p v. rewrite E. intro R. pose proof (redraw_spec ps s x draws L D fuel 0) as H. rewrite R in H. destruct H as (V & j & J & A & B & C).
    split; [exact V|]. split; [exact B|]. exists j. split; [exact A|]. intros k q K. apply C. lia.
  - intros j q Q A. rewrite E. pose proof (redraw_spec ps s x draws L D (S j) 0) as H. destruct (redraw (S j) ps s x draws 0) as [p v| |].
    + destruct H as (-> & _). exists p. reflexivity.
    + contradiction.
    + exfalso. apply (H j q); [lia|exact Q|exact A].
Qed.
(** Refuted: with a negative initial value the minimisation does not start, whatever is drawn. *)
Theorem C213_negative_refuted : forall fuel from ps s x held draws a, from = Fiducial \/ from = Result -> 0 < s -> In a x -> a < 0 ->
  start fuel from ps s x held draws = ValueError.
Proof.
  intros fuel from ps s x held draws a F S0 Ia A.
  assert (W : with_scatter fuel ps s x draws = ValueError).
  { unfold with_scatter. rewrite (proj2 (existsb_exists _ _)); [reflexivity|]. exists a. split; [exact Ia|]. unfold negb_real.
    destruct (Rlt_dec (s * a) 0) as [|N]; [reflexivity|]. exfalso. apply N. nra. }
  unfold start. destruct F as [-> | ->]; (destruct (Rlt_dec 0 s); [exact W|contradiction]).
Qed.
(** Refuted: a value of zero is never scattered; if zero is not allowed the search does not end. *)
Theorem C213_zero_refuted : forall from ps s x held draws i, from = Fiducial \/ from = Result -> 0 < s -> (forall a, In a x -> 0 <= a) ->
  length ps = length x -> (forall i, length (draws i) = length x) -> nth_error x i = Some 0 ->
  (forall fuel p v, start fuel from ps s x held draws = Start p v -> nth_error p i = Some 0) /\
  (forall q, nth_error ps i = Some q -> ~ allowed q 0 -> forall fuel, start fuel from ps s x held draws = Running).
Proof.
  intros from ps s x held draws i F S0 X L D Z.
  assert (P : forall fuel p v, start fuel from ps s x held draws = Start p v -> all_allowed ps p /\ nth_error p i = Some 0).
  { intros fuel p v E. destruct (C213_first_allowed_partial from ps s x held draws F S0 X L D) as [H _]. destruct (H fuel p v E) as (_ & A & j & (_ & B) & _). split; [exact A|].
    destruct (nth_error (draws j) i) as [b|] eqn:Eb; [rewrite (B i 0 b Z Eb); f_equal; lra|]. apply nth_error_None in Eb. rewrite D in Eb.
    assert (i < length x)%nat by (apply nth_error_Some; congruence). lia. }
  split; [intros fuel p v E; apply (P fuel p v E)|].
  intros q Q N fuel. destruct (start fuel from ps s x held draws) as [p v| |] eqn:E; [| |reflexivity].
  - exfalso. destruct (P fuel p v E) as [A B]. apply N. clear - A B Q. unfold all_allowed in A. revert i Q B. induction A as [|y a ps p Y A IH]; intros [|i]; cbn; try discriminate.
    + now intros [= ->] [= ->].
    + intros Q B. exact (IH i Q B).
  - exfalso. unfold start, with_scatter in E. destruct F as [-> | ->]; (destruct (Rlt_dec 0 s); [|discriminate]); destruct (existsb _ x) eqn:K;
      try (apply existsb_exists in K; destruct K as (a & Ha & K); unfold negb_real in K; destruct (Rlt_dec (s * a) 0); [|discriminate]; specialize (X a Ha); nra);
      pose proof (redraw_spec ps s x draws L D fuel 0) as H; rewrite E in H; exact H.
Qed.

Definition ex_par : par := {| pmin := Some 0; pmax := None; pri := Uniform 1 3 |}.
Example C213_nonvacuous : let draws := fun i => match i with 0%nat => [-6] | _ => [1] end in
  displaced (1/10) [2] (draws 0%nat) [2 - 12/10] /\ ~ all_allowed [ex_par] [2 - 12/10] /\ displaced (1/10) [2] (draws 1%nat) [2 + 2/10] /\ all_allowed [ex_par] [2 + 2/10]
  /\ ~ allowed ex_par 0.
Proof.
  cbv zeta. split; [|split; [|split; [|split]]].
  - split; [reflexivity|]. intros [|[|i]] a b; cbn; try discriminate. intros [= <-] [= <-]. f_equal. lra.
  - intro A. inversion A as [|? ? ? ? (_ & _ & C) _]; subst. specialize (C 1 3 eq_refl). lra.
  - split; [reflexivity|]. intros [|[|i]] a b; cbn; try discriminate. intros [= <-] [= <-]. f_equal. lra.
  - repeat constructor; cbn; intros; try discriminate; try (injection H as <-; lra); injection H as <- <-; lra.
  - intros (_ & _ & C). specialize (C 1 3 eq_refl). lra.
Qed.
Print Assumptions C213_first_allowed_partial.
Print Assumptions C213_negative_refuted.
Print Assumptions C213_zero_refuted.
