(** Proofs about the initial walkers. *)
From Coq Require Import Reals List Bool Arith Lia Lra.
Import ListNotations.
From Verif Require Import M_Init S_Init.
Local Open Scope R_scope.

Lemma leb_spec x y : reflect (x <= y) (leb x y).
Proof. unfold leb. destruct (Rle_dec x y); constructor; auto. Qed.
Lemma above_spec p x : above p x = true <-> forall l, pmin p = Some l -> l <= x.
Proof.
  unfold above. destruct (pmin p) as [l|].
  - destruct (leb_spec l x) as [Y|N]; split; intros H.
    + intros l' E. injection E as <-. exact Y.
    + reflexivity.
    + discriminate.
    + exfalso. apply N, H. reflexivity.
  - split; [discriminate | auto].
Qed.
Lemma below_spec p x : below p x = true <-> forall u, pmax p = Some u -> x <= u.
Proof.
  unfold below. destruct (pmax p) as [l|].
  - destruct (leb_spec x l) as [Y|N]; split; intros H.
    + intros l' E. injection E as <-. exact Y.
    + reflexivity.
    + discriminate.
    + exfalso. apply N, H. reflexivity.
  - split; [discriminate | auto].
Qed.
Lemma check1_spec p x : check1 p x = true <-> allowed p x.
Proof.
  unfold check1, allowed. rewrite <- above_spec, <- below_spec. unfold within_bounds, lnprior, log_pdf, has_prior, bounded.
  assert (U : forall l u, (leb l x && leb x u = true <-> l <= x <= u)).
  { intros l u. destruct (leb_spec l x), (leb_spec x u); simpl; split; intros H; try discriminate; try tauto; auto. }
  destruct (above p x) eqn:A, (below p x) eqn:B; simpl.
  - destruct (pri p) as [|l u|mu s] eqn:P.
    + simpl. split; [intros _|intros _; destruct (pmin p), (pmax p); reflexivity]. split; auto. split; auto. discriminate.
    + simpl. rewrite andb_true_r. specialize (U l u). destruct (leb l x && leb x u) eqn:L.
      * rewrite andb_false_r. simpl. split; [intros _|reflexivity]. split; auto. split; auto. intros l' u' E. injection E as <- <-. apply U. reflexivity.
      * simpl. split; [|intros (_ & _ & H); specialize (H l u eq_refl); apply U in H; congruence]. destruct (pmin p), (pmax p); simpl; discriminate.
    + simpl. split; [intros _; split; auto; split; auto; discriminate | intros _; destruct (pmin p), (pmax p); reflexivity].
  - split; [|intros (_ & H & _); discriminate]. unfold below in B. rewrite andb_false_r. destruct (pmax p); [destruct (pmin p); simpl; discriminate | discriminate].
  - split; [|intros (H & _); discriminate]. unfold above in A. rewrite andb_false_r. destruct (pmin p); [simpl; discriminate | discriminate].
  - split; [|intros (H & _); discriminate]. unfold above in A. rewrite andb_false_r. destruct (pmin p); [simpl; discriminate | discriminate].
Qed.
Lemma check_spec ps : forall w, length w = length ps -> (check ps w = true <-> Forall2 allowed ps w).
Proof.
  induction ps as [|p ps IH]; intros [|x w] L; simpl in *; try discriminate. { split; auto. }
  rewrite andb_true_iff, check1_spec, IH by lia. split; [intros (A & B); constructor; auto | intros H; inversion H; auto].
Qed.

Lemma settle_spec ps draws : (forall i, length (draws i) = length ps) -> forall fuel tries w i, length w = length ps -> (tries + fuel = 102)%nat -> (tries <= 101)%nat ->
  exists used, settle fuel ps draws tries w i = (candidate w draws i used, (tries + used)%nat, (i + used)%nat) /\ (tries + used <= 101)%nat
    /\ (forall j, (j < used)%nat -> ~ Forall2 allowed ps (candidate w draws i j)) /\ ((tries + used < 101)%nat -> Forall2 allowed ps (candidate w draws i used)).
Proof.
  intros LD. induction fuel as [|fuel IH]; intros tries w i LW T Tm; [lia|]. cbn [settle].
  destruct (check ps w) eqn:C; cbn [orb].
  - exists 0%nat. rewrite !Nat.add_0_r. split; [reflexivity|]. split; [lia|]. split; [lia|]. intros _. simpl. apply check_spec; auto.
  - destruct (Nat.ltb_spec 100 tries).
    + exists 0%nat. rewrite !Nat.add_0_r. split; [reflexivity|]. split; [lia|]. split; [lia|]. lia.
    + destruct (IH (S tries) (draws i) (S i) (LD i) ltac:(lia) ltac:(lia)) as (u & E & L & N & Y). exists (S u).
      assert (CC : forall j, candidate w draws i (S j) = candidate (draws i) draws (S i) j). { intros [|j]; simpl; f_equal; lia. }
      split; [rewrite E, CC; f_equal; [f_equal|]; lia|]. split; [lia|]. split.
      * intros [|j] Hj. { simpl. rewrite <- check_spec by auto. congruence. } rewrite CC. apply N. lia.
      * intros Hu. rewrite CC. apply Y. lia.
Qed.
Lemma counted_app (P : nat -> Prop) l n x (d : {P x} + {~ P x}) : counted P l n -> counted P (x :: l) ((if d then 1 else 0) + n).
Proof. intros H. destruct d; [apply c_yes | apply c_no]; auto. Qed.
Lemma init_spec ps draws : (forall i, length (draws i) = length ps) -> forall p0 i, Forall (fun w => length w = length ps) p0 ->
  exists us, length us = length p0 /\ length (rows (init_rows ps draws p0 i)) = length p0
    /\ (forall r, (r < length p0)%nat -> first_allowed ps (candidate (nth r p0 zero) draws (i + total (firstn r us))) (nth r us 0%nat) (nth r (rows (init_rows ps draws p0 i)) zero))
    /\ counted (fun u => u = 101%nat) us (exceeded (init_rows ps draws p0 i)) /\ counted (fun u => (50 < u <= 100)%nat) us (difficult (init_rows ps draws p0 i))
    /\ next_draw (init_rows ps draws p0 i) = (i + total us)%nat.
Proof.
  intros LD. induction p0 as [|w p0 IH]; intros i LP.
  { exists []. split; [reflexivity|]. split; [reflexivity|]. split; [simpl; intros; lia|]. split; [constructor|]. split; [constructor|]. simpl. lia. }
  inversion LP; subst. destruct (settle_spec ps draws LD 102 0 w i ltac:(auto) eq_refl ltac:(lia)) as (u & E & L & N & Y).
  destruct (IH (i + u)%nat ltac:(auto)) as (us & L1 & L2 & R & C1 & C2 & Nx). exists (u :: us).
  unfold init_rows; fold init_rows. rewrite E. cbn [rows exceeded difficult next_draw Nat.add].
  split; [simpl; lia|]. split; [simpl; lia|]. split.
  { intros [|r] Hr.
    - cbn [nth firstn total]. rewrite Nat.add_0_r. split; [reflexivity|]. split; [lia|]. split; [exact N|]. exact Y.
    - cbn [nth firstn total]. rewrite Nat.add_assoc. apply R. simpl in Hr. lia. }
  split. { destruct (Nat.ltb_spec 100 u); [apply c_yes; [lia | auto] | apply c_no; [lia | auto]]. }
  split. { destruct (Nat.ltb_spec 100 u); [apply c_no; [lia | auto]|]. destruct (Nat.ltb_spec 50 u); [apply c_yes; [lia | auto] | apply c_no; [lia | auto]]. }
  simpl. lia.
Qed.
Lemma allowed_finite p x : allowed p x -> exists v, lnprior p x = Some v.
Proof.
  intros (A & B & C). unfold lnprior. rewrite (proj2 (above_spec p x) A), (proj2 (below_spec p x) B). simpl. unfold log_pdf. destruct (pri p) as [|l u|]; try (eexists; reflexivity).
  specialize (C l u eq_refl). destruct (leb_spec l x), (leb_spec x u); try lra. eexists; reflexivity.
Qed.
