From Coq Require Import Reals List Lra Lia.
From Coquelicot Require Import Coquelicot.
From Verif Require Import M_Quad.
Local Open Scope R_scope.

Lemma sub_range s a b u : 0 < a -> 0 < b -> Rmin (sub_u s a) (sub_u s b) <= u <= Rmax (sub_u s a) (sub_u s b) -> (s <> NoSub -> 0 < u \/ s = ExpSub) /\ Rmin a b <= sub_x s u <= Rmax a b.
Proof.
  intros Ha Hb. destruct s; cbn [sub_u sub_x].
  - intros H. split; [intros Q; contradiction|exact H].
  - intros H. split; [auto|]. destruct (Rle_dec a b) as [L|L].
    + assert (L' : ln a <= ln b). { destruct (Req_dec a b) as [->|N]; [lra|]. left. apply ln_increasing; lra. }
      rewrite Rmin_left, Rmax_right in * by lra. split; [rewrite <- (exp_ln a Ha)|rewrite <- (exp_ln b Hb)];
      (destruct H as [[H|H] [H'|H']]; try (left; apply exp_increasing; lra); try (right; f_equal; lra)); left; apply exp_increasing; lra.
    + assert (L' : ln b <= ln a) by (left; apply ln_increasing; lra). rewrite Rmin_right, Rmax_left in * by lra.
      split; [rewrite <- (exp_ln b Hb)|rewrite <- (exp_ln a Ha)]; (destruct H as [[H|H] [H'|H']]; try (left; apply exp_increasing; lra); try (right; f_equal; lra)); left; apply exp_increasing; lra.
  - intros H. assert (Pa : 0 < 1 / a) by (apply Rdiv_lt_0_compat; lra). assert (Pb : 0 < 1 / b) by (apply Rdiv_lt_0_compat; lra).
    assert (Pu : 0 < u). { apply Rlt_le_trans with (Rmin (1/a) (1/b)); [apply Rmin_glb_lt; assumption|apply H]. }
    split; [intros _; left; exact Pu|].
    assert (IV : forall x y, 0 < x -> 0 < y -> x <= y -> 1 / y <= 1 / x). { intros x y Hx Hy Hxy. unfold Rdiv. rewrite !Rmult_1_l. apply Rinv_le_contravar; assumption. }
    assert (II : forall x, 0 < x -> 1 / (1 / x) = x) by (intros x Hx; field; lra).
    destruct (Rle_dec a b) as [L|L].
    + assert (L' := IV a b Ha Hb L). rewrite (Rmin_right (1/a)), (Rmax_left (1/a)) in H by lra. rewrite Rmin_left, Rmax_right by lra.
      split; [rewrite <- (II a Ha)|rewrite <- (II b Hb)]; apply IV; lra.
    + assert (L' := IV b a Hb Ha ltac:(lra)). rewrite (Rmin_left (1/a)), (Rmax_right (1/a)) in H by lra. rewrite Rmin_right, Rmax_left by lra.
      split; [rewrite <- (II b Hb)|rewrite <- (II a Ha)]; apply IV; lra.
Qed.
Lemma sub_der s (u : R) : (s <> NoSub -> 0 < u \/ s = ExpSub) -> is_derive (sub_x s) u (sub_dx s u) /\ continuous (sub_dx s) u.
Proof.
  intros H. destruct s.
  - split; [exact (is_derive_id u)|apply continuous_const].
  - split; [exact (is_derive_exp u)|apply continuous_exp].
  - destruct (H ltac:(discriminate)) as [P|P]; [|discriminate P]. split.
    + apply (is_derive_ext (fun v : R => 1 / v)); [reflexivity|]. unfold sub_dx; auto_derive; [lra|field; lra].
    + apply (ex_derive_continuous (fun u : R => -1 / (u * u))). auto_derive. nra.
Qed.
Lemma sub_back s a : 0 < a -> sub_x s (sub_u s a) = a.
Proof. intros H. destruct s; cbn; [reflexivity|apply exp_ln, H|field; lra]. Qed.
Theorem sub_integral s (f : R -> R) a b : 0 < a -> 0 < b -> (forall x, Rmin a b <= x <= Rmax a b -> continuous f x) ->
  is_RInt (fun u => f (sub_x s u) * sub_dx s u) (sub_u s a) (sub_u s b) (RInt f a b).
Proof.
  intros Ha Hb Hf. apply (is_RInt_ext (fun u => scal (sub_dx s u) (f (sub_x s u)))).
  { intros u _. unfold scal. cbn. unfold mult. cbn. ring. }
  replace (RInt f a b) with (RInt f (sub_x s (sub_u s a)) (sub_x s (sub_u s b))) by (rewrite !sub_back by assumption; reflexivity).
  apply (is_RInt_comp (V := R_CompleteNormedModule) f (sub_x s) (sub_dx s)).
  - intros u Hu. apply Hf. apply (sub_range s a b u Ha Hb Hu).
  - intros u Hu. apply sub_der. apply (sub_range s a b u Ha Hb Hu).
Qed.
