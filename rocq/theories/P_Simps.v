(** Simpson's rule: exactness and error bound *)
From Coq Require Import Reals List Arith Bool Lia Lra.
From Coquelicot Require Import Coquelicot.
From Verif Require Import M_Transfer M_Poles S_Poles.
Import ListNotations.
Local Open Scope R_scope.

(** ** exactness *)
Definition quad (a b c x : R) : R := a + b * x + c * x ^ 2.
Definition Quad (a b c x : R) : R := a * x + b * x ^ 2 / 2 + c * x ^ 3 / 3.
Lemma seg_quad : forall a b c x y z, x < y -> y < z ->
  seg (x, quad a b c x) (y, quad a b c y) (z, quad a b c z) = Quad a b c z - Quad a b c x.
Proof. intros. unfold seg, quad, Quad. cbn [fst snd]. field. lra. Qed.
Lemma simps_quad : forall a b c n xs, incr xs -> length xs = S (2 * n) ->
  basic_simps (map (fun x => (x, quad a b c x)) xs) = Quad a b c (last xs 0) - Quad a b c (hd 0 xs).
Proof.
  intros a b c. induction n; intros xs I L.
  - destruct xs as [|x [|]]; try discriminate L. cbn. ring.
  - destruct xs as [|x [|y [|z xs]]]; try (cbn in L; lia).
    assert (E : basic_simps (map (fun x0 => (x0, quad a b c x0)) (x :: y :: z :: xs)) =
                seg (x, quad a b c x) (y, quad a b c y) (z, quad a b c z) + basic_simps (map (fun x0 => (x0, quad a b c x0)) (z :: xs))) by reflexivity.
    rewrite E. destruct I as [I1 [I2 I3]]. rewrite seg_quad by auto. rewrite IHn; [|exact I3|cbn in *; lia]. cbn [hd].
    change (last (x :: y :: z :: xs) 0) with (last (z :: xs) 0). ring.
Qed.

(** ** one panel: error bound *)
Lemma nonneg_deriv : forall (g g1 : R -> R) (h : R), g 0 = 0 -> (forall t, 0 <= t <= h -> is_derive g t (g1 t)) -> (forall t, 0 <= t <= h -> 0 <= g1 t) ->
  forall t, 0 <= t <= h -> 0 <= g t.
Proof.
  intros g g1 h G0 D P t Ht. destruct (Req_dec t 0) as [->|Nt]; [lra|].
  destruct (MVT_gen g 0 t g1) as (c & Hc & E).
  - intros x Hx. rewrite Rmin_left, Rmax_right in Hx by lra. apply D. lra.
  - intros x Hx. rewrite Rmin_left, Rmax_right in Hx by lra. apply derivable_continuous_pt. exists (g1 x). apply is_derive_Reals. apply D. lra.
  - rewrite Rmin_left, Rmax_right in Hc by lra. rewrite G0 in E. assert (0 <= g1 c) by (apply P; lra). nra.
Qed.
Lemma step_bound : forall (g g1 : R -> R) h A n, g 0 = 0 -> (forall t, 0 <= t <= h -> is_derive g t (g1 t)) ->
  (forall t, 0 <= t <= h -> Rabs (g1 t) <= A * t ^ n) -> forall t, 0 <= t <= h -> Rabs (g t) <= A / INR (S n) * t ^ (S n).
Proof.
  intros g g1 h A n G0 D B t Ht. assert (Hn : INR (S n) <> 0) by (apply not_0_INR; lia).
  assert (DP : forall s, is_derive (fun t => A / INR (S n) * t ^ S n) s (A * s ^ n)).
  { intros s. auto_derive; auto. change (pred (S n)) with n. field. exact Hn. }
  assert (U : 0 <= (fun t => A / INR (S n) * t ^ S n - g t) t).
  { apply (nonneg_deriv (fun t => A / INR (S n) * t ^ S n - g t) (fun t => A * t ^ n - g1 t) h); auto.
    - rewrite G0, pow_i by lia. ring.
    - intros s Hs. apply (is_derive_minus (fun t => A / INR (S n) * t ^ S n) g); auto.
    - intros s Hs. specialize (B s Hs). apply Rabs_le_between in B. lra. }
  assert (V : 0 <= (fun t => A / INR (S n) * t ^ S n + g t) t).
  { apply (nonneg_deriv (fun t => A / INR (S n) * t ^ S n + g t) (fun t => A * t ^ n + g1 t) h); auto.
    - rewrite G0, pow_i by lia. ring.
    - intros s Hs. apply (is_derive_plus (fun t => A / INR (S n) * t ^ S n) g); auto.
    - intros s Hs. specialize (B s Hs). apply Rabs_le_between in B. lra. }
  cbv beta in U, V. apply Rabs_le_between. lra.
Qed.
Lemma dmul : forall (f g : R -> R) x l m, is_derive f x l -> is_derive g x m -> is_derive (fun t => f t * g t) x (l * g x + f x * m).
Proof. intros f g x l m H1 H2. apply (is_derive_mult f g x l m H1 H2). intros; apply Rmult_comm. Qed.
Lemma dplus : forall (f g : R -> R) x l m, is_derive f x l -> is_derive g x m -> is_derive (fun t => f t + g t) x (l + m).
Proof. intros f g x l m H1 H2. exact (is_derive_plus f g x l m H1 H2). Qed.
Lemma dminus : forall (f g : R -> R) x l m, is_derive f x l -> is_derive g x m -> is_derive (fun t => f t - g t) x (l - m).
Proof. intros f g x l m H1 H2. exact (is_derive_minus f g x l m H1 H2). Qed.
Lemma dconst : forall c x : R, is_derive (fun _ : R => c) x 0.
Proof. intros. exact (is_derive_const c x). Qed.
Lemma dthird : forall x : R, is_derive (fun t : R => t / 3) x (1 / 3).
Proof. intros. evar_last; [auto_derive; auto|]; field. Qed.
Section Panel.
Variables (F f f1 f2 f3 f4 : R -> R) (lo hi M : R).
Hypothesis DF : forall x, lo <= x <= hi -> is_derive F x (f x).
Hypothesis D0 : forall x, lo <= x <= hi -> is_derive f x (f1 x).
Hypothesis D1 : forall x, lo <= x <= hi -> is_derive f1 x (f2 x).
Hypothesis D2 : forall x, lo <= x <= hi -> is_derive f2 x (f3 x).
Hypothesis D3 : forall x, lo <= x <= hi -> is_derive f3 x (f4 x).
Hypothesis BM : forall x, lo <= x <= hi -> Rabs (f4 x) <= M.
Lemma f3_lip : forall x y, lo <= x -> x <= y -> y <= hi -> Rabs (f3 y - f3 x) <= M * (y - x).
Proof.
  intros x y H1 H2 H3. destruct (Req_dec x y) as [->|N]; [rewrite !Rminus_eq_0, Rabs_R0; lra|].
  destruct (MVT_gen f3 x y f4) as (c & Hc & E).
  - intros z Hz. rewrite Rmin_left, Rmax_right in Hz by lra. apply D3. lra.
  - intros z Hz. rewrite Rmin_left, Rmax_right in Hz by lra. apply derivable_continuous_pt. exists (f4 z). apply is_derive_Reals. apply D3. lra.
  - rewrite Rmin_left, Rmax_right in Hc by lra. rewrite E, Rabs_mult, (Rabs_pos_eq (y - x)) by lra. apply Rmult_le_compat_r; [lra|]. apply BM. lra.
Qed.
Lemma sh (g g' : R -> R) c t : is_derive g (c + t) (g' (c + t)) -> is_derive (fun t => g (c + t)) t (g' (c + t)).
Proof.
  intros H. apply is_derive_ext with (fun t => g (c + t)); [reflexivity|].
  pose proof (is_derive_comp g (fun t => c + t) t (g' (c + t)) 1 H) as K. rewrite <- (Rmult_1_l (g' (c + t))). apply K. auto_derive; auto.
Qed.
Lemma shm (g g' : R -> R) c t : is_derive g (c - t) (g' (c - t)) -> is_derive (fun t => g (c - t)) t (- g' (c - t)).
Proof.
  intros H. pose proof (is_derive_comp g (fun t => c - t) t (g' (c - t)) (-1) H) as K. replace (- g' (c - t)) with (-1 * g' (c - t)) by ring. apply K. auto_derive; auto; ring.
Qed.
Lemma panel : forall c h, 0 <= h -> lo <= c - h -> c + h <= hi ->
  Rabs (F (c + h) - F (c - h) - h / 3 * (f (c - h) + 4 * f c + f (c + h))) <= M / 90 * h ^ 5.
Proof.
  intros c h Hh Hl Hu.
  pose (E0 := fun t => F (c + t) - F (c - t) - t / 3 * (f (c - t) + 4 * f c + f (c + t))).
  pose (E1 := fun t => 2 / 3 * (f (c + t) + f (c - t)) - 4 / 3 * f c - t / 3 * (f1 (c + t) - f1 (c - t))).
  pose (E2 := fun t => 1 / 3 * (f1 (c + t) - f1 (c - t)) - t / 3 * (f2 (c + t) + f2 (c - t))).
  pose (E3 := fun t => - t / 3 * (f3 (c + t) - f3 (c - t))).
  assert (R1 : forall t, 0 <= t <= h -> lo <= c + t <= hi) by (intros; lra).
  assert (R2 : forall t, 0 <= t <= h -> lo <= c - t <= hi) by (intros; lra).
  assert (DE2 : forall t, 0 <= t <= h -> is_derive E2 t (E3 t)).
  { intros t Ht. unfold E2, E3. evar_last.
    - apply dminus.
      + apply dmul; [apply dconst|]. apply dminus; [apply (sh f1 f2); apply D1; auto|apply (shm f1 f2); apply D1; auto].
      + apply dmul; [apply dthird|apply dplus; [apply (sh f2 f3); apply D2; auto|apply (shm f2 f3); apply D2; auto]].
    - unfold minus, plus, opp, mult; cbn. field. }
  assert (DE1 : forall t, 0 <= t <= h -> is_derive E1 t (E2 t)).
  { intros t Ht. unfold E1, E2. evar_last.
    - apply dminus.
      + apply dminus; [apply dmul; [apply dconst|apply dplus; [apply (sh f f1); apply D0; auto|apply (shm f f1); apply D0; auto]]|apply dconst].
      + apply dmul; [apply dthird|apply dminus; [apply (sh f1 f2); apply D1; auto|apply (shm f1 f2); apply D1; auto]].
    - unfold minus, plus, opp, mult, zero; cbn. field. }
  assert (DE0 : forall t, 0 <= t <= h -> is_derive E0 t (E1 t)).
  { intros t Ht. unfold E0, E1. evar_last.
    - apply dminus.
      + apply dminus; [apply (sh F f); apply DF; auto|apply (shm F f); apply DF; auto].
      + apply dmul; [apply dthird|apply dplus; [apply dplus; [apply (shm f f1); apply D0; auto|apply dconst]|apply (sh f f1); apply D0; auto]].
    - unfold minus, plus, opp, mult, zero; cbn. field. }
  assert (B3 : forall t, 0 <= t <= h -> Rabs (E3 t) <= 2 * M / 3 * t ^ 2).
  { intros t Ht. unfold E3. rewrite Rabs_mult. replace (Rabs (- t / 3)) with (t / 3) by (rewrite Rabs_left1; lra).
    pose proof (@f3_lip (c - t) (c + t)). assert (Rabs (f3 (c + t) - f3 (c - t)) <= M * (c + t - (c - t))) by (apply H; destruct (R1 t Ht), (R2 t Ht); lra).
    replace (2 * M / 3 * t ^ 2) with (t / 3 * (M * (c + t - (c - t)))) by field. apply Rmult_le_compat_l; lra. }
  assert (B2 : forall t, 0 <= t <= h -> Rabs (E2 t) <= 2 * M / 3 / INR 3 * t ^ 3).
  { apply (step_bound E2 E3 h (2 * M / 3) 2); auto. unfold E2. rewrite Rplus_0_r, Rminus_0_r. field. }
  assert (B1 : forall t, 0 <= t <= h -> Rabs (E1 t) <= 2 * M / 3 / INR 3 / INR 4 * t ^ 4).
  { apply (step_bound E1 E2 h (2 * M / 3 / INR 3) 3); auto. unfold E1. rewrite Rplus_0_r, Rminus_0_r. field. }
  assert (B0 : forall t, 0 <= t <= h -> Rabs (E0 t) <= 2 * M / 3 / INR 3 / INR 4 / INR 5 * t ^ 5).
  { apply (step_bound E0 E1 h (2 * M / 3 / INR 3 / INR 4) 4); auto. unfold E0. rewrite Rplus_0_r, Rminus_0_r. field. }
  specialize (B0 h ltac:(lra)). unfold E0 in B0. replace (M / 90) with (2 * M / 3 / INR 3 / INR 4 / INR 5); [exact B0|]. cbn [INR]. field.
Qed.
(** uniform points a, a+h, ..., a+2nh *)
Lemma seg_uniform : forall x h, h <> 0 -> seg (x, f x) (x + h, f (x + h)) (x + 2 * h, f (x + 2 * h)) = h / 3 * (f x + 4 * f (x + h) + f (x + 2 * h)).
Proof. intros. unfold seg. cbn [fst snd]. field. lra. Qed.
Lemma simps_bound : forall n a h, 0 < h -> lo <= a -> a + INR (2 * n) * h <= hi ->
  Rabs (basic_simps (map (fun i => (a + INR i * h, f (a + INR i * h))) (seq 0 (S (2 * n)))) - (F (a + INR (2 * n) * h) - F a)) <= INR n * (M / 90 * h ^ 5).
Proof.
  induction n; intros a h Hh Hl Hu.
  - cbn. rewrite Rmult_0_l, Rplus_0_r, Rmult_0_l. rewrite Rminus_eq_0, Rminus_0_r, Rabs_R0. lra.
  - assert (En : INR (2 * S n) = INR (2 * n) + 2) by (replace (2 * S n)%nat with (2 * n + 2)%nat by lia; rewrite plus_INR; reflexivity).
    pose proof (pos_INR (2 * n)) as Pn. rewrite En in Hu.
    assert (Ub : a + 2 * h + INR (2 * n) * h <= hi) by lra.
    assert (Lb : lo <= a + 2 * h) by lra.
    specialize (IHn (a + 2 * h) h Hh Lb Ub).
    assert (Es : map (fun i => (a + INR i * h, f (a + INR i * h))) (seq 0 (S (2 * S n))) =
      (a, f a) :: (a + h, f (a + h)) :: map (fun i => (a + 2 * h + INR i * h, f (a + 2 * h + INR i * h))) (seq 0 (S (2 * n)))).
    { replace (S (2 * S n)) with (S (S (S (2 * n)))) by lia. set (m := S (2 * n)). cbn [seq map]. f_equal; [f_equal; [|f_equal]; cbn; ring|]. f_equal; [f_equal; [|f_equal]; cbn; ring|].
      rewrite <- seq_shift, <- seq_shift, !map_map. apply map_ext. intros i. rewrite !S_INR. f_equal; [|f_equal]; ring. }
    rewrite Es. clear Es.
    assert (Eb : forall p q t t0 tl, t = t0 :: tl -> basic_simps (p :: q :: t) = seg p q t0 + basic_simps t) by (intros; subst; reflexivity).
    rewrite (Eb _ _ _ (a + 2 * h, f (a + 2 * h)) (map (fun i => (a + 2 * h + INR i * h, f (a + 2 * h + INR i * h))) (seq 1 (2 * n)))).
    2: { cbn [seq map]. f_equal. cbn. f_equal; [|f_equal]; ring. }
    rewrite seg_uniform by lra.
    assert (P := @panel (a + h) h ltac:(lra) ltac:(lra) ltac:(nra)).
    replace (a + h + h) with (a + 2 * h) in P by ring. replace (a + h - h) with a in P by ring.
    replace (a + INR (2 * S n) * h) with (a + 2 * h + INR (2 * n) * h) by (rewrite En; ring).
    set (B := basic_simps _) in *. rewrite S_INR. apply Rabs_le_between in IHn. apply Rabs_le_between in P. apply Rabs_le_between. lra.
Qed.
End Panel.

(** antiderivative of a function that is continuous on [0,1] *)
Definition clamp01 (x : R) : R := Rmax 0 (Rmin 1 x).
Lemma clamp01_in : forall x, 0 <= clamp01 x <= 1.
Proof. intros. unfold clamp01, Rmax, Rmin. repeat destruct (Rle_dec _ _); lra. Qed.
Lemma clamp01_id : forall x, 0 <= x <= 1 -> clamp01 x = x.
Proof. intros. unfold clamp01. rewrite Rmin_right, Rmax_right; lra. Qed.
Lemma clamp01_lip : forall x y, Rabs (clamp01 x - clamp01 y) <= Rabs (x - y).
Proof. intros. unfold clamp01, Rmax, Rmin, Rabs. repeat destruct (Rle_dec _ _); repeat destruct (Rcase_abs _); lra. Qed.
Lemma clamp01_cont : forall x, continuous clamp01 x.
Proof.
  intros x. apply continuity_pt_filterlim. intros eps He. exists eps. split; auto. intros y [_ Hy]. eapply Rle_lt_trans; [apply clamp01_lip|exact Hy].
Qed.
Lemma antider : forall f f1 : R -> R, (forall x, 0 <= x <= 1 -> is_derive f x (f1 x)) ->
  exists F, (forall x, 0 <= x <= 1 -> is_derive F x (f x)) /\ F 1 - F 0 = RInt f 0 1.
Proof.
  intros f f1 D. pose (g := fun x => f (clamp01 x)).
  assert (Cg : forall x, continuous g x).
  { intros x. unfold g. apply continuous_comp; [apply clamp01_cont|]. apply @ex_derive_continuous. exists (f1 (clamp01 x)). apply D, clamp01_in. }
  exists (fun x => RInt g 0 x). split.
  - intros x Hx. replace (f x) with (g x) by (unfold g; rewrite clamp01_id; auto). apply (is_derive_RInt g _ 0).
    + exists (mkposreal 1 Rlt_0_1). intros y _. apply (@RInt_correct R_CompleteNormedModule). apply (@ex_RInt_continuous R_CompleteNormedModule). intros; apply Cg.
    + apply Cg.
  - rewrite RInt_point. change (zero) with 0. rewrite Rminus_0_r. apply RInt_ext. intros x Hx. rewrite Rmin_left, Rmax_right in Hx by lra. unfold g. rewrite clamp01_id; [reflexivity|lra].
Qed.
