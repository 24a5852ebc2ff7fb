From Coq Require Import Reals List Arith Lia Lra Bool.
Import ListNotations.
From Verif Require Import M_Transfer M_Window.
Set Implicit Arguments.
Local Open Scope R_scope.

(** A n = (2n-1)!!/n! *)
Fixpoint A (n : nat) : R := match n with O => 1 | S m => A m * (2 * INR m + 1) / (INR m + 1) end.
Lemma A_pos : forall n, 0 < A n.
Proof.
  induction n; simpl A; [lra|]. pose proof (pos_INR n). apply Rdiv_lt_0_compat; [|lra]. apply Rmult_lt_0_compat; auto. lra.
Qed.
Lemma A_S : forall n, A (S n) = A n * (2 * INR n + 1) / (INR n + 1).
Proof. reflexivity. Qed.
Lemma fact_pos : forall n, 0 < INR (fact n).
Proof. intros. apply lt_0_INR. apply lt_O_fact. Qed.
Lemma G_A : forall n, fst (G n) = A n * snd (G n).
Proof.
  induction n; [simpl; lra|]. unfold G in *. cbn [fst snd] in *. cbn [Gprod pow]. change (fact (S n)) with (S n * fact n)%nat.
  rewrite mult_INR, S_INR, A_S. pose proof (pos_INR n). pose proof (fact_pos n).
  replace (2 * 2 ^ n * (Gprod n * (1 / 2 + (INR n + 1) - 1))) with ((2 ^ n * Gprod n) * (2 * INR n + 1)) by field.
  rewrite IHn. field. lra.
Qed.
Lemma G_snd_pos : forall n, 0 < snd (G n).
Proof. intros. apply fact_pos. Qed.

(** Adams' coefficient: L_l L_m = sum_p c l m p L_{l+m-2p} *)
Definition c (l m p : nat) : R :=
  A (l - p) * A p * A (m - p) / A (l + m - p) * (2 * (INR l + INR m) - 4 * INR p + 1) / (2 * (INR l + INR m) - 2 * INR p + 1).
Lemma coefficient_c : forall l m p, (p <= l)%nat -> (p <= m)%nat ->
  coefficient l m p = c l m p * (2 * INR l + 1) / (2 * INR (l + m - 2 * p) + 1).
Proof.
  intros. unfold coefficient, c. rewrite !G_A.
  pose proof (G_snd_pos (l - p)). pose proof (G_snd_pos p). pose proof (G_snd_pos (m - p)). pose proof (G_snd_pos (l + m - p)).
  pose proof (A_pos (l + m - p)). pose proof (pos_INR (l + m - 2 * p)). pose proof (le_INR _ _ H). pose proof (le_INR _ _ H0).
  pose proof (pos_INR p). field. repeat split; lra.
Qed.
Lemma c_sym : forall l m p, c l m p = c m l p.
Proof. intros. unfold c. rewrite (Nat.add_comm l m), (Rplus_comm (INR l)). unfold Rdiv. ring. Qed.
Lemma c_pos : forall l m p, (p <= l)%nat -> (p <= m)%nat -> 0 < c l m p.
Proof.
  intros. unfold c. pose proof (A_pos (l - p)). pose proof (A_pos p). pose proof (A_pos (m - p)). pose proof (A_pos (l + m - p)).
  pose proof (le_INR _ _ H). pose proof (le_INR _ _ H0). pose proof (pos_INR p).
  apply Rdiv_lt_0_compat; [|lra]. apply Rmult_lt_0_compat; [|lra]. apply Rdiv_lt_0_compat; auto. repeat apply Rmult_lt_0_compat; auto.
Qed.

(** Bonnet's recurrence *)
Notation L := legendre.
Lemma legendre2_snd : forall n x, snd (legendre2 n x) = L (S n) x.
Proof. intros. unfold legendre. cbn [legendre2]. destruct (legendre2 n x). reflexivity. Qed.
Lemma legendre_0 : forall x, L 0 x = 1.
Proof. reflexivity. Qed.
Lemma legendre_1 : forall x, L 1 x = x.
Proof. reflexivity. Qed.
Lemma bonnet : forall n x, (INR n + 2) * L (S (S n)) x = (2 * INR n + 3) * x * L (S n) x - (INR n + 1) * L n x.
Proof.
  intros. assert (E : L (S (S n)) x = ((2 * INR (S n) + 1) * x * L (S n) x - INR (S n) * L n x) / (INR (S n) + 1)).
  { unfold legendre at 1. cbn [legendre2]. destruct (legendre2 n x) as [a b] eqn:E. cbn [fst].
    pose proof (legendre2_snd n x) as H. rewrite E in H. cbn [snd] in H. unfold legendre at 2. rewrite E. cbn [fst]. rewrite <- H. reflexivity. }
  rewrite E. rewrite S_INR. pose proof (pos_INR n). field. lra.
Qed.
(** x L_q = ((q+1) L_{q+1} + q L_{q-1})/(2q+1) *)
Lemma x_legendre : forall q x, x * L q x = ((INR q + 1) * L (S q) x + INR q * L (q - 1) x) / (2 * INR q + 1).
Proof.
  intros. destruct q.
  - simpl INR. rewrite legendre_0, legendre_1. simpl Nat.sub. rewrite legendre_0. field.
  - pose proof (bonnet q x). pose proof (pos_INR q). simpl Nat.sub. rewrite Nat.sub_0_r. rewrite S_INR.
    apply Rmult_eq_reg_r with (2 * (INR q + 1) + 1); [|lra]. unfold Rdiv. rewrite Rmult_assoc, (Rmult_assoc _ (/ _)), Rinv_l by lra. lra.
Qed.

(** the coefficient identities *)
Definition al (l m p : nat) : R := (2 * INR m + 1) * c l m p * (INR (l + m - 2 * p) + 1) / (2 * INR (l + m - 2 * p) + 1).
Definition be (l m p : nat) : R := (2 * INR m + 1) * c l m p * INR (l + m - 2 * p) / (2 * INR (l + m - 2 * p) + 1).
Ltac inr := rewrite ?plus_INR, ?S_INR in *; simpl INR in *.
Lemma id_first : forall l m, (INR m + 1) * c l (S m) 0 = al l m 0.
Proof.
  intros. unfold al, c. change (2 * 0)%nat with 0%nat. rewrite !Nat.sub_0_r. rewrite Nat.add_succ_r, !A_S. inr.
  pose proof (pos_INR l). pose proof (pos_INR m). pose proof (A_pos (l + m)). field. repeat split; lra.
Qed.
Lemma id_last : forall l m, (m < l)%nat -> (INR m + 1) * c l (S m) (S m) = be l m m.
Proof.
  intros l m H. remember (l - S m)%nat as n. assert (l = n + S m)%nat by lia. subst l. clear Heqn.
  unfold be, c. replace (n + S m - S m)%nat with n by lia. replace (S m - S m)%nat with 0%nat by lia. replace (n + S m + S m - S m)%nat with (S (n + m)) by lia.
  replace (n + S m - m)%nat with (S n) by lia. replace (m - m)%nat with 0%nat by lia. replace (n + S m + m - m)%nat with (S (n + m)) by lia.
  replace (n + S m + m - 2 * m)%nat with (S n) by lia. cbn [A]. rewrite !plus_INR, !S_INR.
  pose proof (pos_INR n). pose proof (pos_INR m). pose proof (A_pos (n + m)). field. repeat split; lra.
Qed.
Lemma id_mid : forall l m p, (p < m)%nat -> (m < l)%nat ->
  (INR m + 1) * c l (S m) (S p) = al l m (S p) + be l m p - INR m * c l (m - 1) p.
Proof.
  intros l m p H1 H2. remember (l - S p)%nat as a. remember (m - S p)%nat as b. assert (l = a + S p)%nat by lia. assert (m = b + S p)%nat by lia. subst l m. clear Heqa Heqb H1 H2.
  unfold al, be, c.
  replace (a + S p - S p)%nat with a by lia. replace (S (b + S p) - S p)%nat with (S b) by lia.
  replace (a + S p + S (b + S p) - S p)%nat with (S (S (a + b + p))) by lia.
  replace (b + S p - S p)%nat with b by lia. replace (a + S p + (b + S p) - S p)%nat with (S (a + b + p)) by lia.
  replace (a + S p + (b + S p) - 2 * S p)%nat with (a + b)%nat by lia.
  replace (a + S p - p)%nat with (S a) by lia. replace (b + S p - p)%nat with (S b) by lia.
  replace (a + S p + (b + S p) - p)%nat with (S (S (a + b + p))) by lia.
  replace (a + S p + (b + S p) - 2 * p)%nat with (S (S (a + b))) by lia.
  replace (b + S p - 1 - p)%nat with b by lia. replace (a + S p + (b + S p - 1) - p)%nat with (S (a + b + p)) by lia.
  replace (INR (b + S p - 1)) with (INR b + INR p) by (replace (b + S p - 1)%nat with (b + p)%nat by lia; rewrite plus_INR; auto).
  rewrite !A_S. rewrite !S_INR, !plus_INR, !S_INR. 
  pose proof (pos_INR a). pose proof (pos_INR b). pose proof (pos_INR p). pose proof (A_pos (a + b + p)). pose proof (A_pos a). pose proof (A_pos b). pose proof (A_pos p).
  set (x := INR a) in *. set (y := INR b) in *. set (z := INR p) in *. set (N := A (a + b + p)) in *. fold x y z.
  field. repeat split; lra.
Qed.

(** guarded sums *)
Lemma sum_S : forall f n, sum_f_R0 f (S n) = f 0%nat + sum_f_R0 (fun p => f (S p)) n.
Proof. intros. rewrite decomp_sum by lia. reflexivity. Qed.
Lemma sum_lin : forall f g h n a b d, (forall p, (p <= n)%nat -> h p = a * f p + b * g p + d) -> sum_f_R0 h n = a * sum_f_R0 f n + b * sum_f_R0 g n + d * (INR n + 1).
Proof.
  induction n; intros; cbn [sum_f_R0].
  - rewrite H by lia. simpl. ring.
  - rewrite (IHn a b d) by (intros; apply H; lia). rewrite (H (S n)) by lia. rewrite S_INR. ring.
Qed.

Theorem adams_le : forall x l m, (m <= l)%nat -> L l x * L m x = sum_f_R0 (fun p => c l m p * L (l + m - 2 * p) x) m.
Proof.
  intros x l.
  assert (C0 : L l x * L 0 x = sum_f_R0 (fun p => c l 0 p * L (l + 0 - 2 * p) x) 0).
  { cbn [sum_f_R0]. unfold c. change (2 * 0)%nat with 0%nat. rewrite !Nat.sub_0_r, !Nat.add_0_r. rewrite legendre_0. simpl A. simpl INR. pose proof (A_pos l). pose proof (pos_INR l).
    field. lra. }
  assert (step : forall m, (m < l)%nat ->
     L l x * L m x = sum_f_R0 (fun p => c l m p * L (l + m - 2 * p) x) m ->
     (forall m', m = S m' -> L l x * L m' x = sum_f_R0 (fun p => c l m' p * L (l + m' - 2 * p) x) m') ->
     L l x * L (S m) x = sum_f_R0 (fun p => c l (S m) p * L (l + S m - 2 * p) x) (S m)).
  { intros m Hm H1 H0.
    set (X := fun p => L (l + S m - 2 * p) x).
    assert (E1 : (2 * INR m + 1) * x * (L l x * L m x) = sum_f_R0 (fun p => al l m p * X p) m + sum_f_R0 (fun p => be l m p * X (S p)) m).
    { rewrite H1. rewrite scal_sum. rewrite <- sum_plus. apply sum_eq. intros p Hp. unfold X.
      replace (c l m p * L (l + m - 2 * p) x * ((2 * INR m + 1) * x)) with ((2 * INR m + 1) * c l m p * (x * L (l + m - 2 * p) x)) by ring.
      rewrite x_legendre. unfold al, be. replace (S (l + m - 2 * p)) with (l + S m - 2 * p)%nat by lia. replace (l + S m - 2 * S p)%nat with (l + m - 2 * p - 1)%nat by lia.
      unfold Rdiv. ring. }
    assert (R : (INR m + 1) * L (S m) x * L l x = (2 * INR m + 1) * x * (L l x * L m x) - INR m * (L l x * L (m - 1) x)).
    { destruct m; [simpl INR; simpl Nat.sub; rewrite legendre_0, legendre_1; ring|].
      pose proof (bonnet m x). rewrite S_INR. simpl Nat.sub. rewrite Nat.sub_0_r. replace (INR m + 1 + 1) with (INR m + 2) by ring. rewrite H. ring. }
    apply Rmult_eq_reg_l with (INR m + 1); [|pose proof (pos_INR m); lra].
    transitivity ((INR m + 1) * L (S m) x * L l x); [ring|]. rewrite R, E1. rewrite scal_sum. fold X.
    change (fun i => c l (S m) i * L (l + S m - 2 * i) x * (INR m + 1)) with (fun i => c l (S m) i * X i * (INR m + 1)).
    rewrite sum_S. replace (c l (S m) 0 * X 0%nat * (INR m + 1)) with (al l m 0 * X 0%nat) by (rewrite <- id_first; ring).
    destruct m.
    - cbn [sum_f_R0]. simpl (INR 0). replace (c l 1 1 * X 1%nat * (0 + 1)) with (be l 0 0 * X 1%nat) by (rewrite <- id_last by auto; simpl; ring). ring.
    - replace (S m - 1)%nat with m by lia. rewrite (H0 m eq_refl).
      rewrite (sum_S (fun p => al l (S m) p * X p)). rewrite !tech5.
      replace (c l (S (S m)) (S (S m)) * X (S (S m)) * (INR (S m) + 1)) with (be l (S m) (S m) * X (S (S m))) by (rewrite <- id_last by auto; ring).
      assert (E2 : sum_f_R0 (fun i => c l (S (S m)) (S i) * X (S i) * (INR (S m) + 1)) m =
                   sum_f_R0 (fun p => al l (S m) (S p) * X (S p)) m + sum_f_R0 (fun p => be l (S m) p * X (S p)) m - INR (S m) * sum_f_R0 (fun p => c l m p * L (l + m - 2 * p) x) m).
      { rewrite scal_sum. rewrite <- sum_plus, <- minus_sum. apply sum_eq. intros p Hp.
        transitivity ((INR (S m) + 1) * c l (S (S m)) (S p) * X (S p)); [ring|]. rewrite id_mid by lia. simpl (S m - 1)%nat. rewrite Nat.sub_0_r.
        unfold X. replace (l + S (S m) - 2 * S p)%nat with (l + m - 2 * p)%nat by lia. ring. }
      rewrite E2. ring. }
  assert (K : forall m, (m <= l)%nat -> (L l x * L m x = sum_f_R0 (fun p => c l m p * L (l + m - 2 * p) x) m) /\
     (forall m', m = S m' -> L l x * L m' x = sum_f_R0 (fun p => c l m' p * L (l + m' - 2 * p) x) m')).
  { induction m; intros Hm.
    - split; auto. intros; discriminate.
    - destruct IHm as [I1 I2]; [lia|]. split; [apply step; auto|]. intros m' E. injection E. intros <-. auto. }
  intros m Hm. apply K. auto.
Qed.
Theorem adams : forall x l m, L l x * L m x = sum_f_R0 (fun p => c l m p * L (l + m - 2 * p) x) (Nat.min l m).
Proof.
  intros. destruct (le_dec m l).
  - rewrite Nat.min_r by auto. apply adams_le. auto.
  - rewrite Nat.min_l by lia. rewrite Rmult_comm, adams_le by lia. apply sum_eq. intros p Hp. rewrite c_sym, (Nat.add_comm l m). auto.
Qed.
Lemma legendre_at_1 : forall n, L n 1 = 1 /\ L (S n) 1 = 1.
Proof.
  induction n; [split; reflexivity|]. destruct IHn as [I1 I2]. split; auto. pose proof (bonnet n 1). rewrite I1, I2 in H. pose proof (pos_INR n).
  apply Rmult_eq_reg_l with (INR n + 2); lra.
Qed.
