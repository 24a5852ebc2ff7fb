(** Derivatives and orthogonality of the Legendre polynomials given by Bonnet's recurrence *)
From Coq Require Import Reals List Arith Lia Lra Bool.
From Coquelicot Require Import Coquelicot.
Import ListNotations.
From Verif Require Import M_Transfer P_Window.
Set Implicit Arguments.
Local Open Scope R_scope.

(** pair (L'_n, L'_{n+1}) *)
Fixpoint dleg2 (n : nat) (x : R) : R * R :=
  match n with
  | O => (0, 1)
  | S m => let (a, b) := dleg2 m x in (b, ((2 * INR m + 3) * (L (S m) x + x * b) - (INR m + 1) * a) / (INR m + 2))
  end.
Definition dL (n : nat) (x : R) : R := fst (dleg2 n x).
Lemma dleg2_snd : forall n x, snd (dleg2 n x) = dL (S n) x.
Proof. intros. unfold dL. cbn [dleg2]. destruct (dleg2 n x). reflexivity. Qed.
Lemma dL_rec : forall n x, dL (S (S n)) x = ((2 * INR n + 3) * (L (S n) x + x * dL (S n) x) - (INR n + 1) * dL n x) / (INR n + 2).
Proof.
  intros. unfold dL at 1. cbn [dleg2]. pose proof (dleg2_snd n x) as H. unfold dL at 2. destruct (dleg2 n x) as [a b] eqn:E. cbn [fst snd] in *. rewrite <- H. reflexivity.
Qed.
Lemma L_rec : forall n x, L (S (S n)) x = ((2 * INR n + 3) * x * L (S n) x - (INR n + 1) * L n x) / (INR n + 2).
Proof. intros. pose proof (bonnet n x). pose proof (pos_INR n). apply Rmult_eq_reg_l with (INR n + 2); [|lra]. rewrite H. field. lra. Qed.

Lemma DU : forall (f : R -> R) x (l : R), is_derive f x l -> Derive f x = l.
Proof. intros. apply is_derive_unique. auto. Qed.
Lemma is_derive_L : forall n x, is_derive (L n) x (dL n x) /\ is_derive (L (S n)) x (dL (S n) x).
Proof.
  induction n; intros x.
  - split.
    + apply is_derive_ext with (fun _ => 1); [reflexivity|]. apply @is_derive_const.
    + apply is_derive_ext with (fun t => t); [reflexivity|]. apply @is_derive_id.
  - destruct (IHn x) as [I1 I2]. split; auto.
    apply is_derive_ext with (fun t => ((2 * INR n + 3) * t * L (S n) t - (INR n + 1) * L n t) / (INR n + 2)); [intros; symmetry; apply L_rec|].
    rewrite dL_rec. auto_derive.
    + split; [exists (dL (S n) x); auto|]. split; [exists (dL n x); auto|]. auto.
    + rewrite (@DU (fun t : R => L (S n) t) x _ I2), (@DU (fun t : R => L n t) x _ I1). pose proof (pos_INR n). field. lra.
Qed.
Lemma ab : forall n x, dL (S n) x = x * dL n x + (INR n + 1) * L n x /\ x * dL (S n) x - dL n x = (INR n + 1) * L (S n) x.
Proof.
  induction n; intros x.
  - cbn. split; ring.
  - destruct (IHn x) as [I1 I2]. pose proof (pos_INR n). rewrite S_INR.
    assert (E : dL (S (S n)) x = x * dL (S n) x + (INR n + 1 + 1) * L (S n) x).
    { rewrite dL_rec. replace (dL n x) with (x * dL (S n) x - (INR n + 1) * L (S n) x) by lra. field. lra. }
    split; auto. rewrite E, L_rec.
    assert (Q : (x * x - 1) * dL (S n) x = (INR n + 1) * (x * L (S n) x - L n x)).
    { replace ((x * x - 1) * dL (S n) x) with (x * (x * dL (S n) x - dL n x) - (dL (S n) x - x * dL n x)) by ring. rewrite I2, I1. ring. }
    replace (x * (x * dL (S n) x + (INR n + 1 + 1) * L (S n) x) - dL (S n) x) with ((x * x - 1) * dL (S n) x + x * (INR n + 1 + 1) * L (S n) x) by ring.
    rewrite Q. field. lra.
Qed.
(** F_n = (1-x^2) L'_n, F_n' = -n(n+1) L_n *)
Definition Fn (n : nat) (x : R) : R := (1 - x * x) * dL n x.
Lemma Fn_eq : forall n x, Fn (S n) x = (INR n + 1) * (L n x - x * L (S n) x).
Proof.
  intros. unfold Fn. destruct (ab n x) as [I1 I2].
  replace ((1 - x * x) * dL (S n) x) with ((dL (S n) x - x * dL n x) - x * (x * dL (S n) x - dL n x)) by ring. rewrite I2, I1. ring.
Qed.
Lemma is_derive_F : forall n x, is_derive (Fn n) x (- (INR n * (INR n + 1)) * L n x).
Proof.
  intros. destruct n.
  - apply is_derive_ext with (fun _ => 0). { intros. unfold Fn. cbn. ring. } simpl INR. replace (- (0 * (0 + 1)) * L 0 x) with 0 by ring. apply @is_derive_const.
  - apply is_derive_ext with (fun t => (INR n + 1) * (L n t - t * L (S n) t)). { intros. symmetry. apply Fn_eq. }
    destruct (is_derive_L n x) as [I1 I2]. auto_derive.
    + split; [exists (dL n x); auto|]. split; [exists (dL (S n) x); auto|auto].
    + rewrite (@DU (fun t : R => L (S n) t) x _ I2), (@DU (fun t : R => L n t) x _ I1). destruct (ab n x) as [_ I]. rewrite S_INR.
      replace (dL n x) with (x * dL (S n) x - (INR n + 1) * L (S n) x) by lra. ring.
Qed.
Lemma continuous_L : forall n x, continuous (L n) x.
Proof. intros. apply (@ex_derive_continuous R_AbsRing R_NormedModule). exists (dL n x). apply is_derive_L. Qed.
Lemma continuous_LL : forall n m x, continuous (fun t => L n t * L m t) x.
Proof. intros. apply (continuous_mult (L n) (L m)); apply continuous_L. Qed.
Lemma continuous_LLL : forall n m k x, continuous (fun t => L n t * L m t * L k t) x.
Proof. intros. apply (continuous_mult (fun t => L n t * L m t) (L k)); [apply continuous_LL|apply continuous_L]. Qed.

Lemma orth_is : forall n m, is_RInt (fun t => (INR m * (INR m + 1) - INR n * (INR n + 1)) * (L n t * L m t)) (-1) 1 0.
Proof.
  intros.
  replace 0 with ((Fn n 1 * L m 1 - Fn m 1 * L n 1) - (Fn n (-1) * L m (-1) - Fn m (-1) * L n (-1))) by (unfold Fn; ring).
  apply (is_RInt_derive (fun t => Fn n t * L m t - Fn m t * L n t)).
  - intros x _. destruct (is_derive_L n x) as [I1 _]. destruct (is_derive_L m x) as [I2 _]. pose proof (is_derive_F n x) as I3. pose proof (is_derive_F m x) as I4.
    auto_derive.
    + repeat split; eexists; eauto.
    + rewrite (@DU (fun t : R => L n t) x _ I1), (@DU (fun t : R => L m t) x _ I2), (@DU (fun t : R => Fn n t) x _ I3), (@DU (fun t : R => Fn m t) x _ I4).
      unfold Fn. ring.
  - intros x _. apply (continuous_mult (fun _ => _) (fun t => L n t * L m t)); [apply continuous_const|apply continuous_LL].
Qed.
Lemma ex_RInt_LL : forall n m, ex_RInt (fun t => L n t * L m t) (-1) 1.
Proof. intros. apply (@ex_RInt_continuous R_CompleteNormedModule). intros. apply continuous_LL. Qed.
Lemma ex_RInt_LLL : forall n m k, ex_RInt (fun t => L n t * L m t * L k t) (-1) 1.
Proof. intros. apply (@ex_RInt_continuous R_CompleteNormedModule). intros. apply continuous_LLL. Qed.
Theorem orthogonal : forall n m, n <> m -> RInt (fun t => L n t * L m t) (-1) 1 = 0.
Proof.
  intros n m H. set (k := INR m * (INR m + 1) - INR n * (INR n + 1)).
  assert (K : k <> 0).
  { unfold k. replace (INR m * (INR m + 1) - INR n * (INR n + 1)) with ((INR m - INR n) * (INR m + INR n + 1)) by ring.
    apply Rmult_integral_contrapositive. split.
    - intro E. apply H. apply INR_eq. lra.
    - pose proof (pos_INR n). pose proof (pos_INR m). lra. }
  pose proof (orth_is n m) as I. apply (@is_RInt_unique R_CompleteNormedModule) in I. fold k in I.
  assert (I2 : k * RInt (fun t => L n t * L m t) (-1) 1 = 0).
  { rewrite <- I. symmetry. apply (@RInt_scal R_CompleteNormedModule (fun t => L n t * L m t)). apply ex_RInt_LL. }
  apply Rmult_integral in I2. destruct I2; [congruence|auto].
Qed.
Theorem norm : forall n, RInt (fun t => L n t * L n t) (-1) 1 = 2 / (2 * INR n + 1).
Proof.
  induction n.
  - rewrite (RInt_ext _ (fun _ => 1)) by (intros; cbn; ring). rewrite RInt_const. unfold scal; simpl; unfold mult; simpl. field.
  - pose proof (pos_INR n) as Pn. rewrite S_INR.
    (* I = int x L_n L_{n+1} computed two ways *)
    set (N0 := RInt (fun t => L n t * L n t) (-1) 1) in *. set (N1 := RInt (fun t => L (S n) t * L (S n) t) (-1) 1).
    assert (lin : forall a b c f g h, (forall t, f t = a * g t + b * h t) -> ex_RInt g (-1) 1 -> ex_RInt h (-1) 1 -> c = a * RInt g (-1) 1 + b * RInt h (-1) 1 -> RInt f (-1) 1 = c).
    { intros a b c f g h E Eg Eh ->. rewrite (RInt_ext _ (fun t => a * g t + b * h t)) by (intros; apply E).
      replace (a * RInt g (-1) 1) with (RInt (fun t => a * g t) (-1) 1) by (apply (@RInt_scal R_CompleteNormedModule g); auto).
      replace (b * RInt h (-1) 1) with (RInt (fun t => b * h t) (-1) 1) by (apply (@RInt_scal R_CompleteNormedModule h); auto).
      apply (@RInt_plus R_CompleteNormedModule (fun t => a * g t) (fun t => b * h t)); apply (@ex_RInt_scal R_NormedModule); auto. }
    assert (A1 : RInt (fun t => t * L n t * L (S n) t) (-1) 1 = (INR n + 1) / (2 * INR n + 1) * N1).
    { apply (lin ((INR n + 1) / (2 * INR n + 1)) (INR n / (2 * INR n + 1)) _ _ (fun t => L (S n) t * L (S n) t) (fun t => L (n - 1) t * L (S n) t)); try apply ex_RInt_LL.
      - intros t. rewrite (x_legendre n t). field. lra.
      - rewrite (@orthogonal (n - 1) (S n)) by lia. fold N1. ring. }
    assert (A2 : RInt (fun t => t * L n t * L (S n) t) (-1) 1 = (INR n + 1) / (2 * INR n + 3) * N0).
    { apply (lin ((INR n + 2) / (2 * INR n + 3)) ((INR n + 1) / (2 * INR n + 3)) _ _ (fun t => L (S (S n)) t * L n t) (fun t => L n t * L n t)); try apply ex_RInt_LL.
      - intros t. rewrite L_rec. field. lra.
      - rewrite (@orthogonal (S (S n)) n) by lia. fold N0. ring. }
    rewrite A1 in A2. rewrite IHn in A2. apply Rmult_eq_reg_l with ((INR n + 1) / (2 * INR n + 1)).
    + rewrite A2. field. lra.
    + apply Rgt_not_eq. apply Rdiv_lt_0_compat; lra.
Qed.
Lemma RInt_sum_f : forall (f : nat -> R -> R) n, (forall p, ex_RInt (f p) (-1) 1) ->
  ex_RInt (fun t => sum_f_R0 (fun p => f p t) n) (-1) 1 /\ RInt (fun t => sum_f_R0 (fun p => f p t) n) (-1) 1 = sum_f_R0 (fun p => RInt (f p) (-1) 1) n.
Proof.
  induction n; intros H; cbn [sum_f_R0].
  - split; auto.
  - destruct (IHn H) as [E1 E2]. split.
    + apply (ex_RInt_plus (fun t => sum_f_R0 (fun p => f p t) n) (f (S n))); auto.
    + rewrite <- E2. apply (RInt_plus (fun t => sum_f_R0 (fun p => f p t) n) (f (S n))); auto.
Qed.
(** the triple integral *)
Theorem triple : forall l m q, RInt (fun t => L l t * L m t * L q t) (-1) 1 =
  sum_f_R0 (fun p => if (l + m - 2 * p =? q)%nat then c l m p * (2 / (2 * INR q + 1)) else 0) (Nat.min l m).
Proof.
  intros. rewrite (RInt_ext _ (fun t => sum_f_R0 (fun p => c l m p * (L (l + m - 2 * p) t * L q t)) (Nat.min l m))).
  - rewrite (proj2 (@RInt_sum_f (fun p t => c l m p * (L (l + m - 2 * p) t * L q t)) _ (fun p => ex_RInt_scal _ _ _ (c l m p) (ex_RInt_LL (l + m - 2 * p) q)))).
    apply sum_eq. intros p Hp. transitivity (c l m p * RInt (fun t => L (l + m - 2 * p) t * L q t) (-1) 1).
    + apply (@RInt_scal R_CompleteNormedModule (fun t => L (l + m - 2 * p) t * L q t)). apply ex_RInt_LL.
    + destruct (l + m - 2 * p =? q)%nat eqn:E.
      * apply Nat.eqb_eq in E. rewrite E, norm. auto.
      * apply Nat.eqb_neq in E. rewrite orthogonal by auto. ring.
  - intros t _. rewrite adams. rewrite Rmult_comm, scal_sum. apply sum_eq. intros. ring.
Qed.
