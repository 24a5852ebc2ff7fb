(** Discrete Fourier sums and the FFTLog convolution. *)
From Coq Require Import Reals List ZArith Arith Lra Lia.
From Coquelicot Require Import Coquelicot.
From Verif Require Import M_Mcfit S_Mcfit.
Import ListNotations.
Local Open Scope R_scope.

Lemma C_ext (a b : C) : fst a = fst b -> snd a = snd b -> a = b.
Proof. destruct a, b. cbn. intros -> ->. reflexivity. Qed.
Ltac cunf := unfold cexp, Cconj, Cmult, Cminus, Cplus, Copp, RtoC, Re, Im; cbn [fst snd].
Ltac cring := apply C_ext; cunf; ring.
Lemma conj_plus (a b : C) : Cconj (a + b)%C = (Cconj a + Cconj b)%C. Proof. cring. Qed.
Lemma conj_mult (a b : C) : Cconj (a * b)%C = (Cconj a * Cconj b)%C. Proof. cring. Qed.
Lemma conj_conj a : Cconj (Cconj a) = a. Proof. cring. Qed.
Lemma conj_R r : Cconj (RtoC r) = RtoC r. Proof. cring. Qed.
Lemma re_half a : RtoC (Re a) = (RtoC (1/2) * (a + Cconj a))%C. Proof. destruct a as [p q]. apply C_ext; unfold Cconj, Cmult, Cplus, RtoC, Re; simpl; lra. Qed.

Lemma csum_ext n f g : (forall k, (k < n)%nat -> f k = g k) -> csum n f = csum n g.
Proof. induction n as [|n IH]; intros H; [reflexivity|]. cbn [csum]. rewrite IH by (intros; apply H; lia). rewrite H by lia. reflexivity. Qed.
Lemma csum_plus n f g : csum n (fun k => f k + g k)%C = (csum n f + csum n g)%C.
Proof. induction n as [|n IH]; cbn [csum]; [ring|]. rewrite IH. ring. Qed.
Lemma csum_scal n c f : csum n (fun k => c * f k)%C = (c * csum n f)%C.
Proof. induction n as [|n IH]; cbn [csum]; [ring|]. rewrite IH. ring. Qed.
Lemma csum_conj n f : Cconj (csum n f) = csum n (fun k => Cconj (f k)).
Proof. induction n as [|n IH]; cbn [csum]; [apply conj_R|]. rewrite conj_plus, IH. reflexivity. Qed.
Lemma csum_swap n m f : csum n (fun i => csum m (fun j => f i j)) = csum m (fun j => csum n (fun i => f i j)).
Proof.
  induction n as [|n IH]; cbn [csum].
  - induction m as [|m IHm]; cbn [csum]; [reflexivity|]. rewrite <- IHm. ring.
  - rewrite IH. rewrite <- csum_plus. reflexivity.
Qed.
Lemma csum_one n f k0 : (k0 < n)%nat -> (forall k, (k < n)%nat -> k <> k0 -> f k = RtoC 0) -> csum n f = f k0.
Proof.
  induction n as [|n IH]; intros Hk H; [lia|]. cbn [csum]. destruct (Nat.eq_dec k0 n) as [->|N].
  - rewrite (csum_ext n f (fun _ => RtoC 0)) by (intros; apply H; lia). assert (Z : csum n (fun _ => RtoC 0) = RtoC 0).
    { clear. induction n as [|n IH]; cbn [csum]; [reflexivity|]. rewrite IH. ring. } rewrite Z. ring.
  - rewrite IH by (try lia; intros; apply H; lia). rewrite (H n) by lia. ring.
Qed.
Lemma csum_zero n f : (forall k, (k < n)%nat -> f k = RtoC 0) -> csum n f = RtoC 0.
Proof. induction n as [|n IH]; intros H; cbn [csum]; [reflexivity|]. rewrite IH by (intros; apply H; lia). rewrite H by lia. ring. Qed.

Lemma cexp_plus (a b : C) : cexp (a + b)%C = (cexp a * cexp b)%C.
Proof. apply C_ext; cunf; rewrite exp_plus; [rewrite cos_plus|rewrite sin_plus]; ring. Qed.
Lemma cexp_0 : cexp (RtoC 0) = RtoC 1. Proof. apply C_ext; cunf; rewrite exp_0; [rewrite cos_0|rewrite sin_0]; ring. Qed.
Lemma cexp_conj a : cexp (Cconj a) = Cconj (cexp a).
Proof. apply C_ext; cunf; [rewrite cos_neg|rewrite sin_neg]; ring. Qed.
Lemma cexp_turn (n : nat) : cexp (0, - (2 * INR n * PI)) = RtoC 1.
Proof.
  pose proof (cos_period 0 n) as A. pose proof (sin_period 0 n) as B. rewrite Rplus_0_l in A, B. rewrite cos_0 in A. rewrite sin_0 in B.
  apply C_ext; cunf; rewrite exp_0; [rewrite cos_neg, A|rewrite sin_neg, B]; ring.
Qed.
(** twiddle factors *)
Lemma tw_sym N m n : tw N m n = tw N n m. Proof. unfold tw. do 2 f_equal. f_equal. unfold Rdiv. ring. Qed.
Lemma tw_plus N a b n : (tw N a n * tw N b n)%C = tw N (a + b) n.
Proof. unfold tw. rewrite <- cexp_plus. f_equal. apply C_ext; cunf; [ring|]. rewrite plus_INR. unfold Rdiv. ring. Qed.
Lemma tw_N N n : (0 < N)%nat -> tw N N n = RtoC 1.
Proof. intros H. unfold tw. rewrite <- (cexp_turn n). do 2 f_equal. f_equal. field. apply not_0_INR. lia. Qed.
Lemma tw_0 N n : tw N 0 n = RtoC 1. Proof. unfold tw. rewrite <- cexp_0. f_equal. apply C_ext; cunf; [ring|]. cbn [INR]. unfold Rdiv. ring. Qed.
Lemma tw_conj N m n : (0 < N)%nat -> (m <= N)%nat -> Cconj (tw N m n) = tw N (N - m) n.
Proof.
  intros H Hm. unfold tw. rewrite <- cexp_conj. rewrite minus_INR by exact Hm.
  replace (cexp (0, - (2 * PI * (INR N - INR m) * INR n / INR N))) with (cexp (0, - (2*INR n*PI))%R * cexp (Cconj (0, - (2 * PI * INR m * INR n / INR N))%R))%C.
  - rewrite cexp_turn. ring.
  - rewrite <- cexp_plus. f_equal. apply C_ext; cunf; [ring|]. field. apply not_0_INR. lia.
Qed.
Lemma tw_ne_1 N k : (0 < k < N)%nat -> tw N k 1 <> RtoC 1.
Proof.
  intros H E. assert (0 < INR k) by (apply lt_0_INR; lia). assert (INR k < INR N) by (apply lt_INR; lia).
  assert (F : cos (2*PI*INR k*1/INR N) = 1). { apply (f_equal fst) in E. cbn in E. rewrite exp_0, cos_neg in E. lra. }
  assert (P := PI_RGT_0). set (t := PI*INR k/INR N). replace (2*PI*INR k*1/INR N) with (2*t) in F by (unfold t; field; lra).
  rewrite cos_2a_sin in F. assert (T : 0 < t < PI).
  { unfold t. split; [apply Rdiv_lt_0_compat; nra|]. apply (Rmult_lt_reg_r (INR N)); [lra|]. replace (PI*INR k/INR N*INR N) with (PI*INR k) by (field; lra). nra. }
  assert (S := sin_gt_0 t (proj1 T) (proj2 T)). nra.
Qed.
Fixpoint cpow (w : C) (n : nat) : C := match n with O => RtoC 1 | S k => (w * cpow w k)%C end.
Lemma Ceq_dec (a b : C) : {a = b} + {a <> b}.
Proof. destruct (Req_EM_T (fst a) (fst b)) as [E|E]; [destruct (Req_EM_T (snd a) (snd b)) as [F|F]; [left; apply C_ext; assumption|right; congruence]|right; congruence]. Qed.
Lemma geometric w n : (csum n (fun k => cpow w k) * (w - RtoC 1))%C = (cpow w n - RtoC 1)%C.
Proof. induction n as [|n IH]; cbn [csum cpow]; [ring|]. rewrite Cmult_plus_distr_r, IH. ring. Qed.
Lemma tw_pow N m n : tw N m n = cpow (tw N m 1) n.
Proof. induction n as [|n IH]; cbn [cpow]; [rewrite tw_sym; apply tw_0|]. rewrite <- IH. rewrite (tw_sym N m (S n)), (tw_sym N m 1), (tw_sym N m n), tw_plus. reflexivity. Qed.
(** orthogonality *)
Lemma orth N a : (0 < N)%nat -> (a < 2*N)%nat -> csum N (fun n => tw N a n) = if orb (a =? 0)%nat (a =? N)%nat then RtoC (INR N) else RtoC 0.
Proof.
  intros H Ha. assert (K : forall n, csum n (fun _ => RtoC 1) = RtoC (INR n)).
  { induction n as [|n IH]; [reflexivity|]. cbn [csum]. rewrite IH, S_INR. symmetry. apply RtoC_plus. }
  assert (Z : forall k, (0 < k < N)%nat -> csum N (fun n => tw N k n) = RtoC 0).
  { intros k Hk. rewrite (csum_ext N _ (fun n => cpow (tw N k 1) n)) by (intros; apply tw_pow).
    pose proof (geometric (tw N k 1) N) as G. rewrite <- tw_pow in G. rewrite (tw_sym N k N), tw_N in G by exact H.
    destruct (Ceq_dec (csum N (fun n => cpow (tw N k 1) n)) (RtoC 0)) as [E|E]; [exact E|exfalso].
    apply (tw_ne_1 N k Hk). assert (D : (tw N k 1 - RtoC 1)%C = RtoC 0).
    { destruct (Ceq_dec (tw N k 1 - RtoC 1)%C (RtoC 0)) as [D|D]; [exact D|]. exfalso. apply (Cmult_neq_0 _ _ E D). rewrite G. ring. }
    replace (tw N k 1) with ((tw N k 1 - RtoC 1) + RtoC 1)%C by ring. rewrite D. ring. }
  destruct (Nat.eqb_spec a 0) as [->|N0]; cbn [orb].
  { rewrite (csum_ext N _ (fun _ => RtoC 1)) by (intros; apply tw_0). apply K. }
  destruct (Nat.eqb_spec a N) as [->|N1]. { rewrite (csum_ext N _ (fun _ => RtoC 1)) by (intros; apply tw_N; exact H). apply K. }
  destruct (Nat.lt_ge_cases a N) as [L|L]; [apply Z; lia|]. rewrite (csum_ext N _ (fun n => tw N (a - N) n)); [apply Z; lia|].
  intros n _. replace a with (N + (a - N))%nat at 1 by lia. rewrite <- tw_plus, tw_N by exact H. ring.
Qed.
(** the forward coefficients of a real sequence *)
Definition dft (N : nat) (f : nat -> R) (m : nat) : C := csum N (fun n => RtoC (f n) * tw N m n)%C.
(** the convolution: rfft, product with u, hfft, division by N *)
Definition core (N : nat) (u : nat -> C) (f : nat -> R) (n : nat) : R :=
  Re (csum N (fun m => herm N (fun j => dft N f j * u j)%C m * tw N m n)%C) / INR N.
Definition good (N : nat) (u : nat -> C) : Prop :=
  (forall m, (m <= N/2)%nat -> (u m * Cconj (u m))%C = RtoC 1) /\ Im (u 0%nat) = 0 /\ (Nat.even N = true -> Im (u (N/2)%nat) = 0).
Lemma dft_conj N f m : (0 < N)%nat -> (m <= N)%nat -> Cconj (dft N f m) = dft N f (N - m).
Proof. intros H Hm. unfold dft. rewrite csum_conj. apply csum_ext. intros k _. rewrite conj_mult, conj_R, tw_conj by assumption. reflexivity. Qed.
Lemma dft_real0 N f : Cconj (dft N f 0) = dft N f 0.
Proof. unfold dft. rewrite csum_conj. apply csum_ext. intros k _. rewrite conj_mult, conj_R, tw_0, conj_R. reflexivity. Qed.
Lemma herm_dft N u f m : (0 < N)%nat -> (m < N)%nat -> herm N (fun j => dft N f j * u j)%C m = (dft N f m * herm N u m)%C.
Proof.
  intros H Hm. unfold herm. destruct (m <=? N/2)%nat eqn:E; [reflexivity|]. apply Nat.leb_gt in E. rewrite conj_mult, dft_conj by lia.
  replace (N - (N - m))%nat with m by lia. reflexivity.
Qed.
(** the kernel is symmetric *)
Definition ker (N : nat) (u : nat -> C) (n k : nat) : C := csum N (fun m => herm N u m * tw N m n * tw N m k)%C.
Lemma ker_sym N u n k : ker N u n k = ker N u k n. Proof. unfold ker. apply csum_ext. intros m _. ring. Qed.
Lemma core_ker N u f n : (0 < N)%nat -> core N u f n = Re (csum N (fun k => RtoC (f k) * ker N u n k)%C) / INR N.
Proof.
  intros H. unfold core. do 2 f_equal. transitivity (csum N (fun m => csum N (fun k => RtoC (f k) * (herm N u m * tw N m n * tw N m k))%C)).
  - apply csum_ext. intros m Hm. rewrite herm_dft by assumption. unfold dft. rewrite <- (Cmult_comm (herm N u m)). rewrite <- Cmult_assoc, (Cmult_comm (csum _ _)), Cmult_assoc, <- csum_scal.
    apply csum_ext. intros k _. ring.
  - rewrite csum_swap. apply csum_ext. intros k _. unfold ker. rewrite csum_scal. reflexivity.
Qed.
Definition fsum (N : nat) (A : nat -> C) (n : nat) : C := csum N (fun j => A j * tw N j n)%C.
Lemma analyse N A m : (0 < N)%nat -> (m < N)%nat -> csum N (fun n => fsum N A n * tw N m n)%C = (RtoC (INR N) * A (if (m =? 0)%nat then 0%nat else (N - m)%nat))%C.
Proof.
  intros H Hm. transitivity (csum N (fun j => A j * csum N (fun n => tw N (j + m) n))%C).
  - transitivity (csum N (fun n => csum N (fun j => A j * tw N (j + m) n)%C)).
    + apply csum_ext. intros n _. unfold fsum. rewrite Cmult_comm, <- csum_scal. apply csum_ext. intros j _. rewrite <- tw_plus. ring.
    + rewrite csum_swap. apply csum_ext. intros j _. apply csum_scal.
  - destruct (Nat.eqb_spec m 0) as [->|M].
    + rewrite (csum_one N _ 0%nat) by (try lia; intros k Hk Hk0; rewrite orth by lia; replace (k + 0 =? 0)%nat with false by (symmetry; apply Nat.eqb_neq; lia); replace (k + 0 =? N)%nat with false by (symmetry; apply Nat.eqb_neq; lia); cbn [orb]; ring).
      rewrite orth by lia. cbn [Nat.add Nat.eqb orb]. ring.
    + rewrite (csum_one N _ (N - m)%nat) by (try lia; intros k Hk Hk0; rewrite orth by lia; replace (k + m =? 0)%nat with false by (symmetry; apply Nat.eqb_neq; lia); replace (k + m =? N)%nat with false by (symmetry; apply Nat.eqb_neq; lia); cbn [orb]; ring).
      rewrite orth by lia. replace (N - m + m =? N)%nat with true by (symmetry; apply Nat.eqb_eq; lia). rewrite Bool.orb_true_r. ring.
Qed.
Lemma analyse_conj N A m : (0 < N)%nat -> (m < N)%nat -> csum N (fun n => Cconj (fsum N A n) * tw N m n)%C = (RtoC (INR N) * Cconj (A m))%C.
Proof.
  intros H Hm. transitivity (csum N (fun j => Cconj (A j) * csum N (fun n => tw N (N - j + m) n))%C).
  - transitivity (csum N (fun n => csum N (fun j => Cconj (A j) * tw N (N - j + m) n)%C)).
    + apply csum_ext. intros n _. unfold fsum. rewrite csum_conj, Cmult_comm, <- csum_scal. apply csum_ext. intros j Hj. rewrite <- tw_plus, conj_mult, tw_conj by lia. ring.
    + rewrite csum_swap. apply csum_ext. intros j _. apply csum_scal.
  - rewrite (csum_one N _ m) by (try lia; intros k Hk Hk0; rewrite orth by lia; replace (N - k + m =? 0)%nat with false by (symmetry; apply Nat.eqb_neq; lia); replace (N - k + m =? N)%nat with false by (symmetry; apply Nat.eqb_neq; lia); cbn [orb]; ring).
    rewrite orth by lia. replace (N - m + m =? N)%nat with true by (symmetry; apply Nat.eqb_eq; lia). rewrite Bool.orb_true_r. ring.
Qed.
Lemma real_core N A n : (0 < N)%nat -> RtoC (Re (fsum N A n) / INR N) = (RtoC (1/2/INR N) * (fsum N A n + Cconj (fsum N A n)))%C.
Proof. intros H. assert (INR N <> 0) by (apply not_0_INR; lia). set (z := fsum N A n). apply C_ext; cunf; field; assumption. Qed.
Lemma core_dft N u f m : (0 < N)%nat -> good N u -> (m <= N/2)%nat -> dft N (core N u f) m = Cconj (dft N f m * u m)%C.
Proof.
  intros H (G1 & G2 & G3) Hm. assert (INR N <> 0) by (apply not_0_INR; lia).
  assert (HN : (N/2 < N)%nat) by (apply Nat.div_lt; lia).
  set (A := herm N (fun j => dft N f j * u j)%C).
  assert (E : dft N (core N u f) m = (RtoC (1/2/INR N) * (RtoC (INR N) * A (if (m =? 0)%nat then 0%nat else (N - m)%nat) + RtoC (INR N) * Cconj (A m)))%C).
  { rewrite <- analyse, <- analyse_conj by lia. rewrite <- csum_plus, <- csum_scal. unfold dft at 1. apply csum_ext. intros n _.
    change (core N u f n) with (Re (fsum N A n) / INR N). rewrite real_core by exact H. ring. }
  rewrite E. assert (Am : A m = (dft N f m * u m)%C). { unfold A, herm. rewrite (proj2 (Nat.leb_le _ _) Hm). reflexivity. }
  assert (Hh : (RtoC (1/2/INR N) * RtoC (INR N) = RtoC (1/2))%C) by (apply C_ext; cunf; field; assumption).
  assert (Q : A (if (m =? 0)%nat then 0%nat else (N - m)%nat) = Cconj (A m)).
  { rewrite Am. destruct (Nat.eqb_spec m 0) as [->|M].
    - rewrite Am, conj_mult, dft_real0. f_equal. apply C_ext; cunf; [reflexivity|]. unfold Im in G2. lra.
    - destruct (Nat.eq_dec (2*m) N) as [E2|N2].
      + assert (Ev : Nat.even N = true) by (rewrite <- E2; rewrite Nat.even_mul; reflexivity). replace (N - m)%nat with m by lia. rewrite Am.
        rewrite conj_mult, dft_conj by lia. replace (N - m)%nat with m by lia. f_equal. specialize (G3 Ev). replace (N/2)%nat with m in G3 by (rewrite <- E2, Nat.mul_comm, Nat.div_mul; lia).
        apply C_ext; cunf; [reflexivity|]. unfold Im in G3. lra.
      + unfold A, herm. assert (L : (N/2 < N - m)%nat).
        { assert (2*(N/2) <= N)%nat by (apply Nat.mul_div_le; lia). assert (N < 2*(N/2) + 2)%nat by (pose proof (Nat.mul_succ_div_gt N 2); lia). lia. }
        rewrite (proj2 (Nat.leb_gt _ _) L). replace (N - (N - m))%nat with m by lia. reflexivity. }
  rewrite Q, <- Am. replace (RtoC (1/2/INR N) * (RtoC (INR N) * Cconj (A m) + RtoC (INR N) * Cconj (A m)))%C with ((RtoC (1/2/INR N) * RtoC (INR N)) * (RtoC 2 * Cconj (A m)))%C
    by (apply C_ext; cunf; ring). rewrite Hh. apply C_ext; cunf; lra.
Qed.
Lemma synthesis N f n : (0 < N)%nat -> (n < N)%nat -> csum N (fun m => Cconj (dft N f m) * tw N m n)%C = RtoC (INR N * f n).
Proof.
  intros H Hn. transitivity (RtoC (INR N) * Cconj (RtoC (f n)))%C; [|apply C_ext; cunf; ring].
  rewrite <- (analyse_conj N (fun k => RtoC (f k)) n H Hn). apply csum_ext. intros m _. f_equal; [|apply tw_sym]. f_equal. unfold dft, fsum. apply csum_ext. intros k _. rewrite (tw_sym N k m). reflexivity.
Qed.
(** the convolution is its own inverse *)
Lemma core_core N u f n : (0 < N)%nat -> good N u -> (n < N)%nat -> core N u (core N u f) n = f n.
Proof.
  intros H G Hn. assert (NN : INR N <> 0) by (apply not_0_INR; lia). unfold core at 1.
  replace (csum N _) with (RtoC (INR N * f n)); [cunf; field; exact NN|]. rewrite <- synthesis by assumption. apply csum_ext. intros m Hm. f_equal.
  assert (X : forall j, (j <= N/2)%nat -> (dft N (core N u f) j * u j)%C = Cconj (dft N f j)).
  { intros j Hj. rewrite core_dft by assumption. rewrite conj_mult. transitivity (Cconj (dft N f j) * (u j * Cconj (u j)))%C; [ring|]. rewrite (proj1 G j Hj). ring. }
  unfold herm. destruct (m <=? N/2)%nat eqn:E; [symmetry; apply X, Nat.leb_le, E|]. apply Nat.leb_gt in E.
  rewrite X, conj_conj, dft_conj by (try lia; pose proof (Nat.mul_succ_div_gt N 2); lia). reflexivity.
Qed.
Fixpoint rsum (n : nat) (f : nat -> R) : R := match n with O => 0 | S k => rsum k f + f k end.
Lemma rsum_re n f : rsum n (fun k => Re (f k)) = Re (csum n f).
Proof. induction n as [|n IH]; [reflexivity|]. cbn [rsum csum]. rewrite IH. reflexivity. Qed.
Lemma rsum_ext n f g : (forall k, (k < n)%nat -> f k = g k) -> rsum n f = rsum n g.
Proof. induction n as [|n IH]; intros H; [reflexivity|]. cbn [rsum]. rewrite IH by (intros; apply H; lia). rewrite H by lia. reflexivity. Qed.
Lemma rsum_scal n c f : rsum n (fun k => c * f k) = c * rsum n f.
Proof. induction n as [|n IH]; cbn [rsum]; [ring|]. rewrite IH. ring. Qed.
Lemma rsum_plus n f g : rsum n (fun k => f k + g k) = rsum n f + rsum n g.
Proof. induction n as [|n IH]; cbn [rsum]; [ring|]. rewrite IH. ring. Qed.
Lemma rsum_swap n m f : rsum n (fun i => rsum m (fun j => f i j)) = rsum m (fun j => rsum n (fun i => f i j)).
Proof.
  induction n as [|n IH]; cbn [rsum].
  - induction m as [|m IHm]; cbn [rsum]; [reflexivity|]. rewrite <- IHm. ring.
  - rewrite IH. rewrite <- rsum_plus. reflexivity.
Qed.
Lemma core_rker N u f n : (0 < N)%nat -> core N u f n = rsum N (fun k => f k * (Re (ker N u n k) / INR N)).
Proof.
  intros H. rewrite core_ker by exact H. rewrite <- rsum_re. unfold Rdiv. rewrite Rmult_comm, <- rsum_scal. apply rsum_ext. intros k _. cunf. ring.
Qed.
(** and preserves the sum of squares *)
Lemma core_norm N u f : (0 < N)%nat -> good N u -> rsum N (fun n => (core N u f n)^2) = rsum N (fun n => (f n)^2).
Proof.
  intros H G. set (K := fun n k => Re (ker N u n k) / INR N). assert (S : forall n k, K n k = K k n) by (intros; unfold K; rewrite ker_sym; reflexivity).
  transitivity (rsum N (fun n => rsum N (fun k => f k * K n k * core N u f n))).
  - apply rsum_ext. intros n _. rewrite (rsum_ext N _ (fun k => core N u f n * (f k * K n k))) by (intros; ring). rewrite rsum_scal. unfold K. rewrite <- core_rker by exact H. ring.
  - rewrite rsum_swap. apply rsum_ext. intros k Hk. rewrite (rsum_ext N _ (fun n => f k * (core N u f n * K k n))) by (intros n _; rewrite S; ring). rewrite rsum_scal. unfold K. rewrite <- core_rker by exact H.
    rewrite core_core by assumption. ring.
Qed.
(** a real harmonic goes to a real harmonic *)
Lemma core_harmonic N u z m0 n : (0 < m0)%nat -> (2*m0 < N)%nat -> (n < N)%nat ->
  core N u (fun k => Re (z * Cconj (tw N m0 k))%C) n = Re (z * u m0 * tw N m0 n)%C.
Proof.
  intros H0 H2 Hn. assert (NN : INR N <> 0) by (apply not_0_INR; lia). set (f := fun k => Re (z * Cconj (tw N m0 k))%C).
  set (A := fun j => if (j =? m0)%nat then Cconj z else RtoC 0).
  assert (FA : forall k, fsum N A k = (Cconj z * tw N m0 k)%C).
  { intros k. unfold fsum. rewrite (csum_one N _ m0) by (try lia; intros j _ Hj; unfold A; rewrite (proj2 (Nat.eqb_neq _ _) Hj); ring). unfold A. rewrite Nat.eqb_refl. reflexivity. }
  assert (Hd : forall m, (m <= N/2)%nat -> dft N f m = if (m =? m0)%nat then (RtoC (INR N/2) * z)%C else RtoC 0).
  { intros m Hm. assert (HN : (2*(N/2) <= N)%nat) by (apply Nat.mul_div_le; lia).
    assert (E : dft N f m = (RtoC (1/2) * (RtoC (INR N) * A (if (m =? 0)%nat then 0%nat else (N - m)%nat) + RtoC (INR N) * Cconj (A m)))%C).
    { rewrite <- analyse, <- analyse_conj by lia. rewrite <- csum_plus, <- csum_scal. unfold dft. apply csum_ext. intros k _. rewrite FA. unfold f. rewrite re_half.
      rewrite !conj_mult, !conj_conj. ring. }
    rewrite E. assert (B : A (if (m =? 0)%nat then 0%nat else (N - m)%nat) = RtoC 0).
    { unfold A. destruct (Nat.eqb_spec m 0) as [_|_].
      - destruct (Nat.eqb_spec 0 m0); [lia|reflexivity].
      - destruct (Nat.eqb_spec (N - m) m0); [lia|reflexivity]. }
    rewrite B. unfold A. destruct (m =? m0)%nat; [rewrite conj_conj|rewrite conj_R]; apply C_ext; cunf; field. }
  set (w := (RtoC (INR N/2) * z * u m0)%C).
  unfold core. replace (csum N _) with (w * tw N m0 n + Cconj (w * tw N m0 n))%C.
  { unfold w. unfold Re. cunf. field. exact NN. }
  transitivity (csum N (fun m => (if (m =? m0)%nat then w else RtoC 0) * tw N m n) + csum N (fun m => (if (m =? N - m0)%nat then Cconj w else RtoC 0) * tw N m n))%C.
  - rewrite (csum_one N _ m0) by (try lia; intros j _ Hj; rewrite (proj2 (Nat.eqb_neq _ _) Hj); ring).
    rewrite (csum_one N _ (N - m0)%nat) by (try lia; intros j _ Hj; rewrite (proj2 (Nat.eqb_neq _ _) Hj); ring). rewrite !Nat.eqb_refl. rewrite conj_mult, tw_conj by lia. reflexivity.
  - rewrite <- csum_plus. apply csum_ext. intros m Hm. rewrite <- Cmult_plus_distr_r. f_equal. fold f. unfold herm.
    assert (HN : (2*(N/2) <= N)%nat) by (apply Nat.mul_div_le; lia). assert (HN' : (N < 2*(N/2) + 2)%nat) by (pose proof (Nat.mul_succ_div_gt N 2); lia).
    destruct (m <=? N/2)%nat eqn:E.
    + apply Nat.leb_le in E. rewrite Hd by exact E. destruct (Nat.eqb_spec m (N - m0)); [lia|]. destruct (Nat.eqb_spec m m0) as [->|]; unfold w; ring.
    + apply Nat.leb_gt in E. rewrite Hd by lia. destruct (Nat.eqb_spec m m0); [lia|]. destruct (Nat.eqb_spec m (N - m0)) as [->|M].
      * replace (N - (N - m0))%nat with m0 by lia. rewrite Nat.eqb_refl. unfold w. ring.
      * destruct (Nat.eqb_spec (N - m) m0); [lia|]. rewrite conj_mult, conj_R. ring.
Qed.
Lemma core_constant N u a n : (0 < N)%nat -> (n < N)%nat -> core N u (fun _ => a) n = a * Re (u 0%nat).
Proof.
  intros H Hn. assert (NN : INR N <> 0) by (apply not_0_INR; lia).
  assert (Hd : forall m, (m < N)%nat -> dft N (fun _ => a) m = if (m =? 0)%nat then RtoC (INR N*a) else RtoC 0).
  { intros m Hm. unfold dft. rewrite csum_scal, orth by lia. destruct (Nat.eqb_spec m 0); cbn [orb]; [apply C_ext; cunf; ring|]. destruct (Nat.eqb_spec m N); [lia|]. ring. }
  unfold core. rewrite (csum_one N _ 0%nat H).
  - unfold herm. cbn [Nat.leb]. rewrite Hd by lia. cbn [Nat.eqb]. rewrite tw_0. cunf. field. exact NN.
  - intros k Hk K0. unfold herm. destruct (k <=? N/2)%nat eqn:E.
    + rewrite Hd by lia. destruct (Nat.eqb_spec k 0); [lia|]. ring.
    + rewrite Hd by (apply Nat.leb_gt in E; lia). destruct (Nat.eqb_spec (N - k) 0); [lia|]. rewrite conj_mult, conj_R. ring.
Qed.
Lemma core_lin N u a b f g n : (0 < N)%nat -> core N u (fun k => a * f k + b * g k) n = a * core N u f n + b * core N u g n.
Proof. intros H. rewrite !core_rker by exact H. rewrite <- !rsum_scal, <- rsum_plus. apply rsum_ext. intros. ring. Qed.
Lemma core_ext N u v f g n : (forall k, (k < N)%nat -> f k = g k) -> (forall k, (k <= N/2)%nat -> u k = v k) -> (n < N)%nat -> core N u f n = core N v g n.
Proof.
  intros Hf Hu Hn. unfold core. do 2 f_equal. apply csum_ext. intros m Hm. f_equal.
  assert (D : forall j, dft N f j = dft N g j) by (intros; unfold dft; apply csum_ext; intros k Hk; rewrite Hf by exact Hk; reflexivity).
  unfold herm. destruct (m <=? N/2)%nat eqn:E; [apply Nat.leb_le in E|apply Nat.leb_gt in E]; rewrite D, Hu by (try exact E; pose proof (Nat.mul_succ_div_gt N 2); lia); reflexivity.
Qed.
(** the angle makes the last coefficient real *)
Lemma angle_real (z : C) : Im (z * cexp (0, - angle z)%R)%C = 0.
Proof.
  destruct z as [a b]. unfold angle. cunf. rewrite exp_0, sin_neg, cos_neg. unfold atan2.
  assert (Q : forall x, sqrt (1 + x²) <> 0). { intros x. apply Rgt_not_eq. apply sqrt_lt_R0. pose proof (Rle_0_sqr x). lra. }
  destruct (Rlt_dec 0 a) as [P|P].
  { rewrite sin_atan, cos_atan. field. split; first [apply Q|lra]. }
  destruct (Rlt_dec a 0) as [M|M].
  { destruct (Rle_dec 0 b) as [B|B].
    - rewrite neg_sin, neg_cos, sin_atan, cos_atan. field. split; first [apply Q|lra].
    - rewrite sin_minus, cos_minus, sin_PI, cos_PI, sin_atan, cos_atan. field. split; first [apply Q|lra]. }
  assert (a = 0) by lra. subst a. destruct (Rlt_dec 0 b); [rewrite cos_PI2, sin_PI2; ring|]. destruct (Rlt_dec b 0).
  - rewrite cos_neg, sin_neg, cos_PI2, sin_PI2. ring.
  - assert (b = 0) by lra. subst b. ring.
Qed.
(** kernels of modulus one on their line *)
Definition unitary (UK : C -> C) (q : R) : Prop := (forall t, (UK (q, t) * Cconj (UK (q, t)))%C = RtoC 1) /\ UK (q, 0) = RtoC 1.
Lemma cexp_unit E : Re E = 0 -> (cexp E * Cconj (cexp E))%C = RtoC 1.
Proof.
  destruct E as [a b]. cbn [Re fst]. intros E. change (fst (a, b)) with a in E. subst a. pose proof (sin2_cos2 b) as Q. unfold Rsqr in Q. apply C_ext; cunf; rewrite exp_0; lra.
Qed.
Lemma refl_real lg a : reflecting lg -> 0 < a -> Im (lg (RtoC a)) = 0.
Proof. intros H Ha. specialize (H (RtoC a) Ha). rewrite conj_R in H. apply (f_equal snd) in H. unfold Cconj in H. cbn [snd] in H. unfold Im. lra. Qed.
Lemma refl_unit lg (g : R -> C) a : reflecting lg -> 0 < a -> (forall t, exists b, g t = (a, b) /\ Re (g t) = a) ->
  forall t, Re (lg (g t)) = Re (lg (Cconj (g t))).
Proof. intros H Ha Hg t. rewrite H; [reflexivity|]. destruct (Hg t) as (b & E & _). rewrite E. exact Ha. Qed.
Lemma unit_of lg (UK : C -> C) q (w : R -> C) a (k : R) : reflecting lg -> 0 < a -> (forall t, Re (w t) = a) -> w 0 = RtoC a ->
  (forall t, UK (q, t) = cexp ((0, k*t)%R + lg (w t) - lg (Cconj (w t)))%C) -> unitary UK q.
Proof.
  intros H Ha Hw H0 E. split.
  - intros t. rewrite E. apply cexp_unit. rewrite H by (rewrite Hw; exact Ha). cunf. ring.
  - rewrite E, H0, conj_R. rewrite <- cexp_0. f_equal. apply C_ext; cunf; ring.
Qed.
Lemma unit_besselj lg nu : reflecting lg -> -1 < nu -> unitary (mellin_besselj lg nu) 1.
Proof.
  intros H Hn. apply (unit_of lg _ 1 (fun t => (1/2*(nu + 1), 1/2*t)) (1/2*(nu + 1)) (ln 2)); [exact H|lra|reflexivity|apply C_ext; cunf; ring|].
  intros t. unfold mellin_besselj. f_equal. f_equal; [f_equal; [apply C_ext; cunf; ring|]|]; f_equal; try f_equal; apply C_ext; cunf; field.
Qed.
Lemma unit_sphj lg nu : reflecting lg -> -(3/2) < nu -> unitary (mellin_sphj lg nu) (3/2).
Proof.
  intros H Hn. apply (unit_of lg _ (3/2) (fun t => (1/2*(nu + 3/2), 1/2*t)) (1/2*(nu + 3/2)) (ln 2)); [exact H|lra|reflexivity|apply C_ext; cunf; ring|].
  intros t. unfold mellin_sphj. f_equal. f_equal; [f_equal; [apply C_ext; cunf; ring|]|]; f_equal; try f_equal; apply C_ext; cunf; field.
Qed.
Lemma unit_sine lg : reflecting lg -> unitary (mellin_sine lg) (1/2).
Proof.
  intros H. apply (unit_of lg _ (1/2) (fun t => (3/4, 1/2*t)) (3/4) (ln 2)); [exact H|lra|reflexivity|apply C_ext; cunf; ring|].
  intros t. unfold mellin_sine. f_equal. f_equal; [f_equal; [apply C_ext; cunf; ring|]|]; f_equal; try f_equal; apply C_ext; cunf; field.
Qed.
Lemma unit_cosine lg : reflecting lg -> unitary (mellin_cosine lg) (1/2).
Proof.
  intros H. apply (unit_of lg _ (1/2) (fun t => (1/4, 1/2*t)) (1/4) (ln 2)); [exact H|lra|reflexivity|apply C_ext; cunf; ring|].
  intros t. unfold mellin_cosine. f_equal. f_equal; [f_equal; [apply C_ext; cunf; ring|]|]; f_equal; try f_equal; apply C_ext; cunf; field.
Qed.
(** ** grids *)
Lemma nth_map_seq {A} (f : nat -> A) n i d : (i < n)%nat -> nth i (map f (seq 0 n)) d = f i.
Proof. intros H. rewrite (nth_indep _ d (f 0%nat)) by (rewrite map_length, seq_length; exact H). rewrite map_nth, seq_nth by exact H. reflexivity. Qed.
Lemma grid_len x0 D n : length (log_grid x0 D n) = n. Proof. unfold log_grid. rewrite map_length, seq_length. reflexivity. Qed.
Lemma grid_nth x0 D n i : (i < n)%nat -> nth i (log_grid x0 D n) 0 = x0 * exp (INR i * D).
Proof. intros H. unfold log_grid. apply (nth_map_seq (fun i => x0 * exp (INR i * D))). exact H. Qed.
Lemma spacing_grid x0 D n : 0 < x0 -> (2 <= n)%nat -> spacing (log_grid x0 D n) = D.
Proof.
  intros H Hn. unfold spacing. rewrite grid_len, !grid_nth by lia. cbn [INR]. rewrite Rmult_0_l, exp_0.
  replace (x0 * exp (INR (n-1) * D) / (x0 * 1)) with (exp (INR (n-1) * D)) by (field; lra). rewrite ln_exp, minus_INR by lia. cbn [INR].
  assert (2 <= INR n) by (apply (le_INR 2); exact Hn). field. lra.
Qed.
Lemma log_even_grid x0 D n : 0 < x0 -> (2 <= n)%nat -> log_even (log_grid x0 D n) = true.
Proof.
  intros H Hn. unfold log_even. apply forallb_forall. intros i Hi. apply in_seq in Hi. rewrite grid_len in Hi. rewrite spacing_grid by assumption. rewrite !grid_nth by lia.
  destruct (Rle_dec _ _) as [_|N]; [reflexivity|exfalso]. apply N. clear N. assert (E := exp_pos D). assert (E' := exp_pos (INR i * D)).
  replace (x0 * exp (INR (S i) * D) / (x0 * exp (INR i * D)) - exp D) with 0.
  - rewrite Rabs_R0, Rabs_right by lra. lra.
  - rewrite S_INR. replace ((INR i + 1) * D) with (INR i * D + D) by ring. rewrite exp_plus. field. lra.
Qed.
(** the start of the output grid *)
Definition out0 (UK : C -> C) (q : R) (N : nat) (lowring : bool) (x0 D : R) (n : nat) : R := exp (lnxy UK q N lowring D - INR n * D) / x0.
Lemma init_grid UK q No lowring x0 D n : 0 < x0 -> (2 <= n)%nat -> (n <= fft_len No n)%nat ->
  mc_init (log_grid x0 D n) UK q No lowring =
    Some {| c_x := log_grid x0 D n; c_q := q; c_N := fft_len No n; c_y := log_grid (out0 UK q (fft_len No n) lowring x0 D n) D n;
            c_u := map (fun m => UK (q, (2 * PI / INR (fft_len No n) / D * INR m)%R) * cexp (0%R, (- (2 * PI * lnxy UK q (fft_len No n) lowring D / INR (fft_len No n) / D * INR m))%R))%C (seq 0 (fft_len No n/2 + 1));
            c_pre := map (fun _ => 1) (log_grid x0 D n); c_post := map (fun _ => 1) (log_grid x0 D n) |}.
Proof.
  intros H Hn HN. unfold mc_init. cbv zeta. rewrite grid_len, log_even_grid, spacing_grid by assumption. cbn [negb].
  replace (n <? 2)%nat with false by (symmetry; apply Nat.ltb_ge; exact Hn). replace (fft_len No n <? n)%nat with false by (symmetry; apply Nat.ltb_ge; exact HN). do 2 f_equal.
  set (s := lnxy UK q (fft_len No n) lowring D).
  apply (nth_ext _ _ (exp (s - D) / 0) 0); [rewrite map_length, rev_length, !grid_len; reflexivity|]. intros i Hi. rewrite map_length, rev_length, grid_len in Hi.
  rewrite (map_nth (fun v => exp (s - D)/v)), rev_nth, grid_len by (rewrite grid_len; exact Hi). rewrite !grid_nth by lia. unfold out0. fold s.
  replace (n - S i)%nat with ((n - 1) - i)%nat by lia. rewrite !minus_INR by lia. cbn [INR].
  replace (exp (s - INR n * D) / x0 * exp (INR i * D)) with (exp (s - INR n*D + INR i*D) / x0) by (rewrite exp_plus; field; lra).
  replace (s - INR n*D + INR i*D) with ((s - D) + - ((INR n - 1 - INR i)*D)) by ring. rewrite exp_plus, exp_Ropp. field. split; first [lra|apply Rgt_not_eq, exp_pos].
Qed.
Lemma out0_pos UK q N lowring x0 D n : 0 < x0 -> 0 < out0 UK q N lowring x0 D n.
Proof. intros H. unfold out0. apply Rdiv_lt_0_compat; [apply exp_pos|exact H]. Qed.
Lemma out0_out0 UK q N lowring x0 D n : 0 < x0 -> out0 UK q N lowring (out0 UK q N lowring x0 D n) D n = x0.
Proof. intros H. unfold out0. field. split; first [lra|apply Rgt_not_eq, exp_pos]. Qed.
(** ** the call *)
Definition fin (c : mc) (F : list R) : list R := map (fun i => nth i (c_pre c) 0 * Rpower (nth i (c_x c) 0) (- c_q c) * nth i F 0) (seq 0 (length (c_x c))).
Definition padded (c : mc) (F : list R) (el er : bool) : list R :=
  let Npad := (c_N c - length (c_x c))%nat in pad_l el (Npad/2) (fin c F) ++ fin c F ++ pad_r er (Npad - Npad/2) (fin c F).
Lemma padded_len c F el er : (length (c_x c) <= c_N c)%nat -> length (padded c F el er) = c_N c.
Proof.
  intros H. unfold padded, pad_l, pad_r, fin. rewrite !app_length, !map_length, !seq_length.
  assert ((c_N c - length (c_x c))/2 <= c_N c - length (c_x c))%nat by (apply Nat.div_le_upper_bound; lia). lia.
Qed.
Lemma call_core c F el er : length F = length (c_x c) -> (length (c_x c) <= c_N c)%nat -> (0 < c_N c)%nat ->
  mc_call c F el er = Some (c_y c, map (fun i => nth i (c_post c) 0 * Rpower (nth i (c_y c) 0) (- c_q c) *
     core (c_N c) (fun m => nth m (c_u c) (RtoC 0)) (fun j => nth j (padded c F el er) 0) (i + (c_N c - length (c_x c) - (c_N c - length (c_x c))/2))%nat) (seq 0 (length (c_x c)))).
Proof.
  intros HF HN H0. unfold mc_call. cbv zeta. rewrite (proj2 (Nat.eqb_eq _ _) HF). cbn [negb]. do 2 f_equal.
  set (Nx := length (c_x c)) in *. set (N := c_N c) in *. assert (HP : ((N - Nx)/2 <= N - Nx)%nat) by (apply Nat.div_le_upper_bound; lia).
  apply map_ext_in. intros i Hi. apply in_seq in Hi. f_equal. pose proof (padded_len c F el er HN) as L. fold N in L.
  change (map (fun i0 : nat => nth i0 (c_pre c) 0 * Rpower (nth i0 (c_x c) 0) (- c_q c) * nth i0 F 0) (seq 0 Nx)) with (fin c F).
  change (pad_l el ((N - Nx)/2) (fin c F) ++ fin c F ++ pad_r er (N - Nx - (N - Nx)/2) (fin c F)) with (padded c F el er).
  set (p := padded c F el er) in *. set (s := (N - Nx - (N - Nx)/2)%nat).
  assert (FS : forall (l : list R) a b j, (j < b)%nat -> nth j (firstn b (skipn a l)) 0 = nth (j + a) l 0).
  { intros l a. revert l. induction a as [|a IH]; intros l b j Hj.
    - cbn [skipn]. rewrite Nat.add_0_r. revert l b Hj. induction j as [|j IHj]; intros l b Hj; destruct b as [|b]; try lia; destruct l as [|v l]; try reflexivity. cbn [firstn nth]. apply IHj. lia.
    - destruct l as [|v l]; [cbn [skipn]; rewrite firstn_nil; destruct j; reflexivity|]. cbn [skipn]. rewrite IH by exact Hj. rewrite Nat.add_succ_r. reflexivity. }
  rewrite FS by lia. assert (Hs : (i + s < N)%nat) by lia.
  unfold hfft. rewrite map_map. rewrite (nth_map_seq (fun x => Re _ / INR N)) by exact Hs. unfold core. do 2 f_equal. apply csum_ext. intros m Hm. f_equal.
  assert (X : forall j, (j <= N/2)%nat -> nth j (map (fun m0 => (nth m0 (rfft p) (RtoC 0) * nth m0 (c_u c) (RtoC 0))%C) (seq 0 (N/2 + 1))) (RtoC 0) =
     (dft N (fun j0 => nth j0 p 0) j * nth j (c_u c) (RtoC 0))%C).
  { intros j Hj. rewrite (nth_map_seq (fun m0 => (nth m0 (rfft p) (RtoC 0) * nth m0 (c_u c) (RtoC 0))%C)) by lia. f_equal. unfold rfft. rewrite L.
    rewrite (nth_map_seq (fun m1 => csum N _)) by lia. reflexivity. }
  unfold herm. destruct (m <=? N/2)%nat eqn:E; [apply Nat.leb_le in E|apply Nat.leb_gt in E]; rewrite X by (try exact E; pose proof (Nat.mul_succ_div_gt N 2); lia); reflexivity.
Qed.
(** the coefficients of a unitary kernel *)
Lemma coeffs_good UK q N lowring D : unitary UK q -> 0 < D -> (0 < N)%nat -> (lowring = true \/ Nat.odd N = true) ->
  good N (fun m => nth m (map (fun m => UK (q, (2 * PI / INR N / D * INR m)%R) * cexp (0%R, (- (2 * PI * lnxy UK q N lowring D / INR N / D * INR m))%R))%C (seq 0 (N/2 + 1))) (RtoC 0)).
Proof.
  intros (U1 & U0) HD HN HL. assert (NN : INR N <> 0) by (apply not_0_INR; lia). set (s := lnxy UK q N lowring D).
  set (g := fun m => (UK (q, (2 * PI / INR N / D * INR m)%R) * cexp (0%R, (- (2 * PI * s / INR N / D * INR m))%R))%C).
  assert (E : forall m, (m <= N/2)%nat -> nth m (map g (seq 0 (N/2 + 1))) (RtoC 0) = g m) by (intros; apply nth_map_seq; lia).
  split; [|split].
  - intros m Hm. rewrite E by exact Hm. unfold g. rewrite conj_mult. set (a := UK _). set (b := cexp _).
    assert (Hb : (b * Cconj b)%C = RtoC 1) by (apply cexp_unit; reflexivity). assert (Ha : (a * Cconj a)%C = RtoC 1) by apply U1.
    transitivity ((a * Cconj a) * (b * Cconj b))%C; [ring|]. rewrite Ha, Hb. ring.
  - rewrite E by lia. unfold g. cbn [INR]. rewrite !Rmult_0_r. rewrite U0, Ropp_0. change (0%R, 0%R) with (RtoC 0). rewrite cexp_0. cunf. ring.
  - intros Ev. rewrite E by lia. destruct HL as [HL|HL]; [|exfalso; rewrite <- Nat.negb_even in HL; rewrite Ev in HL; discriminate].
    apply Nat.even_spec in Ev as Ev'. destruct Ev' as [h Hh]. assert (Hd : (N/2)%nat = h) by (rewrite Hh, Nat.mul_comm; apply Nat.div_mul; lia). rewrite Hd.
    assert (EN : INR N = 2 * INR h) by (rewrite Hh, mult_INR; cbn [INR]; ring).
    assert (Hh0 : INR h <> 0) by (intros Z; apply NN; rewrite EN, Z; ring). unfold g, s, lnxy. rewrite HL, Ev. cbn [andb].
    replace (2 * PI / INR N / D * INR h) with (PI / D) by (rewrite EN; field; split; first [exact Hh0|lra]). pose proof PI_RGT_0 as PP.
    replace (2 * PI * (D / PI * angle (UK (q, PI / D))) / INR N / D * INR h) with (angle (UK (q, PI / D))) by (rewrite EN; field; repeat split; first [exact Hh0|lra]).
    apply angle_real.
Qed.
