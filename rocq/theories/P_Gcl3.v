From Coq Require Import String Reals ZArith Lra Lia Bool.
From Coq Require Import List.
From Coquelicot Require Import Coquelicot.
From Verif Require Import M_Spline S_Spline M_Gcl S_Gcl P_Gcl P_Gcl2 M_GclFit P_Spline P_SplineV Props_Spline.
From Verif Require M_Disc Props_Disc.
Import ListNotations.
Local Open Scope R_scope.

Lemma inc_le (xs : list R) i j : increasing xs -> (i <= j)%nat -> (j < length xs)%nat -> nth i xs 0 <= nth j xs 0.
Proof. intros I H L. induction H as [|j H IH]; [lra|]. specialize (I j L). specialize (IH ltac:(lia)). lra. Qed.
Lemma inc_lt (xs : list R) i j : increasing xs -> (i < j)%nat -> (j < length xs)%nat -> nth i xs 0 < nth j xs 0.
Proof. intros I H L. assert (A := inc_le xs (S i) j I H L). specialize (I i ltac:(lia)). lra. Qed.

Section T.
Variable E : env.
Variable g : engine.
Variables k T : list R.
Variable t : table.
Hypothesis MT : make_table E g k T = Some t.
Hypothesis L2 : (2 <= length k)%nat.
Hypothesis LT : (length k <= length T)%nat.
Hypothesis INC : increasing k.
Hypothesis P0 : 0 < first_x k.
Hypothesis N0 : e_nw g (first_x k) <> 0.
Hypothesis N1 : e_nw g (last_x k) <> 0.
Lemma tab_form : exists s f d, cubic_spline (v_w0 E) k T = Some s /\ t = {| t_spl := s; t_k0 := first_x k; t_k1 := last_x k; t_T0 := nth 0 T 0; t_T1 := nth (length k - 1) T 0; t_n0 := e_nw g (first_x k); t_n1 := e_nw g (last_x k) |} /\
  (forall x, evaluate s x = Some (f x)) /\ (forall i, (i < length k)%nat -> f (nth i k 0) = nth i T 0) /\
  (forall i, (S i < length k)%nat -> exists a b c e, forall x, nth i k 0 <= x <= nth (S i) k 0 -> f x = a + b * x + c * x * x + e * x * x * x) /\ C2_on (first_x k) (last_x k) f d.
Proof.
  destruct (C111_cubic_spline (v_w0 E) k T L2 LT INC) as (s & Hs & f & d & He & Hn & _ & Hp & HC). exists s, f, d. split; [exact Hs|]. split.
  - revert MT. unfold make_table. rewrite Hs. intros [= <-]. reflexivity.
  - split; [intros x; apply He|]. split; [exact Hn|]. split; [exact Hp|exact HC].
Qed.
Lemma table_points i : (i < length k)%nat -> spline_transfer g t (nth i k 0) = nth i T 0.
Proof.
  intros H. destruct tab_form as (s & f & d & _ & -> & He & Hn & _). unfold spline_transfer. cbn [t_spl t_k0 t_k1 t_T0 t_T1 t_n0 t_n1].
  assert (A := inc_le k 0 i INC ltac:(lia) H). assert (B := inc_le k i (length k - 1) INC ltac:(lia) ltac:(lia)). fold (first_x k) in A. fold (last_x k) in B.
  destruct (Rle_dec (nth i k 0) 0); [lra|]. destruct (Rle_dec (nth i k 0) (first_x k)) as [C|C].
  - assert (i0 : i = 0%nat). { destruct i as [|i]; [reflexivity|]. assert (D := inc_lt k 0 (S i) INC ltac:(lia) H). unfold first_x in C. lra. }
    subst i. fold (first_x k). field. exact N0.
  - destruct (Rle_dec (last_x k) (nth i k 0)) as [D|D].
    + assert (i1 : i = (length k - 1)%nat). { destruct (Nat.eq_dec i (length k - 1)); [assumption|]. assert (F := inc_lt k i (length k - 1) INC ltac:(lia) ltac:(lia)). unfold last_x in D. lra. }
      rewrite i1. fold (last_x k). field. exact N1.
    + rewrite He. cbn [value]. apply Hn. exact H.
Qed.
Lemma below x : x <= 0 -> spline_transfer g t x = 0.
Proof. intros H. unfold spline_transfer. destruct (Rle_dec x 0); [reflexivity|lra]. Qed.
Lemma low_k x : 0 < x <= first_x k -> spline_transfer g t x = nth 0 T 0 * e_nw g x / e_nw g (first_x k).
Proof. intros H. destruct tab_form as (s & f & d & _ & -> & _). unfold spline_transfer. cbn [t_spl t_k0 t_k1 t_T0 t_T1 t_n0 t_n1]. destruct (Rle_dec x 0); [lra|]. destruct (Rle_dec x (first_x k)); [reflexivity|lra]. Qed.
Lemma high_k x : last_x k <= x -> spline_transfer g t x = nth (length k - 1) T 0 * e_nw g x / e_nw g (last_x k).
Proof.
  intros H. destruct tab_form as (s & f & d & _ & -> & _). unfold spline_transfer. cbn [t_spl t_k0 t_k1 t_T0 t_T1 t_n0 t_n1]. assert (A := inc_lt k 0 (length k - 1) INC ltac:(lia) ltac:(lia)). fold (first_x k) (last_x k) in A.
  destruct (Rle_dec x 0); [lra|]. destruct (Rle_dec x (first_x k)); [lra|]. destruct (Rle_dec (last_x k) x); [reflexivity|lra].
Qed.
Lemma glue (f a b : R -> R) x : continuous a x -> continuous b x -> a x = f x -> b x = f x -> locally x (fun y => f y = a y \/ f y = b y) -> continuous f x.
Proof.
  intros Ca Cb Ea Eb L. apply filterlim_locally. intros eps.
  assert (A := proj1 (filterlim_locally a (a x)) Ca eps). assert (B := proj1 (filterlim_locally b (b x)) Cb eps).
  generalize (filter_and _ _ L (filter_and _ _ A B)). apply filter_imp. intros y [[H|H] [HA HB]]; rewrite H; [rewrite <- Ea; exact HA|rewrite <- Eb; exact HB].
Qed.
Lemma transfer_cont x : (forall y, 0 < y -> continuous (e_nw g) y) -> 0 < x -> continuous (spline_transfer g t) x.
Proof.
  intros Cn Px. destruct tab_form as (s & f & d & Hs & Ht & He & Hn & Hp & (d2 & HC)). assert (A := inc_lt k 0 (length k - 1) INC ltac:(lia) ltac:(lia)). fold (first_x k) (last_x k) in A.
  assert (CN : forall c u v, 0 < v -> continuous (fun y => c * e_nw g y / u) v).
  { intros c u v Hv. apply (continuous_mult (fun y => c * e_nw g y) (fun _ => / u)); [|apply continuous_const]. apply (continuous_mult (fun _ => c) (e_nw g)); [apply continuous_const|apply Cn; exact Hv]. }
  assert (CP : forall a b c e v, continuous (fun y : R => a + b * y + c * y * y + e * y * y * y) v).
  { intros a b c e v. apply (ex_derive_continuous (fun y : R => a + b * y + c * y * y + e * y * y * y)). auto_derive. exact I. }
  assert (MID : forall y, first_x k <= y <= last_x k -> spline_transfer g t y = f y).
  { intros y Hy. destruct (Req_EM_T y (first_x k)) as [->|n0].
    - unfold first_x. rewrite (table_points 0) by lia. symmetry. apply Hn. lia.
    - destruct (Req_EM_T y (last_x k)) as [->|n1].
      + unfold last_x. rewrite (table_points (length k - 1)) by lia. symmetry. apply Hn. lia.
      + rewrite Ht. unfold spline_transfer. cbn [t_spl t_k0 t_k1 t_T0 t_T1 t_n0 t_n1]. destruct (Rle_dec y 0); [lra|]. destruct (Rle_dec y (first_x k)); [lra|]. destruct (Rle_dec (last_x k) y); [lra|]. rewrite He. reflexivity. }
  assert (Eloc : forall (a b x : R), a < x < b -> locally x (fun y => a < y < b)).
  { intros a b x0 Hx. apply filter_and; [apply (open_gt a x0); apply Hx|apply (open_lt b x0); apply Hx]. }
  destruct (Rtotal_order x (first_x k)) as [L|[L|L]].
  - apply (continuous_ext_loc (spline_transfer g t) (fun y => nth 0 T 0 * e_nw g y / e_nw g (first_x k)) x); [|apply CN; exact Px].
    generalize (Eloc 0 (first_x k) x ltac:(lra)). apply filter_imp. intros y Hy. symmetry. apply low_k. lra.
  - destruct (Hp 0%nat ltac:(lia)) as (a & b & c & e & HP).
    apply (glue _ (fun y => nth 0 T 0 * e_nw g y / e_nw g (first_x k)) (fun y => a + b * y + c * y * y + e * y * y * y)).
    + apply CN. exact Px.
    + apply CP.
    + rewrite L. symmetry. apply low_k. lra.
    + rewrite L. rewrite MID by lra. symmetry. apply HP. unfold first_x. assert (Q := INC 0%nat ltac:(lia)). lra.
    + assert (Q := INC 0%nat ltac:(lia)). fold (first_x k) in Q. generalize (Eloc 0 (nth 1 k 0) x ltac:(lra)). apply filter_imp. intros y Hy. destruct (Rle_dec y (first_x k)) as [Y|Y]; [left; apply low_k; lra|right].
      assert (Q' := inc_le k 1 (length k - 1) INC ltac:(lia) ltac:(lia)). fold (last_x k) in Q'. rewrite MID by lra. apply HP. unfold first_x in Y. lra.
  - destruct (Rtotal_order x (last_x k)) as [U|[U|U]].
    + destruct (HC x ltac:(lra)) as (D & _). apply (continuous_ext_loc (spline_transfer g t) f x); [|apply (ex_derive_continuous f); exists (d x); exact D].
      generalize (Eloc (first_x k) (last_x k) x ltac:(lra)). apply filter_imp. intros y Hy. symmetry. apply MID. lra.
    + set (n := (length k - 2)%nat). assert (Hn1 : S n = (length k - 1)%nat) by (unfold n; lia). destruct (Hp n ltac:(lia)) as (a & b & c & e & HP). rewrite Hn1 in HP. fold (last_x k) in HP.
      assert (Q := INC n ltac:(lia)). rewrite Hn1 in Q. fold (last_x k) in Q. assert (Q' := inc_le k 0 n INC ltac:(lia) ltac:(lia)). fold (first_x k) in Q'.
      apply (glue _ (fun y => a + b * y + c * y * y + e * y * y * y) (fun y => nth (length k - 1) T 0 * e_nw g y / e_nw g (last_x k))).
      * apply CP.
      * apply CN. exact Px.
      * rewrite U, MID by lra. symmetry. apply HP. lra.
      * rewrite U. symmetry. apply high_k. lra.
      * generalize (open_gt (nth n k 0) x ltac:(lra)). apply filter_imp. intros y Hy. destruct (Rle_dec (last_x k) y) as [Y|Y]; [right; apply high_k; lra|left]. rewrite MID by lra. apply HP. lra.
    + apply (continuous_ext_loc (spline_transfer g t) (fun y => nth (length k - 1) T 0 * e_nw g y / e_nw g (last_x k)) x); [|apply CN; exact Px].
      generalize (open_gt (last_x k) x U). apply filter_imp. intros y Hy. symmetry. apply high_k. lra.
Qed.
End T.

(** ** the analytic fits *)
Lemma exp1_gt : 1 < exp 1.
Proof. assert (H := exp_ineq1 1 ltac:(lra)). lra. Qed.
Lemma no_wiggle_range h Om keq s ag k : 0 < h -> 0 < Om -> 0 < keq -> 0 < ag -> 0 <= k -> 0 < no_wiggle h Om keq s ag k <= 1.
Proof.
  intros Hh HO Hk Ha Hx. unfold no_wiggle. set (x4 := (43/100 * (k * h * s / h)) ^ 4).
  assert (X4 : 0 <= x4). { unfold x4. replace ((43/100 * (k * h * s / h)) ^ 4) with (((43/100 * (k * h * s / h)) ^ 2) ^ 2) by ring. apply pow2_ge_0. }
  assert (G : 0 < ag + (1 - ag) / (1 + x4)). { replace (ag + (1 - ag) / (1 + x4)) with ((ag * x4 + 1) / (1 + x4)) by (field; lra). apply Rdiv_lt_0_compat; nra. }
  assert (O2 : 0 < Om * h ^ 2) by (apply Rmult_lt_0_compat; [exact HO|apply pow_lt; exact Hh]).
  set (ge := Om * h ^ 2 * (ag + (1 - ag) / (1 + x4))). assert (Ge : 0 < ge) by (apply Rmult_lt_0_compat; assumption).
  set (q := k * h / (1341/100 * keq) * (Om * h ^ 2) / ge).
  assert (Q : 0 <= q). { unfold q. apply Rmult_le_pos; [|left; apply Rinv_0_lt_compat; exact Ge]. apply Rmult_le_pos; [|lra]. apply Rmult_le_pos; [apply Rmult_le_pos; lra|]. left. apply Rinv_0_lt_compat. lra. }
  assert (L : 0 < ln (2 * exp 1 + 18/10 * q)). { rewrite <- ln_1. apply ln_increasing; [lra|]. assert (X := exp1_gt). lra. }
  assert (C : 0 <= (142/10 + 731 / (1 + 625/10 * q)) * q ^ 2). { apply Rmult_le_pos; [|apply pow2_ge_0]. assert (0 < 731 / (1 + 625/10 * q)) by (apply Rdiv_lt_0_compat; lra). lra. }
  set (l := ln (2 * exp 1 + 18/10 * q)) in *. set (cq := (142/10 + 731 / (1 + 625/10 * q)) * q ^ 2) in *. split; [apply Rdiv_lt_0_compat; lra|].
  apply (Rmult_le_reg_r (l + cq)); [lra|]. unfold Rdiv. rewrite Rmult_assoc, Rinv_l by lra. lra.
Qed.
Lemma no_wiggle_0 h Om keq s ag : no_wiggle h Om keq s ag 0 = 1.
Proof.
  unfold no_wiggle. replace (0 * h / (1341/100 * keq)) with 0 by (unfold Rdiv; ring). set (ge := Om * h ^ 2 * _). replace (0 * (Om * h ^ 2) / ge) with 0 by (unfold Rdiv; ring).
  replace (2 * exp 1 + 18/10 * 0) with (2 * exp 1) by ring. assert (L : 0 < ln (2 * exp 1)) by (rewrite <- ln_1; apply ln_increasing; [lra|]; assert (X := exp1_gt); lra).
  replace ((142/10 + 731 / (1 + 625/10 * 0)) * 0 ^ 2) with 0 by ring. field. lra.
Qed.
Lemma ln_le_x x : 0 < x -> 0 < ln (1 + x) <= x.
Proof. intros H. split; [rewrite <- ln_1; apply ln_increasing; lra|]. rewrite <- (ln_exp x) at 2. left. apply ln_increasing; [lra|]. apply exp_ineq1. lra. Qed.
Lemma bbks_range h Om Ob k : 0 < h -> 0 < Om -> 0 < k -> 0 < bbks h Om Ob k <= 1.
Proof.
  intros Hh HO Hk. unfold bbks. set (q := k / (Om * h) * exp (Ob + sqrt (2 * h) * Ob / Om)).
  assert (Q : 0 < q). { unfold q. apply Rmult_lt_0_compat; [apply Rdiv_lt_0_compat; [exact Hk|apply Rmult_lt_0_compat; assumption]|apply exp_pos]. }
  destruct (ln_le_x (234/100 * q) ltac:(lra)) as (A & B). set (a := ln (1 + 234/100 * q) / (234/100 * q)).
  assert (HA : 0 < a <= 1). { unfold a. split; [apply Rdiv_lt_0_compat; lra|]. apply (Rmult_le_reg_r (234/100 * q)); [lra|]. unfold Rdiv at 1. rewrite Rmult_assoc, Rinv_l by lra. lra. }
  set (p := 1 + _ + _ + _ + _). assert (P : 1 <= p). { unfold p. assert (0 <= (161/10 * q) ^ 2) by apply pow2_ge_0. assert (0 <= (547/100 * q) ^ 3) by (apply pow_le; lra). assert (0 <= (671/100 * q) ^ 4) by (apply pow_le; lra). lra. }
  assert (HP : 0 < Rpower p (- (1/4)) <= 1). { split; [apply exp_pos|]. rewrite Rpower_Ropp. assert (1 <= Rpower p (1/4)). { apply (Rle_trans _ (Rpower p 0)); [rewrite Rpower_O by lra; lra|]. apply Rle_Rpower; lra. } apply (Rle_trans _ (/ 1)); [apply Rinv_le_contravar; lra|rewrite Rinv_1; lra]. }
  split; [apply Rmult_lt_0_compat; lra|]. apply (Rle_trans _ (1 * 1)); [apply Rmult_le_compat; lra|lra].
Qed.
