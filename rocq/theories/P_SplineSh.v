From Coq Require Import Reals List ZArith Lra Lia.
From Coquelicot Require Import Coquelicot.
From Verif Require Import M_Spline S_Spline P_Spline P_SplineV.
Import ListNotations.
Local Open Scope R_scope.
Definition uniform (xs : list R) : Prop := exists T, 0 < T /\ forall i, (S i < length xs)%nat -> nth (S i) xs 0 = nth i xs 0 + T.
Lemma uniform_inc xs : uniform xs -> increasing xs.
Proof. intros (T & P & E) i Hi. rewrite E by exact Hi. lra. Qed.
Section Sh.
Variables (xs ys : list R) (tau : R).
Hypothesis H2 : (2 <= length xs)%nat.
Hypothesis Hu : uniform xs.
Hypothesis Ht : 0 <= tau < 1.
Let X := sh_X xs tau.
Let Y := sh_Y ys tau.
Let T := at_ xs 1%nat - at_ xs 0%nat.
Lemma T_pos : 0 < T.
Proof. destruct Hu as (T' & P & E). unfold T, at_. rewrite E by lia. lra. Qed.
Lemma X_step j : (S j < S (length xs))%nat -> X (S j) = X j + T.
Proof.
  intros Hj. unfold X, sh_X. fold T. destruct j as [|j]; [ring|]. destruct Hu as (T' & P & E). unfold T, at_. rewrite (E j) by lia. rewrite (E 0%nat) by lia. ring.
Qed.
Lemma X_inc j : (S j < S (length xs))%nat -> X j < X (S j).
Proof. intros H. rewrite X_step by exact H. assert (A := T_pos). lra. Qed.
Lemma Y_step i : tau * Y i + (1 - tau) * Y (S i) = at_ ys i.
Proof. unfold Y. cbn [sh_Y]. field. lra. Qed.
Lemma sh_eval x : first_x xs <= x <= last_x xs -> evaluate (ShiftS xs ys tau) x = sel (S (length xs)) X (lin_y X Y) x.
Proof. intros H. unfold evaluate. rewrite inside_ok by exact H. reflexivity. Qed.
Lemma sh_agree : agree (S (length xs)) X (lin_y X Y).
Proof. intros i Hi. unfold lin_y. rewrite (X_step (S i)) by lia. rewrite (X_step i) by lia. assert (A := T_pos). field. lra. Qed.
Lemma HN' : (2 <= S (length xs))%nat. Proof. lia. Qed.
Lemma sh_node i : (i < length xs)%nat -> evaluate (ShiftS xs ys tau) (nth i xs 0) = Some (nth i ys 0).
Proof.
  intros Hi. assert (A := T_pos). assert (B := bounds xs H2 (uniform_inc xs Hu) i Hi). unfold at_ in B. rewrite sh_eval by exact B.
  assert (E : X (S i) = nth i xs 0 + tau * T) by reflexivity. assert (E' := X_step i ltac:(lia)).
  assert (Q : 0 <= tau * T) by (apply Rmult_le_pos; lra). assert (Q' : 0 < (1 - tau) * T) by (apply Rmult_lt_0_compat; lra).
  rewrite (sel_ok (S (length xs)) X HN' X_inc _ _ i sh_agree ltac:(lia)).
  - f_equal. unfold lin_y. rewrite E'. assert (X i = nth i xs 0 - (1 - tau) * T) by lra. rewrite H.
    replace ((nth i xs 0 - (nth i xs 0 - (1 - tau) * T))) with ((1 - tau) * T) by ring. replace (nth i xs 0 - (1 - tau) * T + T - (nth i xs 0 - (1 - tau) * T)) with T by ring.
    fold (at_ ys i). rewrite <- (Y_step i). field. lra.
  - rewrite E. split; [|lra]. lra.
Qed.
Lemma sh_const c : (forall i, (i < length xs)%nat -> nth i ys 0 = c) -> forall x, first_x xs <= x <= last_x xs -> evaluate (ShiftS xs ys tau) x = Some c.
Proof.
  intros HY x Hx. rewrite sh_eval by exact Hx. assert (A := T_pos).
  assert (YC : forall j, (j <= length xs)%nat -> Y j = c).
  { induction j as [|j IH]; intros Hj; unfold Y in *; cbn [sh_Y]; [apply HY; lia|]. rewrite IH by lia. unfold at_. rewrite HY by lia. field. lra. }
  assert (G : X 0%nat <= x <= X (S (length xs) - 1)%nat).
  { assert (Q : 0 <= tau * T) by (apply Rmult_le_pos; lra). assert (Q' : 0 < (1 - tau) * T) by (apply Rmult_lt_0_compat; lra). unfold first_x, last_x in Hx.
    replace (S (length xs) - 1)%nat with (S (length xs - 1)) by lia. unfold X, sh_X. fold T. unfold at_. lra. }
  destruct (lookup_some (S (length xs)) X HN' X_inc x G) as (j & _ & Hj & Hb).
  rewrite (sel_ok (S (length xs)) X HN' X_inc _ _ j sh_agree ltac:(lia) Hb). f_equal. unfold lin_y. rewrite !YC by lia. unfold Rdiv. ring.
Qed.
End Sh.
Lemma Int_part_Z z v : v = IZR z -> Int_part v = z.
Proof.
  intros ->. destruct (base_Int_part (IZR z)) as [A B]. apply le_IZR in A. 
  assert (IZR z - 1 < IZR (Int_part (IZR z))) by lra. rewrite <- minus_IZR in H. apply lt_IZR in H. lia.
Qed.
