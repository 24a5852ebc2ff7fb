From Coq Require Import Reals List ZArith Lra Lia.
From Verif Require Import M_Spline.
Import ListNotations.
Local Open Scope R_scope.

(* --- the search --- *)
Lemma loop_ok : forall fuel x X ilo ihi i, (0 <= ilo <= i)%Z -> (i <= ihi)%Z -> X (Z.to_nat ilo) <= x -> x <= X (Z.to_nat (ihi + 1)) ->
  (ihi - ilo < Z.of_nat fuel)%Z ->
  exists j, lookup_loop fuel x X ilo ihi i = Some j /\ (ilo <= j <= ihi)%Z /\ X (Z.to_nat j) <= x <= X (Z.to_nat (j + 1)).
Proof.
  induction fuel as [|f IH]; intros x X ilo ihi i Hl Hh H1 H2 Hf; [lia|]. cbn [lookup_loop].
  destruct (Z.ltb_spec i 0); [lia|]. destruct (Rlt_dec x (X (Z.to_nat i))) as [L|L].
  - assert (ilo <> i) by (intros ->; lra). 
    assert (Hq : (ilo <= Z.quot (ilo + (i - 1)) 2 <= i - 1)%Z).
    { rewrite Z.quot_div_nonneg by lia. split; [apply Z.div_le_lower_bound; lia|]. apply Z.lt_succ_r. apply Z.div_lt_upper_bound; lia. }
    destruct (IH x X ilo (i - 1)%Z (Z.quot (ilo + (i - 1)) 2)) as (j & A & B & C); try lia; auto.
    + replace (i - 1 + 1)%Z with i by lia. lra.
    + exists j. split; [exact A|]. split; [lia|exact C].
  - destruct (Rlt_dec (X (Z.to_nat (i + 1))) x) as [G|G].
    + assert (i <> ihi) by (intros ->; lra).
      assert (Hq : (i + 1 <= Z.quot (i + 1 + ihi) 2 <= ihi)%Z).
      { rewrite Z.quot_div_nonneg by lia. split; [apply Z.div_le_lower_bound; lia|]. apply Z.lt_succ_r. apply Z.div_lt_upper_bound; lia. }
      destruct (IH x X (i + 1)%Z ihi (Z.quot (i + 1 + ihi) 2)) as (j & A & B & C); try lia; auto.
      * lra.
      * exists j. split; [exact A|]. split; [lia|exact C].
    + exists i. split; [reflexivity|]. split; [lia|]. lra.
Qed.
Lemma guess_range N x X : (2 <= N)%nat -> X 0%nat <= x -> x < X (N - 1)%nat ->
  (0 <= Int_part (INR (N - 1) * (x - X 0%nat) / (X (N - 1)%nat - X 0%nat)) <= Z.of_nat N - 2)%Z.
Proof.
  intros HN H0 H1. set (v := INR (N - 1) * (x - X 0%nat) / (X (N - 1)%nat - X 0%nat)).
  assert (Hd : 0 < X (N - 1)%nat - X 0%nat) by lra.
  assert (Hn : 0 < INR (N - 1)) by (apply lt_0_INR; lia).
  assert (V0 : 0 <= v). { unfold v. apply Rmult_le_pos; [apply Rmult_le_pos; lra|]. left. apply Rinv_0_lt_compat. exact Hd. }
  assert (V1 : v < INR (N - 1)).
  { unfold v. apply (Rmult_lt_reg_r (X (N - 1)%nat - X 0%nat)); [exact Hd|]. unfold Rdiv. rewrite Rmult_assoc, Rinv_l by lra. rewrite Rmult_1_r. apply Rmult_lt_compat_l; lra. }
  destruct (base_Int_part v) as [B1 B2]. split.
  - assert (IZR (-1) < IZR (Int_part v)) by (cbn; lra). apply lt_IZR in H. lia.
  - rewrite INR_IZR_INZ in V1. assert (IZR (Int_part v) < IZR (Z.of_nat (N - 1))) by lra. apply lt_IZR in H. lia.
Qed.
Theorem lookup_ok N x X : (2 <= N)%nat -> X 0%nat <= x -> x <= X (N - 1)%nat ->
  exists j, lookup N x N X = Some (Z.of_nat j) /\ (j + 2 <= N)%nat /\ X j <= x <= X (S j) \/
            lookup N x N X = Some (Z.of_nat j) /\ (j + 2 = N)%nat /\ x = X (S j).
Proof.
  intros HN H0 H1. unfold lookup. destruct (Nat.leb_spec 2 N); [|lia].
  destruct (Rle_dec (X 0%nat) x); [|contradiction]. destruct (Rle_dec x (X (N - 1)%nat)); [|contradiction]. cbn [andb].
  destruct (Req_EM_T x (X (N - 1)%nat)) as [E|E].
  - exists (N - 2)%nat. right. split; [f_equal; lia|]. split; [lia|]. rewrite E. f_equal. lia.
  - assert (Hg := guess_range N x X HN H0 ltac:(lra)).
    destruct (loop_ok N x X 0 (Z.of_nat N - 2) _ ltac:(split; [lia|exact (proj1 Hg)]) (proj2 Hg)) as (j & A & B & C).
    + exact H0.
    + replace (Z.to_nat (Z.of_nat N - 2 + 1)) with (N - 1)%nat by lia. exact H1.
    + lia.
    + exists (Z.to_nat j). left. rewrite Z2Nat.id by lia. split; [exact A|]. split; [lia|]. replace (S (Z.to_nat j)) with (Z.to_nat (j + 1)) by lia. exact C.
Qed.

(* --- loops and updates --- *)
Lemma for_up_inv (I : nat -> work -> Prop) body : forall n i0 w,
  (forall i w, (i0 <= i < i0 + n)%nat -> I i w -> I (S i) (body i w)) -> I i0 w -> I (i0 + n)%nat (for_up n i0 body w).
Proof.
  induction n as [|n IH]; intros i0 w H H0; cbn [for_up].
  - rewrite Nat.add_0_r. exact H0.
  - replace (i0 + S n)%nat with (S i0 + n)%nat by lia. apply IH; [|apply H; [lia|exact H0]]. intros i v Hi. apply H. lia.
Qed.
Lemma for_down_inv (I : nat -> work -> Prop) body : forall n w,
  (forall i w, (i < n)%nat -> I (S i) w -> I i (body i w)) -> I n w -> I 0%nat (for_down n body w).
Proof.
  induction n as [|n IH]; intros w H H0; cbn [for_down]; [exact H0|]. apply IH; [|apply H; [lia|exact H0]]. intros i v Hi. apply H. lia.
Qed.
Lemma upd_eq a i v : upd a i v i = v.
Proof. unfold upd. rewrite Nat.eqb_refl. reflexivity. Qed.
Lemma upd_ne a i v j : j <> i -> upd a i v j = a j.
Proof. intros H. unfold upd. destruct (Nat.eqb_spec j i); [contradiction|reflexivity]. Qed.
Ltac arr := cbn [set_b set_c set_d w_b w_c w_d]; repeat (rewrite upd_eq || rewrite upd_ne by lia).

Section Cubic.
Variables (N : nat) (X Y : arr).
Hypothesis HN : (3 <= N)%nat.
Hypothesis Hinc : forall i, (S i < N)%nat -> X i < X (S i).
Let h i := X (S i) - X i.
Let D i := (Y (S i) - Y i) / h i.
Lemma h_pos i : (S i < N)%nat -> 0 < h i.
Proof. intros H. unfold h. specialize (Hinc i H). lra. Qed.

Definition I_setup (i : nat) (w : work) : Prop :=
  (forall j, (j < i)%nat -> w_d w j = h j) /\ (forall j, (1 <= j < i)%nat -> w_b w j = 2 * (h (j - 1) + h j)) /\
  (forall j, (1 <= j < i)%nat -> w_c w j = D j - D (j - 1)) /\ w_c w i = D (i - 1).
Lemma setup_ok w0 : I_setup (N - 1) (setup N X Y w0).
Proof.
  unfold setup. replace (N - 1)%nat with (1 + (N - 2))%nat by lia. apply for_up_inv.
  - intros i w Hi (A & B & C & E). unfold setup_step. cbv zeta. split; [|split; [|split]].
    + intros j Hj. destruct (Nat.eq_dec j i) as [->|Hn]; arr; [reflexivity|apply A; lia].
    + intros j Hj. destruct (Nat.eq_dec j i) as [->|Hn]; arr; [rewrite A by lia; reflexivity|apply B; lia].
    + intros j Hj. destruct (Nat.eq_dec j i) as [->|Hn]; arr; [rewrite E; reflexivity|apply C; lia].
    + arr. replace (S i - 1)%nat with i by lia. reflexivity.
  - split; [|split; [|split]].
    + intros j Hj. replace j with 0%nat by lia. arr. reflexivity.
    + intros j Hj. lia. + intros j Hj. lia.
    + arr. reflexivity.
Qed.
Definition cint i := D i - D (i - 1).
Definition bb i := if Nat.eqb i 0 then - h 0 else if Nat.eqb i (N - 1) then - h (N - 2) else 2 * (h (i - 1) + h i).
Definition cc0 := if Nat.ltb 3 N then (cint 2 / (X 3%nat - X 1%nat) - cint 1 / (X 2%nat - X 0%nat)) * h 0 * h 0 / (X 3%nat - X 0%nat) else 0.
Definition ccl := if Nat.ltb 3 N then - (cint (N - 2) / (X (N - 1)%nat - X (N - 3)%nat) - cint (N - 3) / (X (N - 2)%nat - X (N - 4)%nat)) * h (N - 2) * h (N - 2) / (X (N - 1)%nat - X (N - 4)%nat) else 0.
Definition cc i := if Nat.eqb i 0 then cc0 else if Nat.eqb i (N - 1) then ccl else cint i.
Definition I_sys (w : work) : Prop :=
  (forall j, (j < N)%nat -> w_b w j = bb j) /\ (forall j, (j < N)%nat -> w_c w j = cc j) /\ (forall j, (j < N - 1)%nat -> w_d w j = h j).
Lemma ends_ok w : I_setup (N - 1) w -> I_sys (ends N X w).
Proof.
  intros (A & B & C & _). unfold ends. cbv zeta.
  destruct (Nat.ltb_spec 3 N) as [L|L].
  - split; [|split].
    + intros j Hj. unfold bb. destruct (Nat.eqb_spec j 0) as [->|E0]; [arr; rewrite A by lia; reflexivity|].
      destruct (Nat.eqb_spec j (N - 1)) as [->|E1]; arr; [rewrite A by lia; reflexivity|]. apply B. lia.
    + intros j Hj. unfold cc, cc0, ccl. destruct (Nat.ltb_spec 3 N); [|lia]. destruct (Nat.eqb_spec j 0) as [->|E0].
      * arr. rewrite !A by lia. rewrite !C by lia. reflexivity.
      * destruct (Nat.eqb_spec j (N - 1)) as [->|E1]; arr; [|apply C; lia]. rewrite !A by lia. rewrite !C by lia. reflexivity.
    + intros j Hj. arr. apply A. exact Hj.
  - split; [|split].
    + intros j Hj. unfold bb. destruct (Nat.eqb_spec j 0) as [->|E0]; [arr; rewrite A by lia; reflexivity|].
      destruct (Nat.eqb_spec j (N - 1)) as [->|E1]; arr; [rewrite A by lia; reflexivity|]. apply B. lia.
    + intros j Hj. unfold cc, cc0, ccl. destruct (Nat.ltb_spec 3 N); [lia|]. destruct (Nat.eqb_spec j 0) as [->|E0]; [arr; reflexivity|].
      destruct (Nat.eqb_spec j (N - 1)) as [->|E1]; arr; [reflexivity|]. apply C. lia.
    + intros j Hj. arr. apply A. exact Hj.
Qed.
Fixpoint bp (i : nat) : R := match i with O => bb 0 | S j => bb (S j) - h j / bp j * h j end.
Fixpoint cp (i : nat) : R := match i with O => cc 0 | S j => cc (S j) - h j / bp j * cp j end.
Definition I_fwd (i : nat) (w : work) : Prop :=
  (forall j, (j < i)%nat -> w_b w j = bp j /\ w_c w j = cp j) /\ (forall j, (i <= j < N)%nat -> w_b w j = bb j /\ w_c w j = cc j) /\
  (forall j, (j < N - 1)%nat -> w_d w j = h j).
Lemma forward_ok w : I_sys w -> I_fwd N (forward N w).
Proof.
  intros (A & B & C). unfold forward. replace N with (1 + (N - 1))%nat at 1 by lia. apply for_up_inv.
  - intros i v Hi (P & Q & R). unfold forward_step. cbv zeta. split; [|split].
    + intros j Hj. destruct (Nat.eq_dec j i) as [->|Hn].
      * arr. destruct (P (i - 1)%nat) as [P1 P2]; [lia|]. destruct (Q i) as [Q1 Q2]; [lia|]. rewrite P1, P2, Q1, Q2, R by lia.
        destruct i as [|i]; [lia|]. replace (S i - 1)%nat with i by lia. split; reflexivity.
      * arr. apply P. lia.
    + intros j Hj. arr. apply Q. lia.
    + intros j Hj. arr. apply R. exact Hj.
  - split; [|split].
    + intros j Hj. replace j with 0%nat by lia. rewrite A, B by lia. split; reflexivity.
    + intros j Hj. rewrite A, B by lia. split; reflexivity.
    + exact C.
Qed.
Lemma bp_pos : forall i, (1 <= i)%nat -> (i <= N - 2)%nat -> h i < bp i.
Proof.
  induction i as [|i IH]; intros H1 H2; [lia|]. cbn [bp].
  assert (Hi := h_pos i ltac:(lia)). assert (Hs := h_pos (S i) ltac:(lia)).
  assert (Eb : bb (S i) = 2 * (h i + h (S i))). { unfold bb. destruct (Nat.eqb_spec (S i) 0); [lia|]. destruct (Nat.eqb_spec (S i) (N - 1)); [lia|]. f_equal. f_equal. f_equal. lia. }
  rewrite Eb. destruct i as [|i].
  - assert (E : bp 0 = - h 0) by reflexivity. rewrite E. replace (h 0 / - h 0 * h 0) with (- h 0) by (field; lra). lra.
  - assert (G := IH ltac:(lia) ltac:(lia)).
    assert (K : h (S i) / bp (S i) * h (S i) < h (S i)).
    { rewrite <- (Rmult_1_l (h (S i))) at 3. apply Rmult_lt_compat_r; [lra|]. apply (Rmult_lt_reg_r (bp (S i))); [lra|]. unfold Rdiv. rewrite Rmult_assoc, Rinv_l by lra. lra. }
    lra.
Qed.
Lemma bp_nz i : (i < N)%nat -> bp i <> 0.
Proof.
  intros H. destruct i as [|i].
  - assert (E : bp 0 = - h 0) by reflexivity. rewrite E. assert (G := h_pos 0 ltac:(lia)). lra.
  - destruct (Nat.eq_dec (S i) (N - 1)) as [E|E].
    + cbn [bp]. assert (Eb : bb (S i) = - h i). { unfold bb. destruct (Nat.eqb_spec (S i) 0); [lia|]. destruct (Nat.eqb_spec (S i) (N - 1)); [|lia]. f_equal. f_equal. lia. }
      rewrite Eb. assert (Hi := h_pos i ltac:(lia)). assert (G := bp_pos i ltac:(lia) ltac:(lia)).
      assert (0 < h i / bp i * h i). { apply Rmult_lt_0_compat; [|lra]. apply Rmult_lt_0_compat; [lra|]. apply Rinv_0_lt_compat. lra. }
      lra.
    + assert (G := bp_pos (S i) ltac:(lia) ltac:(lia)). assert (K := h_pos (S i) ltac:(lia)). lra.
Qed.
Definition I_back (m : nat) (w : work) : Prop :=
  (forall j, (j < m)%nat -> w_c w j = cp j) /\ bp (N - 1) * w_c w (N - 1)%nat = cp (N - 1) /\
  (forall j, (m <= j < N - 1)%nat -> bp j * w_c w j + h j * w_c w (S j) = cp j) /\
  (forall j, (j < N)%nat -> w_b w j = bp j) /\ (forall j, (j < N - 1)%nat -> w_d w j = h j).
Lemma back_ok w : I_fwd N w -> I_back 0 (back N w).
Proof.
  intros (A & _ & C). unfold back. apply for_down_inv.
  - intros i v Hi (P & Q & R & S1 & S2). unfold back_step. split; [|split; [|split; [|split]]].
    + intros j Hj. arr. apply P. lia.
    + arr. exact Q.
    + intros j Hj. destruct (Nat.eq_dec j i) as [->|Hn].
      * arr. rewrite P by lia. rewrite S1, S2 by lia. field. apply bp_nz. lia.
      * arr. apply R. lia.
    + intros j Hj. arr. apply S1. exact Hj.
    + intros j Hj. arr. apply S2. exact Hj.
  - split; [|split; [|split; [|split]]].
    + intros j Hj. arr. apply A. lia.
    + arr. destruct (A (N - 1)%nat) as [A1 A2]; [lia|]. rewrite A1, A2. field. apply bp_nz. lia.
    + intros j Hj. lia.
    + intros j Hj. arr. apply A. exact Hj.
    + intros j Hj. arr. apply C. exact Hj.
Qed.
(* the tridiagonal system *)
Definition tri (s : arr) : Prop :=
  bb 0 * s 0%nat + h 0 * s 1%nat = cc 0 /\
  (forall i, (1 <= i)%nat -> (i <= N - 2)%nat -> h (i - 1) * s (i - 1)%nat + bb i * s i + h i * s (S i) = cc i) /\
  h (N - 2) * s (N - 2)%nat + bb (N - 1) * s (N - 1)%nat = cc (N - 1).
Definition elim (s : arr) : Prop :=
  (forall j, (j < N - 1)%nat -> bp j * s j + h j * s (S j) = cp j) /\ bp (N - 1) * s (N - 1)%nat = cp (N - 1).
Lemma elim_tri s : elim s -> tri s.
Proof.
  intros [A B]. split; [|split].
  - apply (A 0%nat). lia.
  - intros i H1 H2. destruct i as [|i]; [lia|]. replace (S i - 1)%nat with i by lia.
    assert (E1 := A i ltac:(lia)). assert (E2 := A (S i) ltac:(lia)). cbn [bp cp] in E2.
    assert (Hn := bp_nz i ltac:(lia)).
    assert (E3 : s i = (cp i - h i * s (S i)) / bp i) by (rewrite <- E1; field; exact Hn). rewrite E3.
    replace (cc (S i)) with (cc (S i) - h i / bp i * cp i + h i / bp i * cp i) by ring. rewrite <- E2. field. exact Hn.
  - replace (N - 1)%nat with (S (N - 2)) in * by lia. set (i := (N - 2)%nat) in *.
    assert (E1 := A i ltac:(lia)). cbn [bp cp] in B. assert (Hn := bp_nz i ltac:(lia)).
    assert (E3 : s i = (cp i - h i * s (S i)) / bp i) by (rewrite <- E1; field; exact Hn). rewrite E3.
    replace (cc (S i)) with (cc (S i) - h i / bp i * cp i + h i / bp i * cp i) by ring. rewrite <- B. field. exact Hn.
Qed.
Lemma tri_elim s : tri s -> elim s.
Proof.
  intros (A & B & C).
  assert (E : forall j, (j < N - 1)%nat -> bp j * s j + h j * s (S j) = cp j).
  { induction j as [|j IH]; intros Hj; [exact A|]. assert (G := IH ltac:(lia)). assert (K := B (S j) ltac:(lia) ltac:(lia)). replace (S j - 1)%nat with j in K by lia.
    cbn [bp cp]. rewrite <- G, <- K. assert (Hn := bp_nz j ltac:(lia)). field. exact Hn. }
  split; [exact E|]. replace (N - 1)%nat with (S (N - 2)) in * by lia. assert (G := E (N - 2)%nat ltac:(lia)). cbn [bp cp]. rewrite <- G, <- C. assert (Hn := bp_nz (N - 2) ltac:(lia)). field. exact Hn.
Qed.
Lemma elim_unique s t : elim s -> elim t -> forall i, (i < N)%nat -> s i = t i.
Proof.
  intros [A B] [A' B'].
  assert (K : forall k, (k < N)%nat -> s (N - 1 - k)%nat = t (N - 1 - k)%nat).
  { induction k as [|k IH]; intros Hk.
    - rewrite Nat.sub_0_r. apply (Rmult_eq_reg_l (bp (N - 1))); [congruence|]. apply bp_nz. lia.
    - assert (G := IH ltac:(lia)). set (j := (N - 1 - S k)%nat). assert (E := A j ltac:(lia)). assert (E' := A' j ltac:(lia)).
      replace (S j) with (N - 1 - k)%nat in E, E' by lia. rewrite G in E.
      apply (Rmult_eq_reg_l (bp j)); [|apply bp_nz; lia]. lra. }
  intros i Hi. replace i with (N - 1 - (N - 1 - i))%nat by lia. apply K. lia.
Qed.
Lemma tri_unique s t : tri s -> tri t -> forall i, (i < N)%nat -> s i = t i.
Proof. intros A B. apply elim_unique; apply tri_elim; assumption. Qed.
(* coefficients *)
Definition I_coef (s : arr) (i : nat) (w : work) : Prop :=
  (forall j, (j < i)%nat -> w_b w j = D j - h j * (s (S j) + 2 * s j) /\ w_c w j = 3 * s j /\ w_d w j = (s (S j) - s j) / h j) /\
  (forall j, (i <= j < N)%nat -> w_c w j = s j) /\ (forall j, (i <= j < N - 1)%nat -> w_d w j = h j).
Lemma coefs_ok w : I_back 0 w -> let s := w_c w in tri s /\
  forall i, (i < N - 1)%nat -> w_b (coefs N Y w) i = D i - h i * (s (S i) + 2 * s i) /\ w_c (coefs N Y w) i = 3 * s i /\ w_d (coefs N Y w) i = (s (S i) - s i) / h i.
Proof.
  intros (_ & A & B & C & E) s. split; [apply elim_tri; split; [|exact A]; intros j Hj; apply B; lia|].
  unfold coefs. cbv zeta. set (w1 := set_b (N - 1) _ w).
  assert (H : I_coef s (0 + (N - 1)) (for_up (N - 1) 0 (coef_step Y) w1)).
  { apply for_up_inv.
    - intros i v Hi (P & Q & R). unfold coef_step. cbv zeta. split; [|split].
      + intros j Hj. destruct (Nat.eq_dec j i) as [->|Hn].
        * arr. rewrite !Q by lia. rewrite !R by lia. split; [reflexivity|]. split; reflexivity.
        * arr. apply P. lia.
      + intros j Hj. arr. apply Q. lia.
      + intros j Hj. arr. apply R. lia.
    - split; [|split].
      + intros j Hj. lia.
      + intros j Hj. reflexivity.
      + intros j Hj. unfold w1. arr. apply E. lia. }
  destruct H as (P & _ & _). rewrite Nat.add_0_l in P. intros i Hi. arr. apply P. exact Hi.
Qed.
Theorem cubic_ok w0 : exists s, tri s /\ forall i, (i < N - 1)%nat ->
  w_b (cubic_work N X Y w0) i = D i - h i * (s (S i) + 2 * s i) /\ w_c (cubic_work N X Y w0) i = 3 * s i /\ w_d (cubic_work N X Y w0) i = (s (S i) - s i) / h i.
Proof.
  unfold cubic_work. destruct (Nat.eqb_spec N 2); [lia|]. eexists. apply coefs_ok. apply back_ok. apply forward_ok. apply ends_ok. apply setup_ok.
Qed.
(* continuity *)
Theorem cubic_smooth w0 : let w := cubic_work N X Y w0 in forall i, (i < N - 1)%nat ->
  cub_y X Y w i (X i) = Y i /\ cub_y X Y w i (X (S i)) = Y (S i) /\
  ((S i < N - 1)%nat -> cub_dy X w i (X (S i)) = cub_dy X w (S i) (X (S i)) /\
     2 * w_c w i + 6 * w_d w i * (X (S i) - X i) = 2 * w_c w (S i)).
Proof.
  destruct (cubic_ok w0) as (s & (T0 & T1 & T2) & C). intros w i Hi. destruct (C i Hi) as (B1 & B2 & B3). fold w in B1, B2, B3.
  assert (Hh := h_pos i ltac:(lia)). unfold cub_y, cub_dy. split; [|split].
  - ring.
  - rewrite B1, B2, B3. unfold D. fold (h i). field. lra.
  - intros Hs. destruct (C (S i) Hs) as (C1 & C2 & C3). fold w in C1, C2, C3. assert (Hh' := h_pos (S i) ltac:(lia)).
    assert (G := T1 (S i) ltac:(lia) ltac:(lia)). replace (S i - 1)%nat with i in G by lia.
    assert (Eb : bb (S i) = 2 * (h i + h (S i))). { unfold bb. destruct (Nat.eqb_spec (S i) 0); [lia|]. destruct (Nat.eqb_spec (S i) (N - 1)); [lia|]. f_equal. f_equal. f_equal. lia. }
    assert (Ec : cc (S i) = D (S i) - D i). { unfold cc. destruct (Nat.eqb_spec (S i) 0); [lia|]. destruct (Nat.eqb_spec (S i) (N - 1)); [lia|]. unfold cint. f_equal. f_equal. lia. }
    rewrite Eb, Ec in G. split.
    + rewrite B1, B2, B3, C1. replace (X (S i) - X (S i)) with 0 by ring. fold (h i).
      assert (D (S i) = h i * s i + 2 * (h i + h (S i)) * s (S i) + h (S i) * s (S (S i)) + D i) by lra. rewrite H. field. lra.
    + rewrite B2, B3, C2. fold (h i). field. lra.
Qed.
(* reproduction of cubics *)
Lemma inc_lt : forall k i, (i + S k < N)%nat -> X i < X (i + S k)%nat.
Proof.
  induction k as [|k IH]; intros i H.
  - replace (i + 1)%nat with (S i) by lia. apply Hinc. lia.
  - apply Rlt_trans with (X (i + S k)%nat); [apply IH; lia|]. replace (i + S (S k))%nat with (S (i + S k)) by lia. apply Hinc. lia.
Qed.
Theorem cubic_exact w0 a0 a1 a2 a3 : ((3 < N)%nat \/ a3 = 0) ->
  (forall i, (i < N)%nat -> Y i = a0 + a1 * X i + a2 * X i * X i + a3 * X i * X i * X i) ->
  forall i x, (i < N - 1)%nat -> cub_y X Y (cubic_work N X Y w0) i x = a0 + a1 * x + a2 * x * x + a3 * x * x * x.
Proof.
  intros H3 HY. set (t := fun i => a2 / 3 + a3 * X i).
  assert (ED : forall i, (S i < N)%nat -> D i = a1 + a2 * (X i + X (S i)) + a3 * (X i * X i + X i * X (S i) + X (S i) * X (S i))).
  { intros i Hi. unfold D. rewrite !HY by lia. assert (G := h_pos i Hi). unfold h in *. field. lra. }
  assert (EC : forall i, (1 <= i)%nat -> (i <= N - 2)%nat -> cint i = (X (S i) - X (i - 1)%nat) * (a2 + a3 * (X (i - 1)%nat + X i + X (S i)))).
  { intros i H1 H2. unfold cint. rewrite !ED by lia. replace (S (i - 1)) with i by lia. ring. }
  assert (Ht : tri t).
  { split; [|split].
    - unfold bb, cc, cc0. cbn [Nat.eqb]. unfold t. destruct (Nat.ltb_spec 3 N) as [L|L].
      + rewrite !EC by lia. replace (2 - 1)%nat with 1%nat by lia. replace (1 - 1)%nat with 0%nat by lia.
        assert (G1 := inc_lt 1 0 ltac:(lia)). assert (G2 := inc_lt 1 1 ltac:(lia)). assert (G3 := inc_lt 2 0 ltac:(lia)). cbn [Nat.add] in G1, G2, G3.
        unfold h. field. lra.
      + destruct H3 as [H3|H3]; [lia|]. rewrite H3. ring.
    - intros i H1 H2. assert (Eb : bb i = 2 * (h (i - 1) + h i)). { unfold bb. destruct (Nat.eqb_spec i 0); [lia|]. destruct (Nat.eqb_spec i (N - 1)); [lia|]. reflexivity. }
      assert (Ec : cc i = cint i). { unfold cc. destruct (Nat.eqb_spec i 0); [lia|]. destruct (Nat.eqb_spec i (N - 1)); [lia|]. reflexivity. }
      rewrite Eb, Ec, EC by lia. unfold t, h. replace (S (i - 1)) with i by lia. field.
    - unfold bb, cc, ccl. destruct (Nat.eqb_spec (N - 1) 0); [lia|]. rewrite Nat.eqb_refl. unfold t. destruct (Nat.ltb_spec 3 N) as [L|L].
      + rewrite !EC by lia. replace (N - 2 - 1)%nat with (N - 3)%nat by lia. replace (N - 3 - 1)%nat with (N - 4)%nat by lia. replace (S (N - 2)) with (N - 1)%nat by lia. replace (S (N - 3)) with (N - 2)%nat by lia.
        assert (G1 := inc_lt 1 (N - 3) ltac:(lia)). assert (G2 := inc_lt 1 (N - 4) ltac:(lia)). assert (G3 := inc_lt 2 (N - 4) ltac:(lia)).
        replace (N - 3 + 2)%nat with (N - 1)%nat in G1 by lia. replace (N - 4 + 2)%nat with (N - 2)%nat in G2 by lia. replace (N - 4 + 3)%nat with (N - 1)%nat in G3 by lia.
        unfold h. replace (S (N - 2)) with (N - 1)%nat by lia. field. lra.
      + destruct H3 as [H3|H3]; [lia|]. rewrite H3. ring. }
  destruct (cubic_ok w0) as (s & Hs & C). intros i x Hi. destruct (C i Hi) as (B1 & B2 & B3).
  assert (Ui := tri_unique s t Hs Ht i ltac:(lia)). assert (Us := tri_unique s t Hs Ht (S i) ltac:(lia)).
  unfold cub_y. rewrite B1, B2, B3, Ui, Us, ED by lia. rewrite HY by lia. unfold t, h. assert (G := h_pos i ltac:(lia)). unfold h in G. field. lra.
Qed.
End Cubic.
