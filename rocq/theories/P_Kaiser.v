From Coq Require Import Reals ZArith List Arith Lra Lia.
From Coquelicot Require Import Coquelicot.
From Verif Require Import M_Kaiser S_Spline S_Kaiser P_LegMom.
Import ListNotations.
Local Open Scope R_scope.

Lemma INR_vals : INR 1 = 1 /\ INR 2 = 2 /\ INR 3 = 3 /\ INR 4 = 4 /\ INR 5 = 5.
Proof. repeat split; cbn; ring. Qed.
Section K.
Variable p : nat -> R -> R.
Hypothesis LP : legendre_polynomials p.
Lemma poly_multipole ell c0 c2 c4 : RInt (fun mu => p ell mu * (c0 + c2 * mu ^ 2 + c4 * mu ^ 4)) (-1) 1 = c0 * mom p ell 0 + c2 * mom p ell 2 + c4 * mom p ell 4.
Proof.
  assert (SC : forall c n, is_RInt (fun x : R => c * (p ell x * x ^ n)) (-1) 1 (c * mom p ell n)) by (intros c n; exact (is_RInt_scal (V := R_NormedModule) _ (-1) 1 c _ (isI p LP ell n))).
  assert (H : is_RInt (fun x => c0 * (p ell x * x ^ 0) + c2 * (p ell x * x ^ 2) + c4 * (p ell x * x ^ 4)) (-1) 1 (c0 * mom p ell 0 + c2 * mom p ell 2 + c4 * mom p ell 4))
    by exact (is_RInt_plus (V := R_NormedModule) _ _ _ _ _ _ (is_RInt_plus (V := R_NormedModule) _ _ _ _ _ _ (SC c0 0%nat) (SC c2 2%nat)) (SC c4 4%nat)).
  apply is_RInt_unique. refine (is_RInt_ext _ _ _ _ _ _ H). intros x _. match goal with |- ?a = ?b => change (@eq R a b) end. ring.
Qed.
Lemma moms : mom p 0 0 = 2 /\ mom p 0 2 = 2/3 /\ mom p 0 4 = 2/5 /\ mom p 2 0 = 0 /\ mom p 2 2 = 4/15 /\ mom p 2 4 = 8/35 /\ mom p 4 0 = 0 /\ mom p 4 2 = 0 /\ mom p 4 4 = 16/315.
Proof.
  assert (Z : forall n, (INR n + 1) * mom p 0 n = 1 + (-1) ^ n) by (apply mom0; exact LP). destruct INR_vals as (i1 & i2 & i3 & i4 & i5).
  assert (a0 := Z 0%nat). assert (a2 := Z 2%nat). assert (a4 := Z 4%nat). rewrite ?i2, ?i4 in *. cbn [INR pow] in a0, a2, a4.
  assert (b11 := mom_c1 p LP 0 0). assert (b13 := mom_c1 p LP 0 2). assert (b22 := mom_c1 p LP 1 1). assert (b24 := mom_c1 p LP 1 3). assert (b33 := mom_c1 p LP 2 2). assert (b44 := mom_c1 p LP 3 3).
  rewrite ?i1, ?i2, ?i3 in *. change (INR 0) with 0 in *.
  split; [lra|]. split; [lra|]. split; [lra|]. split; [apply mom_low; [exact LP|lia]|]. split; [lra|]. split; [lra|]. split; [apply mom_low; [exact LP|lia]|]. split; [apply mom_low; [exact LP|lia]|lra].
Qed.
Lemma kaiser_multipole K ell k : k_b1 K <> 0 -> (0 <= ell)%Z ->
  kaiser_ell K ell k = multipole_of p (Z.to_nat ell) (fun mu => (k_b1 K + k_f K * mu ^ 2) ^ 2 * k_P K k).
Proof.
  intros Hb Hl. unfold multipole_of. set (P := k_P K k). set (b := k_b1 K) in *. set (f := k_f K).
  assert (E : RInt (fun mu => p (Z.to_nat ell) mu * ((b + f * mu ^ 2) ^ 2 * P)) (-1) 1 = b ^ 2 * P * mom p (Z.to_nat ell) 0 + 2 * b * f * P * mom p (Z.to_nat ell) 2 + f ^ 2 * P * mom p (Z.to_nat ell) 4).
  { rewrite <- poly_multipole. apply RInt_ext. intros x _. match goal with |- ?a = ?b => change (@eq R a b) end. ring. }
  rewrite E. destruct moms as (m00 & m02 & m04 & m20 & m22 & m24 & m40 & m42 & m44). destruct INR_vals as (i1 & i2 & i3 & i4 & i5).
  unfold kaiser_ell, kaiser_prefactor. fold b f P.
  destruct (Z.eqb_spec ell 0) as [->|n0]; [change (Z.to_nat 0) with 0%nat; rewrite m00, m02, m04; change (INR 0) with 0; field; exact Hb|].
  destruct (Z.eqb_spec ell 2) as [->|n2]; [change (Z.to_nat 2) with 2%nat; rewrite m20, m22, m24, i2; field; exact Hb|].
  destruct (Z.eqb_spec ell 4) as [->|n4]; [change (Z.to_nat 4) with 4%nat; rewrite m40, m42, m44, i4; field; exact Hb|].
  assert (V : mom p (Z.to_nat ell) 0 = 0 /\ mom p (Z.to_nat ell) 2 = 0 /\ mom p (Z.to_nat ell) 4 = 0).
  { destruct (Z_lt_le_dec ell 5) as [L|L].
    - assert (C : ell = 1%Z \/ ell = 3%Z) by lia. destruct C as [->| ->]; repeat split; apply mom_odd; try exact LP; reflexivity.
    - repeat split; apply mom_low; try exact LP; lia. }
  destruct V as (-> & -> & ->). unfold Rdiv. ring.
Qed.
End K.

(** ** nearest neighbour *)
Lemma nearest_from_spec x : forall xs pre k d, (k < length pre)%nat -> d = Rabs (x - nth k pre 0) -> (forall j, (j < length pre)%nat -> d <= Rabs (x - nth j pre 0)) ->
  let r := nearest_from xs x (length pre) k d in (r < length (pre ++ xs))%nat /\ forall j, (j < length (pre ++ xs))%nat -> Rabs (x - nth r (pre ++ xs) 0) <= Rabs (x - nth j (pre ++ xs) 0).
Proof.
  induction xs as [|y xs IH]; intros pre k d Hk Hd Hm; cbn [nearest_from].
  - rewrite app_nil_r. split; [exact Hk|]. intros j Hj. rewrite <- Hd. apply Hm. exact Hj.
  - replace (pre ++ y :: xs) with ((pre ++ [y]) ++ xs) by (rewrite <- app_assoc; reflexivity).
    assert (LL : length (pre ++ [y]) = S (length pre)) by (rewrite app_length; cbn; lia).
    assert (Ny : nth (length pre) (pre ++ [y]) 0 = y) by (rewrite app_nth2, Nat.sub_diag by lia; reflexivity).
    assert (No : forall j, (j < length pre)%nat -> nth j (pre ++ [y]) 0 = nth j pre 0) by (intros; apply app_nth1; assumption).
    cbv zeta. destruct (Rlt_dec (Rabs (x - y)) d) as [L|L]; rewrite <- LL; apply IH; rewrite ?LL; try lia.
    + rewrite Ny. reflexivity.
    + intros j Hj. destruct (Nat.eq_dec j (length pre)) as [->|N]; [rewrite Ny; lra|]. rewrite No by lia. specialize (Hm j ltac:(lia)). lra.
    + rewrite No by exact Hk. exact Hd.
    + intros j Hj. destruct (Nat.eq_dec j (length pre)) as [->|N]; [rewrite Ny; lra|]. rewrite No by lia. apply Hm. lia.
Qed.
Lemma nearest_spec xs x : xs <> [] -> (nearest xs x < length xs)%nat /\ forall j, (j < length xs)%nat -> Rabs (x - nth (nearest xs x) xs 0) <= Rabs (x - nth j xs 0).
Proof.
  destruct xs as [|y xs]; [contradiction|]. intros _. cbn [nearest]. apply (nearest_from_spec x xs [y] 0 (Rabs (x - y))); [cbn; lia|reflexivity|].
  intros j Hj. cbn in Hj. destruct j; [cbn; lra|lia].
Qed.
Lemma inc_lt xs i j : increasing xs -> (i < j)%nat -> (j < length xs)%nat -> nth i xs 0 < nth j xs 0.
Proof. intros I H. induction H as [|j H IH]; intros L; [apply I; exact L|]. specialize (IH ltac:(lia)). specialize (I j L). lra. Qed.
Lemma inc_le xs i j : increasing xs -> (i <= j)%nat -> (j < length xs)%nat -> nth i xs 0 <= nth j xs 0.
Proof. intros I H L. destruct (Nat.eq_dec i j) as [->|N]; [lra|]. left. apply inc_lt; auto. lia. Qed.
Lemma nearest_interp_ok xs ys x : increasing xs -> length xs = length ys -> xs <> [] -> first_x xs <= x <= last_x xs ->
  exists v, nearest_interp xs ys x = Some v /\
    ((exists i, (i < length xs)%nat /\ nth i xs 0 = x /\ v = nth i ys 0) \/
     (exists i, (S i < length xs)%nat /\ nth i xs 0 < x < nth (S i) xs 0 /\ v = nth i ys 0 + (nth (S i) ys 0 - nth i ys 0) * (x - nth i xs 0) / (nth (S i) xs 0 - nth i xs 0))).
Proof.
  intros I L N R. destruct (nearest_spec xs x N) as (K & M). unfold nearest_interp. set (k := nearest xs x) in *.
  rewrite (nth_error_nth' xs 0 K). rewrite (nth_error_nth' ys 0) by lia.
  destruct (Rlt_dec (nth k xs 0) x) as [A|A].
  - assert (K1 : (S k < length xs)%nat). { destruct (Nat.eq_dec (S k) (length xs)) as [E|E]; [|lia]. exfalso. unfold last_x in R. replace (length xs - 1)%nat with k in R by lia. lra. }
    rewrite (nth_error_nth' xs 0 K1). rewrite (nth_error_nth' ys 0) by lia. eexists; split; [reflexivity|].
    assert (D := I k K1). assert (m := M (S k) K1). rewrite (Rabs_pos_eq (x - nth k xs 0)) in m by lra.
    assert (U : x < nth (S k) xs 0). { destruct (Rlt_dec x (nth (S k) xs 0)); [assumption|]. exfalso. rewrite Rabs_pos_eq in m by lra. lra. }
    right. exists k. split; [exact K1|]. split; [lra|]. unfold line. field. lra.
  - destruct (Rlt_dec x (nth k xs 0)) as [B|B].
    + destruct k as [|l]; [exfalso; unfold first_x in R; lra|]. assert (Kl : (l < length xs)%nat) by lia. rewrite (nth_error_nth' xs 0 Kl). rewrite (nth_error_nth' ys 0) by lia. eexists; split; [reflexivity|].
      assert (D := I l K). assert (m := M l Kl). rewrite (Rabs_minus_sym x (nth (S l) xs 0)), (Rabs_pos_eq (nth (S l) xs 0 - x)) in m by lra.
      assert (U : nth l xs 0 < x). { destruct (Rlt_dec (nth l xs 0) x); [assumption|]. exfalso. rewrite Rabs_minus_sym, Rabs_pos_eq in m by lra. lra. }
      right. exists l. split; [exact K|]. split; [lra|]. unfold line. field. lra.
    + exists (nth k ys 0). split; [reflexivity|]. left. exists k. split; [exact K|]. split; [lra|reflexivity].
Qed.
Lemma nearest_interp_out xs ys x : increasing xs -> length xs = length ys -> xs <> [] -> x < first_x xs \/ last_x xs < x -> nearest_interp xs ys x = None.
Proof.
  intros I L N R. destruct (nearest_spec xs x N) as (K & M). unfold nearest_interp. set (k := nearest xs x) in *. assert (HN : (1 <= length xs)%nat) by lia.
  rewrite (nth_error_nth' xs 0 K). rewrite (nth_error_nth' ys 0) by lia. unfold first_x, last_x in R. destruct R as [R|R].
  - assert (G := inc_le xs 0 k I ltac:(lia) K). destruct (Rlt_dec (nth k xs 0) x); [exfalso; lra|]. destruct (Rlt_dec x (nth k xs 0)); [|exfalso; lra].
    assert (k0 : k = 0%nat). { destruct k as [|l]; [reflexivity|]. exfalso. assert (G' := inc_lt xs 0 (S l) I ltac:(lia) K). assert (m := M 0%nat ltac:(lia)).
      rewrite !(Rabs_minus_sym x), !Rabs_pos_eq in m by lra. lra. }
    rewrite k0. reflexivity.
  - assert (G := inc_le xs k (length xs - 1) I ltac:(lia) ltac:(lia)). destruct (Rlt_dec (nth k xs 0) x); [|exfalso; lra].
    assert (k0 : S k = length xs). { destruct (Nat.eq_dec (S k) (length xs)); [assumption|]. exfalso. assert (G' := inc_lt xs k (length xs - 1) I ltac:(lia) ltac:(lia)). assert (m := M (length xs - 1)%nat ltac:(lia)).
      rewrite !Rabs_pos_eq in m by lra. lra. }
    rewrite (proj2 (nth_error_None xs (S k))) by lia. reflexivity.
Qed.

(** ** top-hat windows *)
Lemma sin_cos_bounds x : 0 < x <= 1 -> x - x ^ 3 / 6 + x ^ 5 / 120 - x ^ 7 / 5040 <= sin x <= x - x ^ 3 / 6 + x ^ 5 / 120 /\ 1 - x ^ 2 / 2 + x ^ 4 / 24 - x ^ 6 / 720 <= cos x <= 1 - x ^ 2 / 2 + x ^ 4 / 24.
Proof.
  intros H. assert (P := PI2_1). split.
  - destruct (pre_sin_bound x 1) as (A & _); [lra|lra|]. destruct (pre_sin_bound x 0) as (_ & B); [lra|lra|]. revert A B. unfold sin_approx, sin_term. cbn [sum_f_R0 Nat.add Nat.mul]. cbn [pow fact Nat.add Nat.mul INR].
    intros A B. split; [eapply Rle_trans; [|exact A]|eapply Rle_trans; [exact B|]]; right; field.
  - destruct (pre_cos_bound x 1) as (A & _); [lra|lra|]. destruct (pre_cos_bound x 0) as (_ & B); [lra|lra|]. revert A B. unfold cos_approx, cos_term. cbn [sum_f_R0 Nat.add Nat.mul]. cbn [pow fact Nat.add Nat.mul INR].
    intros A B. split; [eapply Rle_trans; [|exact A]|eapply Rle_trans; [exact B|]]; right; field.
Qed.
Lemma top_hat_bounds x : 0 < x <= 1 -> 1 - x ^ 2 / 10 - x ^ 4 / 1680 <= top_hat x <= 1 - x ^ 2 / 10 + x ^ 4 / 240.
Proof.
  intros H. unfold top_hat. destruct (Req_EM_T x 0); [lra|]. destruct (sin_cos_bounds x H) as ((A & B) & (C & D)).
  assert (X3 : 0 < x ^ 3) by (apply pow_lt; lra). split.
  - apply (Rmult_le_reg_r (x ^ 3)); [exact X3|]. replace (3 * (sin x - x * cos x) / x ^ 3 * x ^ 3) with (3 * (sin x - x * cos x)) by (field; lra).
    apply Rle_trans with (3 * ((x - x ^ 3 / 6 + x ^ 5 / 120 - x ^ 7 / 5040) - x * (1 - x ^ 2 / 2 + x ^ 4 / 24))); [right; field|]. nra.
  - apply (Rmult_le_reg_r (x ^ 3)); [exact X3|]. replace (3 * (sin x - x * cos x) / x ^ 3 * x ^ 3) with (3 * (sin x - x * cos x)) by (field; lra).
    apply Rle_trans with (3 * ((x - x ^ 3 / 6 + x ^ 5 / 120) - x * (1 - x ^ 2 / 2 + x ^ 4 / 24 - x ^ 6 / 720))); [nra|right; field].
Qed.
