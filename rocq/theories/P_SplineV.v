From Coq Require Import Reals List ZArith Lra Lia.
From Coquelicot Require Import Coquelicot.
From Verif Require Import M_Spline S_Spline P_Spline.
Import ListNotations.
Local Open Scope R_scope.

Lemma glue_derive (f g1 g2 : R -> R) (b e l : R) : 0 < e -> (forall x, b - e < x <= b -> f x = g1 x) -> (forall x, b <= x < b + e -> f x = g2 x) ->
  is_derive g1 b l -> is_derive g2 b l -> is_derive f b l.
Proof.
  intros He H1 H2 D1 D2. apply is_derive_Reals. apply is_derive_Reals in D1, D2. intros eps Heps.
  destruct (D1 eps Heps) as [d1 E1]. destruct (D2 eps Heps) as [d2 E2].
  assert (P : 0 < Rmin e (Rmin d1 d2)). { repeat apply Rmin_glb_lt; [exact He|apply cond_pos|apply cond_pos]. }
  exists (mkposreal _ P). cbn. intros h Hh Hd.
  assert (Q1 := Rmin_l e (Rmin d1 d2)). assert (Q2 := Rmin_r e (Rmin d1 d2)). assert (Q3 := Rmin_l d1 d2). assert (Q4 := Rmin_r d1 d2).
  assert (A := Rabs_def2 h _ Hd). destruct (Rlt_le_dec h 0) as [L|L].
  - rewrite (H1 (b + h)), (H1 b) by lra. apply E1; [exact Hh|lra].
  - rewrite (H2 (b + h)), (H2 b) by lra. apply E2; [exact Hh|lra].
Qed.
Lemma glue_cont (f g1 g2 : R -> R) (b e : R) : 0 < e -> (forall x, b - e < x <= b -> f x = g1 x) -> (forall x, b <= x < b + e -> f x = g2 x) ->
  continuous g1 b -> continuous g2 b -> continuous f b.
Proof.
  intros He H1 H2 D1 D2. apply continuity_pt_filterlim. apply continuity_pt_filterlim in D1, D2. intros eps Heps.
  destruct (D1 eps Heps) as (d1 & P1 & E1). destruct (D2 eps Heps) as (d2 & P2 & E2).
  exists (Rmin e (Rmin d1 d2)). split. { repeat apply Rmin_glb_lt; lra. }
  intros x [Hx Hd]. assert (Q1 := Rmin_l e (Rmin d1 d2)). assert (Q2 := Rmin_r e (Rmin d1 d2)). assert (Q3 := Rmin_l d1 d2). assert (Q4 := Rmin_r d1 d2).
  cbn in *. unfold R_dist in *. assert (A := Rabs_def2 _ _ Hd). destruct (Rlt_le_dec x b) as [L|L].
  - rewrite (H1 x), (H1 b) by lra. apply E1. split; [exact Hx|lra].
  - rewrite (H2 x), (H2 b) by lra. apply E2. split; [exact Hx|lra].
Qed.

Section Patch.
Variables (N : nat) (X : arr).
Hypothesis HN : (2 <= N)%nat.
Hypothesis Hinc : forall i, (S i < N)%nat -> X i < X (S i).
Definition sel (p : nat -> R -> R) (x : R) : option R := option_map (fun i => p (Z.to_nat i) x) (lookup N x N X).
Lemma X_le : forall j i, (i <= j)%nat -> (j < N)%nat -> X i <= X j.
Proof. induction j as [|j IH]; intros i H1 H2; [replace i with 0%nat by lia; lra|]. destruct (Nat.eq_dec i (S j)) as [->|]; [lra|]. specialize (IH i ltac:(lia) ltac:(lia)). specialize (Hinc j H2). lra. Qed.
Lemma X_lt i j : (i < j)%nat -> (j < N)%nat -> X i < X j.
Proof. intros H1 H2. assert (A := X_le j (S i) ltac:(lia) H2). specialize (Hinc i ltac:(lia)). lra. Qed.
Lemma lookup_some x : X 0%nat <= x <= X (N - 1)%nat -> exists j, lookup N x N X = Some (Z.of_nat j) /\ (j + 2 <= N)%nat /\ X j <= x <= X (S j).
Proof.
  intros [H1 H2]. destruct (lookup_ok N x X HN H1 H2) as (j & [(A & B & C)|(A & B & C)]); exists j; (split; [exact A|]); (split; [lia|]); [exact C|].
  rewrite C. specialize (Hinc j ltac:(lia)). lra.
Qed.
Definition agree (p : nat -> R -> R) : Prop := forall i, (S (S i) < N)%nat -> p i (X (S i)) = p (S i) (X (S i)).
Lemma sel_ok p x i : agree p -> (S i < N)%nat -> X i <= x <= X (S i) -> sel p x = Some (p i x).
Proof.
  intros A Hi Hx. assert (G : X 0%nat <= x <= X (N - 1)%nat).
  { assert (X 0%nat <= X i) by (apply X_le; lia). assert (X (S i) <= X (N - 1)%nat) by (apply X_le; lia). lra. }
  destruct (lookup_some x G) as (j & L & Hj & Hb). unfold sel. rewrite L. cbn [option_map]. rewrite Nat2Z.id. f_equal.
  destruct (lt_eq_lt_dec i j) as [[K|K]|K].
  - assert (X (S i) <= X j) by (apply X_le; lia). assert (E : x = X j) by lra. assert (j = S i).
    { destruct (Nat.eq_dec j (S i)); auto. assert (X (S i) < X j) by (apply X_lt; lia). lra. } subst j. rewrite E. symmetry. apply A. lia.
  - subst. reflexivity.
  - assert (X (S j) <= X i) by (apply X_le; lia). assert (E : x = X i) by lra. assert (i = S j).
    { destruct (Nat.eq_dec i (S j)); auto. assert (X (S j) < X i) by (apply X_lt; lia). lra. } subst i. rewrite E. apply A. lia.
Qed.
Definition val (o : option R) : R := match o with Some v => v | None => 0 end.
(* every interior point lies inside an interval or is an interior knot *)
Lemma where_is x : X 0%nat < x < X (N - 1)%nat -> exists i, (S i < N)%nat /\ (X i < x < X (S i) \/ (S (S i) < N)%nat /\ x = X (S i)).
Proof.
  intros H. destruct (lookup_some x ltac:(lra)) as (j & _ & Hj & Hb). 
  destruct (Req_dec x (X (S j))) as [E|E].
  - exists j. split; [lia|]. right. split; [|exact E]. destruct (Nat.eq_dec (S (S j)) N); [|lia]. replace (N - 1)%nat with (S j) in H by lia. lra.
  - destruct (Req_dec x (X j)) as [F|F].
    + destruct j as [|j]; [lra|]. exists j. split; [lia|]. right. split; [lia|exact F].
    + exists j. split; [lia|]. left. lra.
Qed.
Lemma sel_left p i : agree p -> (S i < N)%nat -> forall x, X i <= x <= X (S i) -> val (sel p x) = p i x.
Proof. intros A Hi x Hx. rewrite (sel_ok p x i A Hi Hx). reflexivity. Qed.
Lemma sel_derive p p' x : agree p -> agree p' -> (forall i (y : R), (S i < N)%nat -> is_derive (p i) y (p' i y)) -> X 0%nat < x < X (N - 1)%nat ->
  is_derive (fun t => val (sel p t)) x (val (sel p' x)).
Proof.
  intros A A' D H. destruct (where_is x H) as (i & Hi & [Hx|[Hs ->]]).
  - rewrite (sel_left p' i A' Hi x) by lra. apply (is_derive_ext_loc (p i)); [|apply D; exact Hi].
    assert (P : 0 < Rmin (x - X i) (X (S i) - x)) by (apply Rmin_glb_lt; lra). exists (mkposreal _ P). intros y Hy. symmetry. apply sel_left; [exact A|exact Hi|].
    cbn in Hy. unfold ball in Hy. cbn in Hy. unfold AbsRing_ball, abs, minus, plus, opp in Hy. cbn in Hy. assert (B := Rabs_def2 _ _ Hy).
    assert (Q1 := Rmin_l (x - X i) (X (S i) - x)). assert (Q2 := Rmin_r (x - X i) (X (S i) - x)). lra.
  - assert (I1 := Hinc i Hi). assert (I2 := Hinc (S i) Hs). rewrite (sel_left p' i A' Hi) by lra.
    apply (glue_derive _ (p i) (p (S i)) _ (Rmin (X (S i) - X i) (X (S (S i)) - X (S i)))).
    + apply Rmin_glb_lt; lra.
    + intros y Hy. apply sel_left; [exact A|exact Hi|]. assert (Q := Rmin_l (X (S i) - X i) (X (S (S i)) - X (S i))). lra.
    + intros y Hy. apply sel_left; [exact A|exact Hs|]. assert (Q := Rmin_r (X (S i) - X i) (X (S (S i)) - X (S i))). lra.
    + apply D. exact Hi.
    + rewrite (A' i Hs). apply D. exact Hs.
Qed.
Lemma sel_cont p x : agree p -> (forall i (y : R), (S i < N)%nat -> continuous (p i) y) -> X 0%nat < x < X (N - 1)%nat ->
  continuous (fun t => val (sel p t)) x.
Proof.
  intros A D H. destruct (where_is x H) as (i & Hi & [Hx|[Hs ->]]).
  - apply (continuous_ext_loc _ (p i)); [|apply D; exact Hi].
    assert (P : 0 < Rmin (x - X i) (X (S i) - x)) by (apply Rmin_glb_lt; lra). exists (mkposreal _ P). intros y Hy. symmetry. apply sel_left; [exact A|exact Hi|].
    cbn in Hy. unfold ball in Hy. cbn in Hy. unfold AbsRing_ball, abs, minus, plus, opp in Hy. cbn in Hy. assert (B := Rabs_def2 _ _ Hy).
    assert (Q1 := Rmin_l (x - X i) (X (S i) - x)). assert (Q2 := Rmin_r (x - X i) (X (S i) - x)). lra.
  - assert (I1 := Hinc i Hi). assert (I2 := Hinc (S i) Hs).
    apply (glue_cont _ (p i) (p (S i)) _ (Rmin (X (S i) - X i) (X (S (S i)) - X (S i)))).
    + apply Rmin_glb_lt; lra.
    + intros y Hy. apply sel_left; [exact A|exact Hi|]. assert (Q := Rmin_l (X (S i) - X i) (X (S (S i)) - X (S i))). lra.
    + intros y Hy. apply sel_left; [exact A|exact Hs|]. assert (Q := Rmin_r (X (S i) - X i) (X (S (S i)) - X (S i))). lra.
    + apply D. exact Hi.
    + apply D. exact Hs.
Qed.
End Patch.

(* --- the cubic coefficients, for two points as well --- *)
Definition cub_d2 (X : arr) (w : work) (i : nat) (x : R) : R := 2 * w_c w i + 6 * w_d w i * (x - X i).
Lemma cub_agree N X Y w0 : (2 <= N)%nat -> (forall i, (S i < N)%nat -> X i < X (S i)) -> let w := cubic_work N X Y w0 in
  agree N X (cub_y X Y w) /\ agree N X (cub_dy X w) /\ agree N X (cub_d2 X w) /\
  forall i, (S i < N)%nat -> cub_y X Y w i (X i) = Y i /\ cub_y X Y w i (X (S i)) = Y (S i).
Proof.
  intros HN Hi w. destruct (Nat.eq_dec N 2) as [E|E].
  - split; [|split; [|split]]; try (intros i K; lia). intros i K. assert (i = 0)%nat by lia. subst i N. subst w. cbn.
    specialize (Hi 0%nat ltac:(lia)). unfold cub_y. cbn. split; field; lra.
  - assert (S := cubic_smooth N X Y ltac:(lia) Hi w0). cbv zeta in S. fold w in S. split; [|split; [|split]].
    + intros i K. destruct (S i ltac:(lia)) as (_ & A & _). destruct (S (Datatypes.S i) ltac:(lia)) as (B & _ & _). congruence.
    + intros i K. destruct (S i ltac:(lia)) as (_ & _ & A). apply A. lia.
    + intros i K. destruct (S i ltac:(lia)) as (_ & _ & A). destruct (A ltac:(lia)) as [_ B]. unfold cub_d2. rewrite B. ring.
    + intros i K. destruct (S i ltac:(lia)) as (A & B & _). split; assumption.
Qed.
Lemma cub_derive X Y w i (x : R) : is_derive (cub_y X Y w i) x (cub_dy X w i x).
Proof. unfold cub_y, cub_dy. auto_derive; [exact I|]. ring. Qed.
Lemma cub_derive2 X w i (x : R) : is_derive (cub_dy X w i) x (cub_d2 X w i x).
Proof. unfold cub_dy, cub_d2. auto_derive; [exact I|]. ring. Qed.
Lemma cub_cont X w i (x : R) : continuous (cub_d2 X w i) x.
Proof. apply (ex_derive_continuous (V := R_NormedModule)). unfold cub_d2. auto_derive. exact I. Qed.

Lemma inside_ok xs x : first_x xs <= x <= last_x xs -> outside xs x = false.
Proof. unfold first_x, last_x, outside, at_. intros H. destruct (Rlt_dec _ _); [lra|]. destruct (Rlt_dec _ _); [lra|]. reflexivity. Qed.
Lemma outside_ok xs x : x < first_x xs \/ last_x xs < x -> outside xs x = true.
Proof. unfold first_x, last_x, outside, at_. intros H. destruct (Rlt_dec _ _); [reflexivity|]. destruct (Rlt_dec _ _); [reflexivity|lra]. Qed.

Lemma bounds xs : (2 <= length xs)%nat -> increasing xs -> forall i, (i < length xs)%nat -> first_x xs <= at_ xs i <= last_x xs.
Proof. intros H2 Hinc i H. unfold first_x, last_x. split; apply (X_le (length xs) (at_ xs) H2 Hinc); lia. Qed.
Section CubicTop.
Variables (w0 : work) (xs ys : list R).
Hypothesis H2 : (2 <= length xs)%nat.
Hypothesis Hinc : increasing xs.
Let w := cubic_work (length xs) (at_ xs) (at_ ys) w0.
Lemma cubic_some : (length xs <= length ys)%nat -> cubic_spline w0 xs ys = Some (CubicS xs ys w).
Proof. intros Hlen. unfold cubic_spline. rewrite (proj2 (Nat.leb_le _ _) Hlen), (proj2 (Nat.leb_le _ _) H2). reflexivity. Qed.
Lemma cubic_eval x : first_x xs <= x <= last_x xs -> evaluate (CubicS xs ys w) x = sel (length xs) (at_ xs) (cub_y (at_ xs) (at_ ys) w) x.
Proof. intros H. unfold evaluate. rewrite inside_ok by exact H. reflexivity. Qed.
Lemma cubic_der x : first_x xs <= x <= last_x xs -> derivative (CubicS xs ys w) x = sel (length xs) (at_ xs) (cub_dy (at_ xs) w) x.
Proof. intros H. unfold derivative. rewrite inside_ok by exact H. reflexivity. Qed.
Lemma Ag : agree (length xs) (at_ xs) (cub_y (at_ xs) (at_ ys) w) /\ agree (length xs) (at_ xs) (cub_dy (at_ xs) w) /\ agree (length xs) (at_ xs) (cub_d2 (at_ xs) w) /\
  forall i, (S i < length xs)%nat -> cub_y (at_ xs) (at_ ys) w i (at_ xs i) = at_ ys i /\ cub_y (at_ xs) (at_ ys) w i (at_ xs (S i)) = at_ ys (S i).
Proof. apply cub_agree; assumption. Qed.
Lemma cubic_node i : (i < length xs)%nat -> evaluate (CubicS xs ys w) (nth i xs 0) = Some (nth i ys 0).
Proof.
  intros Hi. change (nth i xs 0) with (at_ xs i). rewrite cubic_eval by (apply (bounds xs H2 Hinc); exact Hi). destruct Ag as (A & _ & _ & E).
  destruct (Nat.eq_dec (S i) (length xs)) as [L|L].
  - destruct i as [|i]; [lia|]. rewrite (sel_ok (length xs) (at_ xs) H2 Hinc _ _ i A ltac:(lia)). { f_equal. apply (E i ltac:(lia)). } specialize (Hinc i ltac:(lia)). fold (at_ xs i) in Hinc. unfold at_ in *. lra.
  - rewrite (sel_ok (length xs) (at_ xs) H2 Hinc _ _ i A ltac:(lia)). { f_equal. apply (E i ltac:(lia)). } specialize (Hinc i ltac:(lia)). unfold at_ in *. lra.
Qed.
Lemma cubic_total x : exists v d, evaluate (CubicS xs ys w) x = Some v /\ derivative (CubicS xs ys w) x = Some d.
Proof.
  unfold evaluate, derivative. destruct (outside xs x) eqn:O; [exists 0, 0; split; reflexivity|].
  assert (G : at_ xs 0%nat <= x <= at_ xs (length xs - 1)%nat). { unfold outside in O. destruct (Rlt_dec _ _); [discriminate O|]. destruct (Rlt_dec _ _); [discriminate O|]. lra. }
  destruct (lookup_some (length xs) (at_ xs) H2 Hinc x G) as (j & L & _). rewrite L. cbn [option_map]. eauto.
Qed.
Lemma ext_open (f g : R -> R) (a b x l : R) : (forall t, a < t < b -> f t = g t) -> a < x < b -> is_derive f x l -> is_derive g x l.
Proof.
  intros E H. apply is_derive_ext_loc. assert (P : 0 < Rmin (x - a) (b - x)) by (apply Rmin_glb_lt; lra). exists (mkposreal _ P). intros y Hy. apply E.
  cbn in Hy. unfold ball in Hy. cbn in Hy. unfold AbsRing_ball, abs, minus, plus, opp in Hy. cbn in Hy. assert (B := Rabs_def2 _ _ Hy).
  assert (Q1 := Rmin_l (x - a) (b - x)). assert (Q2 := Rmin_r (x - a) (b - x)). lra.
Qed.
Lemma cubic_C2 : C2_on (first_x xs) (last_x xs) (fun x => val (evaluate (CubicS xs ys w) x)) (fun x => val (derivative (CubicS xs ys w) x)).
Proof.
  destruct Ag as (A & A1 & A2 & _). exists (fun t => val (sel (length xs) (at_ xs) (cub_d2 (at_ xs) w) t)). intros x Hx. split; [|split].
  - rewrite cubic_der by lra. apply (ext_open (fun t => val (sel (length xs) (at_ xs) (cub_y (at_ xs) (at_ ys) w) t)) _ (first_x xs) (last_x xs)); [|exact Hx|].
    + intros t Ht. rewrite cubic_eval by lra. reflexivity.
    + apply (sel_derive (length xs) (at_ xs) H2 Hinc _ _ _ A A1); [|exact Hx]. intros i y _. apply cub_derive.
  - apply (ext_open (fun t => val (sel (length xs) (at_ xs) (cub_dy (at_ xs) w) t)) _ (first_x xs) (last_x xs)); [|exact Hx|].
    + intros t Ht. rewrite cubic_der by lra. reflexivity.
    + apply (sel_derive (length xs) (at_ xs) H2 Hinc _ _ _ A1 A2); [|exact Hx]. intros i y _. apply cub_derive2.
  - apply (sel_cont (length xs) (at_ xs) H2 Hinc _ _ A2); [|exact Hx]. intros i y _. apply cub_cont.
Qed.
Lemma cubic_piece : forall i, (S i < length xs)%nat -> exists a b c d, forall x, nth i xs 0 <= x <= nth (S i) xs 0 ->
  evaluate (CubicS xs ys w) x = Some (a + b * x + c * x * x + d * x * x * x).
Proof.
  intros i Hi. destruct Ag as (A & _). 
  exists (at_ ys i - w_b w i * at_ xs i + w_c w i * at_ xs i * at_ xs i - w_d w i * at_ xs i * at_ xs i * at_ xs i).
  exists (w_b w i - 2 * w_c w i * at_ xs i + 3 * w_d w i * at_ xs i * at_ xs i). exists (w_c w i - 3 * w_d w i * at_ xs i). exists (w_d w i).
  intros x Hx. assert (B1 := bounds xs H2 Hinc i ltac:(lia)). assert (B2 := bounds xs H2 Hinc (S i) Hi). unfold at_ in B1, B2. rewrite cubic_eval by lra.
  rewrite (sel_ok (length xs) (at_ xs) H2 Hinc _ _ i A Hi Hx). f_equal. unfold cub_y. ring.
Qed.
Lemma cubic_poly a0 a1 a2 a3 : ((4 <= length xs)%nat \/ (length xs = 3)%nat /\ a3 = 0 \/ a3 = 0 /\ a2 = 0) ->
  (forall i, (i < length xs)%nat -> nth i ys 0 = a0 + a1 * nth i xs 0 + a2 * nth i xs 0 ^ 2 + a3 * nth i xs 0 ^ 3) ->
  forall x, first_x xs <= x <= last_x xs -> evaluate (CubicS xs ys w) x = Some (a0 + a1 * x + a2 * x ^ 2 + a3 * x ^ 3) /\
     derivative (CubicS xs ys w) x = Some (a1 + 2 * a2 * x + 3 * a3 * x ^ 2).
Proof.
  intros HC HY x Hx. rewrite cubic_eval, cubic_der by exact Hx. destruct Ag as (A & A1 & _).
  destruct (lookup_some (length xs) (at_ xs) H2 Hinc x Hx) as (j & _ & Hj & Hb).
  rewrite (sel_ok (length xs) (at_ xs) H2 Hinc _ _ j A ltac:(lia) Hb), (sel_ok (length xs) (at_ xs) H2 Hinc _ _ j A1 ltac:(lia) Hb).
  assert (P : forall y, cub_y (at_ xs) (at_ ys) w j y = a0 + a1 * y + a2 * y ^ 2 + a3 * y ^ 3).
  { intros y. destruct (Nat.eq_dec (length xs) 2) as [E|E].
    - assert (a2 = 0 /\ a3 = 0) as [-> ->] by (destruct HC as [C|[[C _]|[C1 C2]]]; [lia|lia|split; assumption]).
      assert (j = 0)%nat by lia. subst j. unfold w, cubic_work. rewrite E. cbn [Nat.eqb]. unfold cub_y. arr. unfold at_. rewrite !HY by lia.
      assert (G := Hinc 0%nat ltac:(lia)). field. lra.
    - unfold w. rewrite (cubic_exact (length xs) (at_ xs) (at_ ys) ltac:(lia) Hinc w0 a0 a1 a2 a3); [ring| | |lia].
      + destruct HC as [C|[[C1 C2]|[C1 C2]]]; [left; lia|right; assumption|right; assumption].
      + intros i Hi. unfold at_. rewrite HY by exact Hi. ring. }
  split; [rewrite P; reflexivity|]. f_equal.
  assert (D1 := cub_derive (at_ xs) (at_ ys) w j x). assert (D2 : is_derive (cub_y (at_ xs) (at_ ys) w j) x (a1 + 2 * a2 * x + 3 * a3 * x ^ 2)).
  { apply (is_derive_ext (fun y => a0 + a1 * y + a2 * y ^ 2 + a3 * y ^ 3)); [intros t; symmetry; apply P|]. auto_derive; [exact I|]. ring. }
  apply is_derive_unique in D1. apply is_derive_unique in D2. congruence.
Qed.
End CubicTop.

Section LinTop.
Variables (xs ys : list R).
Hypothesis H2 : (2 <= length xs)%nat.
Hypothesis Hinc : increasing xs.
Lemma lin_some : (length xs <= length ys)%nat -> linear_spline xs ys = Some (LinearS xs ys).
Proof. intros Hlen. unfold linear_spline. rewrite (proj2 (Nat.leb_le _ _) Hlen). destruct (Nat.leb_spec 1 (length xs)); [reflexivity|lia]. Qed.
Lemma lin_agree : agree (length xs) (at_ xs) (lin_y (at_ xs) (at_ ys)).
Proof. intros i Hi. unfold lin_y. assert (A := Hinc i ltac:(lia)). assert (B := Hinc (S i) ltac:(lia)). unfold at_. field. lra. Qed.
Lemma lin_eval i x : (S i < length xs)%nat -> nth i xs 0 <= x <= nth (S i) xs 0 -> evaluate (LinearS xs ys) x =
  Some (nth i ys 0 + (nth (S i) ys 0 - nth i ys 0) * ((x - nth i xs 0) / (nth (S i) xs 0 - nth i xs 0))).
Proof.
  intros Hi Hx. assert (A := bounds xs H2 Hinc i ltac:(lia)). assert (B := bounds xs H2 Hinc (S i) Hi). unfold at_ in A, B.
  unfold evaluate. rewrite inside_ok by lra. change (sel (length xs) (at_ xs) (lin_y (at_ xs) (at_ ys)) x = Some (nth i ys 0 + (nth (S i) ys 0 - nth i ys 0) * ((x - nth i xs 0) / (nth (S i) xs 0 - nth i xs 0)))).
  rewrite (sel_ok (length xs) (at_ xs) H2 Hinc _ _ i lin_agree Hi Hx). f_equal. unfold lin_y, at_. unfold Rdiv. ring.
Qed.
Lemma lin_deriv i x : (S i < length xs)%nat -> nth i xs 0 < x < nth (S i) xs 0 -> derivative (LinearS xs ys) x =
  Some ((nth (S i) ys 0 - nth i ys 0) / (nth (S i) xs 0 - nth i xs 0)).
Proof.
  intros Hi Hx. assert (A := bounds xs H2 Hinc i ltac:(lia)). assert (B := bounds xs H2 Hinc (S i) Hi). unfold at_ in A, B.
  unfold derivative. rewrite inside_ok by lra. destruct (lookup_some (length xs) (at_ xs) H2 Hinc x ltac:(unfold at_, first_x, last_x in *; lra)) as (j & L & Hj & Hb). rewrite L.
  cbn [option_map]. rewrite Nat2Z.id. destruct (lt_eq_lt_dec i j) as [[K|K]|K].
  - assert (at_ xs (S i) <= at_ xs j) by (apply (X_le (length xs) (at_ xs) H2 Hinc); lia). unfold at_ in *. lra.
  - subst. reflexivity.
  - assert (at_ xs (S j) <= at_ xs i) by (apply (X_le (length xs) (at_ xs) H2 Hinc); lia). unfold at_ in *. lra.
Qed.
Lemma locate x : first_x xs <= x <= last_x xs -> exists i, (S i < length xs)%nat /\ nth i xs 0 <= x <= nth (S i) xs 0.
Proof. intros H. destruct (lookup_some (length xs) (at_ xs) H2 Hinc x H) as (j & _ & Hj & Hb). exists j. split; [lia|exact Hb]. Qed.
End LinTop.
