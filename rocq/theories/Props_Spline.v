(** Properties C111-C116: the splines of the compiled library. *)
From Coq Require Import Reals List ZArith Lra Lia.
From Coquelicot Require Import Coquelicot.
From Verif Require Import M_Spline S_Spline P_Spline P_SplineV P_SplineSh M_SplineRef P_SplineRef.
Import ListNotations.
Local Open Scope R_scope.

(** C111: for every table with increasing abscissas (two or more) and whatever the allocated memory contained, the cubic spline exists, gives
    a value and a derivative at every point (0 outside the table), passes through the points, is a cubic on every interval and is
    twice continuously differentiable inside, EvaluateDerivative being its derivative. *)
Theorem C111_cubic_spline : forall w0 xs ys, (2 <= length xs)%nat -> (length xs <= length ys)%nat -> increasing xs ->
  exists s, cubic_spline w0 xs ys = Some s /\
  exists f d : R -> R, (forall x, evaluate s x = Some (f x) /\ derivative s x = Some (d x)) /\
    (forall i, (i < length xs)%nat -> f (nth i xs 0) = nth i ys 0) /\
    (forall x, x < first_x xs \/ last_x xs < x -> f x = 0 /\ d x = 0) /\
    (forall i, (S i < length xs)%nat -> exists a b c e, forall x, nth i xs 0 <= x <= nth (S i) xs 0 -> f x = a + b * x + c * x * x + e * x * x * x) /\
    C2_on (first_x xs) (last_x xs) f d.
Proof.
  intros w0 xs ys H2 Hl Hi. set (w := cubic_work (length xs) (at_ xs) (at_ ys) w0). exists (CubicS xs ys w). split; [apply cubic_some; assumption|].
  exists (fun x => val (evaluate (CubicS xs ys w) x)), (fun x => val (derivative (CubicS xs ys w) x)). split; [|split; [|split; [|split]]].
  - intros x. destruct (cubic_total w0 xs ys H2 Hi x) as (v & d & A & B). fold w in A, B. rewrite A, B. split; reflexivity.
  - intros i Hx. cbv beta. unfold w. rewrite (cubic_node w0 xs ys H2 Hi i Hx). reflexivity.
  - intros x Hx. cbn [evaluate derivative]. rewrite (outside_ok xs x Hx). split; reflexivity.
  - intros i Hx. destruct (cubic_piece w0 xs ys H2 Hi i Hx) as (a & b & c & e & P). exists a, b, c, e. intros x Hb. unfold w. rewrite (P x Hb). reflexivity.
  - unfold w. apply (cubic_C2 w0 xs ys H2 Hi).
Qed.
Print Assumptions C111_cubic_spline.
Example C111_nonvacuous : increasing [0; 1; 3; 4] /\ first_x [0; 1; 3; 4] = 0 /\ last_x [0; 1; 3; 4] = 4.
Proof. split; [|split; reflexivity]. intros [|[|[|i]]] H; cbn in *; try lra; lia. Qed.

(** C112: values taken from a polynomial of degree at most 3 (2 with three points, 1 with two) are reproduced exactly, derivatives included. *)
Theorem C112_cubic_reproduces : forall w0 xs ys a0 a1 a2 a3, (2 <= length xs)%nat -> (length xs <= length ys)%nat -> increasing xs ->
  ((4 <= length xs)%nat \/ (length xs = 3)%nat /\ a3 = 0 \/ a3 = 0 /\ a2 = 0) ->
  (forall i, (i < length xs)%nat -> nth i ys 0 = a0 + a1 * nth i xs 0 + a2 * nth i xs 0 ^ 2 + a3 * nth i xs 0 ^ 3) ->
  exists s, cubic_spline w0 xs ys = Some s /\ forall x, first_x xs <= x <= last_x xs ->
    evaluate s x = Some (a0 + a1 * x + a2 * x ^ 2 + a3 * x ^ 3) /\ derivative s x = Some (a1 + 2 * a2 * x + 3 * a3 * x ^ 2).
Proof.
  intros w0 xs ys a0 a1 a2 a3 H2 Hl Hi HC HY. eexists. split; [apply cubic_some; assumption|]. intros x Hx. apply (cubic_poly w0 xs ys H2 Hi); assumption.
Qed.
Print Assumptions C112_cubic_reproduces.
Example C112_nonvacuous : forall i, (i < length [0; 1; 3; 4])%nat -> nth i [0; 1; 27; 64] 0 = 0 + 0 * nth i [0; 1; 3; 4] 0 + 0 * nth i [0; 1; 3; 4] 0 ^ 2 + 1 * nth i [0; 1; 3; 4] 0 ^ 3.
Proof. intros [|[|[|[|i]]]] H; cbn in *; try lra; lia. Qed.

(** C113: the linear spline is the straight line between neighbouring points, its derivative the slope, and 0 outside. In particular its values
    lie between the neighbouring ones and affine data are reproduced. *)
Theorem C113_linear_spline : forall xs ys, (2 <= length xs)%nat -> (length xs <= length ys)%nat -> increasing xs ->
  exists s, linear_spline xs ys = Some s /\
  (forall i, (i < length xs)%nat -> evaluate s (nth i xs 0) = Some (nth i ys 0)) /\
  (forall i x, (S i < length xs)%nat -> nth i xs 0 <= x <= nth (S i) xs 0 -> exists t v, 0 <= t <= 1 /\ x = (1 - t) * nth i xs 0 + t * nth (S i) xs 0 /\
      evaluate s x = Some v /\ v = (1 - t) * nth i ys 0 + t * nth (S i) ys 0 /\ Rmin (nth i ys 0) (nth (S i) ys 0) <= v <= Rmax (nth i ys 0) (nth (S i) ys 0)) /\
  (forall i x, (S i < length xs)%nat -> nth i xs 0 < x < nth (S i) xs 0 -> derivative s x = Some ((nth (S i) ys 0 - nth i ys 0) / (nth (S i) xs 0 - nth i xs 0))) /\
  (forall x, x < first_x xs \/ last_x xs < x -> evaluate s x = Some 0 /\ derivative s x = Some 0) /\
  (forall a b, (forall i, (i < length xs)%nat -> nth i ys 0 = a + b * nth i xs 0) -> forall x, first_x xs <= x <= last_x xs -> evaluate s x = Some (a + b * x)).
Proof.
  intros xs ys H2 Hl Hi. exists (LinearS xs ys). split; [apply lin_some; assumption|]. split; [|split; [|split; [|split]]].
  - intros i H. destruct i as [|i].
    + rewrite (lin_eval xs ys H2 Hi 0%nat) by (try lia; specialize (Hi 0%nat ltac:(lia)); lra). f_equal. unfold Rdiv. ring.
    + assert (G := Hi i H). rewrite (lin_eval xs ys H2 Hi i) by (try lia; lra). f_equal. field. lra.
  - intros i x H Hx. assert (G := Hi i H). rewrite (lin_eval xs ys H2 Hi i x H Hx). set (t := (x - nth i xs 0) / (nth (S i) xs 0 - nth i xs 0)).
    assert (T : 0 <= t <= 1). { unfold t. split; [apply Rmult_le_pos; [lra|left; apply Rinv_0_lt_compat; lra]|]. apply (Rmult_le_reg_r (nth (S i) xs 0 - nth i xs 0)); [lra|]. unfold Rdiv. rewrite Rmult_assoc, Rinv_l by lra. lra. }
    exists t. eexists. split; [exact T|]. split; [unfold t; field; lra|]. split; [reflexivity|]. split; [ring|].
    set (a := nth i ys 0). set (b := nth (S i) ys 0). replace (a + (b - a) * t) with ((1 - t) * a + t * b) by ring.
    assert (A1 := Rmin_l a b). assert (A2 := Rmin_r a b). assert (B1 := Rmax_l a b). assert (B2 := Rmax_r a b).
    assert (P : forall u v, u <= v -> (1 - t) * u <= (1 - t) * v) by (intros; apply Rmult_le_compat_l; lra).
    assert (Q : forall u v, u <= v -> t * u <= t * v) by (intros; apply Rmult_le_compat_l; lra).
    assert (P1 := P _ _ A1). assert (Q1 := Q _ _ A2). assert (P2 := P _ _ B1). assert (Q2 := Q _ _ B2). lra.
  - intros i x H Hx. apply (lin_deriv xs ys H2 Hi); assumption.
  - intros x Hx. cbn [evaluate derivative]. rewrite (outside_ok xs x Hx). split; reflexivity.
  - intros a b HY x Hx. destruct (locate xs H2 Hi x Hx) as (i & Hl' & Hb). rewrite (lin_eval xs ys H2 Hi i x Hl' Hb). f_equal. rewrite !HY by lia. assert (G := Hi i Hl'). field. lra.
Qed.
Print Assumptions C113_linear_spline.

(** C114: the shifted linear spline (0 <= tau < 1) of equally spaced data passes through the data, is 0 outside and reproduces constants. *)
Theorem C114_shifted_spline : forall xs ys tau, (2 <= length xs)%nat -> (length xs <= length ys)%nat -> uniform xs -> 0 <= tau < 1 ->
  exists s, shifted_spline xs ys tau = Some s /\
  (forall i, (i < length xs)%nat -> evaluate s (nth i xs 0) = Some (nth i ys 0)) /\
  (forall x, x < first_x xs \/ last_x xs < x -> evaluate s x = Some 0) /\
  (forall c, (forall i, (i < length xs)%nat -> nth i ys 0 = c) -> forall x, first_x xs <= x <= last_x xs -> evaluate s x = Some c).
Proof.
  intros xs ys tau H2 Hl Hu Ht. exists (ShiftS xs ys tau). split; [|split; [|split]].
  - unfold shifted_spline. rewrite (proj2 (Nat.leb_le _ _) Hl), (proj2 (Nat.leb_le _ _) H2). reflexivity.
  - intros i Hi. apply sh_node; assumption.
  - intros x Hx. cbn [evaluate]. rewrite (outside_ok xs x Hx). reflexivity.
  - intros c Hc x Hx. apply sh_const; assumption.
Qed.
Print Assumptions C114_shifted_spline.
Example C114_nonvacuous : uniform [0; 1; 2] /\ evaluate (ShiftS [0; 1; 2] [5; 7; 1] (1/5)) 1 = Some 7.
Proof.
  assert (U : uniform [0; 1; 2]) by (exists 1; split; [lra|]; intros [|[|i]] H; cbn in *; try lra; lia).
  split; [exact U|]. apply (sh_node [0;1;2] [5;7;1] (1/5) ltac:(cbn; lia) U ltac:(lra) 1%nat). cbn. lia.
Qed.

(** C115: a table that cannot be interpolated is refused when the spline is built.
    What holds: for ANY table of two or more points, ordered or not, the search ends within as many steps as there are points, on an interval
    of the table, so every evaluation is memory safe. *)
Theorem C115_search_safe_partial : forall xs ys x, (2 <= length xs)%nat -> (exists v, evaluate (LinearS xs ys) x = Some v) /\
  (first_x xs <= x <= last_x xs -> exists j, lookup (length xs) x (length xs) (at_ xs) = Some (Z.of_nat j) /\ (S j < length xs)%nat).
Proof.
  intros xs ys x H2.
  assert (G : first_x xs <= x <= last_x xs -> exists j, lookup (length xs) x (length xs) (at_ xs) = Some (Z.of_nat j) /\ (S j < length xs)%nat).
  { intros [A B]. destruct (lookup_ok (length xs) x (at_ xs) H2 A B) as (j & [(E & F & _)|(E & F & _)]); exists j; (split; [exact E|lia]). }
  split; [|exact G]. cbn [evaluate]. destruct (outside xs x) eqn:O; [eauto|].
  assert (I : first_x xs <= x <= last_x xs). { unfold outside, at_ in O. unfold first_x, last_x. destruct (Rlt_dec _ _); [discriminate O|]. destruct (Rlt_dec _ _); [discriminate O|]. lra. }
  destruct (G I) as (j & E & _). rewrite E. cbn. eauto.
Qed.
Print Assumptions C115_search_safe_partial.
(** What does not: a one-point table is accepted, and evaluating at its only point stops the process (failed assertion, None); an unordered
    table and, for the shifted spline, unequal spacing are accepted and give wrong values at the points of the table. *)
Theorem C115_bad_tables_refuted :
  (forall x0 y0, linear_spline [x0] [y0] = Some (LinearS [x0] [y0]) /\ evaluate (LinearS [x0] [y0]) x0 = None) /\
  (exists s, linear_spline [0; 2; 1; 3] [0; 10; 20; 30] = Some s /\ evaluate s 2 = Some 25) /\
  (exists s, shifted_spline [0; 1; 3] [0; 0; 5] (1/2) = Some s /\ exists v, evaluate s 3 = Some v /\ v <> 5).
Proof.
  split; [|split].
  - intros x0 y0. split; [reflexivity|]. cbn [evaluate]. rewrite inside_ok by (unfold first_x, last_x; cbn; lra). reflexivity.
  - exists (LinearS [0; 2; 1; 3] [0; 10; 20; 30]). split; [reflexivity|]. cbn [evaluate]. rewrite inside_ok by (unfold first_x, last_x; cbn; lra).
    unfold lookup. cbn [length Nat.leb Nat.sub andb]. unfold at_. cbn [nth].
    destruct (Rle_dec 0 2); [|lra]. destruct (Rle_dec 2 3); [|lra]. cbn [andb]. destruct (Req_EM_T 2 3); [lra|].
    rewrite (Int_part_Z 2) by (cbn; lra). cbn [lookup_loop Z.ltb Z.compare]. change (Z.to_nat 2) with 2%nat. change (Z.to_nat (2 + 1)) with 3%nat. cbn [nth].
    destruct (Rlt_dec 2 1); [lra|]. destruct (Rlt_dec 3 2); [lra|]. cbn [option_map]. change (Z.to_nat 2) with 2%nat. unfold lin_y. cbn [nth]. f_equal. lra.
  - exists (ShiftS [0; 1; 3] [0; 0; 5] (1/2)). split; [reflexivity|]. cbn [evaluate]. rewrite inside_ok by (unfold first_x, last_x; cbn; lra).
    unfold lookup. cbn [length Nat.leb Nat.sub andb]. cbv [sh_X at_ nth]. cbv beta iota zeta.
    destruct (Rle_dec _ _); [|lra]. destruct (Rle_dec _ _); [|lra]. cbn [andb]. destruct (Req_EM_T _ _); [lra|].
    assert (E : Int_part (INR 3 * (3 - (0 - (1 - 1/2) * (1 - 0))) / (3 + 1/2 * (1 - 0) - (0 - (1 - 1/2) * (1 - 0)))) = 2%Z).
    { set (v := INR 3 * _ / _). assert (V : v = 21/8) by (unfold v; cbn; field). destruct (base_Int_part v) as [A B]. rewrite V in *.
      assert (IZR (Int_part (21/8)) < 3) by lra. apply lt_IZR in H. assert (1 < IZR (Int_part (21/8))) by lra. apply lt_IZR in H0. lia. }
    rewrite E. cbn [lookup_loop Z.ltb Z.compare]. change (Z.to_nat 2) with 2%nat. change (Z.to_nat (2 + 1)) with 3%nat.
    cbn [nth]. destruct (Rlt_dec _ _); [lra|]. destruct (Rlt_dec _ _); [lra|]. cbn [option_map]. change (Z.to_nat 2) with 2%nat.
    eexists. split; [reflexivity|]. unfold lin_y, sh_X, at_. cbn [sh_Y nth]. unfold at_. cbn [nth]. lra.
Qed.
Print Assumptions C115_bad_tables_refuted.

(** C116: for every history of constructions, copies, assignments, destructions and evaluations of spline handles no freed spline is ever
    touched, a spline is freed exactly when no handle designates it any more, and copying and assignment make the target designate the
    spline of the source and change no other handle. *)
Theorem C116_handles_safe : forall l, exists s, srun pst0 l = Some s /\
  (forall i, (i < next (hp s))%nat -> (freed (hp s) i = true <-> forall h, look h (handles s) <> Some (Some i))) /\
  (forall i h, look h (handles s) = Some (Some i) -> freed (hp s) i = false).
Proof.
  intros l. destruct (run_ok l pst0 inv0) as (s & E & ND & I). exists s. split; [exact E|]. split.
  - intros i Hi. destruct (I i) as [A _]. destruct (A Hi) as [_ B]. rewrite B. apply refs_zero, ND.
  - intros i h H. apply (lt_next _ _ i I). apply (refs_look h). exact H.
Qed.
Print Assumptions C116_handles_safe.
Theorem C116_copy_assign_destroy : forall l s, srun pst0 l = Some s -> forall h src p,
  (look h (handles s) = None -> look src (handles s) = Some p ->
     exists s', sstep s (SCopy h src) = Some s' /\ forall g, look g (handles s') = if Nat.eqb g h then Some p else look g (handles s)) /\
  (forall q, look h (handles s) = Some q -> look src (handles s) = Some p ->
     exists s', sstep s (SAssign h src) = Some s' /\ forall g, look g (handles s') = if Nat.eqb g h then Some p else look g (handles s)) /\
  (forall q, look h (handles s) = Some q -> exists s', sstep s (SDestroy h) = Some s' /\ forall g, look g (handles s') = if Nat.eqb g h then None else look g (handles s)).
Proof.
  intros l s E h src p. assert (I : inv s). { destruct (run_ok l pst0 inv0) as (s' & E' & I). rewrite E in E'. injection E' as <-. exact I. }
  split; [|split].
  - intros A B. destruct (step_ok s (SCopy h src) I) as (s' & E' & _). exists s'. split; [exact E'|]. intros g. cbn [sstep] in E'. rewrite A, B in E'.
    destruct (incr p (hp s)); [|discriminate E']. injection E' as <-. cbn [handles look]. rewrite (Nat.eqb_sym h g). reflexivity.
  - intros q A B. destruct (step_ok s (SAssign h src) I) as (s' & E' & _). exists s'. split; [exact E'|]. intros g. cbn [sstep] in E'. rewrite A, B in E'.
    destruct (eqo q p) eqn:Q.
    + injection E' as <-. destruct (Nat.eqb_spec g h) as [->|]; [|reflexivity]. rewrite A. f_equal. destruct q as [x|], p as [y|]; cbn in Q; try discriminate Q; [|reflexivity]. apply Nat.eqb_eq in Q. congruence.
    + destruct (decr q (hp s)) as [m|]; [|discriminate E']. destruct (incr p m); [|discriminate E']. injection E' as <-. cbn [handles]. rewrite look_redirect, A. reflexivity.
  - intros q A. destruct (step_ok s (SDestroy h) I) as (s' & E' & _). exists s'. split; [exact E'|]. intros g. cbn [sstep] in E'. rewrite A in E'.
    destruct (decr q (hp s)) as [m|]; [|discriminate E']. injection E' as <-. cbn [handles]. apply look_remove, (proj1 I).
Qed.
Print Assumptions C116_copy_assign_destroy.
Example C116_nonvacuous : match srun pst0 [SNew 1; SCopy 2 1; SNew 3; SAssign 1 3; SDestroy 2; SEval 1; SAssign 3 3; SDestroy 1] with
  | Some s => freed (hp s) 0 = true /\ freed (hp s) 1 = false /\ look 3 (handles s) = Some (Some 1%nat) | None => False end.
Proof. vm_compute. repeat split. Qed.
