From Coq Require Import Reals ZArith List Arith Lra Lia.
From Coquelicot Require Import Coquelicot.
From Verif Require Import M_Disc M_Transfer M_Poles S_Poles S_Spline S_Disc P_Simps P_Disc.
Import ListNotations.
Local Open Scope R_scope.

Lemma incr_tail x l : incr (x :: l) -> incr l.
Proof. destruct l; [intros; exact I|intros [_ H]; exact H]. Qed.
Lemma increasing_incr xs : increasing xs -> incr xs.
Proof.
  induction xs as [|x xs IH]; intros H; [exact I|]. destruct xs as [|y xs]; [exact I|]. split; [exact (H 0%nat ltac:(cbn; lia))|].
  apply IH. intros i Hi. exact (H (S i) ltac:(cbn in *; lia)).
Qed.
Lemma combine_map xs (f : R -> R) : combine xs (map f xs) = map (fun x => (x, f x)) xs.
Proof. induction xs; [reflexivity|]. cbn. f_equal. exact IHxs. Qed.
Lemma last_lastx xs : last xs 0 = last_x xs.
Proof. unfold last_x. induction xs as [|x xs IH]; [reflexivity|]. destruct xs as [|y xs]; [reflexivity|]. change (last (x :: y :: xs) 0) with (last (y :: xs) 0). rewrite IH. cbn [length]. replace (S (S (length xs)) - 1)%nat with (S (S (length xs) - 1))%nat by lia. reflexivity. Qed.
Lemma hd_firstx (xs : list R) : hd 0 xs = first_x xs.
Proof. destruct xs; reflexivity. Qed.
Lemma RInt_quad a b c u v : RInt (quad a b c) u v = Quad a b c v - Quad a b c u.
Proof.
  apply is_RInt_unique. apply (is_RInt_derive (Quad a b c) (quad a b c)).
  - intros x _. unfold Quad, quad. auto_derive; auto. field.
  - intros x _. unfold quad. apply (ex_derive_continuous (fun x : R => a + b * x + c * x ^ 2)). auto_derive. exact I.
Qed.
Lemma simps_odd_exact a b c xs : increasing xs -> (3 <= length xs)%nat -> Nat.odd (length xs) = true ->
  c_simps xs (map (fun x => a + b * x + c * x ^ 2) xs) = Some (RInt (fun x => a + b * x + c * x ^ 2) (first_x xs) (last_x xs)).
Proof.
  intros I L O. rewrite c_simps_ok; [|rewrite map_length; reflexivity|rewrite map_length; exact L]. refine (f_equal (@Some R) _).
  rewrite combine_map. unfold simps. rewrite map_length. rewrite <- Nat.negb_odd, O. cbn [negb].
  apply Nat.odd_spec in O. destruct O as [n Hn]. change (fun x => (x, a + b * x + c * x ^ 2)) with (fun x => (x, quad a b c x)).
  rewrite (simps_quad a b c n); [|apply increasing_incr; exact I|lia]. rewrite last_lastx, hd_firstx. symmetry. apply RInt_quad.
Qed.
(* affine functions at an even number of points *)
Lemma tl_incr xs : increasing xs -> increasing (tl xs).
Proof. destruct xs as [|x xs]; [auto|]. intros H i Hi. exact (H (S i) ltac:(cbn in *; lia)). Qed.
Lemma nth_firstn_lt {A} (l : list A) k i d : (i < k)%nat -> nth i (firstn k l) d = nth i l d.
Proof. revert k i. induction l as [|a l IH]; intros k i H; [rewrite firstn_nil; reflexivity|]. destruct k as [|k]; [lia|]. destruct i as [|i]; [reflexivity|]. cbn. apply IH. lia. Qed.
Lemma firstn_increasing k xs : increasing xs -> increasing (firstn k xs).
Proof. intros H i Hi. rewrite firstn_length in Hi. rewrite !nth_firstn_lt by lia. apply H. lia. Qed.
Lemma firstn_map' {A B} (f : A -> B) k l : firstn k (map f l) = map f (firstn k l).
Proof. revert k. induction l as [|a l IH]; intros [|k]; [reflexivity..|]. cbn. f_equal. apply IH. Qed.
Lemma tl_map {A B} (f : A -> B) l : tl (map f l) = map f (tl l).
Proof. destruct l; reflexivity. Qed.
Lemma nth_mapf (f : R -> R) xs i : (i < length xs)%nat -> nth i (map (fun x => (x, f x)) xs) (0, 0) = (nth i xs 0, f (nth i xs 0)).
Proof. revert i. induction xs as [|x xs IH]; intros i H; [cbn in H; lia|]. destruct i as [|i]; [reflexivity|]. cbn. apply IH. cbn in H. lia. Qed.
Lemma simps_even_exact a b xs : increasing xs -> (4 <= length xs)%nat -> Nat.even (length xs) = true ->
  c_simps xs (map (fun x => a + b * x) xs) = Some (RInt (fun x => a + b * x) (first_x xs) (last_x xs)).
Proof.
  intros I L E. rewrite c_simps_ok; [|rewrite map_length; reflexivity|rewrite map_length; lia]. refine (f_equal (@Some R) _).
  rewrite combine_map. unfold simps. rewrite map_length, E. apply Nat.even_spec in E. destruct E as [n Hn].
  rewrite firstn_map', tl_map, !nth_mapf by lia.
  assert (Q : map (fun x => (x, a + b * x)) (firstn (length xs - 1) xs) = map (fun x => (x, quad a b 0 x)) (firstn (length xs - 1) xs)) by (apply map_ext; intros; unfold quad; f_equal; ring).
  assert (Q' : map (fun x => (x, a + b * x)) (tl xs) = map (fun x => (x, quad a b 0 x)) (tl xs)) by (apply map_ext; intros; unfold quad; f_equal; ring).
  rewrite Q, Q'. rewrite (simps_quad a b 0 (n - 1)); [|apply increasing_incr, firstn_increasing; exact I|rewrite firstn_length; lia].
  rewrite (simps_quad a b 0 (n - 1)); [|apply increasing_incr, tl_incr; exact I|destruct xs; cbn in *; lia].
  transitivity (RInt (quad a b 0) (first_x xs) (last_x xs)); [|apply RInt_ext; intros; unfold quad; match goal with |- ?a = ?b => change (@eq R a b) end; ring].
  rewrite RInt_quad. rewrite !last_lastx, !hd_firstx. unfold trap. cbn [fst snd].
  assert (F1 : first_x (firstn (length xs - 1) xs) = first_x xs) by (unfold first_x; apply nth_firstn_lt; lia).
  assert (F2 : last_x (firstn (length xs - 1) xs) = nth (length xs - 2) xs 0).
  { unfold last_x. rewrite firstn_length, Nat.min_l by lia. rewrite nth_firstn_lt by lia. f_equal. lia. }
  assert (F3 : first_x (tl xs) = nth 1 xs 0) by (destruct xs; reflexivity).
  assert (F4 : last_x (tl xs) = last_x xs). { unfold last_x. destruct xs as [|x xs]; [reflexivity|]. cbn [tl length]. replace (S (length xs) - 1)%nat with (S (length xs - 1))%nat by (cbn in L; lia). reflexivity. }
  rewrite F1, F2, F3, F4. fold (first_x xs) (last_x xs). change (nth (length xs - 1) xs 0) with (last_x xs). change (nth 0 xs 0) with (first_x xs). unfold Quad. field.
Qed.

(** ** the trapezoidal rule *)
Lemma c_trapz_ok x y : length x = length y -> y <> [] ->
  c_trapz x y = Some (total (tab (length y - 1) (fun i => (nth (S i) x 0 - nth i x 0) * (1/2) * (nth (S i) y 0 + nth i y 0)))).
Proof.
  intros HL Hy. unfold c_trapz. destruct (length y) as [|n] eqn:E; [destruct y; [contradiction|discriminate]|].
  rewrite (all_some_tab n _ (fun i => (nth (S i) x 0 - nth i x 0) * (1/2) * (nth (S i) y 0 + nth i y 0))).
  - replace (S n - 1)%nat with n by lia. reflexivity.
  - intros i Hi. rewrite !pget_in by lia. reflexivity.
Qed.
Lemma total_app l a : total (l ++ [a]) = total l + a.
Proof. induction l as [|b l IH]; cbn; [ring|rewrite IH; ring]. Qed.
Lemma total_tab_S n f : total (tab (S n) f) = total (tab n f) + f n.
Proof. unfold tab. rewrite seq_S, map_app. cbn [map Nat.add]. apply total_app. Qed.
Lemma incr_le xs i j : increasing xs -> (i <= j)%nat -> (j < length xs)%nat -> nth i xs 0 <= nth j xs 0.
Proof. intros I H1 H2. induction H1 as [|j H IH]; [lra|]. specialize (I j H2). specialize (IH ltac:(lia)). lra. Qed.
Lemma straight_int a b g : a <= b -> straight_on a b g -> is_RInt g a b ((b - a) * (1/2) * (g b + g a)).
Proof.
  intros H (s & Hs). apply (is_RInt_ext (fun x => g a + s * (x - a))).
  - intros x Hx. rewrite Rmin_left, Rmax_right in Hx by lra. symmetry. apply Hs. lra.
  - assert (E : (b - a) * (1/2) * (g b + g a) = (fun x => g a * x + s * (x - a) ^ 2 / 2) b - (fun x => g a * x + s * (x - a) ^ 2 / 2) a).
    { rewrite (Hs b) by lra. cbv beta. field. }
    rewrite E. apply (is_RInt_derive (fun x => g a * x + s * (x - a) ^ 2 / 2) (fun x => g a + s * (x - a))).
    + intros x _. auto_derive; auto. field.
    + intros x _. apply (ex_derive_continuous (fun x : R => g a + s * (x - a))). auto_derive. exact I.
Qed.
Lemma trapz_is_RInt xs g : increasing xs -> (forall i, (S i < length xs)%nat -> straight_on (nth i xs 0) (nth (S i) xs 0) g) -> xs <> [] ->
  c_trapz xs (map g xs) = Some (RInt g (first_x xs) (last_x xs)).
Proof.
  intros I H Hn. rewrite c_trapz_ok; [|rewrite map_length; reflexivity|destruct xs; [contradiction|discriminate]]. refine (f_equal (@Some R) _). rewrite map_length. symmetry.
  assert (HN : (1 <= length xs)%nat) by (destruct xs; [contradiction|cbn; lia]).
  assert (K : forall n, (n < length xs)%nat -> is_RInt g (first_x xs) (nth n xs 0) (total (tab n (fun i => (nth (S i) xs 0 - nth i xs 0) * (1/2) * (nth (S i) (map g xs) 0 + nth i (map g xs) 0))))).
  { induction n as [|n IH]; intros L.
    - change (total (tab 0 _)) with (@zero R_CompleteNormedModule). apply (is_RInt_point (V := R_CompleteNormedModule) g).
    - rewrite total_tab_S. change (is_RInt g (first_x xs) (nth (S n) xs 0) (plus (total (tab n (fun i => (nth (S i) xs 0 - nth i xs 0) * (1/2) * (nth (S i) (map g xs) 0 + nth i (map g xs) 0)))) ((nth (S n) xs 0 - nth n xs 0) * (1/2) * (nth (S n) (map g xs) 0 + nth n (map g xs) 0)))).
      apply (is_RInt_Chasles (V := R_CompleteNormedModule) g _ (nth n xs 0)); [apply IH; lia|].
      rewrite !(nth_indep (map g xs) 0 (g 0)) by (rewrite map_length; lia). rewrite !map_nth. apply straight_int; [left; apply I; exact L|apply H; exact L]. }
  apply is_RInt_unique. exact (K (length xs - 1)%nat ltac:(lia)).
Qed.
(** error of one panel, then of the whole rule *)
Lemma panel2 (f f1 f2 : R -> R) a b M : a <= b -> (forall x, a <= x <= b -> is_derive f x (f1 x) /\ is_derive f1 x (f2 x) /\ Rabs (f2 x) <= M) -> 
  ex_RInt f a b /\ Rabs ((b - a) * (1/2) * (f b + f a) - RInt f a b) <= M / 12 * (b - a) ^ 3.
Proof.
  intros H D. assert (Hc : forall x, a <= x <= b -> continuous f x) by (intros x Hx; apply (ex_derive_continuous f); exists (f1 x); apply D; exact Hx).
  assert (HI : ex_RInt f a b). { apply (ex_RInt_continuous (V := R_CompleteNormedModule) f). intros z Hz. rewrite Rmin_left, Rmax_right in Hz by lra. apply Hc. exact Hz. }
  split; [exact HI|].
  (* extend f by clamping so that the antiderivative is differentiable everywhere *)
  set (cl := fun x => Rmax a (Rmin b x)). assert (Hcl : forall x, a <= cl x <= b). { intros x. unfold cl. split; [apply Rmax_l|apply Rmax_lub; [lra|apply Rmin_l]]. }
  assert (Hid : forall x, a <= x <= b -> cl x = x). { intros x Hx. unfold cl. rewrite Rmin_right by lra. apply Rmax_right. lra. }
  set (fe := fun x => f (cl x)).
  assert (Hce : forall x, continuous fe x).
  { intros x. unfold fe. apply (continuous_comp cl f); [|apply Hc, Hcl]. unfold cl. 
    apply (continuous_comp (fun x => Rmin b x) (fun z => Rmax a z)).
    - apply (continuous_ext (fun x => (b + x - Rabs (b - x)) / 2)). { intros z. unfold Rmin, Rabs. destruct (Rle_dec b z), (Rcase_abs (b - z)); lra. }
      apply (continuous_mult (fun x : R => b + x - Rabs (b - x)) (fun _ => / 2)); [|apply continuous_const].
      apply (continuous_minus (fun x : R => b + x) (fun x : R => Rabs (b - x))). { apply (continuous_plus (fun _ => b) (fun x : R => x)); [apply continuous_const|apply continuous_id]. }
      apply (continuous_comp (fun x : R => b - x) Rabs); [|apply continuous_Rabs]. apply (continuous_minus (fun _ => b) (fun x : R => x)); [apply continuous_const|apply continuous_id].
    - apply (continuous_ext (fun x => (a + x + Rabs (a - x)) / 2)). { intros z. unfold Rmax, Rabs. destruct (Rle_dec a z), (Rcase_abs (a - z)); lra. }
      apply (continuous_mult (fun x : R => a + x + Rabs (a - x)) (fun _ => / 2)); [|apply continuous_const].
      apply (continuous_plus (fun x : R => a + x) (fun x : R => Rabs (a - x))). { apply (continuous_plus (fun _ => a) (fun x : R => x)); [apply continuous_const|apply continuous_id]. }
      apply (continuous_comp (fun x : R => a - x) Rabs); [|apply continuous_Rabs]. apply (continuous_minus (fun _ => a) (fun x : R => x)); [apply continuous_const|apply continuous_id]. }
  set (G := fun t => RInt fe a (a + t)).
  assert (DG : forall t, is_derive G t (fe (a + t))).
  { intros t. unfold G. assert (E : is_derive (fun u => RInt fe a u) (a + t) (fe (a + t))).
    { apply (is_derive_RInt (V := R_CompleteNormedModule) fe (fun u => RInt fe a u) a (a + t)); [|apply Hce].
      apply filter_forall. intros u. apply (RInt_correct (V := R_CompleteNormedModule) fe). apply (ex_RInt_continuous (V := R_CompleteNormedModule) fe). intros; apply Hce. }
    exact (sh _ _ a t E). }
  assert (EG : G (b - a) = RInt f a b).
  { unfold G. replace (a + (b - a)) with b by ring. apply RInt_ext. intros x Hx. rewrite Rmin_left, Rmax_right in Hx by lra. unfold fe. rewrite Hid by lra. reflexivity. }
  set (g := fun t => t * (1/2) * (f (a + t) + f a) - G t).
  set (g1 := fun t => (1/2) * (f a - f (a + t)) + t * (1/2) * f1 (a + t)).
  assert (D1 : forall t, 0 <= t <= b - a -> is_derive g t (g1 t)).
  { intros t Ht. unfold g, g1. destruct (D (a + t) ltac:(lra)) as (Df & _ & _). assert (S := sh f f1 a t Df).
    assert (A : is_derive (fun t => t * (1/2)) t (1/2)) by (auto_derive; auto; field).
    assert (B := dmul _ _ t _ _ A (dplus _ _ t _ _ S (dconst (f a) t))). assert (C := dminus _ _ t _ _ B (DG t)).
    replace (fe (a + t)) with (f (a + t)) in C by (unfold fe; rewrite Hid by lra; reflexivity).
    eapply is_derive_ext'; [|exact C] || (match type of C with is_derive _ _ ?v => replace (1 / 2 * (f a - f (a + t)) + t * (1 / 2) * f1 (a + t)) with v; [exact C|field] end). }
  assert (D2 : forall t, 0 <= t <= b - a -> is_derive g1 t (t * (1/2) * f2 (a + t))).
  { intros t Ht. unfold g1. destruct (D (a + t) ltac:(lra)) as (Df & Df1 & _). assert (S := sh f f1 a t Df). assert (S1 := sh f1 f2 a t Df1).
    assert (A : is_derive (fun t => t * (1/2)) t (1/2)) by (auto_derive; auto; field).
    assert (B := dmul _ _ t _ _ A S1). assert (C := dmul _ _ t _ _ (dconst (1/2) t) (dminus _ _ t _ _ (dconst (f a) t) S)). assert (E := dplus _ _ t _ _ C B).
    match type of E with is_derive _ _ ?v => replace (t * (1 / 2) * f2 (a + t)) with v; [exact E|field] end. }
  assert (B1 : forall t, 0 <= t <= b - a -> Rabs (g1 t) <= (M / 2) / INR 2 * t ^ 2).
  { apply (step_bound g1 (fun t => t * (1/2) * f2 (a + t)) (b - a) (M / 2) 1).
    - unfold g1. replace (a + 0) with a by ring. ring.
    - exact D2.
    - intros t Ht. destruct (D (a + t) ltac:(lra)) as (_ & _ & Hb). rewrite Rabs_mult, (Rabs_pos_eq (t * (1/2))) by lra. rewrite pow_1. assert (0 <= Rabs (f2 (a + t))) by apply Rabs_pos. nra. }
  assert (B2 := step_bound g g1 (b - a) (M / 2 / INR 2) 2). 
  assert (B3 : Rabs (g (b - a)) <= M / 2 / INR 2 / INR 3 * (b - a) ^ 3).
  { apply B2; [unfold g, G; replace (a + 0) with a by ring; rewrite RInt_point; change (@zero R_CompleteNormedModule) with 0; ring|exact D1|exact B1|lra]. }
  unfold g in B3. rewrite EG in B3. replace (a + (b - a)) with b in B3 by ring. replace (M / 12) with (M / 2 / INR 2 / INR 3); [exact B3|cbn; field].
Qed.
Definition cubes (xs : list R) (i : nat) : R := (nth (S i) xs 0 - nth i xs 0) ^ 3.
Lemma trapz_error xs f M : increasing xs -> xs <> [] -> smooth2 (first_x xs) (last_x xs) f M ->
  exists v, c_trapz xs (map f xs) = Some v /\ Rabs (v - RInt f (first_x xs) (last_x xs)) <= M / 12 * total (tab (length xs - 1) (cubes xs)).
Proof.
  intros I Hn (f1 & f2 & D). rewrite c_trapz_ok; [|rewrite map_length; reflexivity|destruct xs; [contradiction|discriminate]]. eexists; split; [reflexivity|]. rewrite map_length.
  assert (HN : (1 <= length xs)%nat) by (destruct xs; [contradiction|cbn; lia]).
  assert (K : forall n, (n < length xs)%nat -> ex_RInt f (first_x xs) (nth n xs 0) /\ Rabs (total (tab n (fun i => (nth (S i) xs 0 - nth i xs 0) * (1/2) * (nth (S i) (map f xs) 0 + nth i (map f xs) 0))) - RInt f (first_x xs) (nth n xs 0)) <= M / 12 * total (tab n (cubes xs))).
  { induction n as [|n IH]; intros L.
    - split; [apply ex_RInt_point|]. unfold first_x. rewrite RInt_point. change (@zero R_CompleteNormedModule) with 0. cbn. rewrite Rminus_0_r, Rabs_R0. lra.
    - destruct (IH ltac:(lia)) as (E1 & B1). assert (A0 := I n L). assert (A1 := incr_le xs 0 n I ltac:(lia) ltac:(lia)). assert (A2 := incr_le xs (S n) (length xs - 1) I ltac:(lia) ltac:(lia)).
      destruct (panel2 f f1 f2 (nth n xs 0) (nth (S n) xs 0) M) as (E2 & B2); [lra|intros x Hx; apply D; unfold first_x, last_x; lra|].
      split; [apply (ex_RInt_Chasles f _ (nth n xs 0)); assumption|].
      rewrite !total_tab_S. rewrite <- (RInt_Chasles (V := R_CompleteNormedModule) f _ (nth n xs 0)) by assumption. change (plus ?a ?b) with (a + b).
      rewrite !(nth_indep (map f xs) 0 (f 0)) by (rewrite map_length; lia). rewrite !map_nth. fold (cubes xs n) in B2. unfold cubes at 2. 
      apply Rabs_le_between in B1. apply Rabs_le_between in B2. apply Rabs_le_between. unfold cubes in B2. rewrite Rmult_plus_distr_l.
      change (RInt (V := R_CompleteNormedModule) f) with (RInt f) in *. lra. }
  exact (proj2 (K (length xs - 1)%nat ltac:(lia))).
Qed.
