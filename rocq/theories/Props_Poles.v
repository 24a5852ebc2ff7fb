(** * C100 - C103: evaluation on (k, mu) and multipole integration *)
From Coq Require Import Reals List Arith Bool Lia Lra.
From Coquelicot Require Import Coquelicot.
From Verif Require Import M_Transfer M_Poles P_Simps S_Poles P_Poles.
Import ListNotations.
Local Open Scope R_scope.

Lemma some_inj : forall A (a b : A), Some a = Some b -> a = b.
Proof. intros. congruence. Qed.
(** C100. One-dimensional k and mu of different lengths, neither of length one: the result is the table with axes k and mu,
    entry (i, j) being the power at (k_i, mu_j). *)
Theorem C100_grid_of_values : forall P k mu, length k <> length mu -> length k <> 1%nat -> length mu <> 1%nat ->
  exists v, call P false (Vec k) (Vec mu) = L2 k mu v /\
  forall i j x m, nth_error k i = Some x -> nth_error mu j = Some m -> v i j = P x m.
Proof.
  intros P k mu N N1 N2. destruct (call_grid P k mu N1 N2 N) as (v & E & V). exists v. split; auto. intros i j x m Hx Hm.
  rewrite V by (apply nth_error_Some; congruence). rewrite (nth_error_nth k i 0 Hx), (nth_error_nth mu j 0 Hm). reflexivity.
Qed.
(** Equal lengths: the values at the pairs (k_i, mu_i), in order, labelled with the pair. *)
Theorem C100_pairs : forall P flatten k mu, length k = length mu ->
  exists l, call P flatten (Vec k) (Vec mu) = L1 l /\ length l = length k /\
  forall i x m, nth_error k i = Some x -> nth_error mu i = Some m -> nth_error l i = Some (x, m, P x m).
Proof.
  intros P fl k mu E. eexists. split; [apply call_pairs; auto|]. split; [rewrite map_length, combine_length; lia|].
  intros i x m Hx Hm. rewrite nth_error_map, (nth_error_combine _ _ _ _ _ x m Hx Hm). reflexivity.
Qed.
(** Two scalars: one value. *)
Theorem C100_scalars : forall P flatten k mu, call P flatten (Scalar k) (Scalar mu) = L1 [(k, mu, P k mu)].
Proof. intros. reflexivity. Qed.
(** With flatten=True and different lengths, also when one of them is a single value: all pairs, k running fastest,
    each labelled with its pair. *)
Theorem C100_flattened : forall P k mu, length k <> length mu ->
  exists l, call P true (Vec k) (Vec mu) = L1 l /\ length l = (length mu * length k)%nat /\
  forall i j x m, nth_error k i = Some x -> nth_error mu j = Some m -> nth_error l (j * length k + i) = Some (x, m, P x m).
Proof. exact call_flat. Qed.
(** A pair of meshgrid arrays (k constant along rows, mu along columns) is treated like its axes. *)
Theorem C100_meshgrid : forall P k mu a b, (2 <= length k)%nat -> (2 <= length mu)%nat ->
  (forall i j x m, nth_error k i = Some x -> nth_error mu j = Some m -> a i j = x /\ b i j = m) ->
  exists v, call P false (Mat (length k) (length mu) a) (Mat (length k) (length mu) b) = L2 k mu v /\
  forall i j x m, nth_error k i = Some x -> nth_error mu j = Some m -> v i j = P x m.
Proof.
  intros P k mu a b H1 H2 H. destruct (call_mesh P k mu ltac:(lia) ltac:(lia) a b) as (v & E & V); try lia.
  - intros i j Hi Hj. apply H; apply nth_error_nth'; auto.
  - exists v. split; auto. intros i j x m Hx Hm. rewrite V by (apply nth_error_Some; congruence).
    rewrite (nth_error_nth k i 0 Hx), (nth_error_nth mu j 0 Hm). reflexivity.
Qed.
Example C100_nonvacuous : exists v, call (fun k mu => k + mu) false (Vec [1; 2]) (Vec [3; 4; 5]) = L2 [1; 2] [3; 4; 5] v /\ v 1%nat 2%nat = 2 + 5.
Proof. destruct (C100_grid_of_values (fun k mu => k + mu) [1; 2] [3; 4; 5]) as (v & E & V); try (cbn; lia). exists v. split; [exact E|]. apply V; reflexivity. Qed.
Example C100_nonvacuous_flat : exists l, call (fun k mu => k + mu) true (Scalar 1) (Vec [3; 4]) = L1 l /\ nth_error l 1 = Some (1, 4, 1 + 4).
Proof. destruct (C100_flattened (fun k mu => k + mu) [1] [3; 4]) as (l & E & _ & V); [cbn; lia|]. exists l. split; auto. exact (V 0%nat 1%nat 1 4 eq_refl eq_refl). Qed.

(** C101. "Any combination of scalars and arrays is broadcast, and the value at a label is the power at that label" is refuted:
    a single k with several mu (or the reverse) raises ValueError for every spectrum, unless flatten=True ... *)
Theorem C101_single_with_array_refuted : forall P x l, length l <> 1%nat ->
  call P false (Scalar x) (Vec l) = ValueError /\ call P false (Vec l) (Scalar x) = ValueError /\
  call P false (Vec [x]) (Vec l) = ValueError /\ call P false (Vec l) (Vec [x]) = ValueError.
Proof.
  intros P x l N. assert (A : call P false (Vec [x]) (Vec l) = ValueError) by (apply call_one; cbn; auto).
  assert (B : call P false (Vec l) (Vec [x]) = ValueError) by (apply call_one; cbn; auto). split; [exact A|]. split; [exact B|]. split; auto.
Qed.
(** ... and two-dimensional k, mu that are not a meshgrid are accepted, but labelled by the first column of k and the first row of mu. *)
Theorem C101_2d_labels_refuted : exists P k mu ks mus v, call P false (Mat 2 2 k) (Mat 2 2 mu) = L2 ks mus v /\
  v 1%nat 1%nat <> P (nth 1 ks 0) (nth 1 mus 0).
Proof.
  exists (fun k _ => k), (fun i j => INR (i + j)), (fun i j => INR j). do 3 eexists. split; [cbv [call to_arr align broadcast bdim Nat.eqb orb]; reflexivity|].
  cbn. lra.
Qed.
(** The labels are right exactly at the points where the given arrays agree with their first column and row. *)
Theorem C101_2d_labels_partial : forall P nr nc k mu, (2 <= nr)%nat -> (2 <= nc)%nat ->
  exists v, call P false (Mat nr nc k) (Mat nr nc mu) = L2 (map (fun i => k i 0%nat) (seq 0 nr)) (map (fun j => mu 0%nat j) (seq 0 nc)) v /\
  forall i j, (i < nr)%nat -> (j < nc)%nat -> v i j = P (k i j) (mu i j).
Proof.
  intros P nr nc k mu Hr Hc. exists (fun i j => P (k i j) (mu i j)). split; [|auto].
  unfold call. cbn [to_arr align broadcast]. unfold bdim. rewrite !Nat.eqb_refl. unfold stretch, pick.
  replace (nr =? 1)%nat with false by (symmetry; apply Nat.eqb_neq; lia). replace (nc =? 1)%nat with false by (symmetry; apply Nat.eqb_neq; lia). reflexivity.
Qed.

(** C102. For at least two wavenumbers, not 41 of them, the monopole, quadrupole, hexadecapole and tetrahexadecapole differ from
    the multipole integral by at most M / (180 * 40^4), M bounding the fourth mu derivative of the integrand. *)
Theorem C102_multipole_close : forall ell p P ks M, legendre_of ell p -> (2 <= length ks)%nat -> length ks <> 41%nat ->
  (forall k, In k ks -> smooth4 (fun mu => (2 * INR ell + 1) * p mu * P k mu) M) ->
  exists res, pole ell P ks = Some res /\ for_each ks res (fun k v => Rabs (v - multipole ell p (P k)) <= M / (180 * 40 ^ 4)).
Proof.
  intros ell p P ks M HL H2 H41 HS. rewrite pole_value by lia. eexists. split; [reflexivity|]. split; [apply map_length|].
  intros i k v Hk Hv. rewrite nth_error_map, Hk in Hv. cbn [option_map] in Hv. apply some_inj in Hv. subst v. unfold multipole.
  specialize (HS k (nth_error_In _ _ Hk)). pose proof (simps_linspace _ M 20 ltac:(lia) HS) as B.
  replace (INR (2 * 20)) with 40 in B by (rewrite INR_IZR_INZ; reflexivity).
  replace (map (fun mu => (mu, kern ell mu * P k mu)) (linspace01 41)) with (map (fun x => (x, (2 * INR ell + 1) * p x * P k x)) (linspace01 (S (2 * 20)))); [exact B|].
  apply map_ext. intros mu. rewrite (kern_legendre ell p HL). reflexivity.
Qed.
(** Integrands that are cubic in mu (for example the monopole of a spectrum quadratic in mu) are integrated exactly. *)
Theorem C102_cubic_exact : forall ell p P ks, legendre_of ell p -> (2 <= length ks)%nat -> length ks <> 41%nat ->
  (forall k, In k ks -> exists a b c d, forall mu, (2 * INR ell + 1) * p mu * P k mu = a + b * mu + c * mu ^ 2 + d * mu ^ 3) ->
  exists res, pole ell P ks = Some res /\ for_each ks res (fun k v => v = multipole ell p (P k)).
Proof.
  intros ell p P ks HL H2 H41 HC. destruct (C102_multipole_close ell p P ks 0 HL H2 H41) as (res & E & Ln & B).
  - intros k Hk. destruct (HC k Hk) as (a & b & c & d & Eq).
    exists (fun mu => b + 2 * c * mu + 3 * d * mu ^ 2), (fun mu => 2 * c + 6 * d * mu), (fun _ => 6 * d), (fun _ => 0). intros x _. split; [|split; [|split; [|split]]].
    + apply is_derive_ext with (fun mu => a + b * mu + c * mu ^ 2 + d * mu ^ 3); [intros; symmetry; apply Eq|]. auto_derive; auto. ring.
    + auto_derive; auto; ring.
    + auto_derive; auto; ring.
    + auto_derive; auto; ring.
    + rewrite Rabs_R0. lra.
  - exists res. split; auto. split; auto. intros i k v Hk Hv. specialize (B i k v Hk Hv). replace (0 / (180 * 40 ^ 4)) with 0 in B by (field; lra).
    pose proof (Rabs_pos (v - multipole ell p (P k))) as Q. assert (Z : Rabs (v - multipole ell p (P k)) = 0) by lra.
    destruct (Req_dec (v - multipole ell p (P k)) 0) as [D|D]; [lra|]. apply Rabs_no_R0 in D. contradiction.
Qed.
(** Simpson's rule itself (pygcl.SimpsIntegrate) is exact for quadratics on any odd number of increasing points, however spaced. *)
Theorem C102_simpson_exact_for_quadratics : forall a b c xs, incr xs -> Nat.odd (length xs) = true ->
  simps (map (fun x => (x, a + b * x + c * x ^ 2)) xs) = RInt (fun x => a + b * x + c * x ^ 2) (hd 0 xs) (last xs 0).
Proof.
  intros a b c xs Hi Ho. unfold simps. rewrite map_length. rewrite <- Nat.negb_odd, Ho. cbn [negb]. apply Nat.odd_spec in Ho. destruct Ho as [n Hn].
  change (basic_simps (map (fun x => (x, quad a b c x)) xs) = RInt (fun x => a + b * x + c * x ^ 2) (hd 0 xs) (last xs 0)).
  rewrite (simps_quad a b c n xs) by (auto; lia). symmetry. apply is_RInt_unique. apply (is_RInt_derive (Quad a b c) (fun x => a + b * x + c * x ^ 2)).
  - intros. unfold Quad. auto_derive; auto. field.
  - intros. apply @ex_derive_continuous. exists (b + 2 * c * x). auto_derive; auto. ring.
Qed.
(** poles(k, ells, Nmu): any number of wavenumbers (also one, also 41), any orders, N = Nmu rounded up to an odd number of points;
    L ell is the Legendre polynomial of order ell (Bonnet's recurrence). *)
Theorem C102_poles_close : forall P nmu ells ks M, (2 <= nmu)%nat ->
  (forall k ell, In k ks -> In ell ells -> smooth4 (fun mu => (2 * INR ell + 1) * legendre ell mu * P k mu) M) ->
  exists res N, poles P nmu ells ks = Some res /\ (N = nmu \/ N = S nmu) /\ Nat.odd N = true /\
  for_each ks res (fun k r => length r = length ells /\ forall j ell v, nth_error ells j = Some ell -> nth_error r j = Some v ->
     Rabs (v - multipole ell (legendre ell) (P k)) <= M / (180 * (INR N - 1) ^ 4)).
Proof.
  intros P nmu ells ks M Hn HS. rewrite poles_value. destruct (odd_nmu_odd nmu Hn) as (m & Em & Pm & Or). eexists. exists (odd_nmu nmu).
  split; [reflexivity|]. split; auto. split; [rewrite Em; change (S (2 * m)) with (S (2 * m)); rewrite Nat.odd_succ, Nat.even_mul; reflexivity|].
  split; [apply map_length|]. intros i k r Hk Hr. rewrite nth_error_map, Hk in Hr. cbn [option_map] in Hr. apply some_inj in Hr. subst r. split; [apply map_length|].
  intros j ell v He Hv. rewrite nth_error_map, He in Hv. cbn [option_map] in Hv. apply some_inj in Hv. subst v.
  specialize (HS k ell (nth_error_In _ _ Hk) (nth_error_In _ _ He)). rewrite Em. pose proof (simps_linspace _ M m Pm HS) as B.
  replace (INR (S (2 * m)) - 1) with (INR (2 * m)) by (rewrite S_INR; ring). exact B.
Qed.
(** The decorated methods and poles with Nmu = 40 or 41 return the same numbers (k not of length 1 or 41). *)
Theorem C102_agree : forall ell p P nmu ks, legendre_of ell p -> nmu = 40%nat \/ nmu = 41%nat -> (2 <= length ks)%nat -> length ks <> 41%nat ->
  exists res, pole ell P ks = Some res /\ poles P nmu [ell] ks = Some (map (fun v => [v]) res).
Proof.
  intros ell p P nmu ks HL Hn H2 H41. rewrite pole_value, poles_value by lia. eexists. split; [reflexivity|]. f_equal. rewrite map_map. apply map_ext. intros k.
  cbn [map]. f_equal. f_equal. replace (odd_nmu nmu) with 41%nat by (destruct Hn as [-> | ->]; reflexivity). apply map_ext. intros mu.
  rewrite (kern_legendre ell p HL), (legendre_explicit ell p HL). reflexivity.
Qed.
Example C102_nonvacuous : exists res, pole 0 (fun k mu => k * exp mu) [1; 2] = Some res /\
  for_each [1; 2] res (fun k v => Rabs (v - multipole 0 P0 (fun mu => k * exp mu)) <= 6 / (180 * 40 ^ 4)).
Proof.
  apply (C102_multipole_close 0 P0 (fun k mu => k * exp mu) [1; 2] 6 leg0); cbn [length]; try lia.
  intros k Hk. set (g := fun mu => k * exp mu).
  assert (D : forall x, is_derive g x (g x)) by (intros; unfold g; auto_derive; auto; ring).
  exists g, g, g, g. intros x Hx. split; [|split; [|split; [|split]]]; auto.
  - apply is_derive_ext with g; auto. intros. unfold g, P0. cbn [INR]. match goal with |- @eq _ ?a ?b => change (@eq R a b) end. ring.
  - unfold g. assert (E : 0 < exp x <= 3). { split; [apply exp_pos|]. apply Rle_trans with (exp 1); [|apply exp_le_3]. destruct (Req_dec x 1) as [->|]; [lra|]. apply Rlt_le, exp_increasing. lra. }
    assert (0 <= k <= 2) by (cbn in Hk; lra). rewrite Rabs_pos_eq by nra. nra.
Qed.
Example C102_nonvacuous_exact : exists res, pole 0 (fun k mu => k * (1 + mu ^ 2)) [1; 2] = Some res /\ for_each [1; 2] res (fun k v => v = multipole 0 P0 (fun mu => k * (1 + mu ^ 2))).
Proof.
  apply (C102_cubic_exact 0 P0 (fun k mu => k * (1 + mu ^ 2)) [1; 2] leg0); cbn [length]; try lia.
  intros k _. exists k, 0, k, 0. intros. unfold P0. cbn [INR]. ring.
Qed.

Example C102_nonvacuous_simpson : incr [0; 1; 3; 4; 10] /\ Nat.odd (length [0; 1; 3; 4; 10]) = true.
Proof. cbn. repeat split; lra. Qed.

(** C103. "The multipole of a wavenumber does not depend on how many wavenumbers are asked for" is refuted:
    with exactly 41 of them an even number of mu points is used, and already the monopole of mu^2 is off by 1/(6*41^3) ... *)
Theorem C103_depends_on_count_refuted : forall ks, length ks = 41%nat ->
  exists res, pole 0 (fun _ mu => mu ^ 2) ks = Some res /\
  for_each ks res (fun k v => v = 1 / 3 + 1 / (6 * 41 ^ 3) /\ multipole 0 P0 (fun mu => mu ^ 2) = 1 / 3).
Proof.
  intros ks H. rewrite pole_value41 by auto. eexists. split; [reflexivity|]. split; [apply map_length|]. intros i k v Hk Hv.
  rewrite nth_error_map, Hk in Hv. cbn [option_map] in Hv. apply some_inj in Hv. subst v. split.
  - rewrite (map_ext _ (fun x => (x, quad 0 0 1 x))) by (intros; unfold quad, kern; cbn [Nat.eqb]; f_equal; ring). rewrite simps_42. field.
  - unfold multipole. assert (D : forall x, is_derive (fun x => x ^ 3 / 3) x (x ^ 2)) by (intros; auto_derive; auto; field).
    rewrite (RInt_ext _ (fun x => x ^ 2)) by (intros; unfold P0; cbn [INR]; match goal with |- @eq _ ?a ?b => change (@eq R a b) end; ring).
    erewrite (is_RInt_unique (fun x => x ^ 2) 0 1 _).
    2: { apply (is_RInt_derive (fun x => x ^ 3 / 3) (fun x => x ^ 2)); intros; [apply D|]. apply @ex_derive_continuous. exists (2 * x). auto_derive; auto. ring. }
    unfold minus, plus, opp; cbn. field.
Qed.
(** ... and with a single wavenumber the call raises ValueError, for every spectrum and every order. *)
Theorem C103_single_k_refuted : forall ell P k, pole ell P [k] = None.
Proof. intros. unfold pole. rewrite call_one; auto. cbn [length]. rewrite linspace_length. cbv. discriminate. Qed.
(** What holds: for the other lengths the multipole of a wavenumber is the same in every call. *)
Theorem C103_count_independent_partial : forall ell P ks ks' res res' i i' k v v',
  length ks <> 41%nat -> length ks' <> 41%nat -> length ks <> 1%nat -> length ks' <> 1%nat ->
  pole ell P ks = Some res -> pole ell P ks' = Some res' -> nth_error ks i = Some k -> nth_error ks' i' = Some k ->
  nth_error res i = Some v -> nth_error res' i' = Some v' -> v = v'.
Proof.
  intros ell P ks ks' res res' i i' k v v' A B C D E F Hi Hi' Hv Hv'. rewrite pole_value in E, F by auto. apply some_inj in E, F. subst res res'.
  rewrite nth_error_map, Hi in Hv. rewrite nth_error_map, Hi' in Hv'. cbn [option_map] in Hv, Hv'. congruence.
Qed.
Example C103_nonvacuous : exists res, pole 2 (fun k mu => k) [1; 2] = Some res.
Proof. eexists. apply pole_value; cbn; lia. Qed.

Print Assumptions C100_grid_of_values. Print Assumptions C100_pairs. Print Assumptions C100_scalars. Print Assumptions C100_flattened. Print Assumptions C100_meshgrid.
Print Assumptions C101_single_with_array_refuted. Print Assumptions C101_2d_labels_refuted. Print Assumptions C101_2d_labels_partial.
Print Assumptions C102_multipole_close. Print Assumptions C102_cubic_exact. Print Assumptions C102_simpson_exact_for_quadratics. Print Assumptions C102_poles_close. Print Assumptions C102_agree.
Print Assumptions C103_depends_on_count_refuted. Print Assumptions C103_single_k_refuted. Print Assumptions C103_count_independent_partial.
