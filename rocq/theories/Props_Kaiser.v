(** The Kaiser spectrum, interpolation on the FFTLog mesh, top-hat windows *)
From Coq Require Import Reals ZArith List Arith Lra Lia.
From Coquelicot Require Import Coquelicot.
From Verif Require Import M_Kaiser S_Spline S_Kaiser P_LegMom P_Kaiser Props_Disc.
Import ListNotations.
Local Open Scope R_scope.

(** C127: Kaiser.P_ell is, for every order, the multipole of (b1 + f mu^2)^2 P(k) *)
Theorem C127_kaiser_multipoles : forall p K ell k, legendre_polynomials p -> k_b1 K <> 0 -> (0 <= ell)%Z ->
  kaiser_ell K ell k = multipole_of p (Z.to_nat ell) (fun mu => (k_b1 K + k_f K * mu ^ 2) ^ 2 * k_P K k).
Proof. intros p K ell k LP. apply kaiser_multipole. exact LP. Qed.
(** the polynomials exist: the model of scipy.special.legendre used elsewhere is such a family *)
Fixpoint leg2 (n : nat) (x : R) : R * R := match n with O => (1, x) | S m => let (a, b) := leg2 m x in (b, ((2 * INR m + 3) * x * b - (INR m + 1) * a) / (INR m + 2)) end.
Example C127_nonvacuous : legendre_polynomials (fun n x => fst (leg2 n x)) /\ kaiser_ell {| k_P := fun _ => 1; k_f := 3; k_b1 := 2 |} 2 1 = 92/7.
Proof.
  split.
  - intros x. split; [reflexivity|]. split; [reflexivity|]. intros n. cbn [leg2]. destruct (leg2 n x) as [a b]. cbn [fst]. assert (P := pos_INR n). field. lra.
  - unfold kaiser_ell, kaiser_prefactor. cbn [k_f k_b1 k_P Z.eqb Pos.eqb]. field.
Qed.

(** C128 (refuted): P_s(k, mu) is not the spectrum whose multipoles P_ell gives: it ignores the bias. Only the constructor arguments are
    pickled, so a growth rate (or a bias that was given) set later is lost; Xi_ell with its default limits aborts. *)
Theorem C128_bias_ignored_refuted : exists K k, k_b1 K <> 0 /\ forall p, legendre_polynomials p -> kaiser_ell K 0 k <> multipole_of p 0 (fun mu => kaiser_s K k mu).
Proof.
  exists {| k_P := fun _ => 1; k_f := 0; k_b1 := 2 |}, 0. split; [cbn; lra|]. intros p LP. unfold multipole_of, kaiser_s, kaiser_ell, kaiser_prefactor. cbn [k_f k_b1 k_P Z.eqb].
  assert (E : RInt (fun mu => p 0%nat mu * ((1 + 0 * mu * mu) ^ 2 * 1)) (-1) 1 = mom p 0 0). { unfold mom. apply RInt_ext. intros x _. match goal with |- ?a = ?b => change (@eq R a b) end. ring. }
  rewrite E. destruct (moms p LP) as (-> & _). change (INR 0) with 0. lra.
Qed.
Theorem C128_unit_bias_partial : forall p K ell k, legendre_polynomials p -> k_b1 K = 1 -> (0 <= ell)%Z -> kaiser_ell K ell k = multipole_of p (Z.to_nat ell) (fun mu => kaiser_s K k mu).
Proof.
  intros p K ell k LP Hb Hl. rewrite (C127_kaiser_multipoles p) by (auto; rewrite Hb; lra). rewrite Hb. unfold multipole_of, kaiser_s. apply Rmult_eq_compat_l. apply RInt_ext. intros x _.
  match goal with |- ?a = ?b => change (@eq R a b) end. ring.
Qed.
Theorem C128_pickle_loses_refuted : exists P f b g, (forall b', pk_obj (py_pickle (py_set (fun K => kaiser_setf K g) (py_new P f b'))) <> pk_obj (py_set (fun K => kaiser_setf K g) (py_new P f b'))) /\
  pk_obj (py_pickle (py_set (fun K => kaiser_setb K g) (py_new P f (Some b)))) <> pk_obj (py_set (fun K => kaiser_setb K g) (py_new P f (Some b))).
Proof.
  exists (fun _ => 0), 0, 1, 2. split.
  - intros b' H. apply (f_equal k_f) in H. destruct b'; cbn in H; lra.
  - intros H. apply (f_equal k_b1) in H. cbn in H. lra.
Qed.
Theorem C128_pickle_unchanged_partial : forall P f b g, pk_obj (py_pickle (py_new P f b)) = pk_obj (py_new P f b) /\
  pk_obj (py_pickle (py_set (fun K => kaiser_setb K g) (py_new P f None))) = pk_obj (py_set (fun K => kaiser_setb K g) (py_new P f None)).
Proof. intros P f [b|] g; split; reflexivity. Qed.
Theorem C128_default_limits_refuted : forall N, xi_grid None N = None.
Proof. intros N. unfold xi_grid. apply C126_refused. right. left. lra. Qed.
Theorem C128_given_limits_partial : forall N a b, (2 <= N)%nat -> 0 < a -> 0 < b -> xi_grid (Some (a, b)) N <> None.
Proof. intros N a b H1 H2 H3. unfold xi_grid. destruct (C126_logspace a b N H1 H2 H3) as (l & -> & _). discriminate. Qed.

(** C129: inside the mesh the transform is interpolated on the straight line between the two neighbouring mesh points *)
Theorem C129_mesh_interpolation : forall xs ys x, increasing xs -> length xs = length ys -> xs <> [] -> first_x xs <= x <= last_x xs ->
  exists v, nearest_interp xs ys x = Some v /\
    ((exists i, (i < length xs)%nat /\ nth i xs 0 = x /\ v = nth i ys 0) \/
     (exists i, (S i < length xs)%nat /\ nth i xs 0 < x < nth (S i) xs 0 /\ v = nth i ys 0 + (nth (S i) ys 0 - nth i ys 0) * (x - nth i xs 0) / (nth (S i) xs 0 - nth i xs 0))).
Proof. exact nearest_interp_ok. Qed.
Example C129_nonvacuous : increasing [0; 1; 3] /\ nearest_interp [0; 1; 3] [5; 7; 8] (3/2) = Some (29/4).
Proof.
  split; [intros i Hi; cbn in Hi; destruct i as [|[|i]]; cbn; [lra|lra|lia]|].
  destruct (nearest_interp_ok [0; 1; 3] [5; 7; 8] (3/2)) as (v & E & H); [intros i Hi; cbn in Hi; destruct i as [|[|i]]; cbn; [lra|lra|lia]|reflexivity|discriminate|cbn; lra|]. rewrite E. f_equal.
  destruct H as [(i & Hi & Hx & _)|(i & Hi & Hx & ->)]; cbn in Hi.
  - exfalso. destruct i as [|[|[|i]]]; cbn in Hx; try lra; lia.
  - destruct i as [|[|i]]; cbn in Hx |- *; [lra|field|lia].
Qed.
(** C130 (refuted): outside the mesh a wavenumber makes it read beyond the table, at either end *)
Theorem C130_outside_mesh_refuted : forall xs ys x, increasing xs -> length xs = length ys -> xs <> [] -> x < first_x xs \/ last_x xs < x -> nearest_interp xs ys x = None.
Proof. exact nearest_interp_out. Qed.

(** C131: the windows used for sigma(R) and for the normalisation are the top-hat window to 1e-11 and 1e-16 *)
Theorem C131_windows : forall x, 0 <= x -> Rabs (W_ps x - top_hat x) <= / 10 ^ 11 /\ Rabs (W_cosmo x - top_hat x) <= / 10 ^ 16.
Proof.
  intros x H. destruct (Req_EM_T x 0) as [->|N].
  - unfold top_hat, W_ps, W_cosmo. destruct (Req_EM_T 0 0); [|contradiction]. destruct (Rlt_dec 0 (1/100000)); [|lra]. destruct (Rlt_dec 0 (1/10000)); [|lra].
    replace (1 - 1/30 * 0 * 0 - 1) with 0 by ring. replace (3 * (1/3 - 0 * 0 / 30) - 1) with 0 by field. rewrite Rabs_R0. split; apply Rlt_le, Rinv_0_lt_compat, pow_lt; lra.
  - split.
    + unfold W_ps. destruct (Rlt_dec x (1/100000)) as [L|L].
      * destruct (top_hat_bounds x) as (A & B); [lra|]. assert (x ^ 2 <= / 10 ^ 10). { replace (/ 10 ^ 10) with ((1/100000) ^ 2) by field. apply pow_incr. lra. }
        assert (x ^ 4 <= / 10 ^ 10 * x ^ 2). { replace (x ^ 4) with (x ^ 2 * x ^ 2) by ring. apply Rmult_le_compat_r; [apply pow2_ge_0|assumption]. }
        assert (0 <= x ^ 2) by apply pow2_ge_0. assert (0 <= x ^ 4) by (replace (x ^ 4) with ((x ^ 2) ^ 2) by ring; apply pow2_ge_0). apply Rabs_le. replace (1/30 * x * x) with (x ^ 2 / 30) by field.
        replace (/ 10 ^ 10) with (/ 10000000000) in * by (f_equal; ring). replace (/ 10 ^ 11) with (/ 100000000000) by (f_equal; ring). lra.
      * unfold top_hat. destruct (Req_EM_T x 0); [contradiction|]. replace (3 / x ^ 3 * (sin x - x * cos x) - 3 * (sin x - x * cos x) / x ^ 3) with 0 by (field; exact N). rewrite Rabs_R0. apply Rlt_le, Rinv_0_lt_compat, pow_lt; lra.
    + unfold W_cosmo. destruct (Rlt_dec x (1/10000)) as [L|L].
      * destruct (top_hat_bounds x) as (A & B); [lra|]. assert (0 <= x ^ 2) by apply pow2_ge_0. assert (Q4 : 0 <= x ^ 4 <= / 10 ^ 16). { split; [replace (x ^ 4) with ((x ^ 2) ^ 2) by ring; apply pow2_ge_0|]. replace (/ 10 ^ 16) with ((1/10000) ^ 4) by field. apply pow_incr. lra. }
        apply Rabs_le. replace (3 * (1/3 - x * x / 30)) with (1 - x ^ 2 / 10) by field. lra.
      * unfold top_hat. destruct (Req_EM_T x 0); [contradiction|]. replace (3 * ((sin x / x ^ 2 - cos x / x) / x) - 3 * (sin x - x * cos x) / x ^ 3) with 0 by (field; exact N). rewrite Rabs_R0. apply Rlt_le, Rinv_0_lt_compat, pow_lt; lra.
Qed.
(** the series of PowerSpectrum.cpp has the wrong coefficient (1/30 for 1/10): the error 1e-11 is not its next term *)
Theorem C131_wrong_coefficient : forall x, 0 < x < 1/100000 -> W_ps x - top_hat x >= x ^ 2 / 16 /\ Rabs (W_cosmo x - top_hat x) <= x ^ 4 / 240.
Proof.
  intros x H. destruct (top_hat_bounds x) as (A & B); [lra|]. assert (0 < x ^ 2) by (apply pow_lt; lra). assert (x ^ 4 <= 1/1000 * x ^ 2). { replace (x ^ 4) with (x ^ 2 * x ^ 2) by ring. apply Rmult_le_compat_r; [lra|]. replace (x ^ 2) with (x * x) by ring. nra. }
  assert (0 <= x ^ 4) by (replace (x ^ 4) with ((x ^ 2) ^ 2) by ring; apply pow2_ge_0). unfold W_ps, W_cosmo. destruct (Rlt_dec x (1/100000)); [|lra]. destruct (Rlt_dec x (1/10000)); [|lra]. split.
  - replace (1/30 * x * x) with (x ^ 2 / 30) by field. lra.
  - replace (3 * (1/3 - x * x / 30)) with (1 - x ^ 2 / 10) by field. apply Rabs_le. lra.
Qed.
Print Assumptions C127_kaiser_multipoles. Print Assumptions C128_bias_ignored_refuted. Print Assumptions C129_mesh_interpolation. Print Assumptions C131_windows.
