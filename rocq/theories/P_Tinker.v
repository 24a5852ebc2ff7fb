(** Proofs about the bias-to-mass relation. *)
From Coq Require Import Reals List Lia Lra Bool.
From Coquelicot Require Import Coquelicot.
Import ListNotations.
From Verif Require Import M_Interp S_Interp M_Tinker S_Tinker.
Local Open Scope R_scope.

(** ** The bias formula *)
Lemma bias_spec dh s : bias_Tinker s delta_c dh = tinker_2010 dh (1.686 / s).
Proof.
  unfold bias_Tinker, tinker_2010, log10, Rpower, delta_c.
  replace (1686/1000) with 1.686 by lra.
  replace (- (4 / (ln dh / ln 10)) ^ 4) with (- (4 / (ln dh / ln 10) * (4 / (ln dh / ln 10)) * (4 / (ln dh / ln 10)) * (4 / (ln dh / ln 10)))) by ring.
  set (y := ln dh / ln 10). set (e := exp _).
  replace (3/2) with 1.5 by lra. replace (24/10) with 2.4 by lra.
  replace (44/100*y - 88/100) with (0.44*y-0.88) by lra.
  set (u := exp _). assert (0 < u) by apply exp_pos. clearbody u. set (v := exp _). assert (0 < v) by apply exp_pos. clearbody v.
  set (w := exp (1.5 * _)). set (x := exp (2.4 * _)). clearbody e w x. clearbody y.
  replace ((1 + 24 / 100 * y * e) * u / (u + v)) with ((1 + 24 / 100 * y * e) * (u / (u + v))) by (field; lra). set (q := u / (u + v)). clearbody q. lra.
Qed.

Definition Ft (A a D C t : R) : R := 1 - A * (exp (a*t) / (exp (a*t) + D)) + 0.183 * exp (1.5*t) + C * exp (2.4*t).
Definition dFt (A a D C t : R) : R := - A * (a * exp (a*t) * D / ((exp (a*t) + D) * (exp (a*t) + D))) + 0.183 * (1.5 * exp (1.5*t)) + C * (2.4 * exp (2.4*t)).
Lemma Ft_derive A a D C t : 0 < D -> is_derive (Ft A a D C) t (dFt A a D C t).
Proof.
  intros HD. unfold Ft, dFt. pose proof (exp_pos (a*t)). auto_derive. lra. field. lra.
Qed.
Lemma exp_mono x y : x <= y -> exp x <= exp y.
Proof. intros [G| ->]; [apply Rlt_le, exp_increasing, G | lra]. Qed.
Lemma exp_ge1 x : 0 <= x -> 1 <= exp x.
Proof. intros H. rewrite <- exp_0. apply exp_mono, H. Qed.
Lemma dFt_pos A a D C t : 0 < D -> 0 <= A -> 0 <= a -> A * a / 4 < 2.4 * C + 0.183 * 1.5 -> 0 <= C -> 0 <= t -> 0 < dFt A a D C t.
Proof.
  intros HD HA Ha H HC Ht. unfold dFt. set (u := exp (a*t)). assert (Hu : 0 < u) by apply exp_pos.
  assert (1 <= exp (1.5*t)). { apply exp_ge1. lra. }
  assert (1 <= exp (2.4*t)). { apply exp_ge1. lra. }
  assert (Q : u * D / ((u + D)*(u+D)) <= 1/4).
  { apply Rle_div_l. nra. assert (0 <= (u-D)*(u-D)) by apply Rle_0_sqr. nra. }
  assert (0 <= u * D / ((u+D)*(u+D))). { apply Rlt_le, Rdiv_lt_0_compat; nra. }
  replace (- A * (a * u * D / ((u + D) * (u + D)))) with (- ((A*a) * (u * D / ((u+D)*(u+D))))) by (field; lra).
  assert (0 <= A*a) by nra. set (q := u * D / ((u+D)*(u+D))) in *. assert (A * a * q <= A*a/4) by nra. assert (C <= C * exp (2.4*t)) by nra. lra.
Qed.
(** constants of the fit for an overdensity [dh] *)
Definition yy (dh : R) : R := ln dh / ln 10.
Definition ee (dh : R) : R := exp (- (4 / yy dh * (4 / yy dh) * (4 / yy dh) * (4 / yy dh))).
Lemma tinker_F dh nu : tinker_2010 dh nu = Ft (1 + 0.24 * yy dh * ee dh) (0.44 * yy dh - 0.88) (exp ((0.44 * yy dh - 0.88) * ln 1.686)) (0.019 + 0.107 * yy dh + 0.19 * ee dh) (ln nu).
Proof. reflexivity. Qed.
Lemma ln10_pos : 0 < ln 10.
Proof. rewrite <- ln_1. apply ln_increasing; lra. Qed.
Lemma ln_pow x n : 0 < x -> ln (x ^ n) = INR n * ln x.
Proof. intros. rewrite <- Rpower_pow by auto. unfold Rpower. rewrite ln_exp. reflexivity. Qed.
Lemma yy_ge2 dh : 100 <= dh -> 2 <= yy dh.
Proof.
  intros H. unfold yy. apply Rmult_le_reg_r with (ln 10). apply ln10_pos. unfold Rdiv. rewrite Rmult_assoc, Rinv_l by (pose proof ln10_pos; lra).
  rewrite Rmult_1_r. replace (2 * ln 10) with (ln 100). 2: { replace 100 with (10^2) by ring. rewrite ln_pow by lra. reflexivity. }
  destruct (Req_dec dh 100) as [->|]; [lra|]. apply Rlt_le, ln_increasing; lra.
Qed.
Lemma yy_le4 dh : 0 < dh <= 10000 -> yy dh <= 4.
Proof.
  intros H. unfold yy. apply Rmult_le_reg_r with (ln 10). apply ln10_pos. unfold Rdiv. rewrite Rmult_assoc, Rinv_l by (pose proof ln10_pos; lra).
  rewrite Rmult_1_r. replace (4 * ln 10) with (ln 10000). 2: { replace 10000 with (10^4) by ring. rewrite ln_pow by lra. simpl. ring. }
  destruct (Req_dec dh 10000) as [->|]; [lra|]. apply Rlt_le, ln_increasing; lra.
Qed.
Lemma yy_le73 dh : 0 < dh <= 215 -> yy dh <= 7/3.
Proof.
  intros H. unfold yy. apply Rmult_le_reg_r with (3 * ln 10). pose proof ln10_pos; lra. replace (ln dh / ln 10 * (3 * ln 10)) with (3 * ln dh) by (field; pose proof ln10_pos; lra).
  replace (7/3 * (3 * ln 10)) with (7 * ln 10) by field.
  replace (7 * ln 10) with (ln (10^7)) by (rewrite ln_pow by lra; simpl; ring). replace (3 * ln dh) with (ln (dh^3)) by (rewrite ln_pow by lra; simpl; ring).
  apply Rlt_le, ln_increasing. apply pow_lt; lra. assert (dh^3 <= 215^3) by (apply pow_incr; lra). lra.
Qed.
Lemma ee_pos dh : 0 < ee dh. Proof. apply exp_pos. Qed.
Lemma ee_le dh : 2 <= yy dh <= 4 -> ee dh <= /2.
Proof.
  intros H. unfold ee. assert (1 <= 4 / yy dh). { apply Rmult_le_reg_r with (yy dh). lra. unfold Rdiv. rewrite Rmult_assoc, Rinv_l by lra. lra. }
  set (q := 4 / yy dh) in *. assert (1 <= q*q) by nra. assert (1 <= q*q*q*q) by nra.
  rewrite exp_Ropp. apply Rinv_le_contravar. lra. pose proof (exp_ineq1 (q*q*q*q)). lra.
Qed.
Lemma ee_le9 dh : 2 <= yy dh <= 7/3 -> ee dh <= /9.
Proof.
  intros H. unfold ee. assert (12/7 <= 4 / yy dh). { apply Rmult_le_reg_r with (yy dh). lra. unfold Rdiv. rewrite Rmult_assoc. rewrite (Rmult_assoc 4), Rinv_l by lra. lra. }
  set (q := 4 / yy dh) in *. assert (144/49 <= q*q) by nra. assert (8.6 <= q*q*q*q) by nra.
  rewrite exp_Ropp. apply Rinv_le_contravar. lra. pose proof (exp_ineq1 (q*q*q*q)). lra.
Qed.
Lemma ln_nonneg x : 1 <= x -> 0 <= ln x.
Proof. intros. rewrite <- ln_1. destruct (Req_dec x 1) as [->|]; [lra|]. apply Rlt_le, ln_increasing; lra. Qed.
Lemma F_increasing A a D C t t' : 0 < D -> 0 <= A -> 0 <= a -> A * a / 4 < 2.4 * C + 0.183 * 1.5 -> 0 <= C -> 0 <= t -> t < t' -> Ft A a D C t < Ft A a D C t'.
Proof.
  intros HD HA Ha H HC Ht Htt. destruct (MVT_gen (Ft A a D C) t t' (dFt A a D C)) as (c & Hc & E).
  - intros x _. apply Ft_derive, HD.
  - intros x _. apply derivable_continuous_pt. exists (dFt A a D C x). apply is_derive_Reals, Ft_derive, HD.
  - rewrite Rmin_left, Rmax_right in Hc by lra. assert (0 < dFt A a D C c) by (apply dFt_pos; auto; lra). nra.
Qed.
Lemma tinker_increasing dh nu nu' : 100 <= dh <= 10000 -> 1 <= nu -> nu < nu' -> tinker_2010 dh nu < tinker_2010 dh nu'.
Proof.
  intros Hd H1 H2. rewrite !tinker_F.
  pose proof (yy_ge2 dh ltac:(lra)) as Y2. pose proof (yy_le4 dh ltac:(lra)) as Y4. pose proof (ee_pos dh) as E0. pose proof (ee_le dh (conj Y2 Y4)) as E1.
  apply F_increasing; try nra. apply exp_pos. apply ln_nonneg, H1. apply ln_increasing; lra.
Qed.
Lemma tinker_below_one dh nu : 100 <= dh <= 215 -> 0 < nu <= 1 -> tinker_2010 dh nu < 1.
Proof.
  intros Hd Hn. rewrite tinker_F. unfold Ft.
  pose proof (yy_ge2 dh ltac:(lra)) as Y2. pose proof (yy_le73 dh ltac:(lra)) as Y4. pose proof (ee_pos dh) as E0. pose proof (ee_le9 dh (conj Y2 Y4)) as E1.
  set (t := ln nu). assert (Ht : t <= 0). { unfold t. rewrite <- ln_1. destruct (Req_dec nu 1) as [->|]; [lra|]. apply Rlt_le, ln_increasing; lra. }
  set (a := 0.44 * yy dh - 0.88). assert (Ha : 0 <= a <= 3/20) by (unfold a; lra).
  assert (HD : 1 <= exp (a * ln 1.686) <= 1.09).
  { assert (L : 0 < ln 1.686) by (rewrite <- ln_1; apply ln_increasing; lra).
    assert (M : forall x y, x <= y -> exp x <= exp y) by (intros x y [G| ->]; [apply Rlt_le, exp_increasing, G | lra]).
    split. rewrite <- exp_0. apply M. nra.
    assert (K : 3/20 * ln 1.686 <= ln 1.09). { apply Rmult_le_reg_l with (INR 20). simpl; lra. replace (INR 20 * (3/20 * ln 1.686)) with (INR 3 * ln 1.686) by (simpl; field). rewrite <- !ln_pow by lra. apply Rlt_le, ln_increasing; lra. }
    rewrite <- (exp_ln 1.09) by lra. apply M. apply Rle_trans with (2 := K). nra. }
  set (D := exp (a * ln 1.686)) in *. set (C := 0.019 + 0.107 * yy dh + 0.19 * ee dh). set (A := 1 + 0.24 * yy dh * ee dh).
  assert (HA : 1 <= A) by (unfold A; nra). assert (HC : 0 < C <= 0.2901) by (unfold C; lra).
  assert (M : forall x y, x <= y -> exp x <= exp y) by (intros x y [G| ->]; [apply Rlt_le, exp_increasing, G | lra]).
  set (w := exp (1.5*t)). assert (Hw : 0 < w) by apply exp_pos. assert (H1 : exp (2.4*t) <= w) by (apply M; lra). assert (H2 : w <= exp (a*t)) by (apply M; nra).
  assert (H3 : exp (a*t) <= 1) by (rewrite <- exp_0; apply M; nra). pose proof (exp_pos (a*t)) as H4. set (u := exp (a*t)) in *.
  assert (Q : w / 2.09 <= u / (u + D)). { apply Rle_trans with (u / 2.09). unfold Rdiv. apply Rmult_le_compat_r; lra. unfold Rdiv. apply Rmult_le_compat_l. lra. apply Rinv_le_contravar; lra. }
  assert (0 <= u/(u+D)). { apply Rlt_le, Rdiv_lt_0_compat; lra. }
  assert (u/(u+D) <= A * (u/(u+D))) by nra.
  assert (C * exp (2.4*t) <= 0.2901 * w). { pose proof (exp_pos (2.4*t)). apply Rle_trans with (C * w); nra. }
  unfold Rdiv in Q. change (2.09) with (2.09) in Q. assert (w * /2.09 >= w * 0.478) by (apply Rle_ge, Rmult_le_compat_l; lra). lra.
Qed.

(** ** Masses and radii *)
Lemma norm_pos : 0 < mass_norm. Proof. unfold mass_norm. apply pow_lt; lra. Qed.
Lemma radius_arg_pos d m : 0 < d -> 0 < m -> 0 < 3 * m * mass_norm / (4 * PI * d).
Proof. intros. pose proof norm_pos. pose proof PI_RGT_0. apply Rdiv_lt_0_compat. apply Rmult_lt_0_compat; lra. apply Rmult_lt_0_compat; lra. Qed.
Lemma radius_pos d m : 0 < mass_to_radius d m. Proof. apply exp_pos. Qed.
Lemma radius_cube d m : 0 < d -> 0 < m -> mass_to_radius d m * mass_to_radius d m * mass_to_radius d m = 3 * m * mass_norm / (4 * PI * d).
Proof.
  intros Hd Hm. unfold mass_to_radius. rewrite <- !Rpower_plus. replace (1/3 + 1/3 + 1/3) with 1 by lra. apply Rpower_1, radius_arg_pos; auto.
Qed.
Lemma radius_sphere c m : 0 < rho_bar c -> 0 < m -> sphere_mass c (mass_to_radius (rho_bar c) m) (m * mass_norm).
Proof.
  intros Hc Hm. split; [apply radius_pos|]. pose proof (radius_cube (rho_bar c) m Hc Hm) as E. pose proof PI_RGT_0.
  transitivity (4/3*PI* (3 * m * mass_norm / (4 * PI * rho_bar c)) * rho_bar c). field; lra. rewrite <- E. ring.
Qed.
Lemma cube_lt x y : 0 < x -> 0 < y -> x*x*x < y*y*y -> x < y.
Proof. intros Hx Hy H. destruct (Rlt_le_dec x y) as [|G]; auto. exfalso. assert (y*y <= x*x) by nra. assert (y*y*y <= x*x*x) by (apply Rmult_le_compat; nra). lra. Qed.
Lemma cube_lt' x y : 0 < x -> x < y -> x*x*x < y*y*y.
Proof. intros Hx H. assert (x*x < y*y) by nra. apply Rmult_gt_0_lt_compat; nra. Qed.
Lemma sphere_lt c R R' M M' : 0 < rho_bar c -> sphere_mass c R M -> sphere_mass c R' M' -> (M < M' <-> R < R').
Proof.
  intros Hc (P & ->) (P' & ->). pose proof PI_RGT_0. assert (K : 0 < 4/3*PI*rho_bar c) by (apply Rmult_lt_0_compat; lra). split.
  - intros H0. apply cube_lt; auto. apply Rmult_lt_reg_l with (4/3*PI*rho_bar c); auto.
    replace ((4/3*PI*rho_bar c)*(R*R*R)) with (4/3*PI*R*R*R*rho_bar c) by ring. replace ((4/3*PI*rho_bar c)*(R'*R'*R')) with (4/3*PI*R'*R'*R'*rho_bar c) by ring. exact H0.
  - intros H0. pose proof (cube_lt' R R' P H0). replace (4/3*PI*R*R*R*rho_bar c) with ((4/3*PI*rho_bar c)*(R*R*R)) by ring.
    replace (4/3*PI*R'*R'*R'*rho_bar c) with ((4/3*PI*rho_bar c)*(R'*R'*R')) by ring. apply Rmult_lt_compat_l; auto.
Qed.
Lemma sphere_unique c R R' M : 0 < rho_bar c -> sphere_mass c R M -> sphere_mass c R' M -> R = R'.
Proof.
  intros Hc H H'. destruct (Rtotal_order R R') as [L|[E|L]]; auto.
  - apply (sphere_lt c R R' M M) in L; auto; lra.
  - apply (sphere_lt c R' R M M) in L; auto; lra.
Qed.

(** ** Continuity of the objective *)
Lemma radius_continuous d m : 0 < d -> 0 < m -> continuous (fun m => mass_to_radius d m) m.
Proof.
  intros Hd Hm. apply (@ex_derive_continuous R_AbsRing R_NormedModule). unfold mass_to_radius, Rpower. pose proof (radius_arg_pos d m Hd Hm). auto_derive. exact H.
Qed.
Lemma tinker_continuous dh nu : 0 < nu -> continuous (tinker_2010 dh) nu.
Proof.
  intros H. apply (continuous_ext (fun x => Ft (1 + 0.24 * yy dh * ee dh) (0.44 * yy dh - 0.88) (exp ((0.44 * yy dh - 0.88) * ln 1.686)) (0.019 + 0.107 * yy dh + 0.19 * ee dh) (ln x))).
  intros x. symmetry. apply tinker_F. apply (continuous_comp ln).
  - apply continuous_ln, H.
  - apply (@ex_derive_continuous R_AbsRing R_NormedModule). eexists. apply Ft_derive, exp_pos.
Qed.
Lemma objective_continuous (c : R -> R) d k dh b1 m : 0 < d -> 0 < k -> 0 < m -> (forall r, 0 < r -> 0 < c r) -> (forall r, 0 < r -> continuity_pt c r) ->
  continuity_pt (fun mass => bias_Tinker (k * c (mass_to_radius d mass)) delta_c dh - b1) m.
Proof.
  intros Hd Hk Hm P Cc. apply continuity_pt_filterlim. change (continuous (fun mass => bias_Tinker (k * c (mass_to_radius d mass)) delta_c dh - b1) m).
  apply (continuous_ext (fun mass => minus (tinker_2010 dh (1.686 / (k * c (mass_to_radius d mass)))) b1)).
  { intros x. rewrite bias_spec. reflexivity. }
  apply (continuous_minus (V := R_NormedModule)); [|apply continuous_const].
  pose proof (radius_pos d m) as Rp. specialize (P _ Rp). assert (0 < k * c (mass_to_radius d m)) by nra.
  apply (continuous_comp (fun mass => 1.686 / (k * c (mass_to_radius d mass)))).
  - apply (continuous_comp (fun mass => c (mass_to_radius d mass)) (fun x => 1.686 / (k * x))).
    + apply (continuous_comp (fun mass => mass_to_radius d mass) c). apply radius_continuous; auto. apply continuity_pt_filterlim, Cc, Rp.
    + apply (@ex_derive_continuous R_AbsRing R_NormedModule). auto_derive. lra.
  - apply tinker_continuous. apply Rdiv_lt_0_compat; lra.
Qed.

(** ** The solver contract can be met *)
Definition left_part (f : R -> R) (a b : R) (t : R) : Prop := a <= t <= b /\ forall s, a <= s < t -> 0 < f a * f s.
Lemma left_part_bound f a b : a <= b -> bound (left_part f a b).
Proof. intros. exists b. intros t (H1 & _). lra. Qed.
Lemma left_part_inh f a b : a <= b -> exists t, left_part f a b t.
Proof. intros. exists a. split. lra. intros. lra. Qed.
Definition bisect (f : R -> R) (a b : R) : option R :=
  match Rle_dec a b with
  | left H => if Rlt_dec 0 (f a * f b) then None else Some (proj1_sig (completeness (left_part f a b) (left_part_bound f a b H) (left_part_inh f a b H)))
  | right _ => None
  end.
Lemma same_sign x y z : 0 < x * z -> 0 < y * z -> 0 < x * y.
Proof. intros H1 H2. destruct (Rtotal_order z 0) as [Z|[Z|Z]]. assert (x < 0) by nra. assert (y < 0) by nra. nra. subst; lra. assert (0 < x) by nra. assert (0 < y) by nra. nra. Qed.
Lemma bisect_finds_roots : finds_roots 0 bisect.
Proof.
  intros f a b Hab Hc. unfold bisect. destruct (Rle_dec a b) as [Lab|N]; [|lra]. split.
  - intros Hs. destruct (Rlt_dec 0 (f a * f b)) as [G|G]; [lra|].
    destruct (completeness _ _ _) as (r & Ub & Lst). cbn [proj1_sig]. exists r, r. split; [reflexivity|].
    assert (Hr : a <= r <= b). { split. apply Ub. split. lra. intros; lra. apply Lst. intros t (H1 & _). lra. }
    split; [exact Hr|]. split; [exact Hr|]. split; [|rewrite Rminus_eq_0, Rabs_R0; lra].
    destruct (Req_dec (f r) 0) as [|Nz]; auto. exfalso.
    assert (Near : forall s, a <= s < r -> 0 < f a * f s).
    { intros s Hsr. destruct (Rlt_dec 0 (f a * f s)); auto. exfalso. apply (Rle_not_lt s r); [|lra]. apply Lst. intros t (H1 & H2).
      destruct (Rle_dec t s); auto. exfalso. specialize (H2 s ltac:(lra)). lra. }
    destruct (Hc r Hr (Rabs (f r))) as (d & Hd & Cd). { apply Rabs_pos_lt, Nz. }
    assert (Close : forall s, Rabs (s - r) < d -> 0 < f r * f s).
    { intros s Hs'. destruct (Req_dec s r) as [->|Ns]. destruct (Rdichotomy _ _ Nz); nra. specialize (Cd s). unfold dist in Cd; simpl in Cd. unfold R_dist in Cd.
      specialize (Cd (conj (conj I (fun E => Ns (eq_sym E))) Hs')). unfold Rabs in Cd. destruct (Rcase_abs (f s - f r)), (Rcase_abs (f r)); nra. }
    assert (Sr : 0 < f a * f r \/ a = r).
    { destruct (Req_dec a r) as [|Na]; auto. left. set (s := Rmax a (r - d/2)). assert (a <= s < r) by (unfold s, Rmax; destruct (Rle_dec a (r-d/2)); lra).
      specialize (Near s H). assert (0 < f r * f s). { apply Close. assert (r - d/2 <= s) by (unfold s; apply Rmax_r). unfold Rabs. destruct (Rcase_abs _); lra. } apply (same_sign _ _ (f s)); auto. }
    assert (Fa : 0 < f a * f r). { destruct Sr as [|E]; auto. rewrite E. destruct (Rdichotomy _ _ Nz); nra. }
    destruct (Req_dec r b) as [->|Nb]; [lra|]. set (t := Rmin b (r + d/2)). assert (r < t <= b) by (unfold t, Rmin; destruct (Rle_dec b (r+d/2)); lra).
    assert (left_part f a b t).
    { split. lra. intros s Hs'. destruct (Rlt_dec s r). apply Near; lra. assert (0 < f r * f s). { apply Close. assert (t <= r + d/2) by (unfold t; apply Rmin_r). unfold Rabs. destruct (Rcase_abs _); lra. } apply (same_sign _ _ (f r)); auto. rewrite Rmult_comm; auto. }
    specialize (Ub t H0). lra.
  - intros Hs. destruct (Rlt_dec 0 (f a * f b)); auto. lra.
Qed.

(** ** Solving for the mass *)
Lemma solve_spec tol brentq (S : R -> R) c k dh b1 lo hi : finds_roots tol brentq -> 0 < rho_bar c -> (forall r, 0 < r -> 0 < S r) -> (forall r, 0 < r -> continuity_pt S r) -> 0 < k -> 0 < lo -> lo < hi ->
  match brentq (fun mass => bias_Tinker (k * S (mass_to_radius (rho_bar c) mass)) delta_c dh - b1) lo hi with
  | Some x => lo <= x <= hi /\ exists r, lo <= r <= hi /\ Rabs (x - r) <= tol /\ tinker_2010 dh (1.686 / (k * S (mass_to_radius (rho_bar c) r))) = b1
  | None => 0 < (tinker_2010 dh (1.686 / (k * S (mass_to_radius (rho_bar c) lo))) - b1) * (tinker_2010 dh (1.686 / (k * S (mass_to_radius (rho_bar c) hi))) - b1)
  end.
Proof.
  intros FR Hc SP SC Hk Hlo Hhi. set (f := fun mass => _).
  destruct (FR f lo hi Hhi) as (F1 & F2). { intros x Hx. apply objective_continuous; auto. lra. }
  destruct (Rlt_dec 0 (f lo * f hi)) as [G|G].
  - rewrite (F2 G). unfold f in G. rewrite !bias_spec in G. exact G.
  - destruct (F1 ltac:(lra)) as (x & r & -> & Hx & Hr & E & T). split; [exact Hx|]. exists r. split; [exact Hr|]. split; [exact T|]. unfold f in E. rewrite bias_spec in E. lra.
Qed.
Lemma bias_at c dh s8 m : 0 < rho_bar c -> 0 < m -> has_bias c dh s8 (tinker_2010 dh (1.686 / (s8 / sigma8 c * Sigma c (mass_to_radius (rho_bar c) m)))) (m * mass_norm).
Proof. intros. exists (mass_to_radius (rho_bar c) m). split; [apply radius_sphere; auto | reflexivity]. Qed.
Lemma bias_fun c dh s8 b b' M : 0 < rho_bar c -> has_bias c dh s8 b M -> has_bias c dh s8 b' M -> b = b'.
Proof. intros Hc (R1 & S1 & <-) (R2 & S2 & <-). rewrite (sphere_unique c R1 R2 M Hc S1 S2). reflexivity. Qed.
Lemma tol_scale tol x r : Rabs (x - r) <= tol -> Rabs (x * mass_norm - r * mass_norm) <= tol * 10 ^ 13.
Proof.
  intros. replace (x * mass_norm - r * mass_norm) with ((x - r) * mass_norm) by ring. rewrite Rabs_mult. rewrite (Rabs_right mass_norm) by (pose proof norm_pos; lra).
  unfold mass_norm. apply Rmult_le_compat_r; auto. apply pow_le; lra.
Qed.
Lemma solve_mass tol brentq c dh s8 b1 lo hi : finds_roots tol brentq -> hierarchical c -> 0 < s8 -> 0 < lo -> lo < hi ->
  match brentq (fun mass => bias_Tinker (s8 / sigma8 c * Sigma c (mass_to_radius (rho_bar c) mass)) delta_c dh - b1) lo hi with
  | Some x => 0 < x * mass_norm /\ exists M', Rabs (x * mass_norm - M') <= tol * 10 ^ 13 /\ lo * mass_norm <= M' <= hi * mass_norm /\ has_bias c dh s8 b1 M'
  | None => forall bl bh, has_bias c dh s8 bl (lo * mass_norm) -> has_bias c dh s8 bh (hi * mass_norm) -> 0 < (bl - b1) * (bh - b1)
  end.
Proof.
  intros FR (Hc & H8 & SP & _ & SC & _) Hs Hlo Hhi. assert (Hk : 0 < s8 / sigma8 c) by (apply Rdiv_lt_0_compat; auto).
  pose proof (solve_spec tol brentq (Sigma c) c (s8 / sigma8 c) dh b1 lo hi FR Hc SP SC Hk Hlo Hhi) as H. pose proof norm_pos as NP.
  destruct (brentq _ lo hi) as [x|].
  - destruct H as (Hx & r & Hr & T & E). split. apply Rmult_lt_0_compat; lra. exists (r * mass_norm). split; [apply tol_scale, T|]. split.
    + split; apply Rmult_le_compat_r; lra.
    + rewrite <- E. apply bias_at; auto. lra.
  - intros bl bh Bl Bh. pose proof (bias_at c dh s8 lo Hc Hlo) as Bl'. pose proof (bias_at c dh s8 hi Hc ltac:(lra)) as Bh'.
    rewrite (bias_fun _ _ _ _ _ _ Hc Bl Bl'), (bias_fun _ _ _ _ _ _ Hc Bh Bh'). exact H.
Qed.
Lemma e8 : / 10 ^ 8 * mass_norm = 10 ^ 5. Proof. unfold mass_norm. field_simplify. lra. Qed.
Lemma e3 : 10 ^ 3 * mass_norm = 10 ^ 16. Proof. unfold mass_norm. ring. Qed.
Lemma pos_ten n : 0 < 10 ^ n. Proof. apply pow_lt. lra. Qed.

(** ** Monotonicity of the mass *)
Lemma peak_above_one dh nu b : 100 <= dh <= 215 -> 0 < nu -> tinker_2010 dh nu = b -> 1 <= b -> 1 < nu.
Proof. intros Hd Hn E Hb. destruct (Rlt_dec 1 nu); auto. pose proof (tinker_below_one dh nu Hd ltac:(lra)). lra. Qed.
Lemma mass_increasing c dh s8 s8' b b' M M' : hierarchical c -> 100 <= dh <= 215 -> 0 < s8 <= s8' -> 1 <= b <= b' -> has_bias c dh s8 b M -> has_bias c dh s8' b' M' ->
  M <= M' /\ (s8 < s8' \/ b < b' -> M < M').
Proof.
  intros (Hc & H8 & SP & SD & _) Hd Hs Hb (R1 & S1 & E1) (R2 & S2 & E2).
  pose proof S1 as (P1 & _). pose proof S2 as (P2 & _). pose proof (SP _ P1) as Q1. pose proof (SP _ P2) as Q2.
  set (nu := 1.686 / (s8 / sigma8 c * Sigma c R1)) in *. set (nu' := 1.686 / (s8' / sigma8 c * Sigma c R2)) in *.
  assert (K1 : 0 < s8 / sigma8 c) by (apply Rdiv_lt_0_compat; lra). assert (K2 : s8 / sigma8 c <= s8' / sigma8 c) by (unfold Rdiv; apply Rmult_le_compat_r; [apply Rlt_le, Rinv_0_lt_compat; lra | lra]).
  assert (X1 : 0 < s8 / sigma8 c * Sigma c R1) by nra. assert (X2 : 0 < s8' / sigma8 c * Sigma c R2) by nra.
  assert (N1 : 0 < nu) by (apply Rdiv_lt_0_compat; lra). assert (N2 : 0 < nu') by (apply Rdiv_lt_0_compat; lra).
  pose proof (peak_above_one dh nu b Hd N1 E1 ltac:(lra)) as G1. pose proof (peak_above_one dh nu' b' Hd N2 E2 ltac:(lra)) as G2.
  assert (NN : nu <= nu' /\ (b < b' -> nu < nu')).
  { destruct (Rtotal_order nu nu') as [L|[L|L]].
    - split; auto. lra.
    - split. lra. intros. rewrite L in E1. lra.
    - exfalso. pose proof (tinker_increasing dh nu' nu ltac:(lra) ltac:(lra) L). lra. }
  assert (SS : s8' / sigma8 c * Sigma c R2 <= s8 / sigma8 c * Sigma c R1 /\ (b < b' -> s8' / sigma8 c * Sigma c R2 < s8 / sigma8 c * Sigma c R1)).
  { destruct NN as (NN1 & NN2). unfold nu, nu' in NN1, NN2. set (X := s8 / sigma8 c * Sigma c R1) in *. set (Y := s8' / sigma8 c * Sigma c R2) in *. split.
    - destruct (Rle_dec Y X) as [|Ny]; auto. exfalso. assert (1.686 / Y < 1.686 / X). { unfold Rdiv. apply Rmult_lt_compat_l. lra. apply Rinv_lt_contravar; nra. } lra.
    - intros H. specialize (NN2 H). destruct (Rlt_dec Y X) as [|Ny]; auto. exfalso. assert (1.686 / Y <= 1.686 / X). { unfold Rdiv. apply Rmult_le_compat_l. lra. apply Rinv_le_contravar; lra. } lra. }
  destruct SS as (SS1 & SS2).
  assert (RR : R1 <= R2). { destruct (Rle_dec R1 R2) as [|Nr]; auto. exfalso. pose proof (SD R2 R1 P2 ltac:(lra)). assert (s8' / sigma8 c * Sigma c R2 > s8 / sigma8 c * Sigma c R1) by nra. lra. }
  assert (RS : s8 < s8' \/ b < b' -> R1 < R2).
  { intros H. destruct (Req_dec R1 R2) as [E|]; [|lra]. exfalso. rewrite <- E in *. destruct H as [H|H]; [|specialize (SS2 H); nra].
    assert (s8 / sigma8 c < s8' / sigma8 c) by (unfold Rdiv; apply Rmult_lt_compat_r; [apply Rinv_0_lt_compat; lra | lra]). nra. }
  split.
  - destruct (Req_dec R1 R2) as [E|]. + rewrite E in S1. destruct S1 as (_ & ->), S2 as (_ & ->). lra. + apply Rlt_le. apply (sphere_lt c R1 R2); auto. lra.
  - intros H. apply (sphere_lt c R1 R2); auto.
Qed.

(** ** Velocity dispersion *)
Lemma Rpower_incr x y p : 0 < p -> 0 < x -> x < y -> Rpower x p < Rpower y p.
Proof. intros. unfold Rpower. apply exp_increasing, Rmult_lt_compat_l; auto. apply ln_increasing; auto. Qed.
Lemma evrard_spec r m : evrard_sigmav r m = evrard_2008 (H_z (r_cosmo r) (r_z r) / H0 (r_cosmo r)) (H_z (r_cosmo r) (r_z r)) (r_z r) m.
Proof.
  unfold evrard_sigmav, evrard_2008, Rpower. replace (10 ^ 15) with 1000000000000000 by (rewrite <- pow_IZR || idtac; lra).
  replace (336/1000) with 0.336 by lra. replace (10829/10) with 1082.9 by lra. unfold Rdiv. ring.
Qed.
Lemma evrard_pos E H z m : 0 < E -> 0 < H -> -1 < z -> 0 < m -> 0 < evrard_2008 E H z m.
Proof.
  intros. unfold evrard_2008. apply Rmult_lt_0_compat. apply Rdiv_lt_0_compat. apply Rmult_lt_0_compat; [lra | apply exp_pos]. apply sqrt_lt_R0; lra. apply Rdiv_lt_0_compat; lra.
Qed.
Lemma evrard_incr E H z m m' : 0 < E -> 0 < H -> -1 < z -> 0 < m -> m < m' -> evrard_2008 E H z m < evrard_2008 E H z m'.
Proof.
  intros. unfold evrard_2008. assert (0 < (1+z)/H) by (apply Rdiv_lt_0_compat; lra). assert (0 < / sqrt 3) by (apply Rinv_0_lt_compat, sqrt_lt_R0; lra).
  apply Rmult_lt_compat_r; auto. unfold Rdiv. apply Rmult_lt_compat_r; auto. apply Rmult_lt_compat_l. lra. apply exp_increasing, Rmult_lt_compat_l. lra.
  apply ln_increasing. apply Rmult_lt_0_compat; [nra|lra]. apply Rmult_lt_compat_r; [lra|]. apply Rmult_lt_compat_l; auto.
Qed.
