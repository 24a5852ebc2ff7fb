(** * C161-C163: the third-order perturbation theory integrals *)
From Coq Require Import Reals ZArith Lra Lia Psatz.
From Coquelicot Require Import Coquelicot.
From Verif Require Import M_Jmn S_Kernels S_Jmn P_Kernels P_KInt P_Jmn P_JmnSer.
Local Open Scope R_scope.

(** ** C161: the kernels are averages over directions of the standard third-order kernels *)
Definition C161_F3 (K r : R) : R := r ^ 2 * over_cosines (fun c => sym3 spt_F3 (kvec K) (qvec (r * K) c 0) (neg (qvec (r * K) c 0))).
Definition C161_G3 (K r : R) : R := r ^ 2 * over_cosines (fun c => sym3 spt_G3 (kvec K) (qvec (r * K) c 0) (neg (qvec (r * K) c 0))).
(** G2(k,-q) (alpha(q, k-q) + alpha(k-q, q)) / 3 *)
Definition C161_alpha (K r : R) : R := r ^ 2 * over_cosines (fun c => spt_G2 (kvec K) (neg (qvec (r * K) c 0)) *
       (spt_alpha (qvec (r * K) c 0) (minus (kvec K) (qvec (r * K) c 0)) + spt_alpha (minus (kvec K) (qvec (r * K) c 0)) (qvec (r * K) c 0))) / 3.
(** 2 k^2 G2(k,-q) (n.q)(n.(k-q))/(q^2 |k-q|^2), n at cosine m from k, averaged over the azimuth too *)
Definition C161_los (K r m : R) : R := 2 * r ^ 2 * (K ^ 2 * over_cosines (fun c => azimuthal (fun phi => spt_G2 (kvec K) (neg (qvec (r * K) c phi)) *
       (dot (los m) (qvec (r * K) c phi) * dot (los m) (minus (kvec K) (qvec (r * K) c phi))
        / (dot (qvec (r * K) c phi) (qvec (r * K) c phi) * dot (minus (kvec K) (qvec (r * K) c phi)) (minus (kvec K) (qvec (r * K) c phi))))))).
Theorem C161_near_kernels_are_the_averages : forall K r m, 0 < K -> 0 < r < 60 -> r <> 1 -> -1 <= m <= 1 ->
  g00 r = C161_F3 K r /\ g11 r = C161_G3 K r /\ g01 r = (C161_F3 K r + C161_G3 K r) / 2 /\ g10 r = C161_alpha K r /\
  g02 r + g20 r * m ^ 2 = C161_los K r m.
Proof.
  intros K r m HK Hr H1 Hm. unfold C161_F3, C161_G3, C161_alpha, C161_los.
  rewrite (g00_avg K r 0 HK), (g11_avg K r 0 HK), (g2_avg K r m HK) by lra.
  pose proof (g10_avg K r 0 HK ltac:(lra) H1) as E10.
  unfold g00, g11, g01, g10, g02, g20. destruct (Rlt_dec r 60); [|lra].
  rewrite (g01_mean r) by lra. do 3 (split; [reflexivity|]). split; [|reflexivity].
  match type of E10 with ?a = _ => match goal with |- _ = ?b / 3 => replace b with a by reflexivity end end. lra.
Qed.
Print Assumptions C161_near_kernels_are_the_averages.
Theorem C161_far_kernels_are_close_to_the_averages : forall K r m, 0 < K -> 60 <= r -> -1 <= m <= 1 ->
  Rabs (g00 r - C161_F3 K r) <= / 100 * / r ^ 6 /\ Rabs (g11 r - C161_G3 K r) <= / 100 * / r ^ 6 /\
  Rabs (g01 r - (C161_F3 K r + C161_G3 K r) / 2) <= / 100 * / r ^ 6 /\ Rabs (g10 r - C161_alpha K r) <= / 1000 * / r ^ 12 /\
  Rabs (g02 r + g20 r * m ^ 2 - C161_los K r m) <= / 50 * / r ^ 6.
Proof.
  intros K r m HK Hr Hm. unfold C161_F3, C161_G3, C161_alpha, C161_los.
  rewrite (g00_avg K r 0 HK), (g11_avg K r 0 HK), (g2_avg K r m HK) by lra.
  pose proof (g10_avg K r 0 HK ltac:(lra) ltac:(lra)) as E10.
  rewrite <- (g01_mean r) by lra. unfold g00, g11, g01, g10, g02, g20. destruct (Rlt_dec r 60); [lra|].
  split; [apply g00_far_ok; exact Hr|]. split; [apply g11_far_ok; exact Hr|]. split; [apply g01_far_ok; exact Hr|]. split.
  - match type of E10 with ?a = _ => match goal with |- Rabs (_ - ?b / 3) <= _ => replace b with a by reflexivity end end.
    rewrite E10. replace (3 * g10_near r / 3) with (g10_near r) by field. apply g10_far_good; exact Hr.
  - pose proof (g02_far_ok r Hr) as A. pose proof (g20_far_ok r Hr) as B.
    replace (g02_far r + g20_far r * m ^ 2 - (g02_near r + g20_near r * m ^ 2)) with ((g02_far r - g02_near r) + (g20_far r - g20_near r) * m ^ 2) by ring.
    eapply Rle_trans; [apply Rabs_triang|]. rewrite Rabs_mult, (Rabs_pos_eq (m ^ 2)) by apply pow2_ge_0.
    assert (0 <= m ^ 2 <= 1) by (split; [apply pow2_ge_0|nra]). pose proof (Rabs_pos (g20_far r - g20_near r)). nra.
Qed.
Print Assumptions C161_far_kernels_are_close_to_the_averages.
Example C161_nonvacuous : (0 < 1 /\ 0 < 2 < 60 /\ 2 <> 1 /\ -1 <= / 2 <= 1) /\ 60 <= 100. Proof. lra. Qed.
(** the change of form at r = 60 is a jump of less than 10^-12 in each kernel *)
Theorem C161_the_two_forms_meet : forall r, 60 <= r ->
  (forall near far, (near = g00_near r /\ far = g00_far r) \/ (near = g01_near r /\ far = g01_far r) \/ (near = g10_near r /\ far = g10_far r) \/
     (near = g11_near r /\ far = g11_far r) \/ (near = g02_near r /\ far = g02_far r) \/ (near = g20_near r /\ far = g20_far r) -> Rabs (far - near) <= / 10 ^ 12).
Proof.
  intros r Hr near far H. apply Rle_trans with (/ 100 * / r ^ 6).
  - destruct H as [[-> ->]|[[-> ->]|[[-> ->]|[[-> ->]|[[-> ->]|[-> ->]]]]]]; [apply g00_far_ok|apply g01_far_ok|apply g10_far_ok|apply g11_far_ok|apply g02_far_ok|apply g20_far_ok]; exact Hr.
  - rewrite <- Rinv_mult. apply Rinv_le_contravar; [lra|]. assert (60 ^ 6 <= r ^ 6) by (apply pow_incr; lra). lra.
Qed.
Print Assumptions C161_the_two_forms_meet.
(** the influence of modes much longer than k: r -> 0 *)
Theorem C161_long_modes : forall r, 0 < r <= / 2 ->
  Rabs (g00 r - -1 / 18) <= r * r / 2 /\ Rabs (g01 r - -1 / 18) <= r * r / 2 /\ Rabs (g10 r - -1 / 18) <= r * r / 2 /\ Rabs (g11 r - -1 / 18) <= r * r / 2 /\
  Rabs (g02 r - 0) <= r * r / 2 /\ Rabs (g20 r - -1 / 3) <= r * r / 2.
Proof.
  intros r Hr. unfold g00, g01, g10, g11, g02, g20. destruct (Rlt_dec r 60); [|lra].
  split; [apply g00_zero; exact Hr|]. split; [apply g01_zero; exact Hr|]. split; [apply g10_zero; exact Hr|]. split; [apply g11_zero; exact Hr|]. split; [apply g02_zero; exact Hr|apply g20_zero; exact Hr].
Qed.
Print Assumptions C161_long_modes.
Example C161_long_nonvacuous : 0 < / 10 <= / 2. Proof. lra. Qed.

(** ** C162: the integrals *)
Lemma is_RInt_point (f g : R -> R) a b c I : a < b -> (forall x, x <> c -> f x = g x) -> is_RInt f a b I -> is_RInt g a b I.
Proof.
  intros Hab H Hf. destruct (Rlt_dec a c) as [Hac|Hac]; [destruct (Rlt_dec c b) as [Hcb|Hcb]|].
  - assert (E1 : ex_RInt f a c) by (apply (ex_RInt_Chasles_1 f a c b); [lra|exists I; exact Hf]).
    assert (E2 : ex_RInt f c b) by (apply (ex_RInt_Chasles_2 f a c b); [lra|exists I; exact Hf]).
    destruct E1 as [I1 E1]. destruct E2 as [I2 E2]. pose proof (is_RInt_Chasles f _ _ _ _ _ E1 E2) as E.
    rewrite <- (is_RInt_unique _ _ _ _ Hf), (is_RInt_unique _ _ _ _ E).
    apply (is_RInt_Chasles g a c b).
    + apply (is_RInt_ext f); [|exact E1]. intros x Hx. rewrite Rmin_left, Rmax_right in Hx by lra. apply H. lra.
    + apply (is_RInt_ext f); [|exact E2]. intros x Hx. rewrite Rmin_left, Rmax_right in Hx by lra. apply H. lra.
  - apply (is_RInt_ext f); [|exact Hf]. intros x Hx. rewrite Rmin_left, Rmax_right in Hx by lra. apply H. lra.
  - apply (is_RInt_ext f); [|exact Hf]. intros x Hx. rewrite Rmin_left, Rmax_right in Hx by lra. apply H. lra.
Qed.
Lemma RInt_point (f g : R -> R) a b c : a < b -> (forall x, x <> c -> f x = g x) -> RInt f a b = RInt g a b.
Proof.
  intros Hab H. assert (Hd : ex_RInt f a b \/ ~ ex_RInt f a b) by apply Classical_Prop.classic. destruct Hd as [[I Hf]|Hn].
  - rewrite (is_RInt_unique _ _ _ _ Hf). symmetry. apply is_RInt_unique. apply (is_RInt_point f g a b c); assumption.
  - rewrite (RInt_nonex f) by exact Hn. symmetry. apply RInt_nonex. intros [I Hg]. apply Hn. exists I.
    apply (is_RInt_point g f a b c); try assumption. intros; symmetry; apply H; assumption.
Qed.
(** one loop momentum: (1/2 pi^2) int dq q P(q)/q g(q/k), in x = ln q, from 10^-5 to 10^5 *)
Definition C162_int (g : R -> R) (P : R -> R) (k : R) : R :=
  1 / (2 * PI ^ 2) * RInt (fun x => exp x * P (exp x) * g (exp x / k)) (ln (/ 10 ^ 5)) (ln (10 ^ 5)).
Lemma J_int g P k : 0 < k -> J_integral g P k = C162_int g P k.
Proof.
  intro Hk. unfold J_integral, C162_int. destruct (Rle_dec k 0); [lra|]. cbv zeta. f_equal; [f_equal; ring|].
  apply (RInt_point _ _ _ _ (ln k)).
  - apply ln_increasing; [apply Rinv_0_lt_compat|]; lra.
  - intros x Hx. unfold J_integrand. destruct (Req_EM_T (exp x / k) 1) as [E|]; [|reflexivity].
    exfalso. apply Hx. rewrite <- (ln_exp x). f_equal. apply (Rmult_eq_reg_r (/ k)); [|apply Rinv_neq_0_compat; lra]. rewrite Rinv_r by lra. exact E.
Qed.
(** the removal of the point q = k changes nothing *)
Theorem C162_each_integral_is_over_all_momenta : forall (P : R -> R) k, 0 < k ->
  J_eval P k 0 0 = Some (C162_int g00 P k) /\ J_eval P k 0 1 = Some (C162_int g01 P k) /\ J_eval P k 1 0 = Some (C162_int g10 P k) /\
  J_eval P k 1 1 = Some (C162_int g11 P k) /\ J_eval P k 0 2 = Some (C162_int g02 P k) /\ J_eval P k 2 0 = Some (C162_int g20 P k).
Proof. intros P k Hk. unfold J_eval; cbn [Z.mul Z.add Pos.mul Pos.add Pos.succ]. rewrite !J_int by exact Hk. repeat match goal with |- _ /\ _ => split end; reflexivity. Qed.
Print Assumptions C162_each_integral_is_over_all_momenta.
Theorem C162_integrals_are_linear_in_the_spectrum : forall (P : R -> R) k m n l,
  J_eval (fun q => l * P q) k m n = option_map (fun x => l * x) (J_eval P k m n).
Proof.
  intros P k m n l. assert (H : forall g, J_integral g (fun q => l * P q) k = l * J_integral g P k).
  { intro g. unfold J_integral. destruct (Rle_dec k 0); [ring|]. cbv zeta.
    rewrite (RInt_ext _ (fun x => l * J_integrand g P k x)) by (intros x _; unfold J_integrand; cbv zeta; match goal with |- @eq _ ?a ?b => change (@eq R a b) end; ring).
    rewrite RInt_scal'. ring. }
  unfold J_eval. destruct (3 * m + n)%Z as [|p|p]; [cbn [option_map]; rewrite H; reflexivity| |reflexivity].
  do 3 (try destruct p as [p|p|]); cbn [option_map]; rewrite ?H; reflexivity.
Qed.
Print Assumptions C162_integrals_are_linear_in_the_spectrum.
Theorem C162_integrals_vanish_at_nonpositive_k : forall (P : R -> R) k m n x, k <= 0 -> J_eval P k m n = Some x -> x = 0.
Proof.
  intros P k m n x Hk. assert (H : forall g, J_integral g P k = 0) by (intros; unfold J_integral; destruct (Rle_dec k 0); [reflexivity|lra]).
  unfold J_eval. destruct (3 * m + n)%Z as [|p|p]; [rewrite H; congruence| |discriminate].
  do 3 (try destruct p as [p|p|]); rewrite ?H; congruence.
Qed.
Print Assumptions C162_integrals_vanish_at_nonpositive_k.
(** the cross integral is the mean of the density and velocity ones *)
Theorem C162_cross_is_the_mean : forall (P : R -> R) k i00 i01 i11, 0 < k ->
  J_eval P k 0 0 = Some i00 -> J_eval P k 0 1 = Some i01 -> J_eval P k 1 1 = Some i11 ->
  ex_RInt (fun x => exp x * P (exp x) * g00 (exp x / k)) (ln (/ 10 ^ 5)) (ln (10 ^ 5)) -> ex_RInt (fun x => exp x * P (exp x) * g11 (exp x / k)) (ln (/ 10 ^ 5)) (ln (10 ^ 5)) ->
  i01 = (i00 + i11) / 2.
Proof.
  intros P k i00 i01 i11 Hk E0 E1 E2 X0 X1. destruct (C162_each_integral_is_over_all_momenta P k Hk) as (A & B & _ & C & _).
  rewrite A in E0; rewrite B in E1; rewrite C in E2. injection E0 as <-. injection E1 as <-. injection E2 as <-. unfold C162_int.
  set (f0 := fun x => exp x * P (exp x) * g00 (exp x / k)) in *. set (f1 := fun x => exp x * P (exp x) * g11 (exp x / k)) in *.
  rewrite (RInt_ext (fun x => exp x * P (exp x) * g01 (exp x / k)) (fun x => Hierarchy.plus (1 / 2 * f0 x) (1 / 2 * f1 x))).
  - rewrite (@RInt_plus R_CompleteNormedModule (fun x => 1 / 2 * f0 x) (fun x => 1 / 2 * f1 x)); [|exact (ex_RInt_scal f0 _ _ (1 / 2) X0)|exact (ex_RInt_scal f1 _ _ (1 / 2) X1)].
    rewrite !RInt_scal'. match goal with |- ?c * Hierarchy.plus ?a ?b = ?d => change (c * (a + b) = d) end. field. apply PI_neq0.
  - intros x _. match goal with |- ?c = Hierarchy.plus ?a ?b => change (c = a + b) end. unfold f0, f1.
    assert (Hr : 0 < exp x / k) by (apply Rdiv_lt_0_compat; [apply exp_pos|exact Hk]). set (r := exp x / k) in *.
    replace (g01 r) with ((g00 r + g11 r) / 2); [field|]. unfold g00, g01, g11. destruct (Rlt_dec r 60).
    + symmetry. apply g01_mean. exact Hr.
    + unfold g00_far, g11_far, g01_far. field. lra.
Qed.
Print Assumptions C162_cross_is_the_mean.
Example C162_nonvacuous : 0 < / 10 ^ 7 /\
  ex_RInt (fun x => exp x * 1 * g00 (exp x / (/ 10 ^ 7))) (ln (/ 10 ^ 5)) (ln (10 ^ 5)) /\ ex_RInt (fun x => exp x * 1 * g11 (exp x / (/ 10 ^ 7))) (ln (/ 10 ^ 5)) (ln (10 ^ 5)).
Proof.
  assert (Hl : ln (/ 10 ^ 5) < ln (10 ^ 5)) by (apply ln_increasing; [apply Rinv_0_lt_compat|]; lra).
  assert (Hb : forall x, ln (/ 10 ^ 5) < x < ln (10 ^ 5) -> 60 <= exp x / / 10 ^ 7).
  { intros x Hx. assert (/ 10 ^ 5 < exp x) by (rewrite <- (exp_ln (/ 10 ^ 5)) by (apply Rinv_0_lt_compat; lra); apply exp_increasing; lra).
    replace (exp x / / 10 ^ 7) with (exp x * 10 ^ 7) by (field). lra. }
  split; [apply Rinv_0_lt_compat; lra|]. split.
  - apply (ex_RInt_ext (fun x => exp x * 1 * g00_far (exp x / / 10 ^ 7))).
    + intros x Hx. rewrite Rmin_left, Rmax_right in Hx by lra. specialize (Hb x Hx). unfold g00. destruct (Rlt_dec (exp x / / 10 ^ 7) 60); [lra|reflexivity].
    + apply (@ex_RInt_continuous R_CompleteNormedModule). intros x _. apply (@ex_derive_continuous R_AbsRing R_NormedModule). unfold g00_far. pose proof (exp_pos x). auto_derive.
      assert (0 < exp x * / / 10 ^ 7) by (rewrite Rinv_inv; lra). repeat split; try lra; apply Rgt_not_eq; repeat apply Rmult_lt_0_compat; try lra; apply pow_lt; assumption.
  - apply (ex_RInt_ext (fun x => exp x * 1 * g11_far (exp x / / 10 ^ 7))).
    + intros x Hx. rewrite Rmin_left, Rmax_right in Hx by lra. specialize (Hb x Hx). unfold g11. destruct (Rlt_dec (exp x / / 10 ^ 7) 60); [lra|reflexivity].
    + apply (@ex_RInt_continuous R_CompleteNormedModule). intros x _. apply (@ex_derive_continuous R_AbsRing R_NormedModule). unfold g11_far. pose proof (exp_pos x). auto_derive.
      assert (0 < exp x * / / 10 ^ 7) by (rewrite Rinv_inv; lra). repeat split; try lra; apply Rgt_not_eq; repeat apply Rmult_lt_0_compat; try lra; apply pow_lt; assumption.
Qed.

(** ** C163: the series at large r, and the index table *)
Theorem C163_far_series_is_wrong_from_the_sixth_order_on_refuted :
  ~ (exists C, forall r, 60 <= r -> Rabs (g00_far r - g00_near r) <= C * / r ^ 8) /\ ~ (exists C, forall r, 60 <= r -> Rabs (g01_far r - g01_near r) <= C * / r ^ 8) /\
  ~ (exists C, forall r, 60 <= r -> Rabs (g11_far r - g11_near r) <= C * / r ^ 8) /\ ~ (exists C, forall r, 60 <= r -> Rabs (g02_far r - g02_near r) <= C * / r ^ 8) /\
  ~ (exists C, forall r, 60 <= r -> Rabs (g20_far r - g20_near r) <= C * / r ^ 8).
Proof.
  assert (Key : forall (d : R -> R) c, / 2000 <= Rabs c -> (forall r, 60 <= r -> Rabs (r ^ 6 * d r - c) <= / 100000) -> ~ (exists C, forall r, 60 <= r -> Rabs (d r) <= C * / r ^ 8)).
  { intros d c Hc Hd [C H]. set (r := 60 + Rabs C * 5000). pose proof (Rabs_pos C) as HC. assert (Hr : 60 <= r) by (unfold r; lra).
    specialize (Hd r Hr). specialize (H r Hr). assert (P6 : 0 < r ^ 6) by (apply pow_lt; lra).
    assert (B : / 2500 <= Rabs (r ^ 6 * d r)).
    { pose proof (Rabs_triang_inv c (c - r ^ 6 * d r)) as T. replace (c - (c - r ^ 6 * d r)) with (r ^ 6 * d r) in T by ring.
      rewrite (Rabs_minus_sym c) in T. lra. }
    rewrite Rabs_mult, (Rabs_pos_eq (r ^ 6)) in B by lra.
    assert (B2 : r ^ 6 * Rabs (d r) <= C * / r ^ 2).
    { replace (C * / r ^ 2) with (r ^ 6 * (C * / r ^ 8)) by (field; lra). apply Rmult_le_compat_l; lra. }
    assert (B3 : C * / r ^ 2 < / 2500).
    { apply Rmult_lt_reg_r with (r ^ 2); [nra|]. replace (C * / r ^ 2 * r ^ 2) with C by (field; lra). pose proof (Rle_abs C). assert (60 * r <= r ^ 2) by nra. unfold r in *. nra. }
    lra. }
  refine (conj _ (conj _ (conj _ (conj _ _)))); [apply (Key (fun r => g00_far r - g00_near r) (-1 / 792))|apply (Key (fun r => g01_far r - g01_near r) (-5 / 5544))
    |apply (Key (fun r => g11_far r - g11_near r) (-1 / 1848))|apply (Key (fun r => g02_far r - g02_near r) (3 / 1232))|apply (Key (fun r => g20_far r - g20_near r) (-9 / 1232))];
    try (rewrite Rabs_left by lra; lra); try (rewrite Rabs_pos_eq by lra; lra); [apply g00_far_bad|apply g01_far_bad|apply g11_far_bad|apply g02_far_bad|apply g20_far_bad].
Qed.
Print Assumptions C163_far_series_is_wrong_from_the_sixth_order_on_refuted.
(** only the g10 series is right through the order it is written to *)
Theorem C163_far_series_of_g10_is_right_partial : forall r, 60 <= r -> Rabs (g10_far r - g10_near r) <= / 1000 * / r ^ 12.
Proof. exact g10_far_good. Qed.
Print Assumptions C163_far_series_of_g10_is_right_partial.
Theorem C163_j_indices_are_collapsed_refuted : ~ (forall (P : R -> R) k m n, ~ (0 <= m <= 2 /\ 0 <= n <= 2)%Z -> J_eval P k m n = None) /\
  (forall (P : R -> R) k m n, J_eval P k m (n + 3) = J_eval P k (m + 1) n).
Proof.
  split.
  - intro H. specialize (H (fun _ => 0) 1 0%Z 3%Z). unfold J_eval in H. discriminate H; lia.
  - intros. unfold J_eval. replace (3 * m + (n + 3))%Z with (3 * (m + 1) + n)%Z by ring. reflexivity.
Qed.
Print Assumptions C163_j_indices_are_collapsed_refuted.
