From Coq Require Import List Reals Lra Lia.
From Coquelicot Require Import Coquelicot.
From Verif Require Import M_AP M_Qso P_Gal P_AP P_GalC P_GalDeriv.
Import ListNotations.
Open Scope R_scope.

Section Dm.
Variables Pm Pm' : nat -> R -> R.

Lemma dm_dk m k mu : (forall i, is_derive (Pm i) k (Pm' i k)) ->
  is_derive (fun x => dm_power Pm m x mu) k (dm_derivative_k Pm' m k mu).
Proof.
  intro H. induction m as [|m IH]; cbn [dm_power dm_derivative_k].
  - apply (is_derive_scal (Pm 0%nat)). apply H.
  - apply (is_derive_plus (K := R_AbsRing) (V := R_NormedModule) (fun x => dm_power Pm m x mu)); [exact IH|].
    apply (is_derive_scal (Pm (S m))). apply H.
Qed.

Lemma pow_deriv (n : nat) (x : R) : is_derive (fun t => t ^ n) x (INR n * x ^ (Nat.pred n)).
Proof.
  evar_last; [apply (is_derive_pow (fun t : R => t) n x 1); apply (is_derive_id (K := R_AbsRing))|]. cbn. ring.
Qed.

Lemma dm_dmu m k mu : is_derive (fun x => dm_power Pm m k x) mu (dm_derivative_mu Pm m k mu).
Proof.
  induction m as [|m IH]; cbn [dm_power dm_derivative_mu].
  - apply is_derive_ext with (fun _ => Pm 0%nat k); [intro; cbn; ring|].
    apply (is_derive_const (K := R_AbsRing) (V := R_NormedModule)).
  - apply (is_derive_plus (K := R_AbsRing) (V := R_NormedModule) (fun x => dm_power Pm m k x)); [exact IH|].
    apply is_derive_ext with (fun x => scal (Pm (S m) k) (x ^ (2 * S m))).
    { intro t. unfold scal; cbn [pow]. cbn. unfold mult; cbn. ring. }
    evar_last; [apply is_derive_scal, pow_deriv|]. unfold scal; cbn -[INR pow Nat.mul]. unfold mult; cbn -[INR pow Nat.mul].
    replace (Nat.pred (2 * S m)) with (2 * S m - 1)%nat by lia.
    rewrite mult_INR. replace (INR 2) with 2 by (cbn; ring). ring.
Qed.

Lemma ap_scale_plus a b d u v : ap_scale a b d u + ap_scale a b d v = ap_scale a b d (u + v).
Proof. unfold ap_scale, Rdiv. ring. Qed.
Lemma dm_ap m aperp apar adrag k mu :
  dm_power_ap Pm m aperp apar adrag k mu =
  ap_scale aperp apar adrag (dm_power Pm m (k_AP k mu aperp apar) (mu_AP mu aperp apar)).
Proof.
  induction m as [|m IH]; cbn [dm_power_ap dm_power]; [reflexivity|]. rewrite IH, ap_scale_plus. reflexivity.
Qed.

(** The power is jointly differentiable; along curves: *)
Lemma dm_curve m (u v : R -> R) t du dv : (forall i, is_derive (Pm i) (u t) (Pm' i (u t))) ->
  is_derive u t du -> is_derive v t dv ->
  is_derive (fun t => dm_power Pm m (u t) (v t)) t
            (dm_derivative_k Pm' m (u t) (v t) * du + dm_derivative_mu Pm m (u t) (v t) * dv).
Proof.
  intros H Hu Hv. 
  assert (Hp : forall i, is_derive (fun t => Pm i (u t)) t (Pm' i (u t) * du)).
  { intro i. evar_last; [apply (is_derive_comp (Pm i) u); [apply H|exact Hu]|]. unfold scal; cbn. unfold mult; cbn. ring. }
  assert (Hv' : forall n, is_derive (fun t => v t ^ n) t (INR n * v t ^ (Nat.pred n) * dv)).
  { intro n. evar_last; [apply (is_derive_pow v n t dv); exact Hv|]. cbn. ring. }
  induction m as [|m IH]; cbn [dm_power dm_derivative_k dm_derivative_mu].
  - evar_last; [apply is_derive_ext with (fun t => Pm 0%nat (u t)); [intro; cbn; ring|apply Hp]|]. cbn. ring.
  - evar_last.
    + apply (is_derive_plus (K := R_AbsRing) (V := R_NormedModule) (fun t => dm_power Pm m (u t) (v t))
              (fun t => v t ^ (2 * S m) * Pm (S m) (u t))); [exact IH|].
      apply (is_derive_mult (fun t => v t ^ (2 * S m)) (fun t => Pm (S m) (u t))); [apply Hv'|apply Hp|].
      intros; apply Rmult_comm.
    + unfold plus, mult; cbn -[INR pow Nat.mul]. replace (Nat.pred (2 * S m)) with (2 * S m - 1)%nat by lia.
      rewrite mult_INR. cbn [INR]. replace (INR 2) with 2 by (cbn; ring). ring.
Qed.
End Dm.

Section Qso.
Variable g : fog.
Variables plin plin' alpha alpha' : R -> R.
Variable s80 : R.
Notation PM q := (Pmu plin alpha s80 q).
Notation pow_ := (q_power g plin alpha s80).
Notation BT := (btot alpha).

Lemma delta_bias_eq q k : delta_bias alpha q k = 2 * (q_b1 q - q_p q) * q_fnl q * delta_crit / alpha k.
Proof. unfold delta_bias. destruct (Req_EM_T (q_fnl q) 0) as [->|]; unfold Rdiv; ring. Qed.

(** the Kaiser polynomial *)
Lemma pm_big q m k mu : (2 <= m)%nat -> dm_power (PM q) m k mu = PM q 0 k + mu ^ 2 * PM q 1 k + mu ^ 4 * PM q 2 k.
Proof.
  intros H. destruct m as [|[|m]]; try lia. clear H. induction m as [|m IH].
  - cbn [dm_power]. change (2 * 1)%nat with 2%nat. change (2 * 2)%nat with 4%nat. change (mu ^ 0) with 1. ring.
  - change (dm_power (PM q) (S (S (S m))) k mu) with
      (dm_power (PM q) (S (S m)) k mu + mu ^ (2 * S (S (S m))) * PM q (S (S (S m))) k).
    rewrite IH. cbn [Pmu]. ring.
Qed.
Lemma pm_one q k mu : dm_power (PM q) 1 k mu = PM q 0 k + mu ^ 2 * PM q 1 k.
Proof. cbn [dm_power]. change (2 * 1)%nat with 2%nat. change (mu ^ 0) with 1. ring. Qed.

Lemma pm_ge1 q m k mu : (1 <= m)%nat ->
  dm_power (PM q) m k mu = PM q 0 k + mu ^ 2 * PM q 1 k + (if Nat.eq_dec m 1 then 0 else mu ^ 4) * PM q 2 k.
Proof.
  intros H. destruct (Nat.eq_dec m 1) as [->|E]; [rewrite pm_one; ring|apply pm_big; lia].
Qed.
Lemma btot_eq q k : BT q k = q_b1 q + 2 * (q_b1 q - q_p q) * q_fnl q * delta_crit / alpha k.
Proof. unfold btot. now rewrite delta_bias_eq. Qed.

Ltac red_ := cbn [qset qget q_b1 q_f q_fnl q_p q_sigma q_s8 q_N q_par q_perp q_drag q_m] in *.
(** the power in closed form *)
Lemma pow_closed q k mu : (1 <= q_m q)%nat ->
  pow_ q k mu =
  let kp := k_AP k mu (q_perp q) (q_par q) in let mup := mu_AP mu (q_perp q) (q_par q) in
  let bt := q_b1 q + 2 * (q_b1 q - q_p q) * q_fnl q * delta_crit / alpha kp in
  let pl := (q_s8 q / s80) ^ 2 * plin kp in
  ap_scale (q_perp q) (q_par q) (q_drag q)
    ((bt ^ 2 * pl + mup ^ 2 * (2 * q_f q * bt * pl) + (if Nat.eq_dec (q_m q) 1 then 0 else mup ^ 4) * (q_f q ^ 2 * pl))
      * FOG g kp mup (q_sigma q) ^ 2 + q_N q).
Proof.
  intros H. unfold q_power, q_ap, q_power0. rewrite pm_ge1 by assumption. unfold Pmu, npl. rewrite btot_eq. reflexivity.
Qed.

Ltac start q k mu := match goal with |- is_derive ?F _ _ => eapply is_derive_ext; [intro v; symmetry; rewrite pow_closed; [reflexivity|destruct q; assumption]|] end;
  destruct q as [b f n p sg e N x y d m]; unfold dq_b1, dq_f, dq_fnl, dq_s8, dq_sigma, rescaling, Pmu, npl; cbv zeta; rewrite ?btot_eq; red_;
  set (kp := k_AP k mu y x) in *; set (mup := mu_AP mu y x) in *; clearbody kp mup.

Lemma dq_b1_ok q k mu : (1 <= q_m q)%nat -> BT q (k_AP k mu (q_perp q) (q_par q)) <> 0 ->
  is_derive (fun v => pow_ (qset Qb1 v q) k mu) (qget Qb1 q) (dq_b1 g plin alpha s80 q k mu).
Proof.
  intros Hm Hb. rewrite btot_eq in Hb. start q k mu.
  unfold ap_scale. generalize (FOG g kp mup sg) (plin kp) (e / s80) (if Nat.eq_dec m 1 then 0 else mup ^ 4).
  revert Hb. unfold Rdiv. generalize (/ alpha kp) delta_crit (/ (y ^ 2 * x)).
  clear. intros ia dc iy Hb G pl es c. auto_derive; [auto|]. cbn [pow]. field. exact Hb.
Qed.
Lemma dq_fnl_ok q k mu : (1 <= q_m q)%nat -> BT q (k_AP k mu (q_perp q) (q_par q)) <> 0 ->
  is_derive (fun v => pow_ (qset Qfnl v q) k mu) (qget Qfnl q) (dq_fnl g plin alpha s80 q k mu).
Proof.
  intros Hm Hb. rewrite btot_eq in Hb. start q k mu.
  unfold ap_scale. generalize (FOG g kp mup sg) (plin kp) (e / s80) (if Nat.eq_dec m 1 then 0 else mup ^ 4).
  revert Hb. unfold Rdiv. generalize (/ alpha kp) delta_crit (/ (y ^ 2 * x)).
  clear. intros ia dc iy Hb G pl es c. auto_derive; [auto|]. cbn [pow]. field. exact Hb.
Qed.
Lemma dq_f_ok q k mu : (2 <= q_m q)%nat -> q_f q <> 0 ->
  is_derive (fun v => pow_ (qset Qf v q) k mu) (qget Qf q) (dq_f g plin alpha s80 q k mu).
Proof.
  intros Hm Hf. assert (Hm1 : (1 <= q_m q)%nat) by lia. start q k mu. destruct (Nat.eq_dec m 1) as [E|_]; [lia|].
  unfold ap_scale. generalize (FOG g kp mup sg) (plin kp) (e / s80) (b + 2 * (b - p) * n * delta_crit / alpha kp).
  unfold Rdiv. generalize (/ (y ^ 2 * x)).
  clear - Hf. intros iy G pl es bt. auto_derive; [auto|]. cbn [pow]. field. exact Hf.
Qed.
(** any max_mu *)
Lemma pow_split q k mu : pow_ q k mu =
  let kp := k_AP k mu (q_perp q) (q_par q) in let mup := mu_AP mu (q_perp q) (q_par q) in
  ap_scale (q_perp q) (q_par q) (q_drag q) (dm_power (PM q) (q_m q) kp mup * FOG g kp mup (q_sigma q) ^ 2 + q_N q).
Proof. reflexivity. Qed.
Lemma dq_sigma_ok q k mu : q_N q = 0 ->
  is_derive (fun v => pow_ (qset Qsigma v q) k mu) (qget Qsigma q) (dq_sigma g plin alpha s80 q k mu).
Proof.
  intros HN. unfold dq_sigma. cbv zeta. rewrite pow_split. cbv zeta.
  set (kp := k_AP k mu (q_perp q) (q_par q)). set (mup := mu_AP mu (q_perp q) (q_par q)).
  apply is_derive_ext with (fun v => ap_scale (q_perp q) (q_par q) (q_drag q) (dm_power (PM q) (q_m q) kp mup * FOG g kp mup v ^ 2 + q_N q)).
  { intro v. rewrite pow_split. destruct q. reflexivity. }
  pose proof (FOG_sigma_deriv g kp mup (q_sigma q)) as H.
  pose proof (kernel_range g (kp * mup * q_sigma q)) as Hr. fold (FOG g kp mup (q_sigma q)) in Hr.
  rewrite HN. destruct (Req_EM_T _ 0) as [E|E]; [lra|].
  change (qget Qsigma q) with (q_sigma q).
  set (G := FOG g kp mup) in *. change (fun x : R => FOG g kp mup x) with G in H.
  set (G' := FOG_sigma g kp mup (q_sigma q)) in *. clearbody G G'. generalize (dm_power (PM q) (q_m q) kp mup). intro P0.
  unfold ap_scale, Rdiv. generalize (/ (q_perp q ^ 2 * q_par q)). intro iy. 
  auto_derive; [eexists; eassumption|]. rewrite (DU _ _ _ H). cbn [pow]. field. exact E.
Qed.
Lemma npl_scale q v m k mu : q_s8 q <> 0 ->
  dm_power (PM (qset Qs8 v q)) m k mu = (v / q_s8 q) ^ 2 * dm_power (PM q) m k mu.
Proof.
  intros Hs. assert (H : forall i, PM (qset Qs8 v q) i k = (v / q_s8 q) ^ 2 * PM q i k).
  { intro i. destruct q as [b f n p sg e N x y d m']; unfold Pmu, npl; rewrite ?btot_eq; red_.
    assert (E : (v / s80) ^ 2 = (v / e) ^ 2 * (e / s80) ^ 2) by (unfold Rdiv; generalize (/ s80); intro i0; field; auto).
    destruct i as [|[|[|i]]]; rewrite ?E; ring. }
  induction m as [|m IH]; cbn [dm_power]; rewrite H; [ring|rewrite IH; ring].
Qed.

Lemma dq_s8_ok q k mu : q_N q = 0 -> q_s8 q <> 0 ->
  is_derive (fun v => pow_ (qset Qs8 v q) k mu) (qget Qs8 q) (dq_s8 g plin alpha s80 q k mu).
Proof.
  intros HN Hs. unfold dq_s8. rewrite pow_split. cbv zeta.
  set (kp := k_AP k mu (q_perp q) (q_par q)). set (mup := mu_AP mu (q_perp q) (q_par q)).
  apply is_derive_ext with (fun v => ap_scale (q_perp q) (q_par q) (q_drag q)
     ((v / q_s8 q) ^ 2 * dm_power (PM q) (q_m q) kp mup * FOG g kp mup (q_sigma q) ^ 2 + q_N q)).
  { intro v. rewrite pow_split. rewrite <- npl_scale by assumption. destruct q. reflexivity. }
  rewrite HN. change (qget Qs8 q) with (q_s8 q). generalize (dm_power (PM q) (q_m q) kp mup) (FOG g kp mup (q_sigma q)). intros P0 G.
  unfold ap_scale, Rdiv. generalize (/ (q_perp q ^ 2 * q_par q)). intro iy.
  auto_derive; [auto|]. cbn [pow]. field. exact Hs.
Qed.

(** Derivatives of P_mu0.. in k. *)
Lemma Pmu_deriv q k : is_derive plin k (plin' k) -> q_fnl q = 0 \/ (is_derive alpha k (alpha' k) /\ alpha k <> 0) ->
  forall i, is_derive (PM q i) k (Pmu' plin plin' alpha alpha' s80 q i k).
Proof.
  intros Hp Ha i.
  assert (Hb : is_derive (BT q) k (btot' alpha alpha' q k)).
  { unfold btot'. destruct (Req_EM_T (q_fnl q) 0) as [E|E].
    - apply is_derive_ext with (fun _ => q_b1 q).
      + intro t. symmetry. pattern t. apply (fun (H : forall t : R, BT q t = q_b1 q) => H t). clear t. intro t. rewrite btot_eq, E. unfold Rdiv. ring.
      + apply (is_derive_const (K := R_AbsRing) (V := R_NormedModule)).
    - destruct Ha as [Ha|[Ha Hn]]; [contradiction|].
      eapply is_derive_ext; [intro t; symmetry; apply btot_eq|].
      auto_derive; [split; [eexists; exact Ha|split; [exact Hn|exact I]]|]. rewrite (DU _ _ _ Ha). field. exact Hn. }
  assert (Hn : is_derive (fun t => npl plin s80 q t) k (npl' plin' s80 q k)).
  { unfold npl, npl'. apply (is_derive_scal plin). exact Hp. }
  set (B := BT q) in *. set (B' := btot' alpha alpha' q k) in *.
  set (L := npl plin s80 q) in *. set (L' := npl' plin' s80 q k) in *.
  destruct i as [|[|[|i]]].
  - apply is_derive_ext with (fun t => B t ^ 2 * L t); [reflexivity|]. unfold Pmu'. fold B B' L L'. fold (npl plin s80 q). fold L.
    change (btot' alpha alpha' q k) with B'. change (npl' plin' s80 q k) with L'. change (btot alpha q k) with (B k). change (npl plin s80 q k) with (L k).
    clearbody B B' L L'. auto_derive; [repeat split; eexists; eassumption|]. rewrite (DU _ _ _ Hb), (DU _ _ _ Hn). ring.
  - apply is_derive_ext with (fun t => 2 * q_f q * B t * L t); [reflexivity|]. unfold Pmu'.
    change (btot' alpha alpha' q k) with B'. change (npl' plin' s80 q k) with L'. change (btot alpha q k) with (B k). change (npl plin s80 q k) with (L k).
    clearbody B B' L L'. auto_derive; [repeat split; eexists; eassumption|]. rewrite (DU _ _ _ Hb), (DU _ _ _ Hn). ring.
  - apply is_derive_ext with (fun t => q_f q ^ 2 * L t); [reflexivity|]. unfold Pmu'. change (npl' plin' s80 q k) with L'.
    clearbody L L'. apply (is_derive_scal L). exact Hn.
  - apply is_derive_ext with (fun t : R => (t * 0)%R); [reflexivity|]. apply is_derive_ext with (fun t : R => 0%R); [intro; cbn; symmetry; apply Rmult_0_r|]. apply (is_derive_const (K := R_AbsRing) (V := R_NormedModule)).
Qed.

Section Curve.
Variables (q : qso) (u v : R -> R) (t du dv : R).
Hypothesis Hu : is_derive u t du.
Hypothesis Hv : is_derive v t dv.
Hypothesis Hp : is_derive plin (u t) (plin' (u t)).
Hypothesis Ha : q_fnl q = 0 \/ (is_derive alpha (u t) (alpha' (u t)) /\ alpha (u t) <> 0).
Lemma q0_curve :
  is_derive (fun t => q_power0 g plin alpha s80 q (u t) (v t)) t
    (q_dk0 g plin plin' alpha alpha' s80 q (u t) (v t) * du + q_dmu0 g plin alpha s80 q (u t) (v t) * dv).
Proof.
  pose proof (dm_curve (PM q) (Pmu' plin plin' alpha alpha' s80 q) (q_m q) u v t du dv (Pmu_deriv q (u t) Hp Ha) Hu Hv) as H1.
  pose proof (FOG_curve g u v t du dv (q_sigma q) Hu Hv) as H2.
  unfold q_power0, q_dk0, q_dmu0. cbv zeta.
  set (A := fun t => dm_power (PM q) (q_m q) (u t) (v t)).
  set (B := fun t => FOG g (u t) (v t) (q_sigma q)).
  assert (H1' : is_derive A t (dm_derivative_k (Pmu' plin plin' alpha alpha' s80 q) (q_m q) (u t) (v t) * du + dm_derivative_mu (PM q) (q_m q) (u t) (v t) * dv)) by exact H1.
  assert (H2' : is_derive B t (FOG_k g (u t) (v t) (q_sigma q) * du + FOG_mu g (u t) (v t) (q_sigma q) * dv)) by exact H2.
  change (is_derive (fun t => A t * B t ^ 2 + q_N q) t
    ((B t ^ 2 * dm_derivative_k (Pmu' plin plin' alpha alpha' s80 q) (q_m q) (u t) (v t) + 2 * B t * FOG_k g (u t) (v t) (q_sigma q) * A t) * du
     + (B t ^ 2 * dm_derivative_mu (PM q) (q_m q) (u t) (v t) + 2 * B t * FOG_mu g (u t) (v t) (q_sigma q) * A t) * dv)).
  clearbody A B. auto_derive; [repeat split; eexists; eassumption|].
  rewrite (DU _ _ _ H1'), (DU _ _ _ H2'). ring.
Qed.
End Curve.

Lemma dq_par_ok q k mu : 0 < q_perp q -> 0 < q_par q -> -1 <= mu <= 1 ->
  let kp := k_AP k mu (q_perp q) (q_par q) in
  is_derive plin kp (plin' kp) -> q_fnl q = 0 \/ (is_derive alpha kp (alpha' kp) /\ alpha kp <> 0) ->
  is_derive (fun v => pow_ (qset Qpar v q) k mu) (qget Qpar q) (dq_par g plin plin' alpha alpha' s80 q k mu).
Proof.
  intros H1 H2 Hm kp Hp Ha.
  apply is_derive_ext with (fun v => ap_scale (q_perp q) v (q_drag q)
     (q_power0 g plin alpha s80 q (k_AP k mu (q_perp q) v) (mu_AP mu (q_perp q) v))).
  { intro v. destruct q. reflexivity. }
  pose proof (q0_curve q (fun v => k_AP k mu (q_perp q) v) (fun v => mu_AP mu (q_perp q) v) (q_par q) _ _
      (dk_par k mu (q_perp q) (q_par q) H1 H2 Hm) (dmu_par mu (q_perp q) (q_par q) H1 H2 Hm) Hp Ha) as H.
  change (qget Qpar q) with (q_par q).
  evar_last; [apply (scale_par _ _ _ _ _ H2 (Rgt_not_eq _ _ H1) H)|].
  unfold dq_par, q_power, q_derivative_k, q_derivative_mu, q_ap. cbv zeta. unfold ap_scale, apN. apply ap_lin.
Qed.
Lemma dq_perp_ok q k mu : 0 < q_perp q -> 0 < q_par q -> -1 <= mu <= 1 ->
  let kp := k_AP k mu (q_perp q) (q_par q) in
  is_derive plin kp (plin' kp) -> q_fnl q = 0 \/ (is_derive alpha kp (alpha' kp) /\ alpha kp <> 0) ->
  is_derive (fun v => pow_ (qset Qperp v q) k mu) (qget Qperp q) (dq_perp g plin plin' alpha alpha' s80 q k mu).
Proof.
  intros H1 H2 Hm kp Hp Ha.
  apply is_derive_ext with (fun v => ap_scale v (q_par q) (q_drag q)
     (q_power0 g plin alpha s80 q (k_AP k mu v (q_par q)) (mu_AP mu v (q_par q)))).
  { intro v. destruct q. reflexivity. }
  pose proof (q0_curve q (fun v => k_AP k mu v (q_par q)) (fun v => mu_AP mu v (q_par q)) (q_perp q) _ _
      (dk_perp k mu (q_perp q) (q_par q) H1 H2 Hm) (dmu_perp mu (q_perp q) (q_par q) H1 H2 Hm) Hp Ha) as H.
  change (qget Qperp q) with (q_perp q).
  evar_last; [apply (scale_perp _ _ _ _ _ H1 (Rgt_not_eq _ _ H2) H)|].
  unfold dq_perp, q_power, q_derivative_k, q_derivative_mu, q_ap. cbv zeta. unfold ap_scale, apN. apply ap_lin.
Qed.

Lemma q_dk_ok q k mu : is_derive plin k (plin' k) -> q_fnl q = 0 \/ (is_derive alpha k (alpha' k) /\ alpha k <> 0) ->
  is_derive (fun x => q_power0 g plin alpha s80 q x mu) k (q_dk0 g plin plin' alpha alpha' s80 q k mu).
Proof.
  intros Hp Ha. evar_last.
  - apply (q0_curve q (fun x => x) (fun _ => mu) k 1 0); [apply (is_derive_id (K := R_AbsRing))|
      apply (is_derive_const (K := R_AbsRing) (V := R_NormedModule))|exact Hp|exact Ha].
  - ring.
Qed.
Lemma q_dmu_ok q k mu : is_derive plin k (plin' k) -> q_fnl q = 0 \/ (is_derive alpha k (alpha' k) /\ alpha k <> 0) ->
  is_derive (fun x => q_power0 g plin alpha s80 q k x) mu (q_dmu0 g plin alpha s80 q k mu).
Proof.
  intros Hp Ha. evar_last.
  - apply (q0_curve q (fun _ => k) (fun x => x) mu 0 1); [
      apply (is_derive_const (K := R_AbsRing) (V := R_NormedModule))|apply (is_derive_id (K := R_AbsRing))|exact Hp|exact Ha].
  - ring.
Qed.
End Qso.

(** ** HZPT *)
Lemma hz_deriv amp al (s8 : R -> R) t f : 0 < s8 t -> is_derive s8 t (f * s8 t) ->
  is_derive (fun t => hz_par amp al (s8 t)) t (f * al * hz_par amp al (s8 t)).
Proof.
  intros Hp H. unfold hz_par, Rpower. 
  assert (0 < s8 t / (8 / 10)) by lra.
  auto_derive; [repeat split; [eexists; exact H|assumption]|]. rewrite (DU _ _ _ H).
  change (s8 t / (8 / 10)) with (s8 t * / (8 / 10)).
  match goal with |- context [exp ?e] => generalize (exp e); intros ex end. field. lra.
Qed.

Lemma hzpt_ok h f (s8 : R -> R) t k : 0 < s8 t -> is_derive s8 t (f * s8 t) ->
  is_derive (fun t => P00_broadband h (s8 t) k) t (P01_broadband h f (s8 t) k).
Proof.
  intros Hp H. unfold P00_broadband, P01_broadband. cbv zeta.
  pose proof (hz_deriv (A0_amp h) (A0_al h) s8 t f Hp H) as H1.
  pose proof (hz_deriv (R_amp h) (R_al h) s8 t f Hp H) as H2.
  pose proof (hz_deriv (R1_amp h) (R1_al h) s8 t f Hp H) as H3.
  pose proof (hz_deriv (R1h_amp h) (R1h_al h) s8 t f Hp H) as H4.
  pose proof (hz_deriv (R2h_amp h) (R2h_al h) s8 t f Hp H) as H5.
  set (x1 := fun t : R => hz_par (A0_amp h) (A0_al h) (s8 t)) in *.
  set (x2 := fun t : R => hz_par (R_amp h) (R_al h) (s8 t)) in *.
  set (x3 := fun t : R => hz_par (R1_amp h) (R1_al h) (s8 t)) in *.
  set (x4 := fun t : R => hz_par (R1h_amp h) (R1h_al h) (s8 t)) in *.
  set (x5 := fun t : R => hz_par (R2h_amp h) (R2h_al h) (s8 t)) in *.
  change (hz_par (A0_amp h) (A0_al h) (s8 t)) with (x1 t) in *.
  change (hz_par (R_amp h) (R_al h) (s8 t)) with (x2 t) in *.
  change (hz_par (R1_amp h) (R1_al h) (s8 t)) with (x3 t) in *.
  change (hz_par (R1h_amp h) (R1h_al h) (s8 t)) with (x4 t) in *.
  change (hz_par (R2h_amp h) (R2h_al h) (s8 t)) with (x5 t) in *.
  apply is_derive_ext with (fun t => (1 - 1 / (1 + (k * x2 t) ^ 2)) * x1 t * (1 + (k * x3 t) ^ 2) / (1 + (k * x4 t) ^ 2 + (k * x5 t) ^ 4)); [reflexivity|].
  change (is_derive x1 t (f * A0_al h * x1 t)) in H1. change (is_derive x2 t (f * R_al h * x2 t)) in H2.
  change (is_derive x3 t (f * R1_al h * x3 t)) in H3. change (is_derive x4 t (f * R1h_al h * x4 t)) in H4.
  change (is_derive x5 t (f * R2h_al h * x5 t)) in H5.
  clearbody x1 x2 x3 x4 x5.
  assert (E1 : 1 + (k * x2 t) ^ 2 <> 0) by (pose proof (pow2_ge_0 (k * x2 t)); lra).
  assert (E2 : 1 + (k * x4 t) ^ 2 + (k * x5 t) ^ 4 <> 0).
  { pose proof (pow2_ge_0 (k * x4 t)). pose proof (pow2_ge_0 ((k * x5 t) ^ 2)). replace ((k * x5 t) ^ 4) with (((k * x5 t) ^ 2) ^ 2) by ring. lra. }
  auto_derive; [repeat split; try (eexists; eassumption); assumption|].
  rewrite (DU _ _ _ H1), (DU _ _ _ H2), (DU _ _ _ H3), (DU _ _ _ H4), (DU _ _ _ H5).
  field. repeat split; intro K; first [apply E2; rewrite <- K; ring | apply E1; rewrite <- K; ring].
Qed.
