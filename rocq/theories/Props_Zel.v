(** Properties C105-C110: linear and Zel'dovich spectra of the compiled library under rescaling, pickling and differentiation. *)
From Coq Require Import Reals List Lra.
From Coquelicot Require Import Coquelicot.
From Verif Require Import M_Zel S_Zel P_Simps P_Zel P_ZelD.
Import ListNotations.
Local Open Scope R_scope.
Opaque zel_r logspace.

(** A concrete world: one-point quadrature, unit transfer function, sigma8 = 1. *)
Definition N0 : numerics := {| n_intexp := fun f _ _ => f 1; n_int := fun f _ _ => f 1; n_j0 := fun x => 1; n_j1 := fun x => x/3;
  n_fft := fun n k a => dotw (fun _ => 1) a; n_xi := fun k p r s => rsum p |}.
Definition c0 : cosmology := c_set8 N0 1 {| c_eng8 := 1; c_eng8z := fun z => 1/(1+z); c_ns := 0; c_T := fun _ => 1; c_s8 := 1; c_dH := 1 |}.
Lemma c0_norm : normalised N0 c0.
Proof. apply set8_norm. lra. Qed.
Lemma c0_s8 z : sigma8z c0 z = 1/(1+z).
Proof. unfold sigma8z, c0. cbn. unfold Rdiv. rewrite Rinv_1. ring. Qed.

(** C105: after any history of rescalings, setting of the low-k options and renormalisations of the underlying cosmology, an
    object equals one freshly built at a redshift with the last sigma8(z): same accessors, same P00, P01, P11 at every k. *)
Theorem C105_rescaled_equals_fresh : forall N c z z' a ops,
  normalised N c -> sigma8z c z <> 0 -> zero_free ops -> sigma8z c z' = last8 (sigma8z c z) ops ->
  let w := zrun N (c, Some (zel_new N c z a)) ops in
  let fresh := zel_trans (last_trans (5/1000) ops) (zel_new N c z' (last_lowk a ops)) in
  (forall q k, zel_eval N q (fst w) (snd w) k = zel_eval N q c (Some fresh) k) /\
  exists t, snd w = Some t /\ same_accessors t fresh.
Proof. exact history. Qed.
Print Assumptions C105_rescaled_equals_fresh.
(** The linear spectrum is proportional to the square of its sigma8(z), and renormalising the cosmology does not change it. *)
Theorem C105_linear_spectrum : forall N c s l k, normalised N c -> s <> 0 -> l_s8z l <> 0 ->
  lin_eval c (lin_set s l) k = (s / l_s8z l)^2 * lin_eval c l k /\
  (forall s', s' <> 0 -> lin_eval (c_set8 N s' c) l k = lin_eval c l k).
Proof.
  intros N c s l k Hn Hs Hl. split.
  - destruct Hn as [Hc _]. unfold lin_eval, lin_set. cbn [l_s8z]. field. auto.
  - intros s' Hs'. destruct (set8_norm N s' c Hs') as [A B]. apply (same_lin N); assumption.
Qed.
Print Assumptions C105_linear_spectrum.
Example C105_nonvacuous :
  let ops := [ZSet8 2; ZLowK true; ZCosmo8 3; ZTrans (1/2); ZSet8 (1/2)] in
  normalised N0 c0 /\ sigma8z c0 0 <> 0 /\ zero_free ops /\ sigma8z c0 1 = last8 (sigma8z c0 0) ops.
Proof.
  split; [apply c0_norm|]. split; [rewrite c0_s8; lra|]. split.
  - intros s [H|H]; cbn in H; repeat (destruct H as [H|H]; [try discriminate H; injection H as <-; lra|]); contradiction.
  - rewrite c0_s8. cbn. lra.
Qed.

(** C106: an object that was once set to sigma8(z) = 0 gives the fresh result again after a new value is set.
    Refuted: the integrals stay NaN whatever happens afterwards. The positive part (any history without 0) is C105. *)
Theorem C106_zero_is_forever_refuted : forall N c z a ops s, sigma8z c z <> 0 ->
  snd (zrun N (c, Some (zel_new N c z a)) (ZSet8 0 :: ZSet8 s :: ops)) = None /\
  (forall q k, zel_eval N q c (snd (zrun N (c, Some (zel_new N c z a)) (ZSet8 0 :: ZSet8 s :: ops))) k = None /\
               exists v, zel_eval N q c (Some (zel_new N c z a)) k = Some v).
Proof.
  intros N c z a ops s Hz.
  assert (E : snd (zrun N (c, Some (zel_new N c z a)) (ZSet8 0 :: ZSet8 s :: ops)) = None).
  { unfold zrun. cbn [fold_left zstep]. unfold zel_set8 at 2. change (z_s8z (zel_new N c z a)) with (sigma8z c z).
    destruct (Req_EM_T (sigma8z c z) 0) as [F|_]; [contradiction|]. unfold zel_set8. cbn [z_s8z].
    destruct (Req_EM_T 0 0) as [_|F]; [|contradiction F; reflexivity]. apply nan_forever. }
  split; [exact E|]. intros q k. rewrite E. split; [reflexivity|]. eexists. reflexivity.
Qed.
Print Assumptions C106_zero_is_forever_refuted.

(** C107: pickling. A ZeldovichPS after any history, and a LinearPS built with an explicit redshift, are restored exactly. *)
Theorem C107_zeldovich_restored_partial : forall N c ops z a, normalised N c -> sigma8z c z <> 0 -> zero_free ops ->
  let w := zrun N (c, Some (zel_new N c z a)) ops in
  exists t, snd w = Some t /\ same_accessors (zel_setstate (fst w) (zel_getstate t)) t /\
    forall q k, zel_eval N q (fst w) (Some (zel_setstate (fst w) (zel_getstate t))) k = zel_eval N q (fst w) (snd w) k.
Proof. exact restore_same. Qed.
Theorem C107_linear_restored_partial : forall c z ss, let l := fold_left (fun l s => lin_set s l) ss (lin_new c z) in
  lin_setstate c (lin_getstate [z] l) = Some l.
Proof.
  intros c z ss. cbv zeta. unfold lin_setstate, lin_getstate. cbn [app firstn lin_init nth_error].
  assert (E : forall ss l, lin_set (l_s8z (fold_left (fun l s => lin_set s l) ss l)) l = fold_left (fun l s => lin_set s l) ss l).
  { clear. intros ss. induction ss as [|s ss IH]; intros l; cbn [fold_left]; [destruct l; reflexivity|]. rewrite <- IH at 2.
    unfold lin_set at 1 3. cbn [l_z]. reflexivity. }
  rewrite E. reflexivity.
Qed.
(** The other classes lose every later change, and a LinearPS built without a redshift cannot be unpickled. *)
Theorem C107_changes_lost_refuted : exists N c z a ops, normalised N c /\ sigma8z c z <> 0 /\ zero_free ops /\
  exists t, snd (zrun N (c, Some (zel_new N c z a)) ops) = Some t /\ z_s8z (zelp_unpickle N c z a) <> z_s8z t.
Proof.
  exists N0, c0, 0, true, [ZSet8 2]. split; [apply c0_norm|]. split; [rewrite c0_s8; lra|]. split.
  - intros s [H|H]; cbn in H; destruct H as [H|[]]; [injection H as <-; lra|discriminate H].
  - destruct (run_ideal N0 c0 (proj1 c0_norm) [ZSet8 2] c0 (sigma8z c0 0) 0 true (5/1000) c0_norm) as (_ & _ & C & _).
    + repeat split. + rewrite c0_s8; lra.
    + intros s [H|H]; cbn in H; destruct H as [H|[]]; [injection H as <-; lra|discriminate H].
    + eexists. split; [exact C|]. unfold zelp_unpickle. rewrite new_ideal. unfold ideal, last8. cbn [z_s8z fold_left]. rewrite c0_s8. lra.
Qed.
Theorem C107_linear_without_redshift_refuted : forall c l, lin_setstate c (lin_getstate [] l) = None.
Proof. intros c l. reflexivity. Qed.
Print Assumptions C107_zeldovich_restored_partial.
Print Assumptions C107_linear_restored_partial.
Print Assumptions C107_changes_lost_refuted.
Print Assumptions C107_linear_without_redshift_refuted.

(** C108: the Zel'dovich correlation function always uses the sigma8(z) that was set last, whatever was set or evaluated before. *)
Theorem C108_correlation_function_current : forall N c z z' kmin kmax l r sm,
  normalised N c -> sigma8z c z <> 0 -> cf_zero_free l -> sigma8z c z' = cf_last8 (sigma8z c z) l ->
  snd (zcf_eval N c (cfrun N c (zcf_new N c z kmin kmax) l) r sm) = snd (zcf_eval N c (zcf_new N c z' kmin kmax) r sm).
Proof. exact cf_current. Qed.
Lemma all_some_map (A : Type) (f : A -> option R) : forall l, (forall x, f x <> None) -> all_some (map f l) <> None.
Proof. induction l as [|x l IH]; intros H; cbn; [discriminate|]. specialize (IH H). destruct (f x) eqn:E; [|exfalso; eapply H; exact E]. unfold all_some in *. destruct (fold_right _ _ _); [discriminate|contradiction IH; reflexivity]. Qed.
(** ... and the result is a number (not NaN). *)
Theorem C108_result_is_a_number : forall N c z kmin kmax l r sm, normalised N c -> sigma8z c z <> 0 -> cf_zero_free l ->
  snd (zcf_eval N c (cfrun N c (zcf_new N c z kmin kmax) l) r sm) <> None.
Proof.
  intros N c z kmin kmax l r sm Hn Hz Hf.
  destruct (cf_inv N c z kmin kmax Hn (l ++ [CfEval r sm]) (zcf_new N c z kmin kmax) (sigma8z c z)) as (s2 & A & B & C & D & F & G); auto.
  { intros s Hs. apply in_app_or in Hs as [Hs|[Hs|[]]]; [apply Hf; exact Hs|discriminate Hs]. }
  unfold cfrun in *. rewrite fold_left_app in A, C, D, F, G. cbn [fold_left cfstep] in A, C, D, F, G. unfold zcf_eval in *. cbn [fst snd] in *.
  rewrite F, A. unfold pk_of. destruct (all_some (map _ _)) eqn:E; [discriminate|]. exfalso. eapply all_some_map; [|exact E]. intros k. discriminate.
Qed.
Print Assumptions C108_correlation_function_current.
Print Assumptions C108_result_is_a_number.
Example C108_nonvacuous : normalised N0 c0 /\ sigma8z c0 0 <> 0 /\ cf_zero_free [CfSet8 2; CfEval 10 0; CfSet8 (1/2)] /\
  sigma8z c0 1 = cf_last8 (sigma8z c0 0) [CfSet8 2; CfEval 10 0; CfSet8 (1/2)].
Proof.
  split; [apply c0_norm|]. split; [rewrite c0_s8; lra|]. split.
  - intros s H; cbn in H; repeat (destruct H as [H|H]; [try discriminate H; injection H as <-; lra|]); contradiction.
  - rewrite c0_s8. cbn. lra.
Qed.

(** C109: the density-momentum spectrum is half the logarithmic growth derivative of the density spectrum, and the
    momentum spectrum half that of the former plus k^2 sigma_v^2 times the density spectrum. *)
Definition value (o : option R) : R := match o with Some x => x | None => 0 end.
Definition uses_fft (t : zel) (k : R) : Prop := z_k0 t <= k \/ z_approx t = false.
Lemma eval_fft N q c t s k : z_s8z t <> 0 -> uses_fft t k -> value (zel_eval N q c (zel_set8 s (Some t)) k) = fftlog_compute N q (rescaled s t) k.
Proof.
  intros Ht Hu. unfold rescaled, zel_set8. destruct (Req_EM_T (z_s8z t) 0) as [E|_]; [contradiction|]. unfold zel_eval. cbn [z_k0 z_approx value].
  destruct (Rle_dec (z_k0 t) k) as [_|H]; [reflexivity|]. destruct Hu as [Hu|Hu]; [contradiction|]. rewrite Hu. reflexivity.
Qed.
Lemma ideal_closed N c s lz a k0 : s <> 0 -> closed (ideal N c s lz a k0).
Proof. intros H. split; [exact H|reflexivity]. Qed.
Theorem C109_momentum_spectra_are_growth_derivatives : forall N c z a ops t s0 k,
  normalised N c -> sigma8z c z <> 0 -> zero_free ops -> linear_transform N -> s0 <> 0 ->
  snd (zrun N (c, Some (zel_new N c z a)) ops) = Some t -> uses_fft t k ->
  let P q s := value (zel_eval N q c (zel_set8 s (Some t)) k) in
  is_derive (P P00) s0 (2 / s0 * P P01 s0) /\
  is_derive (P P01) s0 (2 / s0 * (P P11 s0 - k^2 * (z_sig2 t * (s0 / z_s8z t)^2) * P P00 s0)).
Proof.
  intros N c z a ops t s0 k Hn Hz Hf Hl H0 Ht Hu P. pose proof Hn as [Hc _].
  destruct (run_ideal N c Hc ops c (sigma8z c z) z a (5/1000) Hn) as (_ & _ & C & D); auto.
  { repeat split. }
  cbv zeta in C. rewrite <- new_ideal in C. rewrite Ht in C. apply some_inj in C || injection C as C.
  assert (Hcl : closed t) by (rewrite C; apply ideal_closed; exact D). pose proof Hcl as [Hs _].
  unfold P. rewrite !eval_fft by assumption. rewrite <- sig_rescaled by assumption. split.
  - eapply is_derive_ext; [intros s; symmetry; apply eval_fft; assumption|]. apply p01_derivative; assumption.
  - eapply is_derive_ext; [intros s; symmetry; apply eval_fft; assumption|]. apply p11_derivative; assumption.
Qed.
Print Assumptions C109_momentum_spectra_are_growth_derivatives.
Example C109_nonvacuous : linear_transform N0 /\ uses_fft (zel_new N0 c0 0 true) 1 /\ snd (zrun N0 (c0, Some (zel_new N0 c0 0 true)) []) = Some (zel_new N0 c0 0 true).
Proof. split; [exists (fun _ _ _ => 1); reflexivity|]. split; [left; cbn; lra|reflexivity]. Qed.

(** C110: the low-k approximations obey the same relations. Partial: the exact defects. The P00/P01 pair agrees up to a
    term of third order in the spectrum; in the P01/P11 pair half of the mode-coupling term Q3 is missing. *)
Theorem C110_low_k_defects_partial : forall N c t s0 k, homogeneous (n_int N) -> normalised N c -> z_s8z t <> 0 -> l_s8z (z_lin t) = z_s8z t -> s0 <> 0 ->
  let v := z_sig2 (rescaled s0 t) in let P := lin_eval c (z_lin (rescaled s0 t)) in
  is_derive (fun s => lowk N P00 c (rescaled s t) k) s0 (2/s0 * (lowk N P01 c (rescaled s0 t) k + 3/2*k^4*v^2 * P k)) /\
  is_derive (fun s => lowk N P01 c (rescaled s t) k) s0
    (2/s0 * (lowk N P11 c (rescaled s0 t) k - k^2*v*lowk N P00 c (rescaled s0 t) k + (1/2*(1 + k^2*v)*Q3_zel N P k - (k^4*v^2 - 1/2*k^6*v^3)*P k))).
Proof. intros N c t s0 k A B C D E v P. split; [apply lowk_p01|apply lowk_p11]; assumption. Qed.
Lemma c0_lin s k : lin_eval c0 {| l_z := 0; l_s8z := s |} k = 2*PI^2*s^2.
Proof.
  unfold lin_eval, c0, c_set8. cbn [c_dH c_s8 c_ns c_T l_s8z]. unfold sigma2_un. cbn [n_intexp N0]. unfold f_sigma. cbn [n_j1 N0 c_ns c_T].
  replace (1*8) with 8 by ring. destruct (Rlt_dec 8 (1/10000)) as [F|_]; [lra|].
  assert (E : forall x, Rpower x 0 = 1) by (intros; unfold Rpower; rewrite Rmult_0_l; apply exp_0). rewrite !E.
  set (q := 1 * 1 / (2 * PI * PI) * 1 * 1 ^ 2 * (3 * (8 / 3 / 8)) ^ 2).
  assert (Pp := PI_RGT_0).
  assert (Hq : q = / (2*PI^2)) by (unfold q; field; lra).
  assert (Hp : 0 < q) by (rewrite Hq; apply Rinv_0_lt_compat; nra).
  replace ((1 / sqrt q) ^ 2) with (1 / (sqrt q)^2) by (field; apply Rgt_not_eq, sqrt_lt_R0, Hp). rewrite pow2_sqrt by lra. rewrite Hq. field. lra.
Qed.
Theorem C110_missing_mode_coupling_refuted : exists N c t s0 k, homogeneous (n_int N) /\ normalised N c /\ t = zel_new N c 0 true /\ s0 <> 0 /\ z_s8z t <> 0 /\
  ~ is_derive (fun s => lowk N P01 c (rescaled s t) k) s0 (2/s0 * (lowk N P11 c (rescaled s0 t) k - k^2*z_sig2 (rescaled s0 t)*lowk N P00 c (rescaled s0 t) k)).
Proof.
  assert (Hh : homogeneous (n_int N0)) by (intros c f g a b H; apply H).
  assert (Hz : z_s8z (zel_new N0 c0 0 true) = 1) by (change (sigma8z c0 0 = 1); rewrite c0_s8; field).
  assert (Hn : z_s8z (zel_new N0 c0 0 true) <> 0) by lra.
  exists N0, c0, (zel_new N0 c0 0 true), 1, 1. split; [exact Hh|]. split; [apply c0_norm|]. split; [reflexivity|]. split; [lra|]. split; [exact Hn|].
  intros D. pose proof (lowk_p11 N0 c0 (zel_new N0 c0 0 true) 1 1 Hh c0_norm Hn eq_refl ltac:(lra)) as D'.
  apply is_derive_unique in D, D'. rewrite D in D'. clear D. revert D'. cbv zeta.
  set (A := lowk _ P11 _ _ _). set (B := lowk _ P00 _ _ _).
  rewrite sig_rescaled by exact Hn. rewrite Hz.
  assert (EP : forall k, lin_eval c0 (z_lin (rescaled 1 (zel_new N0 c0 0 true))) k = 2*PI^2).
  { intros k. rewrite (lin_rescaled N0) by (try exact c0_norm; try exact Hn; reflexivity). rewrite Hz.
    change (z_lin (zel_new N0 c0 0 true)) with {| l_z := 0; l_s8z := sigma8z c0 0 |}. rewrite c0_lin, c0_s8. field. }
  assert (EV : z_sig2 (zel_new N0 c0 0 true) = 1/3).
  { change (z_sig2 (zel_new N0 c0 0 true)) with ((sigma8z c0 0 / c_s8 c0)^2 * veldisp N0 (lin_eval c0 {| l_z := 0; l_s8z := sigma8z c0 0 |})).
    unfold veldisp. cbn [n_intexp N0]. rewrite c0_lin, c0_s8. change (c_s8 c0) with 1. pose proof PI_RGT_0. field. lra. }
  rewrite EV, EP. unfold Q3_zel. cbn [n_int N0]. rewrite !EP. intros D. pose proof PI_RGT_0 as Pp.
  assert (0 < PI^2) by nra.
  replace (1 / (10 * PI * PI) * 1 ^ 4 * (2 * PI ^ 2 * (2 * PI ^ 2) / 1 / 1)) with (2/5*PI^2) in D by (field; lra). nra.
Qed.
Print Assumptions C110_low_k_defects_partial.
Print Assumptions C110_missing_mode_coupling_refuted.
Example C110_nonvacuous : homogeneous (n_int N0) /\ normalised N0 c0 /\ z_s8z (zel_new N0 c0 0 true) <> 0 /\ l_s8z (z_lin (zel_new N0 c0 0 true)) = z_s8z (zel_new N0 c0 0 true).
Proof. split; [intros c f g a b H; apply H|]. split; [apply c0_norm|]. split; [change (sigma8z c0 0 <> 0); rewrite c0_s8; lra|reflexivity]. Qed.
