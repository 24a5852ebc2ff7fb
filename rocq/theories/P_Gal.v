From Coq Require Import List String Bool Reals Lra.
From Coquelicot Require Import Coquelicot.
From Verif Require Import M_Cache M_Gal M_AP M_GalDeriv S_Gal.
Import ListNotations.
Open Scope R_scope.

Lemma kernel_0 g : kernel g 0 = 1.
Proof. destruct g; cbn [kernel]; try (field; lra). replace (- (1 / 2) * 0 ^ 2) with 0 by ring. apply exp_0. Qed.
Lemma FOG_0 g k mu : FOG g k mu 0 = 1.
Proof. unfold FOG. rewrite Rmult_0_r. apply kernel_0. Qed.

Lemma DU (f : R -> R) (x l : R) : is_derive f x l -> Derive (fun t : R => f t) x = l.
Proof. apply is_derive_unique. Qed.

(** ** Kernels *)
Lemma kernel_deriv g (x : R) : is_derive (kernel g) x (kernel' g x).
Proof.
  assert (H : 1 + 1 / 2 * (x * (x * 1)) <> 0) by (pose proof (pow2_ge_0 x) as Hx; cbn in Hx; lra).
  destruct g; unfold kernel, kernel'; auto_derive; auto.
  - cbn [pow]. field. intro K; apply H; lra.
  - cbn [pow]. field. intro K; apply H; lra.
  - cbn [pow]. match goal with |- context [exp ?e] => generalize (exp e); intros ex end. field.
Qed.

Lemma FOG_k_deriv g k mu sg : is_derive (fun x => FOG g x mu sg) k (FOG_k g k mu sg).
Proof.
  unfold FOG, FOG_k. evar_last.
  - apply (is_derive_comp (kernel g) (fun x => x * mu * sg)); [apply kernel_deriv|].
    auto_derive; auto.
  - cbn. unfold scal; cbn. unfold mult; cbn. ring.
Qed.
Lemma FOG_mu_deriv g k mu sg : is_derive (fun x => FOG g k x sg) mu (FOG_mu g k mu sg).
Proof.
  unfold FOG, FOG_mu. evar_last.
  - apply (is_derive_comp (kernel g) (fun x => k * x * sg)); [apply kernel_deriv|].
    auto_derive; auto.
  - cbn. unfold scal; cbn. unfold mult; cbn. ring.
Qed.
Lemma FOG_sigma_deriv g k mu sg : is_derive (fun x => FOG g k mu x) sg (FOG_sigma g k mu sg).
Proof.
  unfold FOG, FOG_sigma. evar_last.
  - apply (is_derive_comp (kernel g) (fun x => k * mu * x)); [apply kernel_deriv|].
    auto_derive; auto.
  - cbn. unfold scal; cbn. unfold mult; cbn. ring.
Qed.

(** Along a curve. *)
Lemma FOG_curve g (u v : R -> R) t du dv sg :
  is_derive u t du -> is_derive v t dv ->
  is_derive (fun t => FOG g (u t) (v t) sg) t (FOG_k g (u t) (v t) sg * du + FOG_mu g (u t) (v t) sg * dv).
Proof.
  intros Hu Hv. unfold FOG, FOG_k, FOG_mu. evar_last.
  - apply (is_derive_comp (kernel g) (fun x => u x * v x * sg)); [apply kernel_deriv|].
    auto_derive; [split; [eexists; eauto|split; [eexists; eauto|exact I]]|].
    rewrite (DU _ _ _ Hu), (DU _ _ _ Hv). reflexivity.
  - unfold scal; cbn. unfold mult; cbn. ring.
Qed.

(** ** Derivative of the specified power along any parameter t *)
Section GalDerive.
Variables G : R -> R -> R.       (* t, sigma *)
Variables P : R -> R -> R -> R.  (* t, b, b' *)
Variables (G' : R -> R) (P' : R -> R -> R) (t : R) (s : gst).
Hypothesis HG : forall sg, is_derive (fun t => G t sg) t (G' sg).
Hypothesis HP : forall x y, is_derive (fun t => P t x y) t (P' x y).

Definition dgal : R :=
  let Gc := G t (a_sigma_c s) in let Gso := G t (a_sigma_so s) in
  let GA := G t (a_sigma_sA s) in let GB := G t (a_sigma_sB s) in
  let Gc' := G' (a_sigma_c s) in let Gso' := G' (a_sigma_so s) in
  let GA' := G' (a_sigma_sA s) in let GB' := G' (a_sigma_sB s) in
  let p x y := P t x y in
  let U f := (1 - a_fcB s) ^ 2 * f (a_b1_cA s) (a_b1_cA s)
           + 2 * a_fcB s * (1 - a_fcB s) * f (a_b1_cA s) (a_b1_cB s)
           + a_fcB s ^ 2 * f (a_b1_cB s) (a_b1_cB s) in
  (1 - a_fs s) ^ 2 *
   (if use_so s then
      2 * ((1 - a_f_so s) * Gc + a_f_so s * Gso) * ((1 - a_f_so s) * Gc' + a_f_so s * Gso') * U p
      + ((1 - a_f_so s) * Gc + a_f_so s * Gso) ^ 2 * U P'
      + 2 * a_f_so s * a_fcB s * a_NcBs s * (Gc' * Gso + Gc * Gso')
    else 2 * Gc * Gc' * U p + Gc ^ 2 * U P')
  + 2 * a_fs s * (1 - a_fs s) *
   ( (1 - a_fcB s) * (1 - a_fsB s) * ((Gc' * GA + Gc * GA') * p (a_b1_cA s) (a_b1_sA s) + Gc * GA * P' (a_b1_cA s) (a_b1_sA s))
   + (1 - a_fcB s) * a_fsB s * ((Gc' * GB + Gc * GB') * p (a_b1_cA s) (a_b1_sB s) + Gc * GB * P' (a_b1_cA s) (a_b1_sB s))
   + a_fcB s * (1 - a_fsB s) * ((Gc' * GA + Gc * GA') * (p (a_b1_cB s) (a_b1_sA s) + a_NcBs s) + Gc * GA * P' (a_b1_cB s) (a_b1_sA s))
   + a_fcB s * a_fsB s * ((Gc' * GB + Gc * GB') * (p (a_b1_cB s) (a_b1_sB s) + a_NcBs s) + Gc * GB * P' (a_b1_cB s) (a_b1_sB s)))
  + a_fs s ^ 2 *
   ( (1 - a_fsB s) ^ 2 * (2 * GA * GA' * p (a_b1_sA s) (a_b1_sA s) + GA ^ 2 * P' (a_b1_sA s) (a_b1_sA s))
   + 2 * a_fsB s * (1 - a_fsB s) * ((GA' * GB + GA * GB') * p (a_b1_sA s) (a_b1_sB s) + GA * GB * P' (a_b1_sA s) (a_b1_sB s))
   + a_fsB s ^ 2 * (2 * GB * GB' * (p (a_b1_sB s) (a_b1_sB s) + a_NsBsB s) + GB ^ 2 * P' (a_b1_sB s) (a_b1_sB s))).
End GalDerive.

Lemma gal_derive_gen (Gc Gso GA GB p1 p2 p3 p4 p5 p6 p7 p8 p9 p10 : R -> R)
  (t Gc' Gso' GA' GB' q1 q2 q3 q4 q5 q6 q7 q8 q9 q10 fs fcB fsB f n1 n2 : R) (u : bool) :
  is_derive Gc t Gc' -> is_derive Gso t Gso' -> is_derive GA t GA' -> is_derive GB t GB' ->
  is_derive p1 t q1 -> is_derive p2 t q2 -> is_derive p3 t q3 -> is_derive p4 t q4 -> is_derive p5 t q5 ->
  is_derive p6 t q6 -> is_derive p7 t q7 -> is_derive p8 t q8 -> is_derive p9 t q9 -> is_derive p10 t q10 ->
  is_derive (fun t : R =>
   (1 - fs) ^ 2 *
    (if u then ((1 - f) * Gc t + f * Gso t) ^ 2 * ((1 - fcB) ^ 2 * p1 t + 2 * fcB * (1 - fcB) * p2 t + fcB ^ 2 * p3 t)
               + 2 * f * fcB * n1 * Gc t * Gso t
     else Gc t ^ 2 * ((1 - fcB) ^ 2 * p1 t + 2 * fcB * (1 - fcB) * p2 t + fcB ^ 2 * p3 t))
   + 2 * fs * (1 - fs) * (Gc t * ((1 - fcB) * (1 - fsB) * GA t * p4 t + (1 - fcB) * fsB * GB t * p5 t
        + fcB * (1 - fsB) * GA t * (p6 t + n1) + fcB * fsB * GB t * (p7 t + n1)))
   + fs ^ 2 * ((1 - fsB) ^ 2 * GA t ^ 2 * p8 t + 2 * fsB * (1 - fsB) * GA t * GB t * p9 t
        + fsB ^ 2 * GB t ^ 2 * (p10 t + n2))) t
  ((1 - fs) ^ 2 *
   (if u then
      2 * ((1 - f) * Gc t + f * Gso t) * ((1 - f) * Gc' + f * Gso') * ((1 - fcB) ^ 2 * p1 t + 2 * fcB * (1 - fcB) * p2 t + fcB ^ 2 * p3 t)
      + ((1 - f) * Gc t + f * Gso t) ^ 2 * ((1 - fcB) ^ 2 * q1 + 2 * fcB * (1 - fcB) * q2 + fcB ^ 2 * q3)
      + 2 * f * fcB * n1 * (Gc' * Gso t + Gc t * Gso')
    else 2 * Gc t * Gc' * ((1 - fcB) ^ 2 * p1 t + 2 * fcB * (1 - fcB) * p2 t + fcB ^ 2 * p3 t)
      + Gc t ^ 2 * ((1 - fcB) ^ 2 * q1 + 2 * fcB * (1 - fcB) * q2 + fcB ^ 2 * q3))
  + 2 * fs * (1 - fs) *
   ( (1 - fcB) * (1 - fsB) * ((Gc' * GA t + Gc t * GA') * p4 t + Gc t * GA t * q4)
   + (1 - fcB) * fsB * ((Gc' * GB t + Gc t * GB') * p5 t + Gc t * GB t * q5)
   + fcB * (1 - fsB) * ((Gc' * GA t + Gc t * GA') * (p6 t + n1) + Gc t * GA t * q6)
   + fcB * fsB * ((Gc' * GB t + Gc t * GB') * (p7 t + n1) + Gc t * GB t * q7))
  + fs ^ 2 *
   ( (1 - fsB) ^ 2 * (2 * GA t * GA' * p8 t + GA t ^ 2 * q8)
   + 2 * fsB * (1 - fsB) * ((GA' * GB t + GA t * GB') * p9 t + GA t * GB t * q9)
   + fsB ^ 2 * (2 * GB t * GB' * (p10 t + n2) + GB t ^ 2 * q10))).
Proof.
  intros H1 H2 H3 H4 K1 K2 K3 K4 K5 K6 K7 K8 K9 K10.
  destruct u; auto_derive;
    try (repeat split; eexists; eassumption);
    rewrite ?(DU _ _ _ H1), ?(DU _ _ _ H2), ?(DU _ _ _ H3), ?(DU _ _ _ H4), ?(DU _ _ _ K1), ?(DU _ _ _ K2), ?(DU _ _ _ K3),
      ?(DU _ _ _ K4), ?(DU _ _ _ K5), ?(DU _ _ _ K6), ?(DU _ _ _ K7), ?(DU _ _ _ K8), ?(DU _ _ _ K9), ?(DU _ _ _ K10); ring.
Qed.

Lemma gal_derive G P G' P' t s :
  (forall sg, is_derive (fun t => G t sg) t (G' sg)) ->
  (forall x y, is_derive (fun t => P t x y) t (P' x y)) ->
  is_derive (fun t => galaxy_power (G t) (P t) s) t (dgal G P G' P' t s).
Proof.
  intros HG HP.
  exact (gal_derive_gen (fun t => G t _) (fun t => G t _) (fun t => G t _) (fun t => G t _)
     (fun t => P t _ _) (fun t => P t _ _) (fun t => P t _ _) (fun t => P t _ _) (fun t => P t _ _)
     (fun t => P t _ _) (fun t => P t _ _) (fun t => P t _ _) (fun t => P t _ _) (fun t => P t _ _)
     t _ _ _ _ _ _ _ _ _ _ _ _ _ _ _ _ _ _ _ _ _
     (HG _) (HG _) (HG _) (HG _) (HP _ _) (HP _ _) (HP _ _) (HP _ _) (HP _ _) (HP _ _) (HP _ _) (HP _ _) (HP _ _) (HP _ _)).
Qed.

Section Total.
Variable g : fog.
Variables P P_k P_mu : R -> R -> R -> R -> R.
Notation PW := (fun x y k mu => Ok (P x y k mu)).
Notation PWk := (fun x y k mu => Ok (P_k x y k mu)).
Notation PWmu := (fun x y k mu => Ok (P_mu x y k mu)).
Notation T f := (f (FOG g) (FOG_k g) (FOG_mu g) PW PWk PWmu).

Ltac unf := cbv beta iota zeta delta [Pgal Pgal_base Pcc Pcc_base Pcc_coef Pcc_deriv Pcs Pcs_base Pss Pss_base PcAcA PcAcB PcBcB PcAsA PcAsB PcBsA PcBsB
  PsAsA PsAsB PsBsB so_wrap damped power_term wsum two_halo one_halo run_leaf call dk dmu coef
  zero_shot_noise so_correction set_biases bind ret get_ set_ get_so geta seta set_so negb
  a_b1 a_b1_bar a_b1_cA a_b1_cB a_b1_sA a_b1_sB a_sigma_c a_sigma_sA a_sigma_sB a_sigma_so
  a_fs a_fcB a_fsB a_f_so a_NcBs a_NsBsB a_N a_par a_perp a_drag use_so
  galaxy_power cen_cen cen_sat sat_sat].
Ltac run s := destruct s as [? ? ? ? ? ? ? ? ? ? ? ? ? ? ? ? ? ? ? ? u]; destruct u; unf.

Lemma pgal_value k mu s :
  call (T Pgal) k mu s = (Ok (galaxy_power (fun sg => FOG g k mu sg) (fun x y => P x y k mu) s), s).
Proof.
  run s; f_equal; f_equal; rewrite ?FOG_0; ring.
Qed.

(** The derivative trees. *)
Lemma FOG_k_0 k mu : FOG_k g k mu 0 = 0.
Proof. unfold FOG_k. ring. Qed.
Lemma FOG_mu_0 k mu : FOG_mu g k mu 0 = 0.
Proof. unfold FOG_mu. ring. Qed.

(** The term the SO branch of the derivative trees adds for N <> 0. *)
Definition so_err (G G' : R -> R) (s : gst) : R :=
  if use_so s then
    (1 - a_fs s) ^ 2 * a_N s *
    (2 * G (a_sigma_c s) * G' (a_sigma_c s) * (1 - a_f_so s) ^ 2
     + 2 * a_f_so s * (1 - a_f_so s) * (G' (a_sigma_c s) * G (a_sigma_so s) + G' (a_sigma_so s) * G (a_sigma_c s))
     + 2 * G (a_sigma_so s) * G' (a_sigma_so s) * a_f_so s ^ 2)
  else 0.
Lemma pgal_dk_value_gen k mu s :
  dk (T Pgal) k mu s = (Ok (dgal (fun t sg => FOG g t mu sg) (fun t x y => P x y t mu)
                             (fun sg => FOG_k g k mu sg) (fun x y => P_k x y k mu) k s
                            + so_err (FOG g k mu) (FOG_k g k mu) s), s).
Proof.
  destruct s as [? ? ? ? ? ? ? ? ? ? ? ? ? ? ? ? n ? ? ? u].
  destruct u; unf; f_equal; f_equal; unfold dgal, so_err; unf; rewrite ?FOG_0, ?FOG_k_0; ring.
Qed.
Lemma pgal_dmu_value_gen k mu s :
  dmu (T Pgal) k mu s = (Ok (dgal (fun t sg => FOG g k t sg) (fun t x y => P x y k t)
                             (fun sg => FOG_mu g k mu sg) (fun x y => P_mu x y k mu) mu s
                            + so_err (FOG g k mu) (FOG_mu g k mu) s), s).
Proof.
  destruct s as [? ? ? ? ? ? ? ? ? ? ? ? ? ? ? ? n ? ? ? u].
  destruct u; unf; f_equal; f_equal; unfold dgal, so_err; unf; rewrite ?FOG_0, ?FOG_mu_0; ring.
Qed.
(** The kernel depends on k and mu only through k*mu. *)
Lemma so_err_cross k mu s : k * so_err (FOG g k mu) (FOG_k g k mu) s = mu * so_err (FOG g k mu) (FOG_mu g k mu) s.
Proof.
  unfold so_err. destruct (use_so s); [|ring].
  cut (forall sg, k * FOG_k g k mu sg = mu * FOG_mu g k mu sg).
  - intro H. pose proof (H (a_sigma_c s)). pose proof (H (a_sigma_so s)).
    transitivity ((1 - a_fs s) ^ 2 * a_N s *
    (2 * FOG g k mu (a_sigma_c s) * (k * FOG_k g k mu (a_sigma_c s)) * (1 - a_f_so s) ^ 2
     + 2 * a_f_so s * (1 - a_f_so s) * ((k * FOG_k g k mu (a_sigma_c s)) * FOG g k mu (a_sigma_so s) + (k * FOG_k g k mu (a_sigma_so s)) * FOG g k mu (a_sigma_c s))
     + 2 * FOG g k mu (a_sigma_so s) * (k * FOG_k g k mu (a_sigma_so s)) * a_f_so s ^ 2)); [ring|].
    rewrite H0, H1. ring.
  - intro sg. unfold FOG_k, FOG_mu. ring.
Qed.

Lemma pgal_dk_value k mu s : use_so s = false \/ a_N s = 0 ->
  dk (T Pgal) k mu s = (Ok (dgal (fun t sg => FOG g t mu sg) (fun t x y => P x y t mu)
                             (fun sg => FOG_k g k mu sg) (fun x y => P_k x y k mu) k s), s).
Proof.
  intros H. destruct s as [? ? ? ? ? ? ? ? ? ? ? ? ? ? ? ? n ? ? ? u]. cbn in H.
  destruct u; [destruct H as [H|H]; [discriminate|]; subst n|]; unf; f_equal; f_equal; unfold dgal; unf;
    rewrite ?FOG_0, ?FOG_k_0; ring.
Qed.

Lemma pgal_dmu_value k mu s : use_so s = false \/ a_N s = 0 ->
  dmu (T Pgal) k mu s = (Ok (dgal (fun t sg => FOG g k t sg) (fun t x y => P x y k t)
                             (fun sg => FOG_mu g k mu sg) (fun x y => P_mu x y k mu) mu s), s).
Proof.
  intros H. destruct s as [? ? ? ? ? ? ? ? ? ? ? ? ? ? ? ? n ? ? ? u]. cbn in H.
  destruct u; [destruct H as [H|H]; [discriminate|]; subst n|]; unf; f_equal; f_equal; unfold dgal; unf;
    rewrite ?FOG_0, ?FOG_mu_0; ring.
Qed.

Lemma pgal_dk k mu s : use_so s = false \/ a_N s = 0 ->
  (forall x y, is_derive (fun t => P x y t mu) k (P_k x y k mu)) ->
  exists f D, (forall t, fst (call (T Pgal) t mu s) = Ok (f t)) /\ fst (dk (T Pgal) k mu s) = Ok D /\ is_derive f k D.
Proof.
  intros H HP. do 2 eexists. split; [intro t; rewrite pgal_value; reflexivity|].
  split; [rewrite pgal_dk_value by assumption; reflexivity|].
  apply gal_derive; [intro; apply FOG_k_deriv|intros; apply HP].
Qed.
Lemma pgal_dmu k mu s : use_so s = false \/ a_N s = 0 ->
  (forall x y, is_derive (fun t => P x y k t) mu (P_mu x y k mu)) ->
  exists f D, (forall t, fst (call (T Pgal) k t s) = Ok (f t)) /\ fst (dmu (T Pgal) k mu s) = Ok D /\ is_derive f mu D.
Proof.
  intros H HP. do 2 eexists. split; [intro t; rewrite pgal_value; reflexivity|].
  split; [rewrite pgal_dmu_value by assumption; reflexivity|].
  apply (gal_derive (fun t sg => FOG g k t sg) (fun t x y => P x y k t)); [intro; apply FOG_mu_deriv|intros; apply HP].
Qed.

(** The public power. *)
Lemma m_power_value k mu s :
  m_power g PW PWk PWmu k mu s =
  (Ok (ap_scale (a_perp s) (a_par s) (a_drag s)
        (galaxy_power (fun sg => FOG g (k_AP k mu (a_perp s) (a_par s)) (mu_AP mu (a_perp s) (a_par s)) sg)
                      (fun x y => P x y (k_AP k mu (a_perp s) (a_par s)) (mu_AP mu (a_perp s) (a_par s))) s)), s).
Proof. unfold m_power, ap, bind. cbn [get_ geta]. rewrite pgal_value. reflexivity. Qed.

End Total.
