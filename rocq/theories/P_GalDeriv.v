From Coq Require Import List String Bool Reals Lra.
From Coquelicot Require Import Coquelicot.
From Verif Require Import M_Cache M_Gal M_AP M_GalDeriv S_Gal P_Gal P_AP.
Import ListNotations.
Open Scope R_scope.

Section Params.
Variable g : fog.
Variables P P_k P_mu : R -> R -> R -> R -> R.
Notation PW := (fun x y k mu => Ok (P x y k mu)).
Notation PWk := (fun x y k mu => Ok (P_k x y k mu)).
Notation PWmu := (fun x y k mu => Ok (P_mu x y k mu)).
Notation D f := (f g PW PWk PWmu).
Notation pow_ k mu := (fun s => fst (m_power g PW PWk PWmu k mu s)).

Ltac unfd := cbv beta iota zeta delta [d_fs d_fsB d_fcB d_f_so d_NcBs d_NsBsB d_sigma_c d_sigma_so d_alpha_par d_alpha_perp
  Pgal_cc Pgal_cAcA Pgal_cAcB Pgal_cBcB Pgal_cs Pgal_cAsA Pgal_cAsB Pgal_cBsA Pgal_cBsB Pgal_ss Pgal_sAsA Pgal_sAsB Pgal_sBsB
  with_preserve kprime muprime ap ap_scale fst snd
  Pgal Pgal_base Pcc Pcc_base Pcc_coef Pcc_deriv Pcs Pcs_base Pss Pss_base PcAcA PcAcB PcBcB PcAsA PcAsB PcBsA PcBsB
  PsAsA PsAsB PsBsB so_wrap damped power_term wsum two_halo one_halo run_leaf call dk dmu coef
  zero_shot_noise so_correction set_biases bind ret get_ set_ get_so geta seta set_so negb
  a_b1 a_b1_bar a_b1_cA a_b1_cB a_b1_sA a_b1_sB a_sigma_c a_sigma_sA a_sigma_sB a_sigma_so
  a_fs a_fcB a_fsB a_f_so a_NcBs a_NsBsB a_N a_par a_perp a_drag use_so
  galaxy_power cen_cen cen_sat sat_sat].

Ltac go := unfold is_partial; do 2 eexists; split; [intro v; rewrite m_power_value; unfd; reflexivity|];
  split; [unfd; reflexivity|].
Ltac gen := repeat match goal with
  | |- context [k_AP ?a ?b ?c ?d] => generalize (k_AP a b c d); intro
  | |- context [mu_AP ?a ?b ?c] => generalize (mu_AP a b c); intro
  end;
  repeat match goal with
  | |- context [P ?a ?b ?c ?d] => generalize (P a b c d); intro
  end.
Ltac genf := repeat match goal with |- context [FOG g ?a ?b ?c] => generalize (FOG g a b c); intro end.

Lemma d_fs_ok k mu s : a_perp s <> 0 -> a_par s <> 0 -> is_partial (pow_ k mu) fs s (fst (D d_fs k mu s)).
Proof.
  intros Ha Hb. destruct s as [? ? ? ? ? ? ? ? ? ? ? ? ? ? ? ? n ap ape ? u]. cbn in Ha, Hb.
  destruct u; go; unfd; rewrite ?FOG_0; gen; genf; (auto_derive; [auto|field; auto]).
Qed.

Lemma d_fcB_ok k mu s : a_perp s <> 0 -> a_par s <> 0 ->
  use_so s = false \/ a_drag s = 1 ->
  is_partial (pow_ k mu) fcB s (fst (D d_fcB k mu s)).
Proof.
  intros Ha Hb Hd. destruct s as [? ? ? ? ? ? ? ? ? ? ? ? ? ? ? ? n ap ape dr u]. cbn in Ha, Hb, Hd.
  destruct u; [destruct Hd as [?|Hd]; [discriminate|subst dr]|]; go; unfd; rewrite ?FOG_0; gen; genf;
  (auto_derive; [auto|field; auto]).
Qed.

Lemma d_f_so_ok k mu s : a_perp s <> 0 -> a_par s <> 0 -> use_so s = true -> a_N s = 0 -> a_drag s = 1 ->
  is_partial (pow_ k mu) f_so s (fst (D d_f_so k mu s)).
Proof.
  intros Ha Hb Hu HN Hd. destruct s as [? ? ? ? ? ? ? ? ? ? ? ? ? ? ? ? n ap ape dr u]. cbn in Ha, Hb, Hu, HN, Hd. subst u n dr.
  go; unfd; rewrite ?FOG_0; gen; genf; (auto_derive; [auto|field; auto]).
Qed.
Lemma d_f_so_off k mu s : use_so s = false -> is_partial (pow_ k mu) f_so s (fst (D d_f_so k mu s)).
Proof.
  intros Hu. destruct s as [? ? ? ? ? ? ? ? ? ? ? ? ? ? ? ? n ap ape dr u]. cbn in Hu. subst u.
  go. unfd. gen; genf. apply (is_derive_const (K := R_AbsRing) (V := R_NormedModule)).
Qed.

Lemma d_NcBs_ok k mu s : a_perp s <> 0 -> a_par s <> 0 -> a_drag s = 1 ->
  is_partial (pow_ k mu) NcBs s (fst (d_NcBs g k mu s)).
Proof.
  intros Ha Hb Hd. destruct s as [? ? ? ? ? ? ? ? ? ? ? ? ? ? ? ? n ap ape dr u]. cbn in Ha, Hb, Hd. subst dr.
  destruct u; go; unfd; gen; genf; (auto_derive; [auto|field; auto]).
Qed.
Lemma d_NsBsB_ok k mu s : a_perp s <> 0 -> a_par s <> 0 -> a_drag s = 1 ->
  is_partial (pow_ k mu) NsBsB s (fst (d_NsBsB g k mu s)).
Proof.
  intros Ha Hb Hd. destruct s as [? ? ? ? ? ? ? ? ? ? ? ? ? ? ? ? n ap ape dr u]. cbn in Ha, Hb, Hd. subst dr.
  destruct u; go; unfd; gen; genf; (auto_derive; [auto|field; auto]).
Qed.

(** fsB: what the code returns misses the central-satellite part. *)
Lemma d_fsB_ok k mu s : a_perp s <> 0 -> a_par s <> 0 ->
  a_fs s = 1 \/ a_fs s = 0 -> is_partial (pow_ k mu) fsB s (fst (D d_fsB k mu s)).
Proof.
  intros Ha Hb Hf. destruct s as [? ? ? ? ? ? ? ? ? ? f ? ? ? ? ? n ap ape dr u]. cbn in Ha, Hb, Hf.
  destruct Hf; subst f; destruct u; go; unfd; gen; genf; (auto_derive; [auto|field; auto]).
Qed.

Ltac sig H := match goal with |- context [FOG_sigma g ?a ?b ?c] =>
    pose proof (FOG_sigma_deriv g a b c) as H;
    let G := fresh "G" in
    set (G := FOG g a b) in *;
    let G' := fresh "G'" in
    set (G' := FOG_sigma g a b c) in *; clearbody G'; change (is_derive G c G') in H; clearbody G end.

Lemma d_sigma_c_ok k mu s : a_perp s <> 0 -> a_par s <> 0 ->
  use_so s = false \/ a_drag s = 1 ->
  is_partial (pow_ k mu) sigma_c s (fst (D d_sigma_c k mu s)).
Proof.
  intros Ha Hb Hd. destruct s as [? ? ? ? ? ? sc ? ? ? ? ? ? ? ? ? n ap ape dr u]. cbn in Ha, Hb, Hd.
  destruct u; [destruct Hd as [?|Hd]; [discriminate|subst dr]|]; go; unfd; rewrite ?FOG_0; gen;
  sig H;
  (auto_derive; [repeat split; eexists; eassumption|rewrite ?(DU _ _ _ H); field; auto]).
Qed.

Lemma d_sigma_so_ok k mu s : a_perp s <> 0 -> a_par s <> 0 -> use_so s = true -> a_drag s = 1 ->
  is_partial (pow_ k mu) sigma_so s (fst (D d_sigma_so k mu s)).
Proof.
  intros Ha Hb Hu Hd. destruct s as [? ? ? ? ? ? sc ? ? ? ? ? ? ? ? ? n ap ape dr u]. cbn in Ha, Hb, Hd, Hu. subst u dr.
  go; unfd; rewrite ?FOG_0; gen; sig H;
  (auto_derive; [repeat split; eexists; eassumption|rewrite ?(DU _ _ _ H); field; auto]).
Qed.
Lemma d_sigma_so_off k mu s : use_so s = false -> is_partial (pow_ k mu) sigma_so s (fst (D d_sigma_so k mu s)).
Proof.
  intros Hu. destruct s as [? ? ? ? ? ? ? ? ? ? ? ? ? ? ? ? n ap ape dr u]. cbn in Hu. subst u.
  go. unfd. gen; genf. apply (is_derive_const (K := R_AbsRing) (V := R_NormedModule)).
Qed.

(** The AP gradient. *)
Lemma dgal_linear G P0 Gk Gm Pk Pm (t t1 t2 kd md : R) s (Gx : R -> R) (Px : R -> R -> R) G1 P1 G2 P2 :
  (forall sg, G t sg = Gx sg) -> (forall x y, P0 t x y = Px x y) ->
  (forall sg, G1 t1 sg = Gx sg) -> (forall x y, P1 t1 x y = Px x y) ->
  (forall sg, G2 t2 sg = Gx sg) -> (forall x y, P2 t2 x y = Px x y) ->
  dgal G P0 (fun sg => Gk sg * kd + Gm sg * md) (fun x y => Pk x y * kd + Pm x y * md) t s =
  dgal G1 P1 Gk Pk t1 s * kd + dgal G2 P2 Gm Pm t2 s * md.
Proof.
  intros E1 E2 E3 E4 E5 E6. unfold dgal. cbv zeta.
  rewrite ?E1, ?E2, ?E3, ?E4, ?E5, ?E6. destruct (use_so s); ring.
Qed.

Section Curve.
Variables (u v : R -> R) (t du dv : R) (s : gst).
Hypothesis Hu : is_derive u t du.
Hypothesis Hv : is_derive v t dv.
Hypothesis HP : forall x y k mu, differentiable_pt_lim (P x y) k mu (P_k x y k mu) (P_mu x y k mu).

Lemma gal_curve :
  is_derive (fun t => galaxy_power (fun sg => FOG g (u t) (v t) sg) (fun x y => P x y (u t) (v t)) s) t
   (dgal (fun k sg => FOG g k (v t) sg) (fun k x y => P x y k (v t))
         (fun sg => FOG_k g (u t) (v t) sg) (fun x y => P_k x y (u t) (v t)) (u t) s * du
   + dgal (fun mu sg => FOG g (u t) mu sg) (fun mu x y => P x y (u t) mu)
         (fun sg => FOG_mu g (u t) (v t) sg) (fun x y => P_mu x y (u t) (v t)) (v t) s * dv).
Proof.
  evar_last.
  - apply (gal_derive (fun t sg => FOG g (u t) (v t) sg) (fun t x y => P x y (u t) (v t))).
    + intro sg. apply FOG_curve; eassumption.
    + intros x y. apply is_derive_Reals. apply derivable_pt_lim_comp_2d; [apply HP|apply is_derive_Reals; eassumption..].
  - apply dgal_linear with (Gx := fun sg => FOG g (u t) (v t) sg) (Px := fun x y => P x y (u t) (v t)); reflexivity.
Qed.
End Curve.

Lemma gp_ext G1 P1 s1 s2 :
  a_b1_cA s1 = a_b1_cA s2 -> a_b1_cB s1 = a_b1_cB s2 -> a_b1_sA s1 = a_b1_sA s2 -> a_b1_sB s1 = a_b1_sB s2 ->
  a_sigma_c s1 = a_sigma_c s2 -> a_sigma_sA s1 = a_sigma_sA s2 -> a_sigma_sB s1 = a_sigma_sB s2 -> a_sigma_so s1 = a_sigma_so s2 ->
  a_fs s1 = a_fs s2 -> a_fcB s1 = a_fcB s2 -> a_fsB s1 = a_fsB s2 -> a_f_so s1 = a_f_so s2 -> a_NcBs s1 = a_NcBs s2 ->
  a_NsBsB s1 = a_NsBsB s2 -> use_so s1 = use_so s2 -> galaxy_power G1 P1 s1 = galaxy_power G1 P1 s2.
Proof. intros. unfold galaxy_power, cen_cen, cen_sat, sat_sat. cbv zeta. now rewrite H, H0, H1, H2, H3, H4, H5, H6, H7, H8, H9, H10, H11, H12, H13. Qed.

Lemma scale_par (Q : R -> R) (aperp adrag x l : R) : 0 < x -> aperp <> 0 -> is_derive Q x l ->
  is_derive (fun v => ap_scale aperp v adrag (Q v)) x (- ap_scale aperp x adrag (Q x) / x + ap_scale aperp x adrag l).
Proof.
  intros Hx Ha H. unfold ap_scale.
  auto_derive; [repeat split; [eexists; eassumption|]|].
  - repeat apply Rmult_integral_contrapositive_currified; lra.
  - rewrite (DU _ _ _ H). field. lra.
Qed.
Lemma scale_perp (Q : R -> R) (apar adrag x l : R) : 0 < x -> apar <> 0 -> is_derive Q x l ->
  is_derive (fun v => ap_scale v apar adrag (Q v)) x (- 2 * ap_scale x apar adrag (Q x) / x + ap_scale x apar adrag l).
Proof.
  intros Hx Ha H. unfold ap_scale.
  auto_derive; [repeat split; [eexists; eassumption|]|].
  - repeat apply Rmult_integral_contrapositive_currified; lra.
  - rewrite (DU _ _ _ H). field. lra.
Qed.

Lemma ap_lin A B q v d x y : q + (A * x + B * y) / v * d = q + A / v * d * x + B / v * d * y.
Proof. unfold Rdiv. ring. Qed.

Lemma d_alpha_par_ok k mu s : 0 < a_perp s -> 0 < a_par s -> -1 <= mu <= 1 ->
  use_so s = false \/ a_N s = 0 ->
  (forall x y k mu, differentiable_pt_lim (P x y) k mu (P_k x y k mu) (P_mu x y k mu)) ->
  is_partial (pow_ k mu) alpha_par s (fst (D d_alpha_par k mu s)).
Proof.
  intros Ha Hb Hm Hc HP.
  exists (fun v => ap_scale (a_perp s) v (a_drag s)
        (galaxy_power (fun sg => FOG g (k_AP k mu (a_perp s) v) (mu_AP mu (a_perp s) v) sg)
                      (fun x y => P x y (k_AP k mu (a_perp s) v) (mu_AP mu (a_perp s) v)) s)).
  eexists. split; [|split].
  - intro v. rewrite m_power_value. cbn [fst]. destruct s; reflexivity.
  - unfold d_alpha_par, m_derivative_k, m_derivative_mu, bind. cbn [get_ geta].
    rewrite m_power_value. unfold ap, bind. cbn [get_ geta].
    rewrite pgal_dk_value by assumption. unfold ret. cbv beta iota.
    rewrite pgal_dmu_value by assumption. cbv beta iota. reflexivity.
  - pose proof (gal_curve (fun v => k_AP k mu (a_perp s) v) (fun v => mu_AP mu (a_perp s) v) (a_par s) _ _ s
       (dk_par k mu (a_perp s) (a_par s) Ha Hb Hm) (dmu_par mu (a_perp s) (a_par s) Ha Hb Hm) HP) as H.
    evar_last; [apply (scale_par _ _ _ _ _ Hb (Rgt_not_eq _ _ Ha) H)|].
    cbv beta. unfold ap_scale, apN. apply ap_lin.
Qed.

Lemma ap_lin2 A B a b q v d x y : a * x + b * y = 0 ->
  q + (A * x + B * y) / v * d = q + (A + a) / v * d * x + (B + b) / v * d * y.
Proof. intro H. unfold Rdiv. transitivity (q + (A * x + B * y) * / v * d + (a * x + b * y) * / v * d); [rewrite H; ring|ring]. Qed.

(** k' mu' does not depend on alpha_perp. *)
Lemma perp_cross k mu aperp apar : 0 < aperp -> 0 < apar -> -1 <= mu <= 1 ->
  mu_AP mu aperp apar * (- k * (1 - mu ^ 2) / aperp ^ 2 / sqrt (apN mu aperp apar))
  + k_AP k mu aperp apar * (mu * (1 - mu ^ 2) / (apar * (apN mu aperp apar * sqrt (apN mu aperp apar)))) = 0.
Proof.
  intros Ha Hb Hm. pose proof (apN_pos _ _ _ Ha Hb Hm) as HN. pose proof (sqrtN_pos _ _ _ Ha Hb Hm) as HS.
  rewrite mu_AP_N, k_AP_smooth. set (S := sqrt (apN mu aperp apar)) in *.
  replace (apN mu aperp apar) with (S * S) by (unfold S; apply sqrt_sqrt; lra). field. lra.
Qed.

Lemma err_cross g' k m s x y : m * x + k * y = 0 -> m <> 0 \/ k <> 0 -> 
  so_err (FOG g' k m) (FOG_k g' k m) s * x + so_err (FOG g' k m) (FOG_mu g' k m) s * y = 0.
Proof.
  intros H Hn. pose proof (so_err_cross g' k m s) as E.
  set (A := so_err (FOG g' k m) (FOG_k g' k m) s) in *. set (B := so_err (FOG g' k m) (FOG_mu g' k m) s) in *.
  destruct Hn as [Hn|Hn].
  - apply Rmult_eq_reg_l with m; [|exact Hn]. rewrite Rmult_0_r.
    transitivity (A * (m * x) + (m * B) * y); [ring|]. rewrite <- E. transitivity (A * (m * x + k * y)); [ring|]. rewrite H. ring.
  - apply Rmult_eq_reg_l with k; [|exact Hn]. rewrite Rmult_0_r.
    transitivity (k * A * x + B * (k * y)); [ring|]. rewrite E. transitivity (B * (m * x + k * y)); [ring|]. rewrite H. ring.
Qed.

Lemma d_alpha_perp_ok k mu s : 0 < a_perp s -> 0 < a_par s -> -1 <= mu <= 1 ->
  k <> 0 ->
  (forall x y k mu, differentiable_pt_lim (P x y) k mu (P_k x y k mu) (P_mu x y k mu)) ->
  is_partial (pow_ k mu) alpha_perp s (fst (D d_alpha_perp k mu s)).
Proof.
  intros Ha Hb Hm Hc HP.
  exists (fun v => ap_scale v (a_par s) (a_drag s)
        (galaxy_power (fun sg => FOG g (k_AP k mu v (a_par s)) (mu_AP mu v (a_par s)) sg)
                      (fun x y => P x y (k_AP k mu v (a_par s)) (mu_AP mu v (a_par s))) s)).
  eexists. split; [|split].
  - intro v. rewrite m_power_value. cbn [fst]. destruct s; reflexivity.
  - unfold d_alpha_perp, m_derivative_k, m_derivative_mu, bind. cbn [get_ geta].
    rewrite m_power_value. unfold ap, bind. cbn [get_ geta].
    rewrite pgal_dk_value_gen. unfold ret. cbv beta iota.
    rewrite pgal_dmu_value_gen. cbv beta iota. reflexivity.
  - pose proof (gal_curve (fun v => k_AP k mu v (a_par s)) (fun v => mu_AP mu v (a_par s)) (a_perp s) _ _ s
       (dk_perp k mu (a_perp s) (a_par s) Ha Hb Hm) (dmu_perp mu (a_perp s) (a_par s) Ha Hb Hm) HP) as H.
    evar_last; [apply (scale_perp _ _ _ _ _ Ha (Rgt_not_eq _ _ Hb) H)|].
    cbv beta. unfold ap_scale, apN. apply ap_lin2.
    apply (err_cross g (k_AP k mu (a_perp s) (a_par s)) (mu_AP mu (a_perp s) (a_par s)) s).
    + apply perp_cross; assumption.
    + right. rewrite k_AP_smooth. pose proof (sqrtN_pos _ _ _ Ha Hb Hm) as HS.
      unfold Rdiv. repeat apply Rmult_integral_contrapositive_currified; try assumption; [apply Rinv_neq_0_compat|]; lra.
Qed.
End Params.
