(** Property theorems C173 - C174: extrapolation of the power spectrum. *)
From Coq Require Import Reals List Lra Bool.
From Coquelicot Require Import Coquelicot.
From Verif Require Import M_Extrap.
Import ListNotations.
Local Open Scope R_scope.

(** the same parameters, nothing cached *)
Definition uncached (x : xps) : xps :=
  {| x_kmin := x_kmin x; x_kmax := x_kmax x; x_lo := x_lo x; x_hi := x_hi x; x_clo := x_clo x; x_chi := x_chi x; x_func := x_func x;
     x_tab := None; x_fhi := None; x_flo := None |}.
(** ** C173 *)
Theorem C173_inside_is_the_model : forall F P x k mu, x_lo x <= k <= x_hi x -> x_point F P x k mu = P k mu.
Proof. intros F P x k mu H. unfold x_point. destruct (Rlt_dec (x_hi x) k); [lra|]. destruct (Rlt_dec k (x_lo x)); [lra|reflexivity]. Qed.
Print Assumptions C173_inside_is_the_model.
Lemma law_one al be : power_law 1 al be = 1. Proof. unfold power_law, Rpower. rewrite ln_1, Rmult_0_r. apply exp_0. Qed.
Lemma law_cont al be k0 : 0 < k0 -> continuous (fun k => power_law (k/k0) al be) k0.
Proof.
  intros H. apply (@ex_derive_continuous R_AbsRing R_NormedModule). unfold power_law, Rpower. auto_derive. assert (Q : 0 < k0 * / k0) by (apply Rmult_lt_0_compat; [exact H|apply Rinv_0_lt_compat; exact H]).
  repeat (split; [exact Q|]). exact I.
Qed.
Lemma cont_glue (f g h : R -> R) x0 : continuous g x0 -> continuous h x0 -> g x0 = h x0 ->
  (locally x0 (fun x => f x = (if Rlt_dec x x0 then g x else h x))) -> continuous f x0.
Proof.
  intros Hg Hh E L. assert (Ef : f x0 = h x0) by (rewrite (locally_singleton _ _ L); destruct (Rlt_dec x0 x0); [lra|reflexivity]).
  intros U HU. rewrite Ef in HU. assert (HU' := HU). rewrite <- E in HU'. assert (X : locally x0 (fun x => f x = (if Rlt_dec x x0 then g x else h x) /\ (U (g x) /\ U (h x))))
    by (apply filter_and; [exact L|apply filter_and; [exact (Hg U HU')|exact (Hh U HU)]]).
  unfold filtermap. revert X. apply filter_imp. intros y (A & B & C). rewrite A. destruct (Rlt_dec y x0); assumption.
Qed.
(** The extrapolation joins the model continuously at both ends. *)
Theorem C173_continuous_at_the_joins : forall F P x mu, 0 < x_lo x < x_hi x ->
  (continuous (fun k => P k mu) (x_lo x) -> continuous (fun k => x_point F P x k mu) (x_lo x)) /\
  (continuous (fun k => P k mu) (x_hi x) -> continuous (fun k => x_point F P x k mu) (x_hi x)).
Proof.
  intros F P x mu H. split; intros C.
  - apply (cont_glue _ (fun k => P (x_lo x) mu * power_law (k / x_lo x) (get_lo F P x mu) 0) (fun k => P k mu)).
    + apply (continuous_mult (K := R_AbsRing) (fun _ => P (x_lo x) mu)); [apply continuous_const|]. apply (law_cont (get_lo F P x mu) 0). lra.
    + exact C.
    + replace (x_lo x / x_lo x) with 1 by (field; lra). rewrite law_one, Rmult_1_r. reflexivity.
    + assert (D : 0 < x_hi x - x_lo x) by lra. exists (mkposreal _ D). intros k B. unfold ball in B. cbn in B. unfold AbsRing_ball, abs, minus, plus, opp in B. cbn in B.
      apply Rabs_def2 in B. unfold x_point. destruct (Rlt_dec (x_hi x) k); [lra|]. destruct (Rlt_dec k (x_lo x)); reflexivity.
  - destruct (get_hi F P x mu) as [al be] eqn:E.
    apply (cont_glue _ (fun k => P k mu) (fun k => P (x_hi x) mu * power_law (k / x_hi x) al be)).
    + exact C.
    + apply (continuous_mult (K := R_AbsRing) (fun _ => P (x_hi x) mu)); [apply continuous_const|]. apply law_cont. lra.
    + replace (x_hi x / x_hi x) with 1 by (field; lra). rewrite law_one, Rmult_1_r. reflexivity.
    + assert (D : 0 < x_hi x - x_lo x) by lra. exists (mkposreal _ D). intros k B. unfold ball in B. cbn in B. unfold AbsRing_ball, abs, minus, plus, opp in B. cbn in B.
      apply Rabs_def2 in B. unfold x_point. rewrite E. destruct (Rlt_dec (x_hi x) k) as [G|G].
      * destruct (Rlt_dec k (x_hi x)); [lra|reflexivity].
      * destruct (Rlt_dec k (x_lo x)); [lra|]. destruct (Rlt_dec k (x_hi x)); [reflexivity|]. assert (k = x_hi x) as -> by lra.
        replace (x_hi x / x_hi x) with 1 by (field; lra). rewrite law_one, Rmult_1_r. reflexivity.
Qed.
Print Assumptions C173_continuous_at_the_joins.
(** Below k_lo a power law of constant slope alpha; above k_hi one whose local slope is alpha + 2 beta log10(k/k_hi); both keep the sign. *)
Theorem C173_power_laws : forall F P x k mu, 0 < k -> 0 < x_lo x -> x_lo x <= x_hi x ->
  (k < x_lo x -> x_point F P x k mu = P (x_lo x) mu * Rpower (k / x_lo x) (get_lo F P x mu)) /\
  (x_hi x < k -> let '(al, be) := get_hi F P x mu in 0 < P (x_hi x) mu -> 0 < x_point F P x k mu /\
     is_derive (fun u => ln (x_point F P x (exp u) mu)) (ln k) (al + 2 * be * (ln (k / x_hi x) / ln 10))).
Proof.
  intros F P x k mu Hk Hl Hlh. split.
  - intros H. unfold x_point. destruct (Rlt_dec (x_hi x) k); [lra|]. destruct (Rlt_dec k (x_lo x)); [|lra]. unfold power_law. do 2 f_equal. ring.
  - intros H. destruct (get_hi F P x mu) as [al be] eqn:E. intros Hp. split.
    + unfold x_point. destruct (Rlt_dec (x_hi x) k); [|lra]. rewrite E. apply Rmult_lt_0_compat; [exact Hp|apply exp_pos].
    + apply (is_derive_ext_loc (fun u => ln (P (x_hi x) mu) + (al + be * ((u - ln (x_hi x)) / ln 10)) * (u - ln (x_hi x)))).
      * assert (Hu : ln (x_hi x) < ln k) by (apply ln_increasing; lra). assert (D : 0 < ln k - ln (x_hi x)) by lra. exists (mkposreal _ D).
        intros u B. unfold ball in B. cbn in B. unfold AbsRing_ball, abs, minus, plus, opp in B. cbn in B. apply Rabs_def2 in B.
        assert (G : x_hi x < exp u) by (rewrite <- (exp_ln (x_hi x)) by lra; apply exp_increasing; lra).
        unfold x_point. destruct (Rlt_dec (x_hi x) (exp u)); [|lra]. rewrite E. unfold power_law, Rpower.
        rewrite ln_mult by (try exact Hp; apply exp_pos). rewrite ln_exp. rewrite ln_div by (try apply exp_pos; lra). rewrite ln_exp. reflexivity.
      * assert (L : ln 10 <> 0) by (assert (0 < ln 10) by (rewrite <- ln_1; apply ln_increasing; lra); lra).
        auto_derive; [exact I|]. match goal with |- @eq _ ?a ?b => change (@eq R a b) end. rewrite ln_div by lra. field. exact L.
Qed.
Print Assumptions C173_power_laws.
(** Accepted constructor arguments respect the documented limits. *)
Theorem C173_constructor_limits : forall kmin kmax func khi klo chi clo x, x_new kmin kmax func khi klo chi clo = Some x ->
  x_hi x <= 95/100 * kmax /\ 105/100 * kmin <= x_lo x /\ x_chi x < x_hi x /\ x_lo x < x_clo x /\
  x_hi x = dflt khi kmax /\ x_lo x = dflt klo kmin /\ x_chi x = dflt chi (1/2 * x_hi x) /\ x_clo x = dflt clo (5 * x_lo x) /\ x_kmin x = kmin /\ x_kmax x = kmax.
Proof.
  intros kmin kmax func khi klo chi clo x. unfold x_new, bind, x_assign. cbn [x_kmax x_kmin x_lo x_hi x_clo x_chi x_func x_tab x_fhi x_flo].
  destruct (Rlt_dec _ _); [discriminate|]. cbn [x_kmax x_kmin x_lo x_hi x_clo x_chi x_func x_tab x_fhi x_flo].
  destruct (Rlt_dec _ _); [discriminate|]. cbn [x_kmax x_kmin x_lo x_hi x_clo x_chi x_func x_tab x_fhi x_flo].
  destruct (Rle_dec _ _); [discriminate|]. cbn [x_kmax x_kmin x_lo x_hi x_clo x_chi x_func x_tab x_fhi x_flo].
  destruct (Rle_dec _ _); [discriminate|]. intros E. injection E as E. subst x. cbn [x_kmax x_kmin x_lo x_hi x_clo x_chi].
  do 4 (split; [lra|]). do 5 (split; [reflexivity|]). reflexivity.
Qed.
Print Assumptions C173_constructor_limits.
(** While the underlying spectrum is not changed, cached fits are never stale: after any history the object gives what one with the same
    parameter values and empty caches gives. *)
Definition fine (F : fits) (P : spec) (x : xps) : Prop :=
  (forall t, x_tab x = Some t -> t = (P, (x_kmin x, x_kmax x))) /\ (forall f, x_fhi x = Some f -> f = fit_hi F P (x_kmin x, x_kmax x) (x_hi x) (x_chi x)) /\
  (forall f, x_flo x = Some f -> f = fit_lo F P (x_kmin x, x_kmax x) (x_lo x) (x_clo x)).
Lemma fine_gets F P x : fine F P x -> get_tab P x = (P, (x_kmin x, x_kmax x)) /\ get_hi F P x = fit_hi F P (x_kmin x, x_kmax x) (x_hi x) (x_chi x) /\
  get_lo F P x = fit_lo F P (x_kmin x, x_kmax x) (x_lo x) (x_clo x).
Proof.
  intros (A & B & C). assert (T : get_tab P x = (P, (x_kmin x, x_kmax x))) by (unfold get_tab; destruct (x_tab x) as [t|]; [apply A|]; reflexivity).
  split; [exact T|]. unfold get_hi, get_lo. rewrite T. split; [destruct (x_fhi x) as [f|]; [apply B|]; reflexivity|destruct (x_flo x) as [f|]; [apply C|]; reflexivity].
Qed.
Lemma assign_fine F P q v x y : fine F P x -> x_assign q v x = Some y -> fine F P y.
Proof.
  intros (A & B & C) H. destruct q; cbn [x_assign] in H;
    try (match type of H with (if ?d then _ else _) = _ => destruct d; [discriminate|] end); injection H as H; subst y;
    unfold fine; cbn [x_tab x_fhi x_flo x_kmin x_kmax x_hi x_chi x_lo x_clo]; repeat split; try discriminate; assumption.
Qed.
Lemma step_fine F P x o : (forall Q, o <> XModel Q) -> fine F P x -> fst (x_step F (P, x) o) = P /\ fine F P (snd (x_step F (P, x) o)).
Proof.
  intros Ho G. destruct o as [q v|Q|ks]; [|contradiction (Ho Q); reflexivity|]; (split; [reflexivity|]).
  - cbn [x_step snd fst]. unfold x_set. destruct (x_assign q v x) as [y|] eqn:E; [|exact G]. destruct (Req_EM_T v (x_get q x)); [exact G|]. exact (assign_fine F P q v x y G E).
  - cbn [x_step snd fst]. destruct (fine_gets F P x G) as (A & B & C). destruct G as (G1 & G2 & G3). unfold x_eval. cbn [fst]. unfold fine.
    cbn [x_tab x_fhi x_flo x_kmin x_kmax x_hi x_chi x_lo x_clo]. split; [|split].
    + intros t. destruct (orb _ _); [|apply G1]. intros E. injection E as E. rewrite <- E. exact A.
    + intros f. destruct (existsb _ _); [|apply G2]. intros E. injection E as E. rewrite <- E. exact B.
    + intros f. destruct (existsb _ _); [|apply G3]. intros E. injection E as E. rewrite <- E. exact C.
Qed.
Theorem C173_fits_never_stale : forall F P kmin kmax func khi klo chi clo x0 ops ks,
  x_new kmin kmax func khi klo chi clo = Some x0 -> (forall Q, ~ In (XModel Q) ops) ->
  let x := snd (x_run F (P, x0) ops) in snd (x_eval F P x ks) = snd (x_eval F P (uncached x) ks).
Proof.
  intros F P kmin kmax func khi klo chi clo x0 ops ks H Hn x.
  assert (G : fine F P x).
  { assert (G0 : fine F P x0).
    { unfold x_new, bind in H. repeat match type of H with match ?e with Some _ => _ | None => _ end = _ => destruct e eqn:?; [|discriminate] end.
      repeat match goal with E : x_assign ?q ?v ?a = Some ?b, _ : _ |- _ => first [assert (fine F P b); [apply (assign_fine F P q v a b); [|exact E]; first [assumption|unfold fine; cbn; repeat split; discriminate]|]; clear E] end.
      assumption. }
    unfold x. clear x H. revert x0 G0 Hn. induction ops as [|o ops IH]; intros x0 G0 Hn; [exact G0|]. unfold x_run. cbn [fold_left].
    destruct (step_fine F P x0 o) as [A B]; [intros Q E; apply (Hn Q); left; exact E|exact G0|]. destruct (x_step F (P, x0) o) as [P' x1]. cbn [fst snd] in *. subst P'.
    apply (IH x1 B). intros Q HQ. apply (Hn Q). right. exact HQ. }
  clearbody x. cbn [x_eval snd]. apply map_ext. intros [k mu]. cbn [fst snd].
  assert (Gu : fine F P (uncached x)) by (unfold fine; cbn; repeat split; discriminate).
  destruct (fine_gets F P x G) as (_ & B & C). destruct (fine_gets F P _ Gu) as (_ & B' & C'). unfold x_point. rewrite B, C, B', C'. reflexivity.
Qed.
Print Assumptions C173_fits_never_stale.
Example C173_nonvacuous : exists x, x_new (1/1000) 1 0 (Some (1/2)) (Some (1/100)) None None = Some x /\ 0 < x_lo x < x_hi x /\
  (forall Q, ~ In (XModel Q) [XEval [(2, 1/2); (1/1000, 1)]; XSet Khi (2/5); XSet Kmax 2]).
Proof.
  unfold x_new, bind, x_assign, dflt. cbn [x_kmax x_kmin x_lo x_hi x_clo x_chi x_func x_tab x_fhi x_flo].
  repeat first [destruct (Rlt_dec _ _); [exfalso; lra|]; cbn [x_kmax x_kmin x_lo x_hi x_clo x_chi x_func x_tab x_fhi x_flo] | destruct (Rle_dec _ _); [exfalso; lra|]; cbn [x_kmax x_kmin x_lo x_hi x_clo x_chi x_func x_tab x_fhi x_flo]].
  eexists. split; [reflexivity|]. cbn [x_lo x_hi]. split; [lra|]. intros Q H. cbn in H. repeat (destruct H as [H|H]; [discriminate H|]). exact H.
Qed.

(** ** C174: what does not hold *)
(** The documented defaults k_hi = model.kmax and k_lo = model.kmin are always rejected. *)
Theorem C174_defaults_rejected_refuted : forall kmin kmax func khi klo chi clo, 0 < kmin -> 0 < kmax ->
  x_new kmin kmax func None klo chi clo = None /\ x_new kmin kmax func khi None chi clo = None.
Proof.
  intros kmin kmax func khi klo chi clo H1 H2. unfold x_new. split.
  - cbn [dflt x_assign x_kmax]. destruct (Rlt_dec _ _) as [_|N]; [reflexivity|]. exfalso. apply N. lra.
  - cbn [x_assign x_kmax]. destruct (Rlt_dec (kmax * (95/100)) (dflt khi kmax)) as [_|_]; [reflexivity|]. cbn [bind x_assign x_kmin dflt].
    destruct (Rlt_dec _ _) as [_|N]; [reflexivity|]. exfalso. apply N. lra.
Qed.
Print Assumptions C174_defaults_rejected_refuted.
(** The requested method is never used: every accepted method name gives the values of Pgal. *)
Theorem C174_method_name_ignored_refuted : forall F P kmin kmax func khi klo chi clo x ks, x_new kmin kmax func khi klo chi clo = Some x ->
  forall func', exists x', x_new kmin kmax func' khi klo chi clo = Some x' /\ snd (x_eval F P x' ks) = snd (x_eval F P x ks).
Proof.
  intros F P kmin kmax func khi klo chi clo x ks H func'. revert H. unfold x_new, bind, x_assign. cbn [x_kmax x_kmin x_lo x_hi x_clo x_chi x_func x_tab x_fhi x_flo].
  destruct (Rlt_dec _ _); [discriminate|]. cbn [x_kmax x_kmin x_lo x_hi x_clo x_chi x_func x_tab x_fhi x_flo].
  destruct (Rlt_dec _ _); [discriminate|]. cbn [x_kmax x_kmin x_lo x_hi x_clo x_chi x_func x_tab x_fhi x_flo].
  destruct (Rle_dec _ _); [discriminate|]. cbn [x_kmax x_kmin x_lo x_hi x_clo x_chi x_func x_tab x_fhi x_flo].
  destruct (Rle_dec _ _); [discriminate|]. intros E. injection E as E. subst x. eexists. split; [reflexivity|]. reflexivity.
Qed.
Print Assumptions C174_method_name_ignored_refuted.
(** Changing the parameters of the underlying model leaves the slopes of the old one. *)
Theorem C174_slopes_stale_refuted : exists F P Q x ks, x_new (1/1000) 1 0 (Some (1/2)) (Some (1/100)) None None = Some x /\
  let y := snd (x_run F (P, x) [XEval ks; XModel Q]) in snd (x_eval F Q y ks) <> snd (x_eval F Q (uncached y) ks).
Proof.
  exists {| fit_hi := fun t _ hi _ mu => (t hi mu, 0); fit_lo := fun _ _ _ _ _ => 0 |}, (fun _ _ => 1), (fun _ _ => 2).
  unfold x_new, bind, x_assign, dflt. cbn [x_kmax x_kmin x_lo x_hi x_clo x_chi x_func x_tab x_fhi x_flo].
  repeat first [destruct (Rlt_dec _ _); [exfalso; lra|]; cbn [x_kmax x_kmin x_lo x_hi x_clo x_chi x_func x_tab x_fhi x_flo] | destruct (Rle_dec _ _); [exfalso; lra|]; cbn [x_kmax x_kmin x_lo x_hi x_clo x_chi x_func x_tab x_fhi x_flo]].
  eexists. exists [(1, 0)]. split; [reflexivity|]. cbv zeta. unfold x_run. cbn [fold_left x_step fst snd x_eval existsb x_hi x_lo x_tab x_fhi x_flo].
  destruct (Rlt_dec (1/2) 1) as [_|N]; [|lra]. destruct (Rlt_dec 1 (1/100)) as [N|_]; [lra|]. cbn [orb]. unfold uncached, x_point, get_hi, get_tab.
  cbn [map fst snd x_hi x_lo x_tab x_fhi x_flo x_kmin x_kmax x_chi x_clo fit_hi]. destruct (Rlt_dec (1/2) 1) as [_|N]; [|lra].
  intros E. injection E as E. unfold power_law in E. replace (1/(1/2)) with 2 in E by field.
  replace (1 + 0 * (ln 2 / ln 10)) with 1 in E by ring. replace (2 + 0 * (ln 2 / ln 10)) with (INR 2) in E by (cbn; ring).
  rewrite Rpower_1, Rpower_pow in E by lra. lra.
Qed.
Print Assumptions C174_slopes_stale_refuted.
(** The limits are not kept: k_hi may later be moved below kcut_hi, model_kmax below k_hi. *)
Theorem C174_limits_lost_refuted : exists x y z, x_new (1/1000) 1 0 (Some (1/2)) (Some (1/100)) None None = Some x /\
  x_set Khi (1/10) x = Some y /\ x_hi y <= x_chi y /\ x_set Kmax (1/10) x = Some z /\ 95/100 * x_kmax z < x_hi z.
Proof.
  unfold x_new, bind, x_assign, dflt. cbn [x_kmax x_kmin x_lo x_hi x_clo x_chi x_func x_tab x_fhi x_flo].
  repeat first [destruct (Rlt_dec _ _); [exfalso; lra|]; cbn [x_kmax x_kmin x_lo x_hi x_clo x_chi x_func x_tab x_fhi x_flo] | destruct (Rle_dec _ _); [exfalso; lra|]; cbn [x_kmax x_kmin x_lo x_hi x_clo x_chi x_func x_tab x_fhi x_flo]].
  do 3 eexists. split; [reflexivity|]. unfold x_set, x_assign. cbn [x_kmax x_kmin x_lo x_hi x_clo x_chi x_get].
  destruct (Rlt_dec (1 * (95/100)) (1/10)) as [N|_]; [lra|]. destruct (Req_EM_T (1/10) (1/2)) as [N|_]; [lra|]. destruct (Req_EM_T (1/10) 1) as [N|_]; [lra|].
  split; [reflexivity|]. cbn [x_hi x_chi]. split; [lra|]. split; [reflexivity|]. cbn [x_hi x_kmax]. lra.
Qed.
Print Assumptions C174_limits_lost_refuted.
