(** Property theorems C171 - C172: the constraint expressions of the default theories. *)
From Coq Require Import Reals List Lra Lia Arith Bool.
From Coquelicot Require Import Coquelicot.
From Verif Require Import M_Hod S_Hod.
Import ListNotations.
Local Open Scope R_scope.

Lemma split_any w l : total any w l = total lonely w l + total some w l.
Proof. induction l as [|[n b] l IH]; [cbn; ring|]. cbn [total]. rewrite IH. destruct n; unfold any, lonely, some; cbn [Nat.eqb Nat.leb]; ring. Qed.
Lemma split_some w l : total some w l = total one w l + total many w l.
Proof. induction l as [|[n b] l IH]; [cbn; ring|]. cbn [total]. rewrite IH. destruct n as [|[|n]]; unfold one, many, some; cbn [Nat.eqb Nat.leb]; ring. Qed.
Lemma one_sat w l : total one (fun n b => n * w b) l = total one (fun n b => w b) l.
Proof. induction l as [|[n b] l IH]; [reflexivity|]. cbn [total]. rewrite IH. destruct n as [|[|n]]; unfold one; cbn [Nat.eqb]; try ring. cbn [INR]. ring. Qed.
Lemma lonely_sat w l : total lonely (fun n b => n * w b) l = 0.
Proof. induction l as [|[n b] l IH]; [reflexivity|]. cbn [total]. rewrite IH. destruct n as [|n]; unfold lonely; cbn [Nat.eqb INR]; ring. Qed.
Lemma total_ext sel w v l : (forall n b, w n b = v n b) -> total sel w l = total sel v l.
Proof. intros H. induction l as [|[n b] l IH]; [reflexivity|]. cbn [total]. rewrite IH, H. reflexivity. Qed.
Lemma total_nonneg sel w l : (forall n b, 0 <= w (INR n) b) -> 0 <= total sel w l.
Proof. intros H. induction l as [|[n b] l IH]; [cbn; lra|]. cbn [total]. pose proof (H n b). destruct (sel n); lra. Qed.
Lemma sat_one l : satellites one l = haloes one l.
Proof. unfold satellites, haloes. rewrite (total_ext one (fun n _ => n) (fun n _ => n * 1)) by (intros; ring). apply (one_sat (fun _ => 1)). Qed.
Lemma sat_lonely l : satellites lonely l = 0.
Proof. unfold satellites. rewrite (total_ext lonely (fun n _ => n) (fun n _ => n * 1)) by (intros; ring). apply (lonely_sat (fun _ => 1)). Qed.
Lemma satb_one l : sat_bias one l = bias one l. Proof. apply (one_sat (fun b => b)). Qed.
Lemma satb_lonely l : sat_bias lonely l = 0. Proof. apply (lonely_sat (fun b => b)). Qed.
Lemma many_le l : 2 * haloes many l <= satellites many l.
Proof.
  unfold haloes, satellites. induction l as [|[n b] l IH]; [cbn; lra|]. cbn [total]. unfold many at 1 3. destruct (Nat.leb_spec 2 n) as [H|H]; [|lra].
  apply le_INR in H. cbn [INR] in H. lra.
Qed.
Lemma haloes_nonneg sel l : 0 <= haloes sel l. Proof. apply total_nonneg. intros. lra. Qed.
Lemma sats_split l : satellites any l = haloes one l + satellites many l.
Proof. unfold satellites. rewrite split_any, split_some. fold (satellites lonely l) (satellites one l). rewrite sat_lonely, sat_one. ring. Qed.
Lemma haloes_split l : haloes some l = haloes one l + haloes many l /\ haloes any l = haloes lonely l + haloes some l.
Proof. split; [apply split_some|apply split_any]. Qed.

(** The parameters of a sample: satellite fraction, fraction of satellites with a companion, mean occupation of the haloes with
    several satellites (irrelevant if there are none). *)
Definition describes (l : sample) (fs fsB Nsat_mult : R) : Prop :=
  0 < haloes any l /\ 0 < satellites any l /\ fs = satellites any l / galaxies l /\ fsB = satellites many l / satellites any l /\
  (0 < haloes many l -> Nsat_mult = satellites many l / haloes many l).
Lemma companion l fs fsB Nm : describes l fs fsB Nm -> 1 + fsB*(1/Nm - 1) = haloes some l / satellites any l /\ 0 < haloes some l /\ 1 - fs = haloes any l / galaxies l /\ 0 < galaxies l.
Proof.
  intros (A & B & E1 & E2 & E3). pose proof (haloes_nonneg many l) as Hm. pose proof (haloes_nonneg one l) as Ho. pose proof (many_le l) as Hl.
  destruct (haloes_split l) as [S1 S2]. pose proof (sats_split l) as S3. rewrite S3 in B.
  assert (G : 0 < galaxies l) by (unfold galaxies; rewrite S3; lra).
  assert (Q : 1 - fs = haloes any l / galaxies l) by (rewrite E1; unfold galaxies in *; rewrite S3 in *; field; lra).
  destruct (Rle_lt_or_eq_dec 0 _ Hm) as [Pm|Zm].
  - rewrite (E3 Pm), E2, S1, S3. split; [field; repeat split; lra|]. split; [lra|]. split; [exact Q|exact G].
  - assert (Zs : satellites many l = 0).
    { clear - Zm. unfold haloes in Zm. unfold satellites. revert Zm. induction l as [|[n b] l IH]; intros Z; [reflexivity|]. cbn [total] in *.
      pose proof (haloes_nonneg many l) as X. unfold haloes in X. destruct (many n); [lra|]. rewrite IH by lra. ring. }
    rewrite E2, S1, S3, <- Zm, Zs. rewrite Zs in B. split; [generalize (1/Nm); intros i; field; lra|]. split; [lra|]. split; [exact Q|exact G].
Qed.
(** ** C171: exact for every sample *)
Theorem C171_central_fraction : forall l fs fsB Nm, describes l fs fsB Nm -> e_fcB fs fsB Nm = haloes some l / haloes any l.
Proof.
  intros l fs fsB Nm D. destruct (companion l fs fsB Nm D) as (E & P & Q & G). destruct D as (A & B & E1 & _). unfold e_fcB. rewrite E, Q, E1. field. repeat split; lra.
Qed.
Print Assumptions C171_central_fraction.
(** The total bias is the mean bias of the galaxies (each galaxy having the bias of its halo), whatever the sample; b1_cA, b1_cB, b1_sA and
    b1_sB are the mean biases of their classes, arbitrary for an empty class. *)
Theorem C171_total_bias : forall l fs fsB Nm bcA bcB bsA bsB, describes l fs fsB Nm ->
  bcA * haloes lonely l = bias lonely l -> bcB * haloes some l = bias some l ->
  bsA * satellites one l = sat_bias one l -> bsB * satellites many l = sat_bias many l ->
  let fcB := e_fcB fs fsB Nm in
  e_b1_c fcB bcA bcB = bias any l / haloes any l /\ e_b1_s fsB bsA bsB = sat_bias any l / satellites any l /\
  e_b1 fs (e_b1_c fcB bcA bcB) (e_b1_s fsB bsA bsB) = (bias any l + sat_bias any l) / galaxies l.
Proof.
  intros l fs fsB Nm bcA bcB bsA bsB D HA HB HC HD fcB. pose proof (C171_central_fraction l fs fsB Nm D) as F. destruct (companion l fs fsB Nm D) as (_ & _ & Q & G).
  destruct D as (A & B & E1 & E2 & _). destruct (haloes_split l) as [S1 S2]. pose proof (sats_split l) as S3.
  assert (T1 : e_b1_c fcB bcA bcB = bias any l / haloes any l).
  { unfold e_b1_c, fcB. rewrite F. replace (bias any l) with (bias lonely l + bias some l) by (symmetry; apply split_any). rewrite <- HA, <- HB.
    rewrite S2 in *. field. lra. }
  assert (T2 : e_b1_s fsB bsA bsB = sat_bias any l / satellites any l).
  { unfold e_b1_s. rewrite E2. unfold sat_bias at 1. rewrite split_any, split_some. fold (sat_bias lonely l) (sat_bias one l) (sat_bias many l). rewrite satb_lonely, <- HC, <- HD, sat_one.
    rewrite S3 in *. field. lra. }
  split; [exact T1|]. split; [exact T2|]. unfold e_b1. rewrite T1, T2, Q, E1. field. repeat split; lra.
Qed.
Print Assumptions C171_total_bias.
(** The bias of type B centrals follows from those of the satellites when, in haloes with several satellites, the bias is the same averaged over
    haloes or over satellites. *)
Theorem C171_type_B_central_bias : forall l fs fsB Nm bsA bsB, describes l fs fsB Nm ->
  bsA * satellites one l = sat_bias one l -> bsB * satellites many l = sat_bias many l -> bias many l = bsB * haloes many l ->
  e_b1_cB fsB Nm bsA bsB = bias some l / haloes some l.
Proof.
  intros l fs fsB Nm bsA bsB D HC HD HM. destruct (companion l fs fsB Nm D) as (E & P & _). destruct D as (A & B & E1 & E2 & _). destruct (haloes_split l) as [S1 S2]. pose proof (sats_split l) as S3.
  unfold e_b1_cB. rewrite E, E2. replace (bias some l) with (bias one l + bias many l) by (symmetry; apply split_some). rewrite <- satb_one, <- HC, HM, sat_one.
  rewrite S3 in *. rewrite S1 in *. field. repeat split; lra.
Qed.
Print Assumptions C171_type_B_central_bias.
(** One-halo amplitudes: volume times the number of pairs in the same halo over the product of the numbers of galaxies. *)
Theorem C171_one_halo_amplitudes : forall l fs fsB Nm V f1h, describes l fs fsB Nm -> 0 < V ->
  let nbar := galaxies l / V in let fcB := e_fcB fs fsB Nm in
  e_NcBs 1 fcB fs nbar = V * satellites some l / (haloes some l * satellites any l) /\
  (0 < haloes many l -> f1h = sat_pairs many l / haloes many l ->
     e_NsBsB f1h fsB fs nbar fcB = V * sat_pairs many l / (satellites many l)^2).
Proof.
  intros l fs fsB Nm V f1h D HV nbar fcB. pose proof (C171_central_fraction l fs fsB Nm D) as F. destruct (companion l fs fsB Nm D) as (_ & P & Q & G).
  destruct D as (A & B & E1 & E2 & _). destruct (haloes_split l) as [S1 S2]. pose proof (sats_split l) as S3. unfold nbar, fcB. split.
  - unfold e_NcBs. rewrite F, Q. replace (satellites some l) with (satellites any l).
    + field. repeat split; lra.
    + rewrite S3. unfold satellites. rewrite split_some. fold (satellites one l). rewrite sat_one. reflexivity.
  - intros Pm Hf. pose proof (many_le l) as Hl. unfold e_NsBsB. rewrite F, Q, Hf, E1, E2. rewrite S3 in *. rewrite S1 in *. field. repeat split; lra.
Qed.
Print Assumptions C171_one_halo_amplitudes.
(** All constraints evaluated together describe the sample. *)
Theorem C171_constraints_together : forall l p V, describes l (p_fs p) (p_fsB p) (p_Nsat p) -> 0 < V -> p_nbar p = galaxies l / V -> p_f1c p = 1 ->
  p_bcA p * haloes lonely l = bias lonely l -> p_gA p * p_bcA p * satellites one l = sat_bias one l ->
  p_gB p * p_bcA p * satellites many l = sat_bias many l -> bias many l = p_gB p * p_bcA p * haloes many l ->
  let d := constrain p in
  d_fcB d = haloes some l / haloes any l /\ d_bcB d = bias some l / haloes some l /\ d_b1 d = (bias any l + sat_bias any l) / galaxies l /\
  d_bc d = bias any l / haloes any l /\ d_bs d = sat_bias any l / satellites any l /\ d_NcBs d = V * satellites some l / (haloes some l * satellites any l) /\
  (0 < haloes many l -> p_f1s p = sat_pairs many l / haloes many l -> d_NsBsB d = V * sat_pairs many l / (satellites many l)^2).
Proof.
  intros l p V D HV Hn Hf HA HC HD HM d. unfold d, constrain. cbn [d_fcB d_bcB d_b1 d_bc d_bs d_NcBs d_NsBsB]. unfold e_b1_sA, e_b1_sB.
  pose proof (C171_type_B_central_bias _ _ _ _ _ _ D HC HD HM) as TB. destruct (companion _ _ _ _ D) as (_ & P & _).
  assert (HB : e_b1_cB (p_fsB p) (p_Nsat p) (p_gA p * p_bcA p) (p_gB p * p_bcA p) * haloes some l = bias some l) by (rewrite TB; field; lra).
  destruct (C171_total_bias _ _ _ _ _ _ _ _ D HA HB HC HD) as (T1 & T2 & T3). destruct (C171_one_halo_amplitudes l _ _ _ V (p_f1s p) D HV) as (O1 & O2). rewrite Hn, Hf.
  split; [apply C171_central_fraction; exact D|]. split; [exact TB|]. split; [exact T3|]. split; [exact T1|]. split; [exact T2|]. split; [exact O1|exact O2].
Qed.
Print Assumptions C171_constraints_together.
Example C171_nonvacuous : let l := [(0%nat, 1); (0%nat, 2); (1%nat, 2); (2%nat, 3); (3%nat, 3)] in
  describes l (6/11) (5/6) (5/2) /\ bias many l = 3 * haloes many l /\ 3 * satellites many l = sat_bias many l /\ sat_pairs many l / haloes many l = 4 /\
  e_fcB (6/11) (5/6) (5/2) = 3/5.
Proof.
  assert (X : forall P : Prop, P -> P) by auto. cbv zeta. unfold describes, galaxies, haloes, satellites, bias, sat_bias, sat_pairs. cbn [total any many Nat.leb INR].
  repeat split; try lra; try field. unfold e_fcB. field.
Qed.
(** Ranges: with the limits of the default priors the dependent fractions and biases stay physical. *)
Theorem C171_ranges : forall fs fsB Nm bsA bsB bcA f1h nbar, 0 <= fs <= 1/2 -> 0 <= fsB <= 1 -> 1 <= Nm -> 0 <= f1h -> 0 < nbar ->
  let fcB := e_fcB fs fsB Nm in let bcB := e_b1_cB fsB Nm bsA bsB in
  0 <= fcB <= fs/(1 - fs) /\ fcB <= 1 /\ Rmin bsA bsB <= bcB <= Rmax bsA bsB /\
  (forall lo hi, lo <= bcA <= hi -> lo <= bsA <= hi -> lo <= bsB <= hi ->
     lo <= e_b1 fs (e_b1_c fcB bcA bcB) (e_b1_s fsB bsA bsB) <= hi) /\
  (0 < fs -> 0 < fsB -> 0 <= e_NsBsB f1h fsB fs nbar fcB).
Proof.
  intros fs fsB Nm bsA bsB bcA f1h nbar H1 H2 H3 H4 H5 fcB bcB.
  assert (N1 : 0 < 1/Nm <= 1).
  { split; [apply Rdiv_lt_0_compat; lra|]. apply (Rmult_le_reg_r Nm); [lra|]. unfold Rdiv. rewrite Rmult_assoc, Rinv_l by lra. lra. }
  set (i := 1/Nm) in *. assert (D : 0 <= 1 + fsB*(i - 1) <= 1) by nra.
  assert (D0 : 0 < 1 + fsB*(i - 1)) by nra.
  assert (K : 0 <= fs/(1 - fs) <= 1).
  { split; [apply Rmult_le_pos; [lra|left; apply Rinv_0_lt_compat; lra]|]. apply (Rmult_le_reg_r (1 - fs)); [lra|]. unfold Rdiv. rewrite Rmult_assoc, Rinv_l by lra. lra. }
  assert (F : 0 <= fcB <= fs/(1 - fs)) by (unfold fcB, e_fcB; fold i; nra).
  assert (W : 0 <= (1 - fsB)/(1 + fsB*(i - 1)) <= 1).
  { split; [apply Rmult_le_pos; [lra|left; apply Rinv_0_lt_compat; lra]|]. apply (Rmult_le_reg_r (1 + fsB*(i - 1))); [lra|]. unfold Rdiv at 1. rewrite Rmult_assoc, Rinv_l by lra. nra. }
  assert (B : forall lo hi, lo <= bsA <= hi -> lo <= bsB <= hi -> lo <= bcB <= hi).
  { intros lo hi HA HB. unfold bcB, e_b1_cB. fold i. set (w := (1 - fsB)/(1 + fsB*(i - 1))) in *. nra. }
  split; [exact F|]. split; [lra|]. split.
  { apply B; [split; [apply Rmin_l|apply Rmax_l]|split; [apply Rmin_r|apply Rmax_r]]. }
  split.
  - intros lo hi HA HB HC. pose proof (B lo hi HB HC) as HD. unfold e_b1, e_b1_c, e_b1_s. set (x := bcB) in *. set (y := fcB) in *. clearbody x y.
    assert (Y : lo <= (1 - y)*bcA + y*x <= hi) by nra. assert (Z : lo <= (1 - fsB)*bsA + fsB*bsB <= hi) by nra.
    set (u := (1 - y)*bcA + y*x) in *. set (v := (1 - fsB)*bsA + fsB*bsB) in *. clearbody u v. nra.
  - intros P1 P2. unfold e_NsBsB. replace (fcB*(1 - fs) - fs*(1 - fsB)) with (fs*fsB*i) by (unfold fcB, e_fcB; fold i; field; lra).
    apply Rmult_le_pos.
    + apply Rmult_le_pos; [exact H4|]. left. apply Rinv_0_lt_compat. apply Rmult_lt_0_compat; [|exact H5]. apply Rmult_lt_0_compat; apply pow_lt; assumption.
    + apply Rmult_le_pos; [apply Rmult_le_pos|]; lra.
Qed.
Print Assumptions C171_ranges.
Example C171_ranges_nonvacuous : 0 <= 104/1000 <= 1/2 /\ 0 <= 4/10 <= 1 /\ 1 <= 24/10 /\ 0 <= 4 /\ 0 < 3117/10000000. Proof. lra. Qed.

(** ** C172: the isotropic and anisotropic Alcock-Paczynski parameters are a change of variables *)
Lemma Rpower_third x : 0 < x -> (Rpower x (1/3))^3 = x.
Proof. intros H. rewrite <- Rpower_pow by (apply exp_pos). rewrite Rpower_mult. replace (1/3 * INR 3) with 1 by (cbn; field). apply Rpower_1. exact H. Qed.
Lemma cube_inj x y : 0 < x -> 0 < y -> x^3 = y^3 -> x = y.
Proof. intros Hx Hy E. assert (Z : (x - y)*(x^2 + x*y + y^2) = 0) by (replace ((x - y)*(x^2 + x*y + y^2)) with (x^3 - y^3) by ring; lra). apply Rmult_integral in Z. destruct Z as [Z|Z]; [lra|nra]. Qed.
Theorem C172_change_of_variables : forall aperp apar, 0 < aperp -> 0 < apar ->
  let a := e_alpha aperp apar in let e := e_epsilon aperp apar in
  0 < a /\ -1 < e /\ aperp = a / (1 + e) /\ apar = a * (1 + e)^2 /\ a^3 = aperp^2*apar /\ e_F_AP apar aperp = (1 + e)^3.
Proof.
  intros x y Hx Hy a e.
  assert (A0 : 0 < a) by apply exp_pos. assert (E0 : 0 < 1 + e) by (unfold e, e_epsilon; pose proof (exp_pos (-(1/3) * ln (x/y))) as Z; fold (Rpower (x/y) (-(1/3))) in Z; lra).
  assert (A3 : a^3 = x^2*y) by (apply Rpower_third; apply Rmult_lt_0_compat; [apply pow_lt|]; assumption).
  assert (E3 : (1 + e)^3 = y/x).
  { unfold e, e_epsilon. replace (1 + (Rpower (x/y) (-(1/3)) - 1)) with (Rpower (x/y) (-(1/3))) by ring. rewrite Rpower_Ropp.
    replace ((/ Rpower (x/y) (1/3))^3) with (/ (Rpower (x/y) (1/3))^3) by (field; apply Rgt_not_eq, exp_pos). rewrite Rpower_third by (apply Rdiv_lt_0_compat; assumption). field. lra. }
  split; [exact A0|]. split; [lra|].
  assert (X : x = a/(1 + e)).
  { apply cube_inj; [exact Hx|apply Rdiv_lt_0_compat; assumption|]. replace ((a/(1 + e))^3) with (a^3/(1 + e)^3) by (field; lra). rewrite A3, E3. field. lra. }
  split; [exact X|]. split; [|split; [exact A3|unfold e_F_AP; rewrite E3; reflexivity]].
  apply cube_inj; [exact Hy|apply Rmult_lt_0_compat; [exact A0|apply pow_lt; exact E0]|].
  replace ((a*(1 + e)^2)^3) with (a^3 * ((1 + e)^3)^2) by ring. rewrite A3, E3. field. lra.
Qed.
Print Assumptions C172_change_of_variables.
(** ... with no loss: any isotropic and anisotropic pair comes from exactly one pair of dilations. *)
Theorem C172_invertible : forall a e, 0 < a -> -1 < e ->
  (e_alpha (a/(1 + e)) (a*(1 + e)^2) = a /\ e_epsilon (a/(1 + e)) (a*(1 + e)^2) = e) /\
  forall x y, 0 < x -> 0 < y -> e_alpha x y = a -> e_epsilon x y = e -> x = a/(1 + e) /\ y = a*(1 + e)^2.
Proof.
  intros a e Ha He. split.
  - assert (X : 0 < a/(1 + e)) by (apply Rdiv_lt_0_compat; lra). assert (Y : 0 < a*(1 + e)^2) by (apply Rmult_lt_0_compat; [lra|apply pow_lt; lra]).
    destruct (C172_change_of_variables _ _ X Y) as (A & B & _ & _ & C & D). split.
    + apply cube_inj; [exact A|exact Ha|]. rewrite C. field. lra.
    + assert (1 + e_epsilon (a/(1 + e)) (a*(1 + e)^2) = 1 + e); [|lra]. apply cube_inj; [lra|lra|]. rewrite <- D. unfold e_F_AP. field. lra.
  - intros x y Hx Hy E1 E2. destruct (C172_change_of_variables x y Hx Hy) as (_ & _ & A & B & _). rewrite E1, E2 in A, B. split; assumption.
Qed.
Print Assumptions C172_invertible.
Example C172_nonvacuous : 0 < 102/100 /\ -1 < -(2/100). Proof. lra. Qed.
