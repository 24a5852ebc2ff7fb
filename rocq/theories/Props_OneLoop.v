(** * C164-C167: one-loop spectra and two-loop integrals *)
From Coq Require Import Reals List ZArith Lra Lia Psatz.
From Coquelicot Require Import Coquelicot.
From Verif Require M_Quad Props_Quad.
From Verif Require Import M_Spline S_Spline P_SplineV M_Kernels S_Kernels S_Kernels2 P_Kernels P_KInt Props_Kernels Props_Kernels2 M_Jmn Props_Jmn Props_Spline Props_Disc M_OneLoop S_OneLoop P_OneLoop P_OneLoop2.
Import ListNotations.
Local Open Scope R_scope.

(** ** C164: the one-loop spectra *)
(** what the tables should contain at wavenumber k: P22 + P13 for the density, cross and velocity spectra *)
Definition C164_at (K : kind) (P : R -> R) (k v : R) : Prop :=
  match K with
  | Pdd => exists j, J_eval P k 0 0 = Some j /\ v = 2 * bipolar (fun q r k => side_F2 q r k ^ 2) P k + 6 * k ^ 2 * j * P k
  | Pdv => exists j, J_eval P k 0 1 = Some j /\ v = 2 * bipolar (fun q r k => side_F2 q r k * side_G2 q r k) P k + 6 * k ^ 2 * j * P k
  | Pvv => exists j, J_eval P k 1 1 = Some j /\ v = 2 * bipolar (fun q r k => side_G2 q r k ^ 2) P k + 6 * k ^ 2 * j * P k
  | P22Bar => forall h0 h2 h4, coefs_vvvv h0 h2 h4 ->
      v = bipolar (fun q r k => 8 * h0 q r k) P k + 2 / 3 * bipolar (fun q r k => 4 * h2 q r k) P k + 1 / 5 * bipolar (fun q r k => 8 * h4 q r k) P k
  end.
Lemma Some_inj {A} (a b : A) : Some a = Some b -> b = a.
Proof. intro H; injection H; intro E; symmetry; exact E. Qed.
Lemma entry_at K P k v : 0 < k <= 10 -> entry K P k = Some v -> C164_at K P k v.
Proof.
  intros Hk E. destruct (C159_each_integral_is_over_all_wavevectors P k 0%Z ltac:(lra)) as (A & B & C & _).
  destruct K; unfold entry in E; unfold C164_at.
  - rewrite A in E. cbn [ob] in E. destruct (J_eval P k 0 0) as [j|]; [|discriminate E]. cbn [ob] in E. apply Some_inj in E. exists j. split; [reflexivity|]. rewrite E. ring.
  - rewrite B in E. cbn [ob] in E. destruct (J_eval P k 0 1) as [j|]; [|discriminate E]. cbn [ob] in E. apply Some_inj in E. exists j. split; [reflexivity|]. rewrite E. ring.
  - rewrite C in E. cbn [ob] in E. destruct (J_eval P k 1 1) as [j|]; [|discriminate E]. cbn [ob] in E. apply Some_inj in E. exists j. split; [reflexivity|]. rewrite E. ring.
  - intros h0 h2 h4 Hh. destruct (C159_quartic_integrals_are_over_all_wavevectors h0 h2 h4 P k Hh ltac:(lra)) as (A' & B' & C'). rewrite A', B', C' in E. cbn [ob] in E. apply Some_inj in E. exact E.
Qed.
Theorem C164_one_loop_spectra : forall w0 K (P : R -> R) eps, exists o, make w0 K P eps = Some o /\
  exists ks : list R, length ks = 1000%nat /\ first_x ks = / 10 ^ 5 /\ last_x ks = 10 /\
    (forall i, (S i < 1000)%nat -> nth (S i) ks 0 = nth i ks 0 * exp ((ln 10 - ln (/ 10 ^ 5)) / 999)) /\
    (forall i, (i < 1000)%nat -> exists v, C164_at K P (nth i ks 0) v /\ ol_evaluate o (nth i ks 0) = Some v) /\
    (forall k, (k < / 10 ^ 5 -> ol_evaluate o k = Some 0) /\ (10 < k -> ol_evaluate o k = Some 0 /\ ol_full o k = Some 0)) /\
    (forall k, k <= 10 -> exists v, ol_evaluate o k = Some v /\ ol_full o k = Some (match K with P22Bar => v | _ => v + P k end)) /\
    (exists f d, (forall k, / 10 ^ 5 <= k <= 10 -> ol_evaluate o k = Some (f k)) /\ C2_on (/ 10 ^ 5) 10 f d).
Proof.
  intros w0 K P eps. destruct (make_ok w0 K P eps) as (ks & l & o & E & El & Ll & M & W & OK & OL & _ & _ & S). exists o. split; [exact M|].
  destruct grid as (ks' & E' & L & F & T & I & Pos). rewrite E in E'. injection E' as <-. change NUM_PTS with 1000%nat in *.
  assert (HL : (2 <= length ks)%nat) by lia.
  assert (Hst : forall i, (Datatypes.S i < 1000)%nat -> nth (Datatypes.S i) ks 0 = nth i ks 0 * exp ((ln 10 - ln (/ 10 ^ 5)) / 999)).
  { assert (H2 : (2 <= 1000)%nat) by (apply Nat.leb_le; reflexivity). assert (HK : 0 < KMIN) by (unfold KMIN; lra). assert (HM : 0 < KMAX) by (unfold KMAX; lra).
    destruct (C126_logspace KMIN KMAX 1000 H2 HK HM) as (ks' & E' & _ & _ & _ & _ & St). unfold k_spline in E. change NUM_PTS with 1000%nat in E. rewrite E in E'. injection E' as <-.
    intros i Hi. destruct (St i Hi) as [_ St']. rewrite St'. replace (INR (1000 - 1)) with 999 by (rewrite INR_IZR_INZ; reflexivity). reflexivity. }
  exists ks. do 4 (split; [assumption|]).
  assert (Bd : forall i, (i < 1000)%nat -> KMIN <= nth i ks 0 <= KMAX) by (intros i Hi; rewrite <- F, <- T; apply (bounds ks HL I); lia).
  destruct (entries_some K P ks) as (l' & El' & _ & Hl). rewrite El in El'. injection El' as <-.
  split; [|split; [|split]].
  - intros i Hi. exists (nth i l 0). specialize (Bd i Hi). split; [apply entry_at; [unfold KMIN, KMAX in Bd; specialize (Pos i Hi); lra|apply Hl; lia]|].
    unfold ol_evaluate. destruct (Rlt_dec (nth i ks 0) KMIN); [lra|]. destruct (Rlt_dec KMAX (nth i ks 0)); [lra|]. rewrite S. apply cubic_node; [exact HL|exact I|lia].
  - intro k. split; intro Hk.
    + unfold ol_evaluate. destruct (Rlt_dec k KMIN); [reflexivity|]. unfold KMIN in *. lra.
    + unfold ol_full, ol_evaluate. destruct (Rlt_dec KMAX k) as [_|n]; [|unfold KMAX in n; lra]. destruct (Rlt_dec k KMIN); split; reflexivity.
  - intros k Hk. destruct (make_total w0 K P eps o k M) as [v Hv]. exists v. split; [exact Hv|]. unfold ol_full. destruct (Rlt_dec KMAX k); [unfold KMAX in *; lra|].
    rewrite OK, OL, Hv. destruct K; reflexivity.
  - destruct (C111_cubic_spline w0 ks l HL ltac:(lia) I) as (s & Cs & f & d & Ev & _ & _ & _ & C2). rewrite (cubic_some w0 ks l HL ltac:(lia)) in Cs. injection Cs as <-.
    exists f, d. split; [|rewrite F, T in C2; exact C2]. intros k Hk. unfold ol_evaluate. destruct (Rlt_dec k KMIN); [unfold KMIN in *; lra|]. destruct (Rlt_dec KMAX k); [unfold KMAX in *; lra|]. rewrite S. apply (Ev k).
Qed.
Print Assumptions C164_one_loop_spectra.
(** the mixture of line-of-sight powers in the last spectrum is the average over all lines of sight of ((n.q)(n.p)/(q^2 p^2))^2 *)
Theorem C164_bar_is_the_sky_average : forall h0 h2 h4 K a c, coefs_vvvv h0 h2 h4 -> 0 < K -> 0 < a -> -1 <= c <= 1 -> 0 < K * K + a * a - 2 * K * a * c ->
  let b := third_side K a c in
  8 * h0 a b K + 2 / 3 * (4 * h2 a b K) + 1 / 5 * (8 * h4 a b K) = 8 * K ^ 4 * over_sky (fun m => azimuthal (fun phi => (vq a c m phi * vp K a c m phi) ^ 2)) /\
  8 * h0 a b K + 2 / 3 * (4 * h2 a b K) + 1 / 5 * (8 * h4 a b K) = 8 * K ^ 4 * (1 + 2 * (side_dot a b K / (a * b)) ^ 2) / (15 * a ^ 2 * b ^ 2).
Proof.
  intros h0 h2 h4 K a c Hh HK Ha Hc Hn b.
  assert (Hb : 0 < b) by (apply sqrt_lt_R0; exact Hn).
  assert (A : forall m, -1 < m < 1 -> h0 a b K + h2 a b K * m ^ 2 + h4 a b K * m ^ 4 = K ^ 4 * azimuthal (fun phi => (vq a c m phi * vp K a c m phi) ^ 2)).
  { intros m Hm. apply Hh. unfold config. do 3 (split; [assumption|]). split; [lra|assumption]. }
  assert (B : K ^ 4 * over_sky (fun m => azimuthal (fun phi => (vq a c m phi * vp K a c m phi) ^ 2)) = h0 a b K + h2 a b K / 3 + h4 a b K / 5).
  { unfold over_sky. assert (X := is_RInt_poly6 (h0 a b K) 0 (h2 a b K) 0 (h4 a b K) 0 0).
    assert (Y : RInt (fun m => K ^ 4 * azimuthal (fun phi => (vq a c m phi * vp K a c m phi) ^ 2)) (-1) 1 = 2 * h0 a b K + 2 / 3 * h2 a b K + 2 / 5 * h4 a b K + 2 / 7 * 0).
    { apply is_RInt_unique. eapply is_RInt_ext; [|exact X]. intros m Hm. rewrite Rmin_left, Rmax_right in Hm by lra. rewrite <- A by exact Hm. match goal with |- @eq _ ?a ?b => change (@eq R a b) end. ring. }
    rewrite RInt_scal' in Y. transitivity (K ^ 4 * RInt (fun m => azimuthal (fun phi => (vq a c m phi * vp K a c m phi) ^ 2)) (-1) 1 / 2); [unfold Rdiv; ring|]. rewrite Y. field. }
  split; [rewrite Rmult_assoc, B; field|].
  assert (C : forall m, config K a c m -> True) by trivial.
  destruct (az_cfg K a c 0) as (_ & _ & _ & E0); [unfold config; do 3 (split; [assumption|]); split; [lra|assumption]|].
  destruct (az_cfg K a c 1) as (_ & _ & _ & E1); [unfold config; do 3 (split; [assumption|]); split; [lra|assumption]|].
  destruct (az_cfg K a c (1/2)) as (_ & _ & _ & Eh); [unfold config; do 3 (split; [assumption|]); split; [lra|assumption]|].
  pose proof (Hh K a c 0) as D0. pose proof (Hh K a c 1) as D1. pose proof (Hh K a c (1/2)) as Dh.
  rewrite <- E0 in D0 by (unfold config; do 3 (split; [assumption|]); split; [lra|assumption]).
  rewrite <- E1 in D1 by (unfold config; do 3 (split; [assumption|]); split; [lra|assumption]).
  rewrite <- Eh in Dh by (unfold config; do 3 (split; [assumption|]); split; [lra|assumption]).
  specialize (D0 ltac:(unfold config; do 3 (split; [assumption|]); split; [lra|assumption])). specialize (D1 ltac:(unfold config; do 3 (split; [assumption|]); split; [lra|assumption])). specialize (Dh ltac:(unfold config; do 3 (split; [assumption|]); split; [lra|assumption])).
  fold b in D0, D1, Dh. set (u := (a + b) / K) in *. set (v := (b - a) / K) in *.
  assert (G : f23 u v = 8 * h0 a b K /\ f32 u v = 4 * h2 a b K /\ f33 u v = 8 * h4 a b K) by (refine (conj _ (conj _ _)); lra). destruct G as (G0 & G2 & G4).
  rewrite <- G0, <- G2, <- G4. unfold f23, f32, f33, u, v, side_dot. clearbody b. cbv zeta. field. repeat match goal with |- _ /\ _ => split end; try lra; nra.
Qed.
Print Assumptions C164_bar_is_the_sky_average.
(** pickling keeps the spectrum and tables given by the user are used; short ones are refused *)
Theorem C164_pickling_keeps_the_spectrum : forall w0 w1 K P eps o, make w0 K P eps = Some o ->
  exists o', setstate w1 K (getstate o) = Some o' /\ getstate o' = getstate o /\ forall k, ol_evaluate o' k = ol_evaluate o k /\ ol_full o' k = ol_full o k.
Proof.
  intros w0 w1 K P eps o H. destruct (make_ok w0 K P eps) as (ks & l & a & E & El & Ll & M & W & OK & OL & OE & OP & S). rewrite H in M. injection M as <-.
  destruct grid as (ks' & E' & L & _). rewrite E in E'. injection E' as <-.
  destruct (with_power_ok w1 K P eps l ltac:(lia)) as (ks' & o' & _ & W' & OK' & OL' & OE' & OP' & _).
  exists o'. unfold setstate, getstate. rewrite OL, OE, OP. split; [exact W'|]. split; [rewrite OL', OE', OP'; reflexivity|]. intro k.
  assert (Ev : ol_evaluate o' k = ol_evaluate o k).
  { assert (Em : map (Rmult 1) l = l) by (rewrite (map_ext _ (fun y => y)) by (intro; ring); apply map_id).
    rewrite <- Em in W'. rewrite (with_power_eval w0 w1 K K P P eps eps 1 l k o o' ltac:(lia) W W'). destruct (make_total w0 K P eps o k H) as [v ->]. cbn [option_map]. rewrite Rmult_1_l. reflexivity. }
  split; [exact Ev|]. unfold ol_full. rewrite Ev, OK, OK', OL, OL'. reflexivity.
Qed.
Print Assumptions C164_pickling_keeps_the_spectrum.
Theorem C164_tables_of_the_user : forall w0 K P eps power,
  ((length power < 1000)%nat -> with_power w0 K P eps power = None) /\
  ((1000 <= length power)%nat -> exists o, with_power w0 K P eps power = Some o /\
     exists ks, k_spline = Some ks /\ forall i, (i < 1000)%nat -> ol_evaluate o (nth i ks 0) = Some (nth i power 0)).
Proof.
  intros w0 K P eps power. destruct grid as (ks & E & L & F & T & I & _). change NUM_PTS with 1000%nat in L. split; intro H.
  - unfold with_power. rewrite E. cbn [ob]. unfold cubic_spline. rewrite (proj2 (Nat.leb_gt (length ks) (length power))) by lia. reflexivity.
  - destruct (with_power_ok w0 K P eps power H) as (ks' & o & E' & W & _ & _ & _ & _ & S). rewrite E in E'. injection E' as <-. exists o. split; [exact W|]. exists ks. split; [exact E|].
    intros i Hi. assert (HL : (2 <= length ks)%nat) by lia. assert (B := bounds ks HL I i ltac:(lia)). rewrite F, T in B. unfold at_ in B.
    unfold ol_evaluate. destruct (Rlt_dec (nth i ks 0) KMIN); [lra|]. destruct (Rlt_dec KMAX (nth i ks 0)); [lra|]. rewrite S. apply cubic_node; [exact HL|exact I|lia].
Qed.
Print Assumptions C164_tables_of_the_user.
Example C164_nonvacuous : exists o, make {| w_b := fun _ => 0; w_c := fun _ => 0; w_d := fun _ => 0 |} Pdd (fun q => q) (/ 10 ^ 4) = Some o /\ ol_full o (/ 10 ^ 6) = Some (0 + / 10 ^ 6).
Proof.
  destruct (C164_one_loop_spectra {| w_b := fun _ => 0; w_c := fun _ => 0; w_d := fun _ => 0 |} Pdd (fun q => q) (/ 10 ^ 4)) as (o & M & ks & _ & _ & _ & _ & _ & Z & Fu & _).
  exists o. split; [exact M|]. destruct (Fu (/ 10 ^ 6) ltac:(lra)) as (v & Ev & Ef). destruct (Z (/ 10 ^ 6)) as [Z0 _]. rewrite (Z0 ltac:(lra)) in Ev. injection Ev as <-. exact Ef.
Qed.

(** the interpolating function extends to one that is continuous on the closed interval *)
Lemma spline_ext w0 xs ys : (3 <= length xs)%nat -> (length xs <= length ys)%nat -> increasing xs -> exists s g, cubic_spline w0 xs ys = Some s /\
  (forall x, first_x xs <= x <= last_x xs -> evaluate s x = Some (g x) /\ continuous (g : R -> R) x).
Proof.
  intros H3 Hl Hi. destruct (C111_cubic_spline w0 xs ys ltac:(lia) Hl Hi) as (s & Cs & f & d & Ev & _ & _ & Pc & (d2 & C2)).
  destruct (Pc 0%nat ltac:(lia)) as (a & b & c & e & P0). destruct (Pc (length xs - 2)%nat ltac:(lia)) as (a' & b' & c' & e' & P1).
  replace (S (length xs - 2)) with (length xs - 1)%nat in P1 by lia. fold (last_x xs) in P1. change (nth 0 xs 0) with (first_x xs) in P0.
  set (x1 := nth 1 xs 0) in *. set (xl := nth (length xs - 2) xs 0) in *.
  assert (Hfx : first_x xs < x1) by (apply Hi; lia). assert (Hxl : xl < last_x xs). { unfold xl, last_x. replace (length xs - 1)%nat with (S (length xs - 2)) by lia. apply Hi. lia. }
  assert (H1l : x1 <= xl). { unfold x1, xl. assert (forall j, (1 <= j)%nat -> (j < length xs)%nat -> nth 1 xs 0 <= nth j xs 0) as M. { induction j as [|j IH]; [lia|]. intros J1 J2. destruct j as [|j]; [lra|]. specialize (IH ltac:(lia) ltac:(lia)). pose proof (Hi (S j) ltac:(lia)). lra. } apply M; lia. }
  set (g := fun x => if Rlt_dec x x1 then a + b * x + c * x * x + e * x * x * x else if Rlt_dec xl x then a' + b' * x + c' * x * x + e' * x * x * x else f x).
  assert (Eg : forall x, first_x xs <= x <= last_x xs -> g x = f x). { intros x Hx. unfold g. destruct (Rlt_dec x x1); [rewrite <- P0 by lra; reflexivity|]. destruct (Rlt_dec xl x); [rewrite <- P1 by lra; reflexivity|reflexivity]. }
  exists s, g. split; [exact Cs|]. intros x Hx. split; [rewrite Eg by exact Hx; apply (Ev x)|].
  destruct (Rlt_dec x x1) as [Lx|Lx]; [|destruct (Rlt_dec xl x) as [Lr|Lr]].
  - apply (continuous_ext_loc (g : R -> R) (fun x => a + b * x + c * x * x + e * x * x * x)).
    + exists (mkposreal (x1 - x) ltac:(lra)). intros y Hy. unfold g. change (Rabs (y - x) < x1 - x) in Hy. apply Rabs_lt_between in Hy. destruct (Rlt_dec y x1); [reflexivity|lra].
    + apply (@ex_derive_continuous R_AbsRing R_NormedModule). auto_derive; exact I.
  - apply (continuous_ext_loc (g : R -> R) (fun x => a' + b' * x + c' * x * x + e' * x * x * x)).
    + exists (mkposreal (x - xl) ltac:(lra)). intros y Hy. unfold g. change (Rabs (y - x) < x - xl) in Hy. apply Rabs_lt_between in Hy. destruct (Rlt_dec y x1); [lra|]. destruct (Rlt_dec xl y); [reflexivity|lra].
    + apply (@ex_derive_continuous R_AbsRing R_NormedModule). auto_derive; exact I.
  - apply (continuous_ext_loc (g : R -> R) f).
    + exists (mkposreal (Rmin (x - first_x xs) (last_x xs - x)) ltac:(apply Rmin_pos; lra)). intros y Hy. symmetry. apply Eg. change (Rabs (y - x) < Rmin (x - first_x xs) (last_x xs - x)) in Hy. apply Rabs_lt_between in Hy.
      pose proof (Rmin_l (x - first_x xs) (last_x xs - x)). pose proof (Rmin_r (x - first_x xs) (last_x xs - x)). lra.
    + apply (@ex_derive_continuous R_AbsRing R_NormedModule). eexists. apply C2. lra.
Qed.
(** the velocity kurtosis is 1/4 of the integral over wavevectors of P/q^4: (1/(2 pi^2)) int P(q)/q^2 dq, over the range of the table *)
Theorem C164_kurtosis_is_the_moment : forall w0 P eps o, make w0 P22Bar P eps = Some o ->
  ex_RInt (fun q => fn_full o q / q ^ 2) (/ 10 ^ 5) 10 /\ velocity_kurtosis0 o = 1 / 4 * (1 / (2 * PI ^ 2)) * RInt (fun q => fn_full o q / q ^ 2) (/ 10 ^ 5) 10.
Proof.
  intros w0 P eps o M. destruct (make_ok w0 P22Bar P eps) as (ks & l & o' & E & El & Ll & M' & W & OK & OL & _ & _ & S). rewrite M in M'. injection M' as <-.
  destruct grid as (ks' & E' & L & F & T & I & Pos). rewrite E in E'. injection E' as <-. change NUM_PTS with 1000%nat in *.
  destruct (spline_ext w0 ks l ltac:(lia) ltac:(lia) I) as (s & g & Cs & Hg). rewrite (cubic_some w0 ks l ltac:(lia) ltac:(lia)) in Cs. injection Cs as <-. rewrite F, T in Hg.
  assert (Ef : forall x, / 10 ^ 5 <= x <= 10 -> fn_full o x = g x).
  { intros x Hx. unfold fn_full, ol_full, ol_evaluate. rewrite OK, S. destruct (Rlt_dec KMAX x); [unfold KMAX in *; lra|]. destruct (Rlt_dec x KMIN); [unfold KMIN in *; lra|]. destruct (Hg x) as [-> _]; [unfold KMIN, KMAX; lra|reflexivity]. }
  set (h := fun q => g q / (q * q)).
  assert (Hh : forall x, Rmin (/ 10 ^ 5) 10 <= x <= Rmax (/ 10 ^ 5) 10 -> continuous (h : R -> R) x).
  { intros x Hx. rewrite Rmin_left, Rmax_right in Hx by lra. unfold h, Rdiv. apply (continuous_mult (K := R_AbsRing)); [apply (Hg x); unfold KMIN, KMAX; lra|]. apply (@ex_derive_continuous R_AbsRing R_NormedModule). auto_derive. assert (0 < x) by lra. nra. }
  destruct (Props_Quad.C120_substitution M_Quad.ExpSub h (/ 10 ^ 5) 10 ltac:(lra) ltac:(lra) Hh) as [Sub _]. cbn [M_Quad.sub_x M_Quad.sub_dx M_Quad.sub_u] in Sub.
  assert (Ex : ex_RInt h (/ 10 ^ 5) 10) by (apply (ex_RInt_continuous (V := R_CompleteNormedModule)); exact Hh).
  assert (Eh : forall q, / 10 ^ 5 < q < 10 -> h q = fn_full o q / q ^ 2) by (intros q Hq; unfold h; rewrite Ef by lra; f_equal; ring).
  split.
  - eapply ex_RInt_ext; [|exact Ex]. intros q Hq. rewrite Rmin_left, Rmax_right in Hq by lra. apply Eh, Hq.
  - rewrite <- (RInt_ext h (fun q => fn_full o q / q ^ 2) (/ 10 ^ 5) 10) by (intros q Hq; rewrite Rmin_left, Rmax_right in Hq by lra; apply Eh, Hq).
    unfold velocity_kurtosis0. cbv zeta. rewrite <- (is_RInt_unique _ _ _ _ Sub). unfold KMAX.
    rewrite (RInt_ext (fun t => h (exp t) * exp t) (fun t => fn_full o (exp t) / (exp t * exp t) * exp t)).
    + match goal with |- _ * ?r = _ => generalize r; intro r0 end. field. apply PI_neq0.
    + intros t Ht. rewrite Rmin_left, Rmax_right in Ht by (left; apply ln_increasing; lra). unfold h. rewrite Ef; [reflexivity|]. destruct Ht as [H1 H2].
      apply exp_increasing in H1. apply exp_increasing in H2. rewrite exp_ln in H1, H2 by lra. lra.
Qed.
Print Assumptions C164_kurtosis_is_the_moment.

(** ** C165: what is rescaled to another sigma8(z) is what would be computed afresh *)
Lemma full_scal w0 w1 P l o o' x : make w0 P22Bar P (/ 10 ^ 4) = Some o -> make w1 P22Bar (fun q => l * P q) (/ 10 ^ 4) = Some o' -> fn_full o' x = l ^ 2 * fn_full o x.
Proof.
  intros H H'. unfold fn_full, ol_full. destruct (make_ok w0 P22Bar P (/ 10 ^ 4)) as (_ & _ & a & _ & _ & _ & M & _ & K & _). rewrite H in M. injection M as <-.
  destruct (make_ok w1 P22Bar (fun q => l * P q) (/ 10 ^ 4)) as (_ & _ & a & _ & _ & _ & M & _ & K' & _). rewrite H' in M. injection M as <-.
  rewrite K, K'. destruct (Rlt_dec KMAX x); [ring|]. rewrite (make_scal w0 w1 P22Bar P l _ _ o o' x H H'). destruct (make_total w0 _ _ _ o x H) as [v ->]. reflexivity.
Qed.
Theorem C165_rescaled_kurtosis_is_the_fresh_one : forall w0 w1 P n, pt_kurtosis w0 P n = pt_kurtosis w1 (fun q => n * P q) 1.
Proof.
  intros w0 w1 P n. unfold pt_kurtosis, pt_spectrum.
  destruct (make_ok w0 P22Bar P (/ 10 ^ 4)) as (_ & _ & o & _ & _ & _ & M & _). destruct (make_ok w1 P22Bar (fun q => n * P q) (/ 10 ^ 4)) as (_ & _ & o' & _ & _ & _ & M' & _).
  rewrite M, M'. cbn [ob]. f_equal. unfold velocity_kurtosis0. cbv zeta.
  rewrite (RInt_ext (fun t => fn_full o' (exp t) / (exp t * exp t) * exp t) (fun t => n ^ 2 * (fn_full o (exp t) / (exp t * exp t) * exp t))).
  - rewrite RInt_scal'. ring.
  - intros t _. rewrite (full_scal w0 w1 P n o o' (exp t) M M'). match goal with |- @eq _ ?a ?b => change (@eq R a b) end. unfold Rdiv. ring.
Qed.
Print Assumptions C165_rescaled_kurtosis_is_the_fresh_one.
Theorem C165_rescaled_spectra_are_the_fresh_ones : forall w0 w1 P f n k,
  dm_Pdd w0 P n k = dm_Pdd w1 (fun q => n * P q) 1 k /\ dm_Pdv w0 P f n k = dm_Pdv w1 (fun q => n * P q) f 1 k /\ dm_Pvv w0 P f n k = dm_Pvv w1 (fun q => n * P q) f 1 k.
Proof.
  intros w0 w1 P f n k. unfold dm_Pdd, dm_Pdv, dm_Pvv, pt_spectrum.
  assert (X : forall K (g : R -> R -> R), (forall v, g n (P k + n * v) = g 1 (n * P k + 1 * (n ^ 2 * v))) ->
     ob (make w0 K P (/ 10 ^ 4)) (fun o => ob (ol_evaluate o k) (fun v => Some (g n (P k + n * v)))) = ob (make w1 K (fun q => n * P q) (/ 10 ^ 4)) (fun o => ob (ol_evaluate o k) (fun v => Some (g 1 (n * P k + 1 * v))))).
  { intros K g Hg. destruct (make_ok w0 K P (/ 10 ^ 4)) as (_ & _ & o & _ & _ & _ & M & _). destruct (make_ok w1 K (fun q => n * P q) (/ 10 ^ 4)) as (_ & _ & o' & _ & _ & _ & M' & _).
    rewrite M, M'. cbn [ob]. rewrite (make_scal w0 w1 K P n _ _ o o' k M M'). destruct (make_total w0 K P _ o k M) as [v ->]. cbn [ob option_map]. f_equal. apply Hg. }
  split; [apply (X Pdd (fun n x => n * x)); intros; ring|]. split; [apply (X Pdv (fun n x => - f * n * x)); intros; ring|apply (X Pvv (fun n x => f ^ 2 * n * x)); intros; ring].
Qed.
Print Assumptions C165_rescaled_spectra_are_the_fresh_ones.
Lemma terms_scal I I' a k m n0 : (forall q, i_L I' q = a * i_L I q) -> (forall q, i_1 I' q = a ^ 2 * i_1 I q) -> (forall q, i_2 I' q = a ^ 2 * i_2 I q) -> i_equal I' = i_equal I ->
  pt_norm 1 (pt_terms I' k m n0) = pt_norm a (pt_terms I k m n0).
Proof.
  intros HL H1 H2 HE.
  assert (A : forall f, il_integral f (i_L I') (i_L I') k = a ^ 2 * il_integral f (i_L I) (i_L I) k) by (intro f; apply il_ext; intros; rewrite !HL; ring).
  assert (B : forall f, il_cross_of f I' k = a ^ 3 * il_cross_of f I k).
  { intro f. unfold il_cross_of. rewrite HE. rewrite (il_ext f (i_L I') (i_2 I') (i_L I) (i_2 I) (a ^ 3) k) by (intros; rewrite HL, H2; ring).
    rewrite (il_ext f (i_1 I') (i_L I') (i_1 I) (i_L I) (a ^ 3) k) by (intros; rewrite HL, H1; ring). destruct (i_equal I); ring. }
  assert (C : forall f, il_integral f (i_1 I') (i_2 I') k = a ^ 4 * il_integral f (i_1 I) (i_2 I) k) by (intro f; apply il_ext; intros; rewrite H1, H2; ring).
  unfold pt_terms, il_linear, il_cross, il_oneloop. destruct (2 * m + n0)%Z as [|p|p]; [reflexivity| |reflexivity].
  do 4 (try destruct p as [p|p|]); try reflexivity; cbn [ob pt_norm]; f_equal; rewrite A, B, C; ring.
Qed.
Theorem C165_rescaled_two_loop_integrals_are_the_fresh_ones : forall w0 w1 P a k m n,
  Ivvdd w0 P a k m n = Ivvdd w1 (fun q => a * P q) 1 k m n /\ Idvdv w0 P a k m n = Idvdv w1 (fun q => a * P q) 1 k m n /\ Ivvvv w0 P a k m n = Ivvvv w1 (fun q => a * P q) 1 k m n.
Proof.
  intros w0 w1 P a k m n.
  assert (X : forall K, exists o o', pt_spectrum w0 P K = Some o /\ pt_spectrum w1 (fun q => a * P q) K = Some o' /\ ol_lin o = P /\ ol_lin o' = (fun q => a * P q) /\ forall x, fn o' x = a ^ 2 * fn o x).
  { intro K. unfold pt_spectrum. destruct (make_ok w0 K P (/ 10 ^ 4)) as (_ & _ & o & _ & _ & _ & M & _ & _ & L & _). destruct (make_ok w1 K (fun q => a * P q) (/ 10 ^ 4)) as (_ & _ & o' & _ & _ & _ & M' & _ & _ & L' & _).
    exists o, o'. do 4 (split; [assumption|]). intro x. exact (fn_scal w0 w1 K P a _ _ o o' x M M'). }
  destruct (X Pvv) as (vv & vv' & V & V' & LV & LV' & SV). destruct (X Pdd) as (dd & dd' & D & D' & LD & LD' & SD). destruct (X Pdv) as (dv & dv' & B & B' & LB & LB' & SB).
  unfold Ivvdd, Idvdv, Ivvvv. rewrite V, V', D, D', B, B'. cbn [ob].
  refine (conj _ (conj _ _)); symmetry; apply terms_scal; cbn [imn1_cross imn1_auto i_1 i_2 i_L i_equal]; try reflexivity; try assumption; intro q; rewrite ?LV, ?LV', ?LB, ?LB'; reflexivity.
Qed.
Print Assumptions C165_rescaled_two_loop_integrals_are_the_fresh_ones.
Example C165_nonvacuous : exists x, Ivvdd {| w_b := fun _ => 0; w_c := fun _ => 0; w_d := fun _ => 0 |} (fun q => q) 2 1 0 1 = Some x.
Proof.
  unfold Ivvdd, pt_spectrum. set (w0 := {| w_b := _; w_c := _; w_d := _ |}).
  destruct (make_ok w0 Pvv (fun q => q) (/ 10 ^ 4)) as (_ & _ & o & _ & _ & _ & M & _). destruct (make_ok w0 Pdd (fun q => q) (/ 10 ^ 4)) as (_ & _ & o' & _ & _ & _ & M' & _).
  rewrite M, M'. cbn [ob]. unfold pt_terms, il_linear, il_cross, il_oneloop. cbn [ob Z.mul Z.add pt_norm]. eexists. reflexivity.
Qed.

(** ** C166: the three pieces add up to the integral with the full one-loop spectra *)
Definition C166_pieces (h : R -> R -> R -> R) (L A B : R -> R) (k : R) : Prop :=
  bipolar2_exists h L L k /\ bipolar2_exists h L B k /\ bipolar2_exists h A L k /\ bipolar2_exists h A B k.
Lemma pieces_sum f h L A B n k : 0 < k <= 20 -> (forall q r, 0 < q -> 0 < r -> k < q + r -> r - q < k -> q - r < k -> f ((q + r) / k) ((r - q) / k) = h q r k) -> C166_pieces h L A B k ->
  n ^ 2 * il_integral f L L k + n ^ 3 * (il_integral f L B k + il_integral f A L k) + n ^ 4 * il_integral f A B k = bipolar2 h (fun q => n * L q + n ^ 2 * A q) (fun r => n * L r + n ^ 2 * B r) k.
Proof.
  intros Hk Hf (E1 & E2 & E3 & E4). rewrite !il_bip by lra. rewrite <- full_sum by assumption.
  rewrite !(bipolar2_ext (fun q r k => f ((q + r) / k) ((r - q) / k)) h) by assumption. reflexivity.
Qed.
Lemma auto_swap f L A k : 0 < k -> even_in_v f -> il_integral f A L k = il_integral f L A k.
Proof.
  intros Hk He. rewrite !il_bip by exact Hk. apply bipolar2_swap. intros q r. replace ((q - r) / k) with (- ((r - q) / k)) by (field; lra). rewrite He. f_equal. f_equal. ring.
Qed.
Theorem C166_two_loop_vvdd : forall w0 P n k h0 h2 vv dd, coefs_qq h0 h2 -> 0 < k <= 20 -> pt_spectrum w0 P Pvv = Some vv -> pt_spectrum w0 P Pdd = Some dd ->
  (C166_pieces h0 P (fn vv) (fn dd) k -> Ivvdd w0 P n k 0 1 = Some (bipolar2 h0 (fun q => n * P q + n ^ 2 * fn vv q) (fun r => n * P r + n ^ 2 * fn dd r) k)) /\
  (C166_pieces h2 P (fn vv) (fn dd) k -> Ivvdd w0 P n k 0 2 = Some (bipolar2 h2 (fun q => n * P q + n ^ 2 * fn vv q) (fun r => n * P r + n ^ 2 * fn dd r) k)).
Proof.
  intros w0 P n k h0 h2 vv dd Hh Hk V D.
  assert (LV : ol_lin vv = P). { unfold pt_spectrum in V. destruct (make_ok w0 Pvv P (/ 10 ^ 4)) as (_ & _ & o & _ & _ & _ & M & _ & _ & L & _). rewrite V in M. injection M as <-. exact L. }
  unfold Ivvdd. rewrite V, D. cbn [ob]. unfold pt_terms, il_linear, il_cross, il_oneloop. cbn [ob Z.mul Z.add pt_norm]. unfold il_cross_of. cbn [imn1_cross i_1 i_2 i_L i_equal]. rewrite LV.
  split; intro Hp; f_equal; apply pieces_sum; try assumption; intros q r Hq Hr H1 H2 H3; apply (qq_unique h0 h2 q r k Hh Hq Hr ltac:(lra) H1 H2 H3).
Qed.
Print Assumptions C166_two_loop_vvdd.
Theorem C166_two_loop_dvdv : forall w0 P n k h0 h2 dv, coefs_vv h0 h2 -> 0 < k <= 20 -> pt_spectrum w0 P Pdv = Some dv ->
  (C166_pieces h0 P (fn dv) (fn dv) k -> Idvdv w0 P n k 0 3 = Some (bipolar2 h0 (fun q => n * P q + n ^ 2 * fn dv q) (fun r => n * P r + n ^ 2 * fn dv r) k)) /\
  (C166_pieces h2 P (fn dv) (fn dv) k -> Idvdv w0 P n k 0 4 = Some (bipolar2 h2 (fun q => n * P q + n ^ 2 * fn dv q) (fun r => n * P r + n ^ 2 * fn dv r) k)).
Proof.
  intros w0 P n k h0 h2 dv Hh Hk V. destruct evens as (_ & _ & _ & E3 & E4).
  assert (LV : ol_lin dv = P). { unfold pt_spectrum in V. destruct (make_ok w0 Pdv P (/ 10 ^ 4)) as (_ & _ & o & _ & _ & _ & M & _ & _ & L & _). rewrite V in M. injection M as <-. exact L. }
  unfold Idvdv. rewrite V. cbn [ob]. unfold pt_terms, il_linear, il_cross, il_oneloop. cbn [ob Z.mul Z.add Pos.mul Pos.add pt_norm]. unfold il_cross_of. cbn [imn1_auto i_1 i_2 i_L i_equal]. rewrite LV.
  split; intro Hp; f_equal.
  - rewrite <- (pieces_sum il_h03 h0 P (fn dv) (fn dv) n k Hk); [rewrite (auto_swap il_h03 P (fn dv) k ltac:(lra) E3); ring| |exact Hp]. intros q r Hq Hr H1 H2 H3; apply (vv_unique h0 h2 q r k Hh Hq Hr ltac:(lra) H1 H2 H3).
  - rewrite <- (pieces_sum il_h04 h2 P (fn dv) (fn dv) n k Hk); [rewrite (auto_swap il_h04 P (fn dv) k ltac:(lra) E4); ring| |exact Hp]. intros q r Hq Hr H1 H2 H3; apply (vv_unique h0 h2 q r k Hh Hq Hr ltac:(lra) H1 H2 H3).
Qed.
Print Assumptions C166_two_loop_dvdv.
Theorem C166_two_loop_vvvv : forall w0 P n k h0 h2 h4 vv, coefs_vvvv h0 h2 h4 -> 0 < k <= 20 -> pt_spectrum w0 P Pvv = Some vv ->
  (C166_pieces (fun q r k => 8 * h0 q r k) P (fn vv) (fn vv) k -> Ivvvv w0 P n k 2 3 = Some (bipolar2 (fun q r k => 8 * h0 q r k) (fun q => n * P q + n ^ 2 * fn vv q) (fun r => n * P r + n ^ 2 * fn vv r) k)) /\
  (C166_pieces (fun q r k => 8 * h4 q r k) P (fn vv) (fn vv) k -> Ivvvv w0 P n k 3 3 = Some (bipolar2 (fun q r k => 8 * h4 q r k) (fun q => n * P q + n ^ 2 * fn vv q) (fun r => n * P r + n ^ 2 * fn vv r) k)).
Proof.
  intros w0 P n k h0 h2 h4 vv Hh Hk V. destruct evens_I as (_ & _ & _ & _ & _ & _ & _ & E23 & E32 & E33).
  assert (LV : ol_lin vv = P). { unfold pt_spectrum in V. destruct (make_ok w0 Pvv P (/ 10 ^ 4)) as (_ & _ & o & _ & _ & _ & M & _ & _ & L & _). rewrite V in M. injection M as <-. exact L. }
  unfold Ivvvv. rewrite V. cbn [ob]. unfold pt_terms, il_linear, il_cross, il_oneloop. cbn [ob Z.mul Z.add Pos.mul Pos.add Pos.succ pt_norm]. unfold il_cross_of. cbn [imn1_auto i_1 i_2 i_L i_equal]. rewrite LV.
  split; intro Hp; f_equal.
  - rewrite <- (pieces_sum il_f23 (fun q r k => 8 * h0 q r k) P (fn vv) (fn vv) n k Hk); [rewrite (auto_swap il_f23 P (fn vv) k ltac:(lra) E23); ring| |exact Hp]. intros q r Hq Hr H1 H2 H3; apply (vvvv_unique h0 h2 h4 q r k Hh Hq Hr ltac:(lra) H1 H2 H3).
  - rewrite <- (pieces_sum il_f33 (fun q r k => 8 * h4 q r k) P (fn vv) (fn vv) n k Hk); [rewrite (auto_swap il_f33 P (fn vv) k ltac:(lra) E33); ring| |exact Hp]. intros q r Hq Hr H1 H2 H3; apply (vvvv_unique h0 h2 h4 q r k Hh Hq Hr ltac:(lra) H1 H2 H3).
Qed.
Print Assumptions C166_two_loop_vvvv.
(** the drivers do not depend on which spectrum comes first when the kernel does not *)
Theorem C166_order_does_not_matter : forall o1 o2 k m n, ol_lin o1 = ol_lin o2 -> (2 * m + n = 3 \/ 2 * m + n = 4 \/ 2 * m + n = 7 \/ 2 * m + n = 8 \/ 2 * m + n = 9)%Z ->
  pt_terms (imn1_cross o1 o2) k m n = pt_terms (imn1_cross o2 o1) k m n.
Proof.
  intros o1 o2 k m n HL Hi. destruct evens as (_ & _ & _ & E3 & E4). destruct evens_I as (_ & _ & _ & _ & _ & _ & _ & E23 & E32 & E33).
  assert (S : forall f A B, even_in_v f -> il_integral f A B k = il_integral f B A k).
  { intros f A B He. destruct (Rle_dec k 0); [unfold il_integral; destruct (Rle_dec k 0); [reflexivity|lra]|]. apply auto_swap; [lra|exact He]. }
  unfold pt_terms, il_linear, il_cross, il_oneloop, il_cross_of. cbn [imn1_cross i_1 i_2 i_L i_equal]. rewrite HL.
  assert (T : forall f, even_in_v f -> Some (il_integral f (ol_lin o2) (ol_lin o2) k, il_integral f (ol_lin o2) (fn o2) k + il_integral f (fn o1) (ol_lin o2) k, il_integral f (fn o1) (fn o2) k)
     = Some (il_integral f (ol_lin o2) (ol_lin o2) k, il_integral f (ol_lin o2) (fn o1) k + il_integral f (fn o2) (ol_lin o2) k, il_integral f (fn o2) (fn o1) k)).
  { intros f He. rewrite (S f (fn o1) (fn o2) He), (S f (ol_lin o2) (fn o2) He), (S f (fn o1) (ol_lin o2) He). do 2 f_equal. f_equal. ring. }
  assert (L : forall f, even_in_v f -> True) by trivial.
  destruct Hi as [ Hi | [ Hi | [ Hi | [ Hi | Hi ]]]]; rewrite Hi; cbn [ob].
  - apply T; assumption.
  - apply T; assumption.
  - apply T; assumption.
  - rewrite (S il_f32 (ol_lin o2) (fn o2) E32), (S il_f32 (fn o1) (ol_lin o2) E32), (S il_f23 (fn o1) (fn o2) E23). do 2 f_equal. f_equal. ring.
  - apply T; assumption.
Qed.
Print Assumptions C166_order_does_not_matter.
Lemma zero_spectrum w0 K P eps : exists o, with_power w0 K P eps (repeat 0 1000) = Some o /\ ol_lin o = P /\ forall x, fn o x = 0.
Proof.
  assert (HL : (1000 <= length (repeat 0 1000))%nat) by (rewrite repeat_length; apply Nat.leb_le; reflexivity).
  destruct (with_power_ok w0 K P eps (repeat 0 1000) HL) as (ks & o & E & W & _ & L & _ & _ & S).
  exists o. split; [exact W|]. split; [exact L|]. intro x.
  assert (Em : map (Rmult 0) (repeat 0 1000) = repeat 0 1000) by (generalize 1000%nat; intro n0; induction n0 as [|n0 IH]; [reflexivity|]; cbn [repeat map]; rewrite IH; f_equal; ring).
  assert (W' := W). rewrite <- Em in W'. pose proof (with_power_eval w0 w0 K K P P eps eps 0 (repeat 0 1000) x o o HL W W') as Ev.
  unfold fn. destruct (ol_evaluate o x) as [v|] eqn:Ex; [|reflexivity]. cbn [option_map] in Ev. injection Ev as Ev. rewrite Ev. ring.
Qed.
(** the hypotheses of the theorems on the pieces are met: P = 0; and, with a table given by the user, P = q^3 *)
Definition C166_w0 := {| w_b := fun _ => 0; w_c := fun _ => 0; w_d := fun _ => 0 |}.
Example C166_nonvacuous : (forall w0, exists vv dd, pt_spectrum w0 (fun _ => 0) Pvv = Some vv /\ pt_spectrum w0 (fun _ => 0) Pdd = Some dd /\ forall h k, 0 < k <= 20 -> C166_pieces h (fun _ => 0) (fn vv) (fn dd) k) /\
  (exists h0 h2, coefs_qq h0 h2) /\
  (exists h0 h2 h4 o, coefs_vvvv h0 h2 h4 /\ with_power C166_w0 Pvv (fun q => q ^ 3) (/ 10 ^ 4) (repeat 0 1000) = Some o /\ C166_pieces (fun q r k => 8 * h0 q r k) (fun q => q ^ 3) (fn o) (fn o) 10 /\ 0 < bipolar2 (fun q r k => 8 * h0 q r k) (fun q => q ^ 3) (fun q => q ^ 3) 10).
Proof.
  split; [|split].
  - intro w0. destruct (make_ok w0 Pvv (fun _ => 0) (/ 10 ^ 4)) as (_ & _ & vv & _ & _ & _ & V & _). destruct (make_ok w0 Pdd (fun _ => 0) (/ 10 ^ 4)) as (_ & _ & dd & _ & _ & _ & D & _).
    exists vv, dd. split; [exact V|]. split; [exact D|]. intros h k Hk.
    assert (Z : forall K o, make w0 K (fun _ => 0) (/ 10 ^ 4) = Some o -> forall x, fn o x = 0).
    { intros K o H x. assert (H' : make w0 K (fun q => 0 * (fun _ => 0) q) (/ 10 ^ 4) = Some o). { rewrite <- H. f_equal. apply FunctionalExtensionality.functional_extensionality. intro; ring. }
      rewrite (fn_scal w0 w0 K (fun _ => 0) 0 _ _ o o x H H'). ring. }
    assert (V0 := Z _ _ V). assert (D0 := Z _ _ D). unfold C166_pieces. refine (conj _ (conj _ (conj _ _))); apply bip2_zero; try exact Hk; intros q r; rewrite ?V0, ?D0; ring.
  - exists (fun q r k => il_h01 ((q + r) / k) ((r - q) / k)), (fun q r k => il_h02 ((q + r) / k) ((r - q) / k)). intros K a c m H. exact (qq_cfg K a c m H).
  - destruct C159_coefs_exist as (_ & _ & _ & h0 & h2 & h4 & Hh). destruct (zero_spectrum C166_w0 Pvv (fun q => q ^ 3) (/ 10 ^ 4)) as (o & W & L & F).
    exists h0, h2, h4, o. split; [exact Hh|]. split; [exact W|]. destruct f23_cube as [A B].
    assert (E : forall q r, 0 < q -> 0 < r -> 10 < q + r -> r - q < 10 -> q - r < 10 -> il_f23 ((q + r) / 10) ((r - q) / 10) = 8 * h0 q r 10) by (intros q r Hq Hr H1 H2 H3; apply (vvvv_unique h0 h2 h4 q r 10 Hh Hq Hr ltac:(lra) H1 H2 H3)).
    split.
    + unfold C166_pieces. split; [exact (bipolar2_ex_ext (fun q r k => il_f23 ((q + r) / k) ((r - q) / k)) (fun q r k => 8 * h0 q r k) _ _ 10 ltac:(lra) E A)|]. refine (conj _ (conj _ _)); apply bip2_zero; try lra; intros q r; rewrite ?F; ring.
    + rewrite <- (bipolar2_ext (fun q r k => il_f23 ((q + r) / k) ((r - q) / k)) (fun q r k => 8 * h0 q r k) _ _ 10 ltac:(lra) E). exact B.
Qed.

(** ** C167: where the two-loop integrals are not what they should be *)
(** the (3,2) integral: its cross piece is right ... *)
Theorem C167_cross_piece_partial : forall o k h0 h2 h4, coefs_vvvv h0 h2 h4 -> 0 < k <= 20 ->
  il_cross (imn1_auto o) k 3 2 = Some (bipolar2 (fun q r k => 4 * h2 q r k) (ol_lin o) (fn o) k + bipolar2 (fun q r k => 4 * h2 q r k) (fn o) (ol_lin o) k).
Proof.
  intros o k h0 h2 h4 Hh Hk. destruct evens_I as (_ & _ & _ & _ & _ & _ & _ & E23 & E32 & E33).
  unfold il_cross. cbn [Z.mul Z.add Pos.mul Pos.add Pos.succ]. unfold il_cross_of. cbn [imn1_auto i_1 i_2 i_L i_equal]. f_equal.
  assert (E : forall q r, 0 < q -> 0 < r -> k < q + r -> r - q < k -> q - r < k -> il_f32 ((q + r) / k) ((r - q) / k) = 4 * h2 q r k) by (intros q r Hq Hr H1 H2 H3; apply (vvvv_unique h0 h2 h4 q r k Hh Hq Hr ltac:(lra) H1 H2 H3)).
  rewrite <- !(bipolar2_ext (fun q r k => il_f32 ((q + r) / k) ((r - q) / k)) (fun q r k => 4 * h2 q r k) _ _ k Hk E). rewrite <- !il_bip by lra. rewrite (auto_swap il_f32 (ol_lin o) (fn o) k ltac:(lra) E32). ring.
Qed.
Print Assumptions C167_cross_piece_partial.
(** ... but its linear and one-loop pieces are those of (2,3) *)
Theorem C167_other_pieces_partial : forall I k, il_linear I k 3 2 = il_linear I k 2 3 /\ il_oneloop I k 3 2 = il_oneloop I k 2 3.
Proof. intros. split; reflexivity. Qed.
Print Assumptions C167_other_pieces_partial.
Theorem C167_two_loop_sum_refuted :
  (~ forall w0 P n k h0 h2 h4 o, coefs_vvvv h0 h2 h4 -> 0 < k <= 20 -> (exists power, with_power w0 Pvv P (/ 10 ^ 4) power = Some o) -> C166_pieces (fun q r k => 4 * h2 q r k) P (fn o) (fn o) k ->
      pt_norm n (pt_terms (imn1_auto o) k 3 2) = Some (bipolar2 (fun q r k => 4 * h2 q r k) (fun q => n * P q + n ^ 2 * fn o q) (fun r => n * P r + n ^ 2 * fn o r) k)) /\
  (forall w0 h0 h2 h4, coefs_vvvv h0 h2 h4 -> exists vv a b c, pt_spectrum w0 (fun q => q ^ 3) Pvv = Some vv /\ pt_terms (imn1_auto vv) 10 3 2 = Some (a, b, c) /\
      bipolar2 (fun q r k => 4 * h2 q r k) (fun q => q ^ 3) (fun q => q ^ 3) 10 < 0 < a).
Proof.
  assert (Eq : forall h0 h2 h4, coefs_vvvv h0 h2 h4 -> forall q r, 0 < q -> 0 < r -> 10 < q + r -> r - q < 10 -> q - r < 10 -> il_f32 ((q + r) / 10) ((r - q) / 10) = 4 * h2 q r 10)
    by (intros h0 h2 h4 Hh q r Hq Hr H1 H2 H3; apply (vvvv_unique h0 h2 h4 q r 10 Hh Hq Hr ltac:(lra) H1 H2 H3)).
  split.
  - intro H. destruct C159_coefs_exist as (_ & _ & _ & h0 & h2 & h4 & Hh). destruct (zero_spectrum C166_w0 Pvv (fun q => q ^ 3) (/ 10 ^ 4)) as (o & W & L & F).
    assert (E := Eq h0 h2 h4 Hh). destruct f23_cube as [_ B]. destruct f32_cube as [A C].
    assert (Pc : C166_pieces (fun q r k => 4 * h2 q r k) (fun q => q ^ 3) (fn o) (fn o) 10).
    { unfold C166_pieces. split; [exact (bipolar2_ex_ext (fun q r k => il_f32 ((q + r) / k) ((r - q) / k)) (fun q r k => 4 * h2 q r k) _ _ 10 ltac:(lra) E A)|]. refine (conj _ (conj _ _)); apply bip2_zero; try lra; intros q r; rewrite ?F; ring. }
    specialize (H C166_w0 (fun q => q ^ 3) 1 10 h0 h2 h4 o Hh ltac:(lra) (ex_intro _ _ W) Pc).
    destruct Pc as (Pc1 & Pc2 & Pc3 & Pc4). pose proof (full_sum (fun q r k => 4 * h2 q r k) (fun q => q ^ 3) (fn o) (fn o) 1 10 ltac:(lra) Pc1 Pc2 Pc3 Pc4) as FS. cbv beta in FS, H. rewrite <- FS in H.
    rewrite <- (bipolar2_ext (fun q r k => il_f32 ((q + r) / k) ((r - q) / k)) (fun q r k => 4 * h2 q r k) _ _ 10 ltac:(lra) E) in H.
    assert (Z : forall g P1 P2, (forall q r, P1 q * P2 r = 0) -> bipolar2 g P1 P2 10 = 0) by (intros g P1 P2 HZ; exact (proj2 (bip2_zero g P1 P2 10 ltac:(lra) HZ))).
    rewrite (Z _ (fun q => q ^ 3) (fn o)) in H by (intros; rewrite F; ring). rewrite (Z _ (fn o) (fun q => q ^ 3)) in H by (intros; rewrite F; ring). rewrite (Z _ (fn o) (fn o)) in H by (intros; rewrite F; ring).
    unfold pt_terms, il_linear, il_cross, il_oneloop in H. cbn [ob Z.mul Z.add Pos.mul Pos.add Pos.succ pt_norm] in H. unfold il_cross_of in H. cbn [imn1_auto i_1 i_2 i_L i_equal] in H. rewrite L in H. rewrite !il_bip in H by lra.
    rewrite (Z _ (fun q => q ^ 3) (fn o)) in H by (intros; rewrite F; ring). rewrite (Z _ (fn o) (fn o)) in H by (intros; rewrite F; ring).
    apply Some_inj in H. lra.
  - intros w0 h0 h2 h4 Hh. unfold pt_spectrum. destruct (make_ok w0 Pvv (fun q => q ^ 3) (/ 10 ^ 4)) as (_ & _ & vv & _ & _ & _ & V & _ & _ & L & _).
    exists vv, (il_integral il_f23 (ol_lin vv) (ol_lin vv) 10), (il_cross_of il_f32 (imn1_auto vv) 10), (il_integral il_f23 (fn vv) (fn vv) 10). split; [exact V|]. split; [reflexivity|].
    rewrite L, il_bip by lra. rewrite <- (bipolar2_ext (fun q r k => il_f32 ((q + r) / k) ((r - q) / k)) (fun q r k => 4 * h2 q r k) _ _ 10 ltac:(lra) (Eq h0 h2 h4 Hh)). destruct f23_cube as [_ B]. destruct f32_cube as [_ C]. split; assumption.
Qed.
Print Assumptions C167_two_loop_sum_refuted.
(** indices for which nothing was derived: 2m + n selects the kernel, so (1,1) is (0,3) and (1,2) is (0,4); any other sum stops the process *)
Theorem C167_indices_alias_refuted : forall I k, pt_terms I k 1 1 = pt_terms I k 0 3 /\ pt_terms I k 1 0 = pt_terms I k 0 2 /\ pt_terms I k 2 0 = pt_terms I k 0 4 /\ (forall n, pt_terms I k (-2) n = pt_terms I k 0 (n - 4)) /\ pt_terms I k 2 2 = None.
Proof. intros I k. refine (conj _ (conj _ (conj _ (conj _ _)))); try reflexivity. intro n. unfold pt_terms, il_linear, il_cross, il_oneloop. replace (2 * -2 + n)%Z with (2 * 0 + (n - 4))%Z by ring. reflexivity. Qed.
Print Assumptions C167_indices_alias_refuted.
(** a base-class spectrum keeps the table but evaluates to zero *)
Theorem C167_base_class_ignores_its_table_refuted : forall P eps power k, ol_power (make_base P eps power) = power /\ (forall v, ol_evaluate (make_base P eps power) k = Some v -> v = 0).
Proof. intros P eps power k. split; [reflexivity|]. intros v. unfold ol_evaluate. destruct (Rlt_dec k KMIN); [intro H; apply Some_inj in H; exact H|]. destruct (Rlt_dec KMAX k); [intro H; apply Some_inj in H; exact H|]. cbn. intro H. apply Some_inj in H; exact H. Qed.
Print Assumptions C167_base_class_ignores_its_table_refuted.
