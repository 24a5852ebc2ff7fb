(** Property theorems C175 - C178: the FFTLog integral transforms. *)
From Coq Require Import Reals List ZArith Arith Lra Lia.
From Coquelicot Require Import Coquelicot.
From Verif Require Import M_Mcfit S_Mcfit P_Mcfit.
Import ListNotations.
Local Open Scope R_scope.

(** transforming F, tabulated on x, with T and the result back with T' gives x and F again *)
Definition round_trip (T T' : list R -> option mc) (x F : list R) (el er : bool) : Prop :=
  exists c y G c', T x = Some c /\ mc_call c F el er = Some (y, G) /\ T' y = Some c' /\ mc_call c' G el er = Some (x, F).
Lemma pair_general UK q (p r p' r' : R -> R) x0 D n lowring el er F :
  unitary UK q -> (forall v, 0 < v -> p' v * Rpower v (-q) * (r v * Rpower v (-q)) = 1) -> (forall v, 0 < v -> r' v * Rpower v (-q) * (p v * Rpower v (-q)) = 1) ->
  0 < x0 -> 0 < D -> (2 <= n)%nat -> (lowring = true \/ Nat.odd n = true) -> length F = n ->
  round_trip (fun x => option_map (times p r) (mc_init x UK q (Some n) lowring)) (fun x => option_map (times p' r') (mc_init x UK q (Some n) lowring)) (log_grid x0 D n) F el er.
Proof.
  intros HU P1 P2 Hx HD Hn HL HF. unfold round_trip. assert (HNn : (n <= fft_len (Some n) n)%nat) by (cbn; lia).
  set (y0 := out0 UK q n lowring x0 D n). assert (Hy : 0 < y0) by (apply out0_pos; exact Hx).
  set (u := map (fun m => UK (q, (2 * PI / INR n / D * INR m)%R) * cexp (0%R, (- (2 * PI * lnxy UK q n lowring D / INR n / D * INR m))%R))%C (seq 0 (n/2 + 1))).
  pose proof (init_grid UK q (Some n) lowring x0 D n Hx Hn HNn) as I1. pose proof (init_grid UK q (Some n) lowring y0 D n Hy Hn HNn) as I2.
  cbn [fft_len] in I1, I2. fold y0 u in I1, I2. unfold y0 in I2 at 3. rewrite out0_out0 in I2 by exact Hx.
  pose proof (coeffs_good UK q n lowring D HU HD ltac:(lia) HL) as G. fold u in G.
  set (c := times p r {| c_x := log_grid x0 D n; c_q := q; c_N := n; c_y := log_grid y0 D n; c_u := u; c_pre := map (fun _ => 1) (log_grid x0 D n); c_post := map (fun _ => 1) (log_grid x0 D n) |}).
  set (c' := times p' r' {| c_x := log_grid y0 D n; c_q := q; c_N := n; c_y := log_grid x0 D n; c_u := u; c_pre := map (fun _ => 1) (log_grid y0 D n); c_post := map (fun _ => 1) (log_grid y0 D n) |}).
  assert (L1 : length (c_x c) = n) by (cbn; apply grid_len). assert (L2 : length (c_x c') = n) by (cbn; apply grid_len).
  set (gx := fun i => x0 * exp (INR i * D)). set (gy := fun i => y0 * exp (INR i * D)).
  assert (Gx : forall i, 0 < gx i) by (intros; apply Rmult_lt_0_compat; [exact Hx|apply exp_pos]). assert (Gy : forall i, 0 < gy i) by (intros; apply Rmult_lt_0_compat; [exact Hy|apply exp_pos]).
  assert (ONE : forall (l : list R) i, (i < length l)%nat -> nth i (map (fun _ => 1) l) 0 = 1).
  { intros l. induction l as [|a l IH]; intros i Hi; [cbn in Hi; lia|]. destruct i as [|i]; [reflexivity|]. cbn [map nth]. apply IH. cbn in Hi. lia. }
  assert (F1 : forall i, (i < n)%nat -> nth i (c_pre c) 0 = p (gx i) /\ nth i (c_post c) 0 = r (gy i) /\ nth i (c_x c) 0 = gx i /\ nth i (c_y c) 0 = gy i).
  { intros i Hi. unfold c, times. cbn [c_pre c_post c_x c_y]. rewrite grid_len, !nth_map_seq, !ONE, !grid_nth by (rewrite ?grid_len; exact Hi). unfold gx, gy. split; [ring|split; [ring|split; reflexivity]]. }
  assert (F2 : forall i, (i < n)%nat -> nth i (c_pre c') 0 = p' (gy i) /\ nth i (c_post c') 0 = r' (gx i) /\ nth i (c_x c') 0 = gy i /\ nth i (c_y c') 0 = gx i).
  { intros i Hi. unfold c', times. cbn [c_pre c_post c_x c_y]. rewrite grid_len, !nth_map_seq, !ONE, !grid_nth by (rewrite ?grid_len; exact Hi). unfold gx, gy. split; [ring|split; [ring|split; reflexivity]]. }
  assert (N1 : c_N c = n) by reflexivity. assert (N2 : c_N c' = n) by reflexivity.
  assert (PAD : forall k V, length (c_x k) = n -> c_N k = n -> padded k V el er = fin k V).
  { intros k V A B. unfold padded. cbv zeta. rewrite A, B, Nat.sub_diag. cbn [Nat.div Nat.divmod fst Nat.sub]. unfold pad_l, pad_r. cbn [seq map app]. apply app_nil_r. }
  pose proof (call_core c F el er) as K1. rewrite L1, N1, (PAD c F L1 N1) in K1. specialize (K1 HF (le_n n) ltac:(lia)). rewrite Nat.sub_diag in K1.
  set (GG := map _ (seq 0 n)) in K1. assert (LG : length GG = n) by (unfold GG; rewrite map_length, seq_length; reflexivity).
  pose proof (call_core c' GG el er) as K2. rewrite L2, N2, (PAD c' GG L2 N2) in K2. specialize (K2 LG (le_n n) ltac:(lia)). rewrite Nat.sub_diag in K2.
  exists c, (log_grid y0 D n), GG, c'. rewrite I1, I2. cbn [option_map].
  split; [reflexivity|]. split; [exact K1|]. split; [reflexivity|]. rewrite K2. f_equal. f_equal.
  apply (nth_ext _ _ 0 0); [rewrite map_length, seq_length; symmetry; exact HF|]. intros i Hi. rewrite map_length, seq_length in Hi. rewrite nth_map_seq by exact Hi.
  destruct (F2 i Hi) as (_ & E2 & _ & E4). rewrite E2, E4. change (c_q c') with q. change (c_u c') with u. cbn [Nat.div Nat.divmod fst Nat.sub]. rewrite Nat.add_0_r.
  rewrite (core_ext n _ (fun m => nth m u (RtoC 0)) _ (core n (fun m => nth m u (RtoC 0)) (fun j => p (gx j) * Rpower (gx j) (-q) * nth j F 0)) i); [| |reflexivity|exact Hi].
  - rewrite core_core by (try exact G; try exact Hi; lia). rewrite <- Rmult_assoc. rewrite P2 by apply Gx. ring.
  - intros k Hk. unfold fin. rewrite L2, nth_map_seq by exact Hk. destruct (F2 k Hk) as (A1 & _ & A3 & _). rewrite A1, A3. change (c_q c') with q.
    unfold GG. rewrite nth_map_seq by exact Hk. destruct (F1 k Hk) as (_ & B2 & _ & B4). rewrite B2, B4. change (c_q c) with q. change (c_u c) with u.
    cbn [Nat.div Nat.divmod fst Nat.sub]. rewrite Nat.add_0_r. rewrite <- Rmult_assoc. rewrite P1 by apply Gy. rewrite Rmult_1_l. apply core_ext; [|reflexivity|exact Hk].
    intros j Hj. unfold fin. rewrite L1, nth_map_seq by exact Hj. destruct (F1 j Hj) as (C1 & _ & C3 & _). rewrite C1, C3. reflexivity.
Qed.
Lemma rp3 v : 0 < v -> v^3 = Rpower v (3/2) * Rpower v (3/2). Proof. intros H. rewrite <- Rpower_plus. replace (3/2 + 3/2) with (INR 3) by (cbn; lra). symmetry. apply Rpower_pow. exact H. Qed.
Lemma rp1 v : 0 < v -> v = Rpower v (1/2) * Rpower v (1/2). Proof. intros H. rewrite <- Rpower_plus. replace (1/2 + 1/2) with 1 by lra. symmetry. apply Rpower_1. exact H. Qed.
Lemma rpinv v a : 0 < v -> Rpower v (-a) * Rpower v a = 1. Proof. intros H. rewrite <- Rpower_plus. replace (-a + a) with 0 by ring. apply Rpower_O. exact H. Qed.

(** ** C175: the documented transform pairs are pairs. With an FFT as long as the data (and the low-ringing grid, or an odd length) each of the four
    transforms is exactly its own inverse, and xi2P exactly undoes P2xi, for any data. *)
Theorem C175_hankel_self_inverse : forall lg nu x0 D n lowring el er F, reflecting lg -> -1 < nu -> 0 < x0 -> 0 < D -> (2 <= n)%nat ->
  (lowring = true \/ Nat.odd n = true) -> length F = n ->
  round_trip (fun x => Hankel lg nu x (Some n) lowring) (fun x => Hankel lg nu x (Some n) lowring) (log_grid x0 D n) F el er.
Proof.
  intros lg nu x0 D n lowring el er F HG Hnu Hx HD Hn HL HF. unfold Hankel. assert (Q : forall v, 0 < v -> v^2 * Rpower v (-(1)) = v) by (intros v Hv; rewrite Rpower_Ropp, Rpower_1 by exact Hv; field; lra).
  apply pair_general; try assumption; [apply unit_besselj; assumption| |]; intros v Hv; unfold one; pose proof (rpinv v 1 Hv) as Z; rewrite (Rpower_1 v Hv) in Z; rewrite ?Q by exact Hv; nra.
Qed.
Print Assumptions C175_hankel_self_inverse.
Theorem C175_spherical_bessel_self_inverse : forall lg nu x0 D n lowring el er F, reflecting lg -> -(3/2) < nu -> 0 < x0 -> 0 < D -> (2 <= n)%nat ->
  (lowring = true \/ Nat.odd n = true) -> length F = n ->
  round_trip (fun x => SphericalBessel lg nu x (Some n) lowring) (fun x => SphericalBessel lg nu x (Some n) lowring) (log_grid x0 D n) F el er.
Proof.
  intros lg nu x0 D n lowring el er F HG Hnu Hx HD Hn HL HF. unfold SphericalBessel.
  apply pair_general; try assumption; [apply unit_sphj; assumption| |]; intros v Hv; unfold one; pose proof (rpinv v (3/2) Hv) as Z; rewrite (rp3 v Hv); nra.
Qed.
Print Assumptions C175_spherical_bessel_self_inverse.
Theorem C175_fourier_self_inverse : forall lg x0 D n lowring el er F, reflecting lg -> 0 < x0 -> 0 < D -> (2 <= n)%nat ->
  (lowring = true \/ Nat.odd n = true) -> length F = n ->
  round_trip (fun x => FourierSine lg x (Some n) lowring) (fun x => FourierSine lg x (Some n) lowring) (log_grid x0 D n) F el er /\
  round_trip (fun x => FourierCosine lg x (Some n) lowring) (fun x => FourierCosine lg x (Some n) lowring) (log_grid x0 D n) F el er.
Proof.
  intros lg x0 D n lowring el er F HG Hx HD Hn HL HF. unfold FourierSine, FourierCosine.
  split; (apply pair_general; try assumption; [first [apply unit_sine; assumption|apply unit_cosine; assumption]| |]); intros v Hv; unfold one; pose proof (rpinv v (1/2) Hv) as Z; pose proof (rp1 v Hv) as W;
    set (a := Rpower v (1/2)) in *; set (b := Rpower v (-(1/2))) in *; rewrite W; nra.
Qed.
Print Assumptions C175_fourier_self_inverse.
Lemma sgn_sq h : (-1)^h * (-1)^h = 1. Proof. rewrite <- Rpow_mult_distr. replace (-1 * -1) with 1 by ring. apply pow1. Qed.
Theorem C175_xi2P_undoes_P2xi : forall lg h x0 D n lowring el er P, reflecting lg -> 0 < x0 -> 0 < D -> (2 <= n)%nat ->
  (lowring = true \/ Nat.odd n = true) -> length P = n ->
  round_trip (fun k => P2xi lg h k (Some n) lowring) (fun r => xi2P lg h r (Some n) lowring) (log_grid x0 D n) P el er.
Proof.
  intros lg h x0 D n lowring el er F HG Hx HD Hn HL HF. unfold P2xi, xi2P. pose proof (sgn_sq h) as S. assert (S0 : (-1)^h <> 0) by (intros Z; rewrite Z in S; lra).
  assert (C0 : 0 < Rpower (2*PI) (3/2)) by apply exp_pos. assert (HU : unitary (mellin_sphj lg (INR (2*h))) (3/2)) by (apply unit_sphj; [exact HG|pose proof (pos_INR (2*h)); lra]).
  apply pair_general; try assumption; intros v Hv; unfold one; pose proof (rpinv v (3/2) Hv) as Z; rewrite (rp3 v Hv); set (a := Rpower v (3/2)) in *; set (b := Rpower v (-(3/2))) in *.
  - nra.
  - transitivity ((b*a)*(b*a)); [field; split; lra|rewrite Z; ring].
Qed.
Print Assumptions C175_xi2P_undoes_P2xi.
Example C175_nonvacuous : reflecting (fun z => z) /\ 0 < 1/1000 /\ (2 <= 1024)%nat /\ length (repeat 1 4) = 4%nat.
Proof. split; [intros z _; reflexivity|]. split; [lra|]. split; [lia|reflexivity]. Qed.

(** ** C176: exact on logarithmic harmonics *)
Lemma gen_scale h y l : 0 < y -> is_RInt_gen h (at_right 0) (Rbar_locally p_infty) l -> is_RInt_gen (fun x => y * h (y*x)) (at_right 0) (Rbar_locally p_infty) l.
Proof.
  intros Hy H P HP. destruct (H P HP) as [Q R HQ HR HQR].
  apply (Filter_prod _ _ _ (fun a => Q (y*a)) (fun b => R (y*b))).
  - destruct HQ as [e He]. assert (E : 0 < e / y) by (apply Rdiv_lt_0_compat; [apply cond_pos|exact Hy]). exists (mkposreal _ E). intros a Ba Ha. apply He.
    + unfold ball in *. cbn in *. unfold AbsRing_ball, abs, minus, plus, opp in *. cbn in *. rewrite Ropp_0, Rplus_0_r in *. rewrite Rabs_mult, (Rabs_right y) by lra.
      apply (Rmult_lt_compat_l y) in Ba; [|exact Hy]. replace (y * (e/y)) with (pos e) in Ba by (field; lra). exact Ba.
    + apply Rmult_lt_0_compat; assumption.
  - destruct HR as [M HM]. exists (M / y). intros b Hb. apply HM. apply (Rmult_lt_compat_l y) in Hb; [|exact Hy]. replace (y * (M/y)) with M in Hb by (field; lra). exact Hb.
  - intros a b Ha Hb. destruct (HQR _ _ Ha Hb) as (v & Hv & Pv). exists v. split; [|exact Pv]. cbn [fst snd] in *.
    pose proof (is_RInt_comp_lin h y 0 a b v) as L. rewrite !Rplus_0_r in L. specialize (L Hv). revert L. apply is_RInt_ext. intros x _. cbn. unfold mult. cbn. rewrite Rplus_0_r. reflexivity.
Qed.
Lemma harmonic_transform K q eta U A phi y : mellin_at K q eta U -> 0 < y ->
  transforms_to (fun x => A * Rpower x q * cos (eta * ln x + phi)) K y (A * Rpower y (-q) * (Re U * cos (phi - eta * ln y) - Im U * sin (phi - eta * ln y))).
Proof.
  intros (H1 & H2) Hy. unfold transforms_to. set (c := phi - eta * ln y).
  pose proof (is_RInt_gen_plus _ _ _ _ (is_RInt_gen_scal _ (A * Rpower y (-q) * cos c) _ H1) (is_RInt_gen_scal _ (- (A * Rpower y (-q) * sin c)) _ H2)) as H.
  match type of H with is_RInt_gen ?f _ _ ?l => pose proof (gen_scale f y l Hy H) as S end.
  replace (A * Rpower y (-q) * (Re U * cos c - Im U * sin c)) with (plus (scal (A * Rpower y (-q) * cos c) (Re U)) (scal (- (A * Rpower y (-q) * sin c)) (Im U))) by (cbn; unfold plus, scal, mult; cbn; unfold mult; cbn; ring).
  revert S. apply is_RInt_gen_ext. apply (Filter_prod _ _ _ (fun a => 0 < a) (fun b => 0 < b)).
  - exists (mkposreal 1 Rlt_0_1). intros a _ Ha. exact Ha.
  - exists 0. intros b Hb. exact Hb.
  - intros a b Ha Hb x [Hx _]. cbn [fst snd] in Hx. assert (X : 0 < x) by (pose proof (Rmin_glb_lt a b 0 Ha Hb); lra).
    cbn; unfold plus, scal, mult; cbn; unfold mult; cbn.
    rewrite ln_mult by assumption. rewrite <- Rpower_mult_distr by assumption. rewrite (Rmult_comm x y).
    replace (eta * ln x + phi) with (c + eta * (ln y + ln x)) by (unfold c; ring). rewrite cos_plus.
    replace (Rpower x q) with (Rpower x (q - 1) * x) by (rewrite <- (Rpower_1 x) at 2 by exact X; rewrite <- Rpower_plus; f_equal; ring).
    assert (Y : y * (Rpower y (-q) * Rpower y (q - 1)) = 1).
    { rewrite <- Rpower_plus. rewrite <- (Rpower_1 y) at 1 by exact Hy. rewrite <- Rpower_plus. replace (1 + (-q + (q - 1))) with 0 by ring. apply Rpower_O. exact Hy. }
    transitivity ((y * (Rpower y (-q) * Rpower y (q - 1))) * (A * Rpower x (q - 1) * (cos c * cos (eta * (ln y + ln x)) - sin c * sin (eta * (ln y + ln x))) * K (y*x))); [ring|].
    rewrite Y. field. lra.
Qed.
Lemma pad_none k V el er n : length (c_x k) = n -> c_N k = n -> padded k V el er = fin k V.
Proof. intros A B. unfold padded. cbv zeta. rewrite A, B, Nat.sub_diag. cbn [Nat.div Nat.divmod fst Nat.sub]. unfold pad_l, pad_r. cbn [seq map app]. apply app_nil_r. Qed.
Lemma ones (l : list R) i : (i < length l)%nat -> nth i (map (fun _ => 1) l) 0 = 1.
Proof. revert i. induction l as [|a l IH]; intros i Hi; [cbn in Hi; lia|]. destruct i as [|i]; [reflexivity|]. cbn [map nth]. apply IH. cbn in Hi. lia. Qed.
Lemma exact_general UK K q (p r F : R -> R) lowring x0 D n m A phi el er : 0 < x0 -> 0 < D -> (0 < m)%nat -> (2*m < n)%nat ->
  mellin_at K q (2 * PI * INR m / (INR n * D)) (UK (q, 2 * PI * INR m / (INR n * D))) ->
  (forall x, 0 < x -> p x * F x = A * Rpower x q * cos (2 * PI * INR m / (INR n * D) * ln x + phi)) ->
  exists c y G, option_map (times p r) (mc_init (log_grid x0 D n) UK q (Some n) lowring) = Some c /\ mc_call c (map F (log_grid x0 D n)) el er = Some (y, G) /\
    length y = n /\ length G = n /\
    forall j, (j < n)%nat -> exists v, transforms_to (fun x => p x * F x) K (nth j y 0) v /\ nth j G 0 = r (nth j y 0) * v.
Proof.
  intros Hx HD Hm H2 HM HF. set (eta := 2 * PI * INR m / (INR n * D)) in *. assert (Hn : (2 <= n)%nat) by lia. assert (NN : 0 < INR n) by (apply lt_0_INR; lia).
  assert (HNn : (n <= fft_len (Some n) n)%nat) by (cbn; lia).
  set (y0 := out0 UK q n lowring x0 D n). assert (Hy : 0 < y0) by (apply out0_pos; exact Hx).
  set (ug := fun m => (UK (q, (2 * PI / INR n / D * INR m)%R) * cexp (0%R, (- (2 * PI * lnxy UK q n lowring D / INR n / D * INR m))%R))%C).
  pose proof (init_grid UK q (Some n) lowring x0 D n Hx Hn HNn) as I1. cbn [fft_len] in I1. fold y0 ug in I1. rewrite I1. cbn [option_map]. clear I1.
  match goal with |- exists c y G, Some ?k = Some c /\ _ => set (c := k) end.
  assert (L1 : length (c_x c) = n) by (cbn; apply grid_len). assert (N1 : c_N c = n) by reflexivity.
  assert (LF : length (map F (log_grid x0 D n)) = n) by (rewrite map_length; apply grid_len).
  pose proof (call_core c (map F (log_grid x0 D n)) el er) as K1. rewrite L1, N1, (pad_none _ _ _ _ n L1 N1) in K1. specialize (K1 LF (le_n n) ltac:(lia)). rewrite Nat.sub_diag in K1.
  set (GG := map _ (seq 0 n)) in K1. exists c, (log_grid y0 D n), GG. split; [reflexivity|]. split; [exact K1|]. split; [apply grid_len|]. split; [unfold GG; rewrite map_length, seq_length; reflexivity|].
  intros j Hj. rewrite grid_nth by exact Hj. set (y := y0 * exp (INR j * D)). assert (Y : 0 < y) by (apply Rmult_lt_0_compat; [exact Hy|apply exp_pos]).
  exists (A * Rpower y (-q) * (Re (UK (q, eta)) * cos (phi - eta * ln y) - Im (UK (q, eta)) * sin (phi - eta * ln y))). split.
  { pose proof (harmonic_transform K q eta _ A phi y HM Y) as T. revert T. unfold transforms_to. apply is_RInt_gen_ext. apply (Filter_prod _ _ _ (fun a => 0 < a) (fun b => 0 < b)).
    - exists (mkposreal 1 Rlt_0_1). intros a _ Ha. exact Ha.
    - exists 0. intros b Hb. exact Hb.
    - intros a b Ha Hb x [Hx' _]. cbn [fst snd] in Hx'. assert (X : 0 < x) by (pose proof (Rmin_glb_lt a b 0 Ha Hb); lra). rewrite HF by exact X. reflexivity. }
  unfold GG. rewrite nth_map_seq by exact Hj. cbn [Nat.div Nat.divmod fst Nat.sub]. rewrite Nat.add_0_r.
  assert (P1 : nth j (c_post c) 0 = r y). { unfold c, times. cbn [c_post c_x c_y]. rewrite grid_len, nth_map_seq, ones, grid_nth by (rewrite ?grid_len; exact Hj). fold y. ring. }
  rewrite P1. change (c_q c) with q. change (c_y c) with (log_grid y0 D n). rewrite grid_nth by exact Hj. fold y.
  set (z := (RtoC A * cexp (0, phi + eta * ln x0)%R)%C).
  rewrite (core_ext n _ ug _ (fun k => Re (z * Cconj (tw n m k))%C) j).
  - rewrite core_harmonic by (try exact Hm; try exact H2; exact Hj).
    rewrite Rmult_assoc. rewrite (Rmult_assoc A). rewrite (Rmult_comm A). rewrite !Rmult_assoc. do 2 f_equal.
    set (s := lnxy UK q n lowring D). assert (LY : ln y = s - INR n * D - ln x0 + INR j * D).
    { unfold y, y0, out0. fold s. rewrite ln_mult by first [apply exp_pos|apply Rdiv_lt_0_compat; [apply exp_pos|exact Hx]]. rewrite ln_div by (try exact Hx; apply exp_pos). rewrite !ln_exp. ring. }
    unfold ug. replace (2 * PI / INR n / D * INR m) with eta by (unfold eta; field; lra). set (W := UK (q, eta)).
    assert (E : (cexp (0, phi + eta * ln x0)%R * cexp (0, - (2 * PI * s / INR n / D * INR m))%R * tw n m j)%C = cexp (0, phi - eta * ln y)%R).
    { unfold tw. rewrite <- !cexp_plus. rewrite <- (Cmult_1_r (cexp (0, phi - eta * ln y)%R)). rewrite <- (cexp_turn m). rewrite <- cexp_plus. f_equal. apply C_ext; cunf; [ring|]. rewrite LY. unfold eta. field. lra. }
    transitivity (Re (RtoC A * W * (cexp (0, phi + eta * ln x0)%R * cexp (0, - (2 * PI * s / INR n / D * INR m))%R * tw n m j))%C); [f_equal; unfold z; fold s; ring|].
    rewrite E. cunf. rewrite exp_0. ring.
  - intros k Hk. unfold fin. rewrite L1, nth_map_seq by exact Hk. unfold c, times. cbn [c_pre c_x c_q]. rewrite grid_len, nth_map_seq, ones, grid_nth by (rewrite ?grid_len; exact Hk).
    set (x := x0 * exp (INR k * D)). assert (X : 0 < x) by (apply Rmult_lt_0_compat; [exact Hx|apply exp_pos]).
    rewrite (nth_indep _ 0 (F 0)) by (rewrite LF; exact Hk). rewrite map_nth, grid_nth by exact Hk. fold x.
    transitivity (Rpower x (-q) * (p x * F x)); [ring|]. rewrite HF by exact X. transitivity ((Rpower x (-q) * Rpower x q) * (A * cos (eta * ln x + phi))); [ring|]. rewrite rpinv by exact X. rewrite Rmult_1_l.
    assert (LX : ln x = ln x0 + INR k * D) by (unfold x; rewrite ln_mult by (try exact Hx; apply exp_pos); rewrite ln_exp; reflexivity).
    unfold z, tw. rewrite <- cexp_conj, <- Cmult_assoc, <- cexp_plus. cunf. replace (0 + 0) with 0 by ring. rewrite exp_0. rewrite LX.
    replace (phi + eta * ln x0 + - - (2 * PI * INR m * INR k / INR n)) with (eta * (ln x0 + INR k * D) + phi) by (unfold eta; field; lra). ring.
  - intros k Hk. unfold c, times. cbn [c_u]. apply nth_map_seq. lia.
  - exact Hj.
Qed.
Lemma times_one c : length (c_pre c) = length (c_x c) -> length (c_post c) = length (c_x c) -> times (fun _ => 1) (fun _ => 1) c = c.
Proof.
  intros A B. destruct c as [x q N y u pr po]. cbn [c_pre c_post c_x] in *. unfold times. cbn [c_x c_q c_N c_y c_u c_pre c_post].
  assert (Q : forall l : list R, length l = length x -> map (fun i => nth i l 0 * 1) (seq 0 (length x)) = l).
  { intros l E. apply (nth_ext _ _ 0 0); [rewrite map_length, seq_length; symmetry; exact E|]. intros i Hi. rewrite map_length, seq_length in Hi. rewrite (nth_map_seq (fun i => nth i l 0 * 1)) by exact Hi. ring. }
  rewrite (Q pr A), (Q po B). reflexivity.
Qed.
(** If UK is the Mellin transform of the kernel K at q + i eta_m, the m-th harmonic of the grid is transformed to the exact integral
    int_0^oo F(x) K(x y) dx/x at every y that is returned. *)
Theorem C176_exact_on_log_harmonics : forall (UK : C -> C) K q lowring x0 D n m A phi el er, 0 < x0 -> 0 < D -> (0 < m)%nat -> (2*m < n)%nat ->
  let eta := 2 * PI * INR m / (INR n * D) in let F := fun x => A * Rpower x q * cos (eta * ln x + phi) in
  mellin_at K q eta (UK (q, eta)) ->
  exists c y G, mc_init (log_grid x0 D n) UK q (Some n) lowring = Some c /\ mc_call c (map F (log_grid x0 D n)) el er = Some (y, G) /\
    length y = n /\ length G = n /\ forall j, (j < n)%nat -> transforms_to F K (nth j y 0) (nth j G 0).
Proof.
  intros UK K q lowring x0 D n m A phi el er Hx HD Hm H2 eta F HM.
  destruct (exact_general UK K q (fun _ => 1) (fun _ => 1) F lowring x0 D n m A phi el er Hx HD Hm H2 HM) as (c & y & G & E1 & E2 & L1 & L2 & E3).
  { intros x _. unfold F, eta. ring. }
  destruct (mc_init (log_grid x0 D n) UK q (Some n) lowring) as [c0|] eqn:I0; [|discriminate]. cbn [option_map] in E1. injection E1 as E1. subst c.
  assert (EC : times (fun _ => 1) (fun _ => 1) c0 = c0).
  { rewrite (init_grid UK q (Some n) lowring x0 D n Hx ltac:(lia) ltac:(cbn; lia)) in I0. injection I0 as I0. subst c0. apply times_one; cbn [c_pre c_post c_x]; rewrite map_length; reflexivity. }
  rewrite EC in E2. exists c0, y, G. split; [reflexivity|].
  split; [exact E2|]. split; [exact L1|]. split; [exact L2|]. intros j Hj. destruct (E3 j Hj) as (v & T & E). rewrite E, Rmult_1_l.
  revert T. unfold transforms_to. apply is_RInt_gen_ext. apply (Filter_prod _ _ _ (fun _ => True) (fun _ => True)).
  - exists (mkposreal 1 Rlt_0_1). intros; exact I.
  - exists 0. intros; exact I.
  - intros. rewrite Rmult_1_l. reflexivity.
Qed.
Print Assumptions C176_exact_on_log_harmonics.
(** The same for P2xi: xi(r) = i^l/(2 pi)^(3/2) int k^2 P(k) K(k r) dk for even l = 2h, K the kernel whose Mellin transform kernels.py gives. *)
Theorem C176_P2xi_exact : forall lg K h lowring k0 D n m A phi el er, 0 < k0 -> 0 < D -> (0 < m)%nat -> (2*m < n)%nat ->
  let eta := 2 * PI * INR m / (INR n * D) in let P := fun k => A * Rpower k (-(3/2)) * cos (eta * ln k + phi) in
  mellin_at K (3/2) eta (mellin_sphj lg (INR (2*h)) (3/2, eta)) ->
  exists c r xi, P2xi lg h (log_grid k0 D n) (Some n) lowring = Some c /\ mc_call c (map P (log_grid k0 D n)) el er = Some (r, xi) /\
    length r = n /\ length xi = n /\ forall j, (j < n)%nat ->
      transforms_to (fun k => (-1)^h / Rpower (2*PI) (3/2) * k^3 * P k) K (nth j r 0) (nth j xi 0).
Proof.
  intros lg K h lowring k0 D n m A phi el er Hx HD Hm H2 eta P HM. assert (C0 : 0 < Rpower (2*PI) (3/2)) by apply exp_pos.
  destruct (exact_general (mellin_sphj lg (INR (2*h))) K (3/2) (fun v => (-1)^h / Rpower (2*PI) (3/2) * v^3) one P lowring k0 D n m ((-1)^h / Rpower (2*PI) (3/2) * A) phi el er Hx HD Hm H2 HM) as (c & y & G & E1 & E2 & L1 & L2 & E3).
  { intros x X. unfold P. fold eta. pose proof (rpinv x (3/2) X) as Z. rewrite (rp3 x X). set (a := Rpower x (3/2)) in *. set (b := Rpower x (-(3/2))) in *.
    transitivity ((-1)^h / Rpower (2*PI) (3/2) * A * a * (b*a) * cos (eta * ln x + phi)); [ring|]. rewrite Z. ring. }
  exists c, y, G. split; [exact E1|]. split; [exact E2|]. split; [exact L1|]. split; [exact L2|]. intros j Hj. destruct (E3 j Hj) as (v & T & E). rewrite E. unfold one. rewrite Rmult_1_l. exact T.
Qed.
Print Assumptions C176_P2xi_exact.
(** Without extrapolation every transform is linear in the data. *)
Theorem C176_linear : forall c a b F H, (length (c_x c) <= c_N c)%nat -> (0 < c_N c)%nat -> length F = length (c_x c) -> length H = length (c_x c) ->
  exists y GF GH G, mc_call c F false false = Some (y, GF) /\ mc_call c H false false = Some (y, GH) /\
    mc_call c (map (fun i => a * nth i F 0 + b * nth i H 0) (seq 0 (length (c_x c)))) false false = Some (y, G) /\
    forall j, (j < length (c_x c))%nat -> nth j G 0 = a * nth j GF 0 + b * nth j GH 0.
Proof.
  intros c a b F H HN H0 LF LH. set (FH := map (fun i => a * nth i F 0 + b * nth i H 0) (seq 0 (length (c_x c)))). assert (LFH : length FH = length (c_x c)) by (unfold FH; rewrite map_length, seq_length; reflexivity).
  rewrite (call_core c F), (call_core c H), (call_core c FH) by assumption. do 4 eexists. split; [reflexivity|]. split; [reflexivity|]. split; [reflexivity|]. intros j Hj.
  rewrite !nth_map_seq by exact Hj. set (s := (j + _)%nat). assert (Hs : (s < c_N c)%nat).
  { unfold s. assert ((c_N c - length (c_x c))/2 <= c_N c - length (c_x c))%nat by (apply Nat.div_le_upper_bound; lia). lia. }
  assert (HP : ((c_N c - length (c_x c))/2 <= c_N c - length (c_x c))%nat) by (apply Nat.div_le_upper_bound; lia).
  rewrite (core_ext (c_N c) _ (fun m => nth m (c_u c) (RtoC 0)) _ (fun k => a * nth k (padded c F false false) 0 + b * nth k (padded c H false false) 0) s); [rewrite core_lin by exact H0; ring| |reflexivity|exact Hs].
  intros k Hk. unfold padded. cbv zeta. set (Np := (c_N c - length (c_x c))%nat) in *.
  assert (LL : forall V, length (pad_l false (Np/2) (fin c V)) = (Np/2)%nat) by (intros; unfold pad_l; rewrite map_length, seq_length; reflexivity).
  assert (LM : forall V, length (fin c V) = length (c_x c)) by (intros; unfold fin; rewrite map_length, seq_length; reflexivity).
  assert (PZ : forall m i, nth i (map (fun _ : nat => 0) (seq 0 m)) 0 = 0).
  { intros m i. destruct (Nat.lt_ge_cases i m) as [L|L]; [rewrite (nth_map_seq (fun _ => 0)) by exact L; reflexivity|apply nth_overflow; rewrite map_length, seq_length; exact L]. }
  destruct (Nat.lt_ge_cases k (Np/2)) as [K1|K1].
  - rewrite !app_nth1 by (rewrite LL; exact K1). unfold pad_l. rewrite !PZ. ring.
  - rewrite !(app_nth2 (pad_l _ _ _)) by (rewrite LL; exact K1). rewrite !LL. destruct (Nat.lt_ge_cases (k - Np/2) (length (c_x c))) as [K2|K2].
    + rewrite !app_nth1 by (rewrite LM; exact K2). unfold fin. rewrite !nth_map_seq by exact K2. unfold FH. rewrite nth_map_seq by exact K2. ring.
    + rewrite !app_nth2 by (rewrite LM; exact K2). unfold pad_r. rewrite !PZ. ring.
Qed.
Print Assumptions C176_linear.
(** a kernel with its Mellin transform: the unit step, whose transform is 1/(1 + i eta) at q = 1 *)
Definition step (t : R) : R := if Rle_dec t 1 then 1 else 0.
Lemma step_int (f g : R -> R) l C : (forall t, 0 < t -> is_derive g t (f t)) -> (forall t, 0 < t -> continuous f t) -> g 1 = l -> 0 < C -> (forall t, 0 < t -> Rabs (g t) <= C * t) ->
  is_RInt_gen (fun t => f t * step t) (at_right 0) (Rbar_locally p_infty) l.
Proof.
  intros Hd Hc Hl HC Hb P [e He]. assert (E : 0 < Rmin 1 (e/C)) by (apply Rmin_pos; [lra|apply Rdiv_lt_0_compat; [apply cond_pos|exact HC]]).
  apply (Filter_prod _ _ _ (fun a => 0 < a < Rmin 1 (e/C)) (fun b => 1 < b)).
  - exists (mkposreal _ E). intros a Ba Ha. unfold ball in Ba. cbn in Ba. unfold AbsRing_ball, abs, minus, plus, opp in Ba. cbn in Ba. rewrite Ropp_0, Rplus_0_r, Rabs_right in Ba by lra. lra.
  - exists 1. intros b Hb1. exact Hb1.
  - intros a b (A0 & A1) B1. cbn [fst snd]. assert (A2 : a < 1) by (pose proof (Rmin_l 1 (e/C)); lra). assert (A3 : a < e/C) by (pose proof (Rmin_r 1 (e/C)); lra).
    exists (g 1 - g a). split.
    + rewrite <- (Rplus_0_r (g 1 - g a)). apply (@is_RInt_Chasles R_NormedModule _ a 1 b (g 1 - g a) 0).
      * apply (is_RInt_ext f); [intros x; rewrite Rmin_left, Rmax_right by lra; intros Hx; unfold step; destruct (Rle_dec x 1); [rewrite Rmult_1_r; reflexivity|exfalso; lra]|].
        apply (is_RInt_derive g f); intros x; rewrite Rmin_left, Rmax_right by lra; intros Hx; [apply Hd|apply Hc]; lra.
      * apply (is_RInt_ext (fun _ => 0)); [intros x; rewrite Rmin_left, Rmax_right by lra; intros Hx; unfold step; destruct (Rle_dec x 1); [exfalso; lra|rewrite Rmult_0_r; reflexivity]|].
        pose proof (@is_RInt_const R_NormedModule 1 b 0) as Z0. assert (Z1 : @scal _ R_NormedModule (b - 1) 0 = 0) by (unfold scal; cbn; unfold mult; cbn; ring). match type of Z0 with is_RInt _ _ _ ?v => change v with (@scal _ R_NormedModule (b - 1) 0) in Z0 end; rewrite Z1 in Z0. exact Z0.
    + apply He. unfold ball. cbn. unfold AbsRing_ball, abs, minus, plus, opp. cbn. rewrite Hl. replace (l - g a + - l) with (- g a) by ring. rewrite Rabs_Ropp.
      apply (Rle_lt_trans _ (C * a)); [apply Hb; exact A0|]. apply (Rmult_lt_compat_l C) in A3; [|exact HC]. replace (C * (e/C)) with (pos e) in A3 by (field; lra). exact A3.
Qed.
Lemma step_mellin eta : mellin_at step 1 eta (1/(1 + eta^2), - eta/(1 + eta^2)).
Proof.
  assert (Q : 0 < 1 + eta^2) by nra.
  assert (B : forall t u v, 0 < t -> Rabs (t * (u * cos (eta * ln t) + v * sin (eta * ln t)) / (1 + eta^2)) <= (Rabs u + Rabs v) / (1 + eta^2) * t).
  { intros t u v Ht. replace (t * (u * cos (eta * ln t) + v * sin (eta * ln t)) / (1 + eta^2)) with ((u * cos (eta * ln t) + v * sin (eta * ln t)) * (t / (1 + eta^2))) by (field; lra).
    assert (T : 0 < t / (1 + eta^2)) by (apply Rdiv_lt_0_compat; assumption). rewrite Rabs_mult, (Rabs_right (t/_)) by lra.
    replace ((Rabs u + Rabs v) / (1 + eta^2) * t) with ((Rabs u + Rabs v) * (t/(1 + eta^2))) by (field; lra). apply Rmult_le_compat_r; [lra|].
    apply (Rle_trans _ (Rabs (u * cos (eta * ln t)) + Rabs (v * sin (eta * ln t)))); [apply Rabs_triang|]. rewrite !Rabs_mult.
    assert (Rabs (cos (eta * ln t)) <= 1) by (apply Rabs_le; destruct (COS_bound (eta * ln t)); lra). assert (Rabs (sin (eta * ln t)) <= 1) by (apply Rabs_le; destruct (SIN_bound (eta * ln t)); lra).
    pose proof (Rabs_pos u). pose proof (Rabs_pos v). nra. }
  split; unfold Re, Im; cbn [fst snd].
  - apply (is_RInt_gen_ext (fun t => cos (eta * ln t) * step t)).
    { apply (Filter_prod _ _ _ (fun a => 0 < a) (fun b => 0 < b)); [exists (mkposreal 1 Rlt_0_1); intros a _ Ha; exact Ha|exists 0; intros b Hb; exact Hb|].
      intros a b Ha Hb x [Hx _]. cbn [fst snd] in Hx. assert (X : 0 < x) by (pose proof (Rmin_glb_lt a b 0 Ha Hb); lra). replace (1 - 1) with 0 by ring. rewrite Rpower_O by exact X. rewrite Rmult_1_l. reflexivity. }
    apply (step_int (fun t => cos (eta * ln t)) (fun t => t * (1 * cos (eta * ln t) + eta * sin (eta * ln t)) / (1 + eta^2)) _ ((Rabs 1 + Rabs eta) / (1 + eta^2))).
    + intros t Ht. auto_derive; [repeat split; exact Ht|]. match goal with |- @eq _ ?a ?b => change (@eq R a b) end. field. lra.
    + intros t Ht. apply (@ex_derive_continuous R_AbsRing R_NormedModule). auto_derive. exact Ht.
    + rewrite ln_1, Rmult_0_r, cos_0, sin_0. field. lra.
    + apply Rdiv_lt_0_compat; [rewrite Rabs_R1; pose proof (Rabs_pos eta); lra|exact Q].
    + intros t Ht. apply B. exact Ht.
  - apply (is_RInt_gen_ext (fun t => sin (eta * ln t) * step t)).
    { apply (Filter_prod _ _ _ (fun a => 0 < a) (fun b => 0 < b)); [exists (mkposreal 1 Rlt_0_1); intros a _ Ha; exact Ha|exists 0; intros b Hb; exact Hb|].
      intros a b Ha Hb x [Hx _]. cbn [fst snd] in Hx. assert (X : 0 < x) by (pose proof (Rmin_glb_lt a b 0 Ha Hb); lra). replace (1 - 1) with 0 by ring. rewrite Rpower_O by exact X. rewrite Rmult_1_l. reflexivity. }
    apply (step_int (fun t => sin (eta * ln t)) (fun t => t * (- eta * cos (eta * ln t) + 1 * sin (eta * ln t)) / (1 + eta^2)) _ ((Rabs (-eta) + Rabs 1) / (1 + eta^2))).
    + intros t Ht. auto_derive; [repeat split; exact Ht|]. match goal with |- @eq _ ?a ?b => change (@eq R a b) end. field. lra.
    + intros t Ht. apply (@ex_derive_continuous R_AbsRing R_NormedModule). auto_derive. exact Ht.
    + rewrite ln_1, Rmult_0_r, cos_0, sin_0. field. lra.
    + apply Rdiv_lt_0_compat; [rewrite Rabs_R1; pose proof (Rabs_pos (-eta)); lra|exact Q].
    + intros t Ht. apply B. exact Ht.
Qed.
Example C176_nonvacuous : exists UK : C -> C, forall eta, mellin_at step 1 eta (UK (1, eta)).
Proof. exists (fun z => (1/(1 + (Im z)^2), - (Im z)/(1 + (Im z)^2))). intros eta. apply (step_mellin eta). Qed.

(** ** C177: the discrete Plancherel inequality *)
Lemma sum_sq_seq (f : nat -> R) n s : fold_right (fun v t => v^2 + t) 0 (map f (seq s n)) = rsum n (fun i => (f (s + i)%nat)^2).
Proof.
  revert s. induction n as [|n IH]; intros s; [reflexivity|]. rewrite seq_S, map_app. cbn [map rsum]. rewrite <- IH. generalize (map f (seq s n)) as l. intros l. induction l as [|v l IHl]; cbn [app fold_right]; [ring|]. rewrite IHl. ring.
Qed.
Lemma rsum_shift f n s : rsum (s + n) f = rsum s f + rsum n (fun i => f (s + i)%nat).
Proof. induction n as [|n IH]; [rewrite Nat.add_0_r; cbn; ring|]. rewrite Nat.add_succ_r. cbn [rsum]. rewrite IH. ring. Qed.
Lemma rsum_pos n f : (forall k, (k < n)%nat -> 0 <= f k) -> 0 <= rsum n f.
Proof. induction n as [|n IH]; intros H; cbn [rsum]; [lra|]. pose proof (IH ltac:(intros; apply H; lia)). pose proof (H n ltac:(lia)). lra. Qed.
Lemma rsum_window f n s N : (s + n <= N)%nat -> (forall k, (k < N)%nat -> 0 <= f k) -> rsum n (fun i => f (s + i)%nat) <= rsum N f.
Proof.
  intros H P. replace N with (s + n + (N - (s + n)))%nat by lia. rewrite !rsum_shift. pose proof (rsum_pos s f ltac:(intros; apply P; lia)).
  pose proof (rsum_pos (N - (s+n)) (fun i => f (s + n + i)%nat) ltac:(intros; apply P; lia)). lra.
Qed.
(** With zero padding P2xi never increases the sum of squares: (2 pi)^3 sum r^3 xi^2 <= sum k^3 P^2, with equality when the FFT is as long as the data. *)
Theorem C177_plancherel : forall lg h k0 D n No P, reflecting lg -> 0 < k0 -> 0 < D -> (2 <= n)%nat -> (n <= fft_len No n)%nat -> length P = n ->
  exists c r xi, P2xi lg h (log_grid k0 D n) No true = Some c /\ mc_call c P false false = Some (r, xi) /\
    let E := (2*PI)^3 * sum_sq (map (fun i => Rpower (nth i r 0) (3/2) * nth i xi 0) (seq 0 n)) in
    let E0 := sum_sq (map (fun i => Rpower (nth i (log_grid k0 D n) 0) (3/2) * nth i P 0) (seq 0 n)) in
    E <= E0 /\ (No = Some n -> E = E0).
Proof.
  intros lg h k0 D n No P HG Hx HD Hn HN HP. set (UK := mellin_sphj lg (INR (2*h))). assert (HU : unitary UK (3/2)) by (apply unit_sphj; [exact HG|pose proof (pos_INR (2*h)); lra]).
  unfold P2xi. fold UK. set (N := fft_len No n) in *. set (y0 := out0 UK (3/2) N true k0 D n). assert (Hy : 0 < y0) by (apply out0_pos; exact Hx).
  pose proof (init_grid UK (3/2) No true k0 D n Hx Hn HN) as I1. fold N y0 in I1. rewrite I1. clear I1. cbn [option_map].
  pose proof (coeffs_good UK (3/2) N true D HU HD ltac:(lia) (or_introl eq_refl)) as G. set (u := map _ (seq 0 (N/2 + 1))) in *.
  match goal with |- exists c y G, Some ?k = Some c /\ _ => set (c := k) end.
  assert (L1 : length (c_x c) = n) by (cbn; apply grid_len). assert (N1 : c_N c = N) by reflexivity.
  pose proof (call_core c P false false) as K1. rewrite L1, N1 in K1. specialize (K1 HP HN ltac:(lia)). set (s := (N - n - (N - n)/2)%nat) in K1. set (GG := map _ (seq 0 n)) in K1.
  exists c, (log_grid y0 D n), GG. split; [reflexivity|]. split; [exact K1|]. cbv zeta.
  assert (PP := PI_RGT_0). set (g := Rpower (2*PI) (3/2)). assert (Hg : g^2 = (2*PI)^3) by (unfold g; cbn [pow]; rewrite Rmult_1_r; rewrite <- (rp3 (2*PI)) by lra; cbn [pow]; reflexivity).
  assert (Hg0 : 0 < g) by apply exp_pos. pose proof (sgn_sq h) as S.
  set (f := fun i => Rpower (k0 * exp (INR i * D)) (3/2) * nth i P 0). set (sg := (-1)^h / g).
  assert (FI : forall i, (i < n)%nat -> nth i (fin c P) 0 = sg * f i).
  { intros i Hi. unfold fin. rewrite L1, nth_map_seq by exact Hi. unfold c, times. cbn [c_pre c_x c_q]. rewrite grid_len, nth_map_seq, ones, grid_nth by (rewrite ?grid_len; exact Hi). fold g sg. unfold f.
    set (x := k0 * exp (INR i * D)). assert (X : 0 < x) by (apply Rmult_lt_0_compat; [exact Hx|apply exp_pos]). rewrite (rp3 x X). pose proof (rpinv x (3/2) X) as Z. set (a := Rpower x (3/2)) in *. set (b := Rpower x (-(3/2))) in *.
    transitivity (sg * a * (b*a) * nth i P 0); [ring|]. rewrite Z. ring. }
  set (co := core N (fun m => nth m u (RtoC 0)) (fun j => nth j (padded c P false false) 0)).
  assert (GI : forall i, (i < n)%nat -> Rpower (nth i (log_grid y0 D n) 0) (3/2) * nth i GG 0 = co (s + i)%nat).
  { intros i Hi. unfold GG. rewrite nth_map_seq by exact Hi. change (c_u c) with u. rewrite (Nat.add_comm s i). fold co. unfold c, times. cbn [c_post c_x c_y c_q]. rewrite grid_len, nth_map_seq, ones, !grid_nth by (rewrite ?grid_len; exact Hi).
    unfold one. set (y := y0 * exp (INR i * D)). assert (Y : 0 < y) by (apply Rmult_lt_0_compat; [exact Hy|apply exp_pos]). pose proof (rpinv y (3/2) Y) as Z. set (a := Rpower y (3/2)) in *. set (b := Rpower y (-(3/2))) in *.
    transitivity ((b*a) * co (i + s)%nat); [ring|]. rewrite Z. ring. }
  assert (HPd : ((N - n)/2 <= N - n)%nat) by (apply Nat.div_le_upper_bound; lia).
  assert (E1 : sum_sq (map (fun i => Rpower (nth i (log_grid y0 D n) 0) (3/2) * nth i GG 0) (seq 0 n)) = rsum n (fun i => (co (s + i)%nat)^2)).
  { unfold sum_sq. rewrite sum_sq_seq. apply rsum_ext. intros i Hi. cbn [Nat.add]. rewrite GI by exact Hi. reflexivity. }
  assert (E0 : (2*PI)^3 * rsum N (fun j => (nth j (padded c P false false) 0)^2) = sum_sq (map (fun i => Rpower (nth i (log_grid k0 D n) 0) (3/2) * nth i P 0) (seq 0 n))).
  { unfold sum_sq. rewrite sum_sq_seq. assert (PZ : forall m i, nth i (map (fun _ : nat => 0) (seq 0 m)) 0 = 0).
    { intros m i. destruct (Nat.lt_ge_cases i m) as [L|L]; [rewrite (nth_map_seq (fun _ => 0)) by exact L; reflexivity|apply nth_overflow; rewrite map_length, seq_length; exact L]. }
    assert (R0 : forall m w, (forall k, (k < m)%nat -> w k = 0) -> rsum m w = 0) by (induction m as [|m IH]; intros w Hw; cbn [rsum]; [reflexivity|rewrite IH by (intros; apply Hw; lia); rewrite Hw by lia; ring]).
    assert (LL : length (pad_l false ((N - n)/2) (fin c P)) = ((N - n)/2)%nat) by (unfold pad_l; rewrite map_length, seq_length; reflexivity).
    assert (LM : length (fin c P) = n) by (unfold fin; rewrite map_length, seq_length; exact L1).
    replace N with ((N - n)/2 + (n + s))%nat at 1 by (unfold s; lia). rewrite !rsum_shift. unfold padded. cbv zeta. rewrite L1, N1.
    rewrite R0 by (intros k Hk; rewrite app_nth1 by (rewrite LL; exact Hk); unfold pad_l; rewrite PZ; ring).
    rewrite (R0 s) by (intros k Hk; rewrite app_nth2 by (rewrite LL; lia); rewrite LL; replace ((N - n)/2 + (n + k) - (N - n)/2)%nat with (n + k)%nat by lia; rewrite app_nth2 by (rewrite LM; lia); unfold pad_r; rewrite PZ; ring).
    rewrite (rsum_ext n _ (fun i => sg^2 * (f i)^2)).
    - rewrite rsum_scal. rewrite <- Hg. transitivity (g^2 * sg^2 * rsum n (fun i => (f i)^2)); [ring|]. replace (g^2 * sg^2) with 1 by (unfold sg; replace 1 with ((-1)^h * (-1)^h) by exact S; field; lra).
      rewrite Rmult_1_l. apply rsum_ext. intros i Hi. cbn [Nat.add]. rewrite grid_nth by exact Hi. reflexivity.
    - intros i Hi. rewrite app_nth2 by (rewrite LL; lia). rewrite LL. replace ((N - n)/2 + i - (N - n)/2)%nat with i by lia. rewrite app_nth1 by (rewrite LM; exact Hi). rewrite FI by exact Hi. ring. }
  rewrite E1, <- E0. pose proof (core_norm N (fun m => nth m u (RtoC 0)) (fun j => nth j (padded c P false false) 0) ltac:(lia) G) as CN. fold co in CN. rewrite <- CN.
  assert (T3 : 0 < (2*PI)^3) by (apply pow_lt; lra). split.
  - apply Rmult_le_compat_l; [lra|]. apply (rsum_window (fun j => (co j)^2)); [unfold s; lia|]. intros; apply pow2_ge_0.
  - intros EN. f_equal. assert (NE : N = n) by (unfold N; rewrite EN; reflexivity). assert (S0 : s = 0%nat) by (unfold s; rewrite NE; rewrite Nat.sub_diag; reflexivity). rewrite S0, NE. reflexivity.
Qed.
Print Assumptions C177_plancherel.
Example C177_nonvacuous : reflecting (fun z => z) /\ (5 <= fft_len None 5)%nat /\ fft_len None 5 = 16%nat. Proof. split; [intros z _; reflexivity|]. split; [cbn; lia|reflexivity]. Qed.

(** ** C178: the default length *)
Lemma angle_pos (z : C) : 0 <= Re (z * cexp (0, - angle z)%R)%C.
Proof.
  destruct z as [a b]. unfold angle. cunf. rewrite exp_0, sin_neg, cos_neg. unfold atan2.
  assert (Q : forall x, 0 < sqrt (1 + x²)). { intros x. apply sqrt_lt_R0. pose proof (Rle_0_sqr x). lra. }
  assert (POS : forall a, a <> 0 -> 0 <= a * (a / sqrt (1 + (b/a)²) + b * (b/a) / sqrt (1 + (b/a)²))).
  { intros a' Ha. pose proof (Q (b/a')) as Q1. replace (a' * (a' / sqrt (1 + (b/a')²) + b * (b/a') / sqrt (1 + (b/a')²))) with ((a'^2 + b^2) / sqrt (1 + (b/a')²)) by (field; split; first [exact Ha|lra]).
    apply Rmult_le_pos; [nra|]. apply Rlt_le, Rinv_0_lt_compat. exact Q1. }
  destruct (Rlt_dec 0 a) as [P|P].
  { rewrite sin_atan, cos_atan. pose proof (POS a ltac:(lra)) as W. set (s := sqrt _) in *. assert (0 < s) by apply Q. apply (Rmult_le_reg_l a); [lra|]. rewrite Rmult_0_r. eapply Rle_trans; [exact W|]. right. field. lra. }
  destruct (Rlt_dec a 0) as [M|M].
  { pose proof (POS a ltac:(lra)) as W. destruct (Rle_dec 0 b) as [B|B]; [rewrite neg_sin, neg_cos|rewrite sin_minus, cos_minus, sin_PI, cos_PI]; rewrite sin_atan, cos_atan; set (s := sqrt _) in *; assert (0 < s) by apply Q;
    apply (Rmult_le_reg_l (-a)); try lra; rewrite Rmult_0_r; (eapply Rle_trans; [exact W|]); right; field; lra. }
  assert (a = 0) by lra. subst a. destruct (Rlt_dec 0 b); [rewrite cos_PI2, sin_PI2; lra|]. destruct (Rlt_dec b 0).
  - rewrite cos_neg, sin_neg, cos_PI2, sin_PI2. lra.
  - assert (b = 0) by lra. subst b. lra.
Qed.
Lemma core4 (u : nat -> C) a b c s : u 0%nat = RtoC 1 -> u 1%nat = (c, s) -> u 2%nat = RtoC 1 ->
  core 4 u (fun j => nth j [0; a; b; 0] 0) 1 = 1/2 * (a * (1 - c) - b * s) /\ core 4 u (fun j => nth j [0; a; b; 0] 0) 2 = 1/2 * (- a * s + b * (1 + c)).
Proof.
  intros U0 U1 U2. assert (W : tw 4 1 1 = (0, -1)).
  { unfold tw. replace (2 * PI * INR 1 * INR 1 / INR 4) with (PI/2) by (cbn; field). apply C_ext; cunf; rewrite exp_0, ?cos_neg, ?sin_neg, ?cos_PI2, ?sin_PI2; ring. }
  assert (T : forall m n, tw 4 m n = cpow (cpow (0, -1) m) n) by (intros m n; rewrite tw_pow, (tw_sym 4 m 1), tw_pow, W; reflexivity).
  assert (V11 : tw 4 1 1 = (0, -1)) by exact W.
  assert (V12 : tw 4 1 2 = (-1, 0)) by (rewrite T; cbn [cpow]; apply C_ext; cunf; ring).
  assert (V21 : tw 4 2 1 = (-1, 0)) by (rewrite tw_sym; exact V12).
  assert (V22 : tw 4 2 2 = (1, 0)) by (rewrite T; cbn [cpow]; apply C_ext; cunf; ring).
  assert (V31 : tw 4 3 1 = (0, 1)) by (rewrite T; cbn [cpow]; apply C_ext; cunf; ring).
  assert (V32 : tw 4 3 2 = (-1, 0)) by (rewrite T; cbn [cpow]; apply C_ext; cunf; ring).
  assert (K : forall n k, ker 4 u n k = (RtoC 1 + (c, s) * tw 4 1 n * tw 4 1 k + tw 4 2 n * tw 4 2 k + (c, -s)%R * tw 4 3 n * tw 4 3 k)%C).
  { intros n k. unfold ker. cbn [csum]. unfold herm. cbn [Nat.leb Nat.div Nat.divmod fst Nat.sub]. rewrite U0, U1, U2, !tw_0. change (Cconj (c, s)) with (c, -s)%R. ring. }
  split; rewrite core_rker by lia; cbn [rsum nth]; rewrite !Rmult_0_l, !K, V11, ?V12, V21, ?V22, V31, ?V32; cunf; replace (INR 4) with 4 by (cbn; ring); field.
Qed.
(** With the default length the padding that is cut off loses information: two data points always have a non-zero combination with zero transform, so no transform
    back can recover them. *)
Theorem C178_default_length_not_invertible_refuted : forall lg h k0 D, reflecting lg -> 0 < k0 -> 0 < D -> exists P c r,
  P <> [0; 0] /\ length P = 2%nat /\ P2xi lg h (log_grid k0 D 2) None true = Some c /\
  mc_call c P false false = Some (r, [0; 0]) /\ mc_call c [0; 0] false false = Some (r, [0; 0]).
Proof.
  intros lg h k0 D HG Hx HD. set (UK := mellin_sphj lg (INR (2*h))). assert (HU : unitary UK (3/2)) by (apply unit_sphj; [exact HG|pose proof (pos_INR (2*h)); lra]).
  unfold P2xi. fold UK. pose proof (init_grid UK (3/2) None true k0 D 2 Hx (le_n 2) ltac:(cbn; lia)) as I1. change (fft_len None 2) with 4%nat in I1. set (y0 := out0 UK (3/2) 4 true k0 D 2) in I1. rewrite I1. clear I1. cbn [option_map].
  pose proof (coeffs_good UK (3/2) 4 true D HU HD ltac:(lia) (or_introl eq_refl)) as (G1 & G2 & G3).
  set (ug := fun m => (UK ((3/2)%R, (2 * PI / INR 4 / D * INR m)%R) * cexp (0%R, (- (2 * PI * lnxy UK (3/2) 4 true D / INR 4 / D * INR m))%R))%C) in *.
  change (4/2 + 1)%nat with 3%nat in *. set (u := map ug (seq 0 3)) in *. change (4/2)%nat with 2%nat in *.
  assert (U0 : nth 0 u (RtoC 0) = RtoC 1). { change (ug 0%nat = RtoC 1). unfold ug. cbn [INR]. rewrite !Rmult_0_r, Ropp_0. rewrite (proj2 HU). change (0%R, 0%R) with (RtoC 0). rewrite cexp_0. ring. }
  assert (U2 : nth 2 u (RtoC 0) = RtoC 1).
  { specialize (G1 2%nat (le_n 2)). specialize (G3 eq_refl). assert (Z : 0 <= Re (nth 2 u (RtoC 0))).
    { change (0 <= Re (ug 2%nat)). unfold ug, lnxy. cbn [andb Nat.even]. pose proof PI_RGT_0. replace (INR 4) with 4 by (cbn; ring). replace (INR 2) with 2 by (cbn; ring).
      replace (2 * PI / 4 / D * 2) with (PI / D) by (field; lra). replace (2 * PI * (D / PI * angle (UK (3/2, PI / D))) / 4 / D * 2) with (angle (UK (3/2, PI / D))) by (field; split; lra). apply angle_pos. }
    destruct (nth 2 u (RtoC 0)) as [p w]. unfold Im, Re in *. cbn [fst snd] in *. subst w. apply (f_equal fst) in G1. unfold Cmult, Cconj, RtoC in G1. cbn [fst snd] in G1. apply C_ext; unfold RtoC; cbn [fst snd]; [|reflexivity]. assert (Z1 : (p - 1) * (p + 1) = 0) by lra. apply Rmult_integral in Z1. destruct Z1; lra. }
  destruct (nth 1 u (RtoC 0)) as [c s] eqn:U1. pose proof (G1 1%nat (le_S 1 1 (le_n 1))) as GU. rewrite U1 in GU. apply (f_equal fst) in GU. unfold Cmult, Cconj, RtoC in GU. cbn [fst snd] in GU.
  assert (CS : c * c + s * s = 1) by lra.
  match goal with |- exists P c0 r, _ /\ _ /\ Some ?k = Some c0 /\ _ => set (o := k) end.
  set (x0 := k0 * exp (INR 0 * D)). set (x1 := k0 * exp (INR 1 * D)). assert (X0 : 0 < x0) by (apply Rmult_lt_0_compat; [exact Hx|apply exp_pos]). assert (X1 : 0 < x1) by (apply Rmult_lt_0_compat; [exact Hx|apply exp_pos]).
  set (sg := (-1)^h / Rpower (2*PI) (3/2)). assert (SG : sg <> 0).
  { unfold sg. pose proof (sgn_sq h) as S. assert (0 < Rpower (2*PI) (3/2)) by apply exp_pos. intros Z. assert ((-1)^h = 0) as W by (rewrite <- (Rmult_0_l (Rpower (2*PI) (3/2))), <- Z; field; lra). rewrite W in S. lra. }
  assert (CALL : forall p0 p1, exists w0 w1, mc_call o [p0; p1] false false = Some (log_grid y0 D 2, [w0 * (1/2 * (sg * Rpower x0 (3/2) * p0 * (1 - c) - sg * Rpower x1 (3/2) * p1 * s)); w1 * (1/2 * (- (sg * Rpower x0 (3/2) * p0) * s + sg * Rpower x1 (3/2) * p1 * (1 + c)))])).
  { intros p0 p1. assert (L1 : length (c_x o) = 2%nat) by reflexivity. pose proof (call_core o [p0; p1] false false) as K. rewrite L1 in K. change (c_N o) with 4%nat in K. specialize (K eq_refl ltac:(lia) ltac:(lia)). change (c_u o) with u in K.
    cbn [seq map Nat.sub Nat.div Nat.divmod fst Nat.add] in K.
    assert (PD : padded o [p0; p1] false false = [0; sg * Rpower x0 (3/2) * p0; sg * Rpower x1 (3/2) * p1; 0]).
    { unfold padded. change (c_N o) with 4%nat. change (length (c_x o)) with 2%nat. cbn [Nat.sub Nat.div Nat.divmod fst]. cbv zeta. unfold pad_l, pad_r. cbn [seq map]. unfold fin. change (length (c_x o)) with 2%nat. cbn [seq map app].
      change (nth 0 (c_pre o) 0) with (1 * (sg * x0^3)). change (nth 1 (c_pre o) 0) with (1 * (sg * x1^3)). change (nth 0 (c_x o) 0) with x0. change (nth 1 (c_x o) 0) with x1. change (c_q o) with (3/2). cbn [nth].
      rewrite (rp3 x0 X0), (rp3 x1 X1). pose proof (rpinv x0 (3/2) X0) as Z0. pose proof (rpinv x1 (3/2) X1) as Z1.
      set (a0 := Rpower x0 (3/2)) in *. set (b0 := Rpower x0 (-(3/2))) in *. set (a1 := Rpower x1 (3/2)) in *. set (b1 := Rpower x1 (-(3/2))) in *.
      replace (1 * (sg * (a0 * a0)) * b0 * p0) with (sg * a0 * p0 * (b0 * a0)) by ring. replace (1 * (sg * (a1 * a1)) * b1 * p1) with (sg * a1 * p1 * (b1 * a1)) by ring. rewrite Z0, Z1, !Rmult_1_r. reflexivity. }
    rewrite PD in K. destruct (core4 (fun m => nth m u (RtoC 0)) (sg * Rpower x0 (3/2) * p0) (sg * Rpower x1 (3/2) * p1) c s U0 U1 U2) as [C1 C2]. rewrite C1, C2 in K. do 2 eexists. exact K. }
  assert (A0 : 0 < Rpower x0 (3/2)) by apply exp_pos. assert (A1 : 0 < Rpower x1 (3/2)) by apply exp_pos.
  assert (ZZ : mc_call o [0; 0] false false = Some (log_grid y0 D 2, [0; 0])).
  { destruct (CALL 0 0) as (w0 & w1 & K). rewrite K. f_equal. f_equal. f_equal; [ring|]. f_equal. ring. }
  set (a0 := Rpower x0 (3/2)) in *. set (a1 := Rpower x1 (3/2)) in *.
  destruct (Req_EM_T c 1) as [E1|E1].
  - assert (s = 0) by (subst c; nra). destruct (CALL 1 0) as (w0 & w1 & K). exists [1; 0], o, (log_grid y0 D 2). split; [intros Z; injection Z; lra|]. split; [reflexivity|]. split; [reflexivity|]. split; [|exact ZZ].
    rewrite K. subst c s. f_equal. f_equal. f_equal; [ring|]. f_equal. ring.
  - destruct (CALL (s / a0) ((1 - c) / a1)) as (w0 & w1 & K). exists [s / a0; (1 - c) / a1], o, (log_grid y0 D 2). split.
    + intros Z. injection Z as _ Z2. assert (1 - c = 0); [|lra]. rewrite <- (Rmult_0_l a1), <- Z2. field. lra.
    + split; [reflexivity|]. split; [reflexivity|]. split; [|exact ZZ]. rewrite K. f_equal. f_equal.
      replace (sg * a0 * (s / a0)) with (sg * s) by (field; lra). replace (sg * a1 * ((1 - c) / a1)) with (sg * (1 - c)) by (field; lra).
      assert (Q1 : sg * s * (1 - c) - sg * (1 - c) * s = 0) by ring. assert (Q2 : - (sg * s) * s + sg * (1 - c) * (1 + c) = 0) by (replace (- (sg * s) * s + sg * (1 - c) * (1 + c)) with (sg * (1 - (c*c + s*s))) by ring; rewrite CS; ring).
      rewrite Q1, Q2. f_equal; [ring|]. f_equal. ring.
Qed.
Print Assumptions C178_default_length_not_invertible_refuted.
