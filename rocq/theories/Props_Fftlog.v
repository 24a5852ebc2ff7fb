(** Properties C181-C183: the compiled FFTLog correlation functions. *)
From Coq Require Import Reals List ZArith Arith Lra Lia.
From Coquelicot Require Import Coquelicot.
From Verif Require Import M_Mcfit S_Mcfit P_Mcfit Props_Mcfit M_Spline S_Spline Props_Spline M_Fftlog S_Fftlog P_Fftlog.
Import ListNotations.
Local Open Scope R_scope.

Lemma spline_nodes w0 xs ys : (2 <= length xs)%nat -> length ys = length xs -> increasing xs -> exists s, cubic_spline w0 xs ys = Some s /\ eval_many s xs = Some ys /\
  forall x, x < first_x xs \/ last_x xs < x -> evaluate s x = Some 0.
Proof.
  intros H2 HL HI. destruct (C111_cubic_spline w0 xs ys H2 ltac:(lia) HI) as (s & E & f & d & Ev & Nd & Out & _). exists s. split; [exact E|]. split.
  - apply eval_nodes; [|exact HL]. intros i Hi. destruct (Ev (nth i xs 0)) as [-> _]. rewrite Nd by exact Hi. reflexivity.
  - intros x Hx. destruct (Ev x) as [-> _]. destruct (Out x Hx) as [-> _]. reflexivity.
Qed.
(** one transform on its own grid *)
Definition one_way (lg : C -> C) (l : nat) (x0 D sm : R) (n : nat) (pk : list R) : list R :=
  map (fun i => Rpower (2 * PI * (dual0 lg l 0 x0 D n * exp (INR i * D))) (-(3/2)) *
      core n (U0 lg l D n) (fun j => Rpower (x0 * exp (INR j * D)) (3/2) * nth j pk 0 * exp (- (x0 * exp (INR j * D) * sm)^2)) i) (seq 0 n).
Lemma core_scal N u c f i : (0 < N)%nat -> core N u (fun k => c * f k) i = c * core N u f i.
Proof. intros H. rewrite !core_rker by exact H. rewrite <- rsum_scal. apply rsum_ext. intros. ring. Qed.
Lemma half3 : INR 2 - 1/2 = 3/2. Proof. cbn [INR]. lra. Qed.
Lemma xi_spline lg w0 l x0 D n pk sm : 0 < x0 -> 0 < D -> (2 <= n)%nat -> length pk = n ->
  exists s, cubic_spline w0 (log_grid (dual0 lg l 0 x0 D n) D n) (one_way lg l x0 D sm n pk) = Some s /\
    eval_many s (log_grid (dual0 lg l 0 x0 D n) D n) = Some (one_way lg l x0 D sm n pk) /\
    (forall x, x < first_x (log_grid (dual0 lg l 0 x0 D n) D n) \/ last_x (log_grid (dual0 lg l 0 x0 D n) D n) < x -> evaluate s x = Some 0) /\
    forall r, ComputeXiLM lg w0 l 2 (log_grid x0 D n) pk r sm = eval_many s r.
Proof.
  intros Hx HD Hn HL. pose proof (dual0_pos lg l 0 x0 D n Hx HD) as R0.
  destruct (spline_nodes w0 (log_grid (dual0 lg l 0 x0 D n) D n) (one_way lg l x0 D sm n pk)) as (s2 & E2 & V2 & O2); [rewrite grid_len; lia|unfold one_way; rewrite map_length, seq_length, grid_len; reflexivity|intros i; apply grid_inc; assumption|].
  destruct (spline_nodes w0 (log_grid x0 D n) pk) as (s1 & E1 & V1 & _); [rewrite grid_len; lia|rewrite grid_len; exact HL|intros i; apply grid_inc; assumption|].
  exists s2. split; [exact E2|]. split; [exact V2|]. split; [exact O2|]. intros r. unfold ComputeXiLM. cbv zeta. rewrite grid_len. pose proof (resampled x0 D n Hx HD Hn) as RS. cbv zeta in RS. rewrite RS. clear RS. rewrite E1, V1.
  rewrite (xilm_grid lg l 2 0 sm x0 D n pk Hx HD Hn). cbv zeta. cbv beta iota.
  match goal with |- match cubic_spline w0 _ ?v with _ => _ end = _ => replace v with (one_way lg l x0 D sm n pk) end; [rewrite E2; reflexivity|].
  unfold one_way. apply map_ext_in. intros i Hi. apply in_seq in Hi. rewrite grid_nth by lia. refine (f_equal (Rmult _) _).
  rewrite fht0; [|exact Hn|rewrite map_length, seq_length; reflexivity|lia]. apply core_ext; [|reflexivity|lia]. intros j Hj. rewrite nth_map_seq by exact Hj. rewrite half3. reflexivity.
Qed.
Lemma one_way_len lg l x0 D sm n pk : length (one_way lg l x0 D sm n pk) = n. Proof. unfold one_way. rewrite map_length, seq_length. reflexivity. Qed.
Lemma two_pi : 0 < 2 * PI. Proof. pose proof PI_RGT_0. lra. Qed.
(** the round trip in one formula *)
Definition damp (x0 D sm : R) (j : nat) : R := exp (- (x0 * exp (INR j * D) * sm)^2).
Lemma round_trip lg l x0 D n pk sm sm' i : 0 < x0 -> 0 < D -> (2 <= n)%nat -> (i < n)%nat ->
  let r0 := dual0 lg l 0 x0 D n in let x := x0 * exp (INR i * D) in
  nth i (one_way lg l r0 D sm' n (one_way lg l x0 D sm n pk)) 0 =
   Rpower (2*PI) (-3) * Rpower x (-(3/2)) * core n (U0 lg l D n) (fun j => damp r0 D sm' j * core n (U0 lg l D n) (fun h => Rpower (x0 * exp (INR h * D)) (3/2) * nth h pk 0 * damp x0 D sm h) j) i.
Proof.
  intros Hx HD Hn Hi r0 x. pose proof (dual0_pos lg l 0 x0 D n Hx HD) as R0. fold r0 in R0. pose proof two_pi as TP. assert (X : 0 < x) by (apply Rmult_lt_0_compat; [exact Hx|apply exp_pos]).
  unfold one_way at 1. rewrite nth_map_seq by exact Hi. unfold r0 at 1. rewrite dual0_dual0 by assumption. fold x. rewrite <- (Rpower_mult_distr (2*PI) x) by assumption.
  transitivity (Rpower (2*PI) (-(3/2)) * Rpower x (-(3/2)) * (Rpower (2*PI) (-(3/2)) * core n (U0 lg l D n) (fun j => damp r0 D sm' j * core n (U0 lg l D n) (fun h => Rpower (x0 * exp (INR h * D)) (3/2) * nth h pk 0 * damp x0 D sm h) j) i)).
  - refine (f_equal (Rmult _) _). rewrite <- core_scal by lia.
    apply core_ext; [|reflexivity|exact Hi]. intros j Hj. unfold one_way. rewrite nth_map_seq by exact Hj. fold r0. set (y := r0 * exp (INR j * D)). assert (Y : 0 < y) by (apply Rmult_lt_0_compat; [exact R0|apply exp_pos]).
    rewrite <- (Rpower_mult_distr (2*PI) y) by assumption. pose proof (rpinv y (3/2) Y) as RV.
    change (exp (- (y * sm')^2)) with (damp r0 D sm' j). set (Q := core n (U0 lg l D n) (fun h => Rpower (x0 * exp (INR h * D)) (3/2) * nth h pk 0 * damp x0 D sm h) j).
    match goal with |- Rpower y (3/2) * (_ * _ * ?q) * _ = _ => change q with Q end.
    transitivity ((Rpower y (-(3/2)) * Rpower y (3/2)) * (Rpower (2*PI) (-(3/2)) * (damp r0 D sm' j * Q))).
    + ring.
    + rewrite RV. ring.
  - replace (Rpower (2*PI) (-3)) with (Rpower (2*PI) (-(3/2)) * Rpower (2*PI) (-(3/2))) by (rewrite <- Rpower_plus; f_equal; lra). ring.
Qed.
Lemma const8 l : (-1)^(l/2) * (8 * PI * PI * PI) * ((-1)^(l/2) * Rpower (2*PI) (-3)) = 1.
Proof.
  pose proof PI_RGT_0. pose proof two_pi. replace (-3) with (- INR 3) by (cbn [INR]; lra). rewrite Rpower_Ropp, Rpower_pow by assumption.
  transitivity (((-1)^(l/2) * (-1)^(l/2)) * (8 * PI * PI * PI) / (2*PI)^3); [unfold Rdiv; ring|]. rewrite sgn_sq. field. lra.
Qed.
Lemma xi_scale lg l x0 D sm n pk c i : 0 < x0 -> 0 < D -> (2 <= n)%nat -> (i < n)%nat -> length pk = n ->
  nth i (one_way lg l x0 D sm n (map (fun v => c * v) pk)) 0 = c * nth i (one_way lg l x0 D sm n pk) 0.
Proof.
  intros Hx HD Hn Hi HL. unfold one_way. rewrite !nth_map_seq by exact Hi. match goal with |- _ = c * (?a * ?b) => transitivity (a * (c * b)); [|ring] end. refine (f_equal (Rmult _) _).
  rewrite <- core_scal by lia. apply core_ext; [|reflexivity|exact Hi].
  intros j Hj. rewrite (nth_indep _ 0 (c * 0)) by (rewrite map_length; lia). rewrite (map_nth (fun v => c * v)). ring.
Qed.

(** C181: with method FFTLOG and no smoothing, the power spectrum comes back exactly: for every multipole, every logarithmic grid of two or more
    wavenumbers and every power spectrum there is a logarithmic grid of separations with the same spacing, starting within half a step of
    1/kmax, on which xi_to_pk undoes pk_to_xi, whatever the log Gamma function computes and whatever uninitialised memory contained. *)
Theorem C181_fftlog_pair_inverse : forall lg w0 w1 ell k0 D n pk, 0 < k0 -> 0 < D -> (2 <= n)%nat -> length pk = n ->
  exists r0 xi, 0 < r0 /\ Rabs (ln (r0 * (k0 * exp (INR (n-1) * D)))) <= D/2 /\ length xi = n /\
    pk_to_xi lg w0 ell (log_grid k0 D n) pk (log_grid r0 D n) 0 = Some xi /\
    xi_to_pk lg w1 ell (log_grid r0 D n) xi (log_grid k0 D n) 0 = Some pk.
Proof.
  intros lg w0 w1 ell k0 D n pk Hx HD Hn HL. set (r0 := dual0 lg ell 0 k0 D n). pose proof (dual0_pos lg ell 0 k0 D n Hx HD) as R0. fold r0 in R0.
  set (c := (-1)^(ell/2)). exists r0, (map (fun v => c * v) (one_way lg ell k0 D 0 n pk)). split; [exact R0|]. split; [|split; [rewrite map_length; apply one_way_len|split]].
  - destruct (krgood_ok lg (INR ell + 1/2) 0 D 1 HD Rlt_0_1) as (K0 & K1 & _). unfold r0, dual0. set (kr := krgood _ _ _ _ _) in *. assert (E : 0 < exp (INR (n-1) * D)) by apply exp_pos.
    replace (kr / (k0 * exp (INR (n-1) * D)) * (k0 * exp (INR (n-1) * D))) with (kr/1) by (field; split; lra). exact K1.
  - destruct (xi_spline lg w0 ell k0 D n pk 0 Hx HD Hn HL) as (s & _ & V & _ & E). unfold pk_to_xi. rewrite E. fold r0 in V. rewrite V. reflexivity.
  - assert (LX : length (map (fun v => c * v) (one_way lg ell k0 D 0 n pk)) = n) by (rewrite map_length; apply one_way_len).
    destruct (xi_spline lg w1 ell r0 D n _ 0 R0 HD Hn LX) as (s & _ & V & _ & E). unfold xi_to_pk. rewrite E. unfold r0 at 1 in V. rewrite dual0_dual0 in V by assumption. rewrite V. cbn [option_map]. f_equal.
    apply (nth_ext _ _ ((-1)^(ell/2) * (8 * PI * PI * PI) * 0) 0); [rewrite map_length, one_way_len; lia|]. intros i Hi. rewrite map_length, one_way_len in Hi. rewrite (map_nth (fun v => (-1)^(ell/2) * (8 * PI * PI * PI) * v)).
    rewrite xi_scale by (try assumption; apply one_way_len). unfold r0. rewrite round_trip by assumption. fold r0.
    set (x := k0 * exp (INR i * D)). assert (X : 0 < x) by (apply Rmult_lt_0_compat; [exact Hx|apply exp_pos]).
    rewrite (core_ext n _ (U0 lg ell D n) _ (core n (U0 lg ell D n) (fun h => Rpower (k0 * exp (INR h * D)) (3/2) * nth h pk 0)) i).
    + rewrite core_core by (try exact Hi; try lia; apply good_U0; assumption). fold x. pose proof (const8 ell) as C8. pose proof (rpinv x (3/2) X) as RV. fold c in C8 |- *.
      transitivity ((c * (8 * PI * PI * PI) * (c * Rpower (2*PI) (-3))) * (Rpower x (-(3/2)) * Rpower x (3/2)) * nth i pk 0); [ring|]. rewrite C8, RV. ring.
    + assert (Z : forall y j, damp y D 0 j = 1) by (intros; unfold damp; rewrite Rmult_0_r; replace (- 0^2) with 0 by ring; apply exp_0).
      intros j Hj. rewrite Z, Rmult_1_l. apply core_ext; [|reflexivity|exact Hj]. intros h Hh. rewrite Z. ring.
    + reflexivity.
    + exact Hi.
Qed.
Print Assumptions C181_fftlog_pair_inverse.
Example C181_nonvacuous : exists (lg : C -> C) (w0 : work), length [3; 1; 4] = 3%nat /\ exists r0 xi, pk_to_xi lg w0 2 (log_grid (1/100) 1 3) [3; 1; 4] (log_grid r0 1 3) 0 = Some xi /\
   xi_to_pk lg w0 2 (log_grid r0 1 3) xi (log_grid (1/100) 1 3) 0 = Some [3; 1; 4].
Proof.
  exists (fun z => z), (Build_work (fun _ => 0) (fun _ => 0) (fun _ => 0)). split; [reflexivity|].
  destruct (C181_fftlog_pair_inverse (fun z => z) (Build_work (fun _ => 0) (fun _ => 0) (fun _ => 0)) (Build_work (fun _ => 0) (fun _ => 0) (fun _ => 0)) 2 (1/100) 1 3 [3;1;4] ltac:(lra) ltac:(lra) ltac:(lia) eq_refl) as (r0 & xi & _ & _ & _ & A & B). exists r0, xi. split; assumption.
Qed.
Definition Uq (lg : C -> C) (l : nat) (q D : R) (n : nat) : nat -> C :=
  ushift n (fun m => if Req_EM_T q 0 then u_unbiased lg (INR l + 1/2) D (krgood lg (INR l + 1/2) q D 1) n m else u_biased lg (INR l + 1/2) q D (krgood lg (INR l + 1/2) q D 1) n m).
Lemma fht_q lg l q D n a i : (2 <= n)%nat -> length a = n -> (i < n)%nat -> let jc := (INR n + 1)/2 in
  nth i (fht (fhti lg n (INR l + 1/2) q D 1) a) 0 =
  core n (Uq lg l q D n) (fun j => nth j a 0 * exp (- q * (INR j + 1 - jc) * D)) i * exp (- q * ((INR i + 1 - jc) * D + ln (krgood lg (INR l + 1/2) q D 1))).
Proof.
  intros Hn La Hi jc. unfold fht. change (p_q (fhti lg n (INR l + 1/2) q D 1)) with q. change (p_D (fhti lg n (INR l + 1/2) q D 1)) with D. change (p_N (fhti lg n (INR l + 1/2) q D 1)) with n.
  change (p_kr (fhti lg n (INR l + 1/2) q D 1)) with (krgood lg (INR l + 1/2) q D 1). cbv zeta. fold jc.
  assert (EU : forall m, (m <= n/2)%nat -> ushift n (fun m => nth m (p_u (fhti lg n (INR l + 1/2) q D 1)) (RtoC 0)) m = Uq lg l q D n m) by (intros m Hm; unfold Uq; apply ushift_ext; apply seq_nth_u; exact Hm).
  destruct (Req_EM_T q 0) as [->|E].
  - rewrite fhtq_core by (cbn [p_N fhti]; lia). change (p_N (fhti lg n (INR l + 1/2) 0 D 1)) with n. rewrite nth_map_seq by exact Hi.
    replace (- 0 * ((INR i + 1 - jc) * D + ln (krgood lg (INR l + 1/2) 0 D 1))) with 0 by ring. rewrite exp_0, Rmult_1_r. apply core_ext; [|exact EU|exact Hi].
    intros j Hj. replace (- 0 * (INR j + 1 - jc) * D) with 0 by ring. rewrite exp_0. ring.
  - rewrite nth_map_seq by exact Hi. refine (f_equal (fun v => v * _) _). rewrite fhtq_core by (cbn [p_N fhti]; rewrite ?map_length, ?seq_length; lia). change (p_N (fhti lg n (INR l + 1/2) q D 1)) with n. rewrite nth_map_seq by exact Hi.
    apply core_ext; [|exact EU|exact Hi]. intros j Hj. apply (nth_map_seq (fun i0 => nth i0 a 0 * exp (- q * (INR i0 + 1 - jc) * D))). exact Hj.
Qed.
Lemma u_mellin lg l q D n p : reflecting lg -> 0 < D -> (0 < p)%nat -> (2*p < n)%nat -> -(INR l + 3/2) < q < INR l + 3/2 -> let eta := 2 * PI * INR p / (INR n * D) in let kr := krgood lg (INR l + 1/2) q D 1 in
  Uq lg l q D n p = (bessel_mellin lg (INR l) q eta * cexp (0, - (eta * ln kr))%R * tw n p 1)%C.
Proof.
  intros HR HD Hp H2 Hq eta kr. unfold Uq. fold kr. unfold ushift. assert (NN : 0 < INR n) by (apply lt_0_INR; lia).
  assert (NE : Nat.even n = true -> p <> (n/2)%nat) by (intros Ev; apply Nat.even_spec in Ev; destruct Ev as [h Hh]; rewrite Hh, (Nat.mul_comm 2), Nat.div_mul by lia; lia).
  assert (NB : andb (Nat.even n) (p =? n/2)%nat = false) by (destruct (Nat.even n); [cbn [andb]; apply Nat.eqb_neq; apply NE; reflexivity|reflexivity]). rewrite NB. refine (f_equal (fun w => (w * _)%C) _).
  destruct (krgood_ok lg (INR l + 1/2) q D 1 HD Rlt_0_1) as (K0 & _). fold kr in K0.
  assert (Y : INR p * (PI / (INR n * D)) = eta/2) by (unfold eta; field; split; lra). 
  assert (LK : ln (2/kr) = ln 2 - ln kr) by (apply ln_div; lra).
  set (xp := (INR l + 3/2 + q)/2). set (xm := (INR l + 3/2 - q)/2).
  assert (XP : (INR l + 1/2 + 1 + q)/2 = xp) by (unfold xp; field). assert (XM : (INR l + 1/2 + 1 - q)/2 = xm) by (unfold xm; field).
  assert (RF : lg (xm, - (eta/2)) = Cconj (lg (xm, eta/2))). { rewrite <- HR by (unfold xm, Re; cbn [fst]; lra). f_equal. }
  unfold bessel_mellin. cbv zeta. fold xp xm. rewrite RF. set (P := lg (xp, eta/2)). set (M := lg (xm, eta/2)). unfold modulus_phase.
  change (fst (Cconj M)) with (fst M). change (snd (Cconj M)) with (- snd M).
  destruct (Req_EM_T q 0) as [Q0|Q0].
  - assert (XE : (INR l + 1/2 + 1)/2 = xp) by (unfold xp; rewrite Q0; field). assert (EPM : P = M) by (unfold P, M; f_equal; f_equal; unfold xp, xm; rewrite Q0; field).
    unfold u_unbiased. destruct p as [|p']; [lia|]. cbv zeta. rewrite Y, XE. fold P. rewrite LK.
    assert (A0 : ln 2 * q + fst P - fst M = 0) by (rewrite EPM, Q0; ring). rewrite A0. rewrite <- EPM. rewrite exp_0.
    transitivity (cexp (0, ln 2 * eta + snd P - - snd P)%R * cexp (0, - (eta * ln kr))%R)%C; [|f_equal; apply C_ext; cunf; rewrite exp_0; ring].
    rewrite <- cexp_plus. assert (E2 : 2 * ((ln 2 - ln kr) * (eta / 2) + Im P) = ln 2 * eta + snd P - - snd P + - (eta * ln kr)) by (unfold Im; field). rewrite E2.
    apply C_ext; cunf; rewrite Rplus_0_r, exp_0; ring.
  - unfold u_biased. destruct p as [|p']; [lia|]. cbv zeta. rewrite Y, XP, XM. fold P M. rewrite LK. 
    transitivity (cexp (ln 2 * q + fst P - fst M, ln 2 * eta + snd P - - snd M)%R * cexp (0, - (eta * ln kr))%R)%C; [|f_equal].
    rewrite <- cexp_plus. assert (E2 : 2 * (ln 2 - ln kr) * (eta / 2) + Im P + Im M = ln 2 * eta + snd P - - snd M + - (eta * ln kr)) by (unfold Im; field). rewrite E2.
    apply C_ext; cunf; rewrite Rplus_0_r; reflexivity.
Qed.
(** C182: the transform is exact on log-periodic spectra. For every multipole l, power m, bias q with |q| < l + 3/2, smoothing and logarithmic grid of
    wavenumbers, if P(k) exp(-(k R)^2) = A k^(q - m + 1/2) cos(eta ln k + phi) with eta one of the grid's frequencies, then at every separation
    returned the value returned is the documented integral int dk/(2 pi^2) k^m j_l(k r) P(k) exp(-(k R)^2). The function j is any kernel whose
    Mellin transform is the ratio of Gamma functions. *)
Theorem C182_exact_on_log_periodic : forall lg (j : R -> R) l m q R k0 D n p A phi, reflecting lg -> 0 < k0 -> 0 < D -> (0 < p)%nat -> (2*p < n)%nat ->
  - (INR l + 3/2) < q < INR l + 3/2 ->
  let eta := 2 * PI * INR p / (INR n * D) in
  mellin_at (fun t => sqrt (2/PI) * Rpower t (3/2) * j t) q eta (bessel_mellin lg (INR l) q eta) ->
  let P := fun k => A * Rpower k (q - INR m + 1/2) * cos (eta * ln k + phi) * exp ((k*R)^2) in
  exists r0 xi, ComputeXiLM_fftlog lg l m (log_grid k0 D n) (map P (log_grid k0 D n)) q R = (log_grid r0 D n, xi) /\ 0 < r0 /\
    Rabs (ln (r0 * (k0 * exp (INR (n-1) * D)))) <= D/2 /\ length xi = n /\
    forall i, (i < n)%nat -> xi_integral m j (fun k => P k * exp (- (k*R)^2)) (r0 * exp (INR i * D)) (nth i xi 0).
Proof.
  intros lg j l m q sm k0 D n p A phi HR Hx HD Hp H2 Hq eta HM P. assert (Hn : (2 <= n)%nat) by lia. assert (NN : 0 < INR n) by (apply lt_0_INR; lia).
  set (r0 := dual0 lg l q k0 D n). pose proof (dual0_pos lg l q k0 D n Hx HD) as R0. fold r0 in R0.
  destruct (krgood_ok lg (INR l + 1/2) q D 1 HD Rlt_0_1) as (K0 & K1 & _). set (kr := krgood lg (INR l + 1/2) q D 1) in *.
  rewrite xilm_grid by assumption. cbv zeta. fold r0. match goal with |- exists _ _, (_, ?x) = _ /\ _ => exists r0, x end. split; [reflexivity|]. split; [exact R0|]. split; [|split; [rewrite map_length, seq_length; reflexivity|]].
  - unfold r0, dual0. fold kr. assert (E : 0 < exp (INR (n-1) * D)) by apply exp_pos. replace (kr / (k0 * exp (INR (n-1) * D)) * (k0 * exp (INR (n-1) * D))) with (kr/1) by (field; split; lra). exact K1.
  - intros i Hi. rewrite nth_map_seq by exact Hi. rewrite grid_nth by exact Hi. set (y := r0 * exp (INR i * D)). assert (Y : 0 < y) by (apply Rmult_lt_0_compat; [exact R0|apply exp_pos]).
    rewrite fht_q; [|exact Hn|rewrite map_length, seq_length; reflexivity|exact Hi]. cbv zeta. fold kr. set (jc := (INR n + 1)/2).
    assert (LR0 : ln r0 = ln kr - ln k0 - (INR n - 1) * D). { unfold r0, dual0. fold kr. rewrite ln_div by first [exact K0|apply Rmult_lt_0_compat; [exact Hx|apply exp_pos]]. rewrite ln_mult by (try exact Hx; apply exp_pos). rewrite ln_exp, minus_INR by lia. cbn [INR]. ring. }
    assert (LY : ln y = ln kr - ln k0 - (INR n - 1) * D + INR i * D) by (unfold y; rewrite ln_mult by (try exact R0; apply exp_pos); rewrite ln_exp, LR0; reflexivity).
    set (kc := exp (q * (ln k0 + (jc - 1) * D))).
    set (z := (RtoC (A * kc) * cexp (0, phi + eta * ln k0)%R)%C). set (U := bessel_mellin lg (INR l) q eta) in *.
    assert (CORE : core n (Uq lg l q D n) (fun j0 => nth j0 (map (fun i0 => Rpower (k0 * exp (INR i0 * D)) (INR m - 1/2) * nth i0 (map P (log_grid k0 D n)) 0 * exp (- (k0 * exp (INR i0 * D) * sm)^2)) (seq 0 n)) 0 * exp (- q * (INR j0 + 1 - jc) * D)) i =
      A * kc * (Re U * cos (phi - eta * ln y) - Im U * sin (phi - eta * ln y))).
    { rewrite (core_ext n _ (Uq lg l q D n) _ (fun k => Re (z * Cconj (tw n p k))%C) i); [|intros h Hh|reflexivity|exact Hi].
      - rewrite core_harmonic by (try exact Hp; try exact H2; exact Hi). rewrite (u_mellin lg l q D n p HR HD Hp H2 Hq). cbv zeta. fold kr eta U.
        assert (E : (cexp (0, phi + eta * ln k0)%R * cexp (0, - (eta * ln kr))%R * tw n p 1 * tw n p i)%C = cexp (0, phi - eta * ln y)%R).
        { unfold tw. rewrite <- !cexp_plus. rewrite <- (Cmult_1_r (cexp (0, phi - eta * ln y)%R)). rewrite <- (cexp_turn p). rewrite <- cexp_plus. f_equal. apply C_ext; cunf; [ring|]. rewrite LY. unfold eta. cbn [INR]. field. lra. }
        transitivity (Re (RtoC (A * kc) * U * (cexp (0, phi + eta * ln k0)%R * cexp (0, - (eta * ln kr))%R * tw n p 1 * tw n p i))%C); [f_equal; unfold z; ring|].
        rewrite E. cunf. rewrite exp_0. ring.
      - rewrite (nth_map_seq (fun i0 => Rpower (k0 * exp (INR i0 * D)) (INR m - 1/2) * nth i0 (map P (log_grid k0 D n)) 0 * exp (- (k0 * exp (INR i0 * D) * sm)^2))) by exact Hh.
        set (x := k0 * exp (INR h * D)). assert (X : 0 < x) by (apply Rmult_lt_0_compat; [exact Hx|apply exp_pos]).
        rewrite (nth_indep _ 0 (P 0)) by (rewrite map_length, grid_len; exact Hh). rewrite map_nth, grid_nth by exact Hh. fold x. unfold P.
        assert (LX : ln x = ln k0 + INR h * D) by (unfold x; rewrite ln_mult by (try exact Hx; apply exp_pos); rewrite ln_exp; reflexivity).
        transitivity (A * (Rpower x (INR m - 1/2) * Rpower x (q - INR m + 1/2) * exp (- q * (INR h + 1 - jc) * D)) * cos (eta * ln x + phi) * (exp ((x*sm)^2) * exp (- (x*sm)^2))); [ring|].
        rewrite <- exp_plus. replace ((x*sm)^2 + - (x*sm)^2) with 0 by ring. rewrite exp_0, Rmult_1_r.
        assert (EK : Rpower x (INR m - 1/2) * Rpower x (q - INR m + 1/2) * exp (- q * (INR h + 1 - jc) * D) = kc).
        { rewrite <- Rpower_plus. unfold Rpower, kc. rewrite <- exp_plus. f_equal. rewrite LX. ring. }
        rewrite EK. unfold z, tw. rewrite <- cexp_conj, <- Cmult_assoc, <- cexp_plus. cunf. replace (0 + 0) with 0 by ring. rewrite exp_0. rewrite LX.
        replace (phi + eta * ln k0 + - - (2 * PI * INR p * INR h / INR n)) with (eta * (ln k0 + INR h * D) + phi) by (unfold eta; field; lra). ring. }
    rewrite CORE. clear CORE.
    pose proof (harmonic_transform _ q eta _ A phi y HM Y) as T. unfold transforms_to in T. set (V := Re U * cos (phi - eta * ln y) - Im U * sin (phi - eta * ln y)) in *.
    apply (is_RInt_gen_scal _ (Rpower (2 * PI * y) (-(3/2)))) in T.
    assert (KC : kc * exp (- q * ((INR i + 1 - jc) * D + ln kr)) = Rpower y (- q)).
    { unfold Rpower, kc. rewrite <- exp_plus. f_equal. rewrite LY. unfold jc. field. }
    replace (Rpower (2 * PI * y) (-(3/2)) * (A * kc * V * exp (- q * ((INR i + 1 - jc) * D + ln kr)))) with (scal (Rpower (2 * PI * y) (-(3/2))) (A * Rpower y (- q) * V)) by (rewrite <- KC; unfold scal; cbn; unfold mult; cbn; ring).
    unfold xi_integral. revert T. apply is_RInt_gen_ext. apply (Filter_prod _ _ _ (fun a => 0 < a) (fun b => 0 < b)).
    + exists (mkposreal 1 Rlt_0_1). intros a _ Ha. exact Ha.
    + exists 0. intros b Hb. exact Hb.
    + intros a b Ha Hb x [Hx' _]. cbn [fst snd] in Hx'. assert (X : 0 < x) by (pose proof (Rmin_glb_lt a b 0 Ha Hb); lra). 
      match goal with |- scal ?a ?b = ?c => change (@eq R (a * b) c) end. cbv beta. unfold P. fold eta. pose proof two_pi as TP. pose proof PI_RGT_0 as HPI.
      rewrite <- (Rpower_mult_distr (2*PI) y) by assumption. rewrite <- (Rpower_mult_distr x y) by assumption.
      pose proof (rpinv y (3/2) Y) as RV. assert (CC : Rpower (2*PI) (-(3/2)) * sqrt (2/PI) = 1/(2*PI^2)).
      { rewrite <- Rpower_sqrt by (apply Rdiv_lt_0_compat; lra). unfold Rpower. rewrite <- exp_plus. rewrite ln_mult, ln_div by lra.
        replace (-(3/2) * (ln 2 + ln PI) + / 2 * (ln 2 - ln PI)) with (- ln (2*PI^2)) by (rewrite ln_mult by (try lra; apply pow_lt; lra); replace (PI^2) with (PI*PI) by ring; rewrite ln_mult by lra; field).
        rewrite exp_Ropp, exp_ln by (apply Rmult_lt_0_compat; [lra|apply pow_lt; lra]). field. lra. }
      assert (EX : exp ((x*sm)^2) * exp (- (x*sm)^2) = 1) by (rewrite <- exp_plus; replace ((x*sm)^2 + - (x*sm)^2) with 0 by ring; apply exp_0).
      assert (PW : Rpower x q * Rpower x (3/2) / x = x^m * Rpower x (q - INR m + 1/2)).
      { rewrite <- (Rpower_pow m x X). rewrite <- !Rpower_plus. replace (q + 3/2) with (q + 1/2 + 1) by lra. rewrite Rpower_plus, Rpower_1 by exact X. replace (INR m + (q - INR m + 1/2)) with (q + 1/2) by ring. field. lra. }
      transitivity ((Rpower (2*PI) (-(3/2)) * sqrt (2/PI)) * (Rpower y (-(3/2)) * Rpower y (3/2)) * (Rpower x q * Rpower x (3/2) / x) * A * cos (eta * ln x + phi) * j (x*y)); [unfold Rdiv; ring|].
      rewrite CC, RV, PW. transitivity (x^m * j (x*y) * (A * Rpower x (q - INR m + 1/2) * cos (eta * ln x + phi)) * (exp ((x*sm)^2) * exp (- (x*sm)^2)) / (2*PI^2)); [rewrite EX; field; lra|field; lra].
Qed.
Print Assumptions C182_exact_on_log_periodic.
(** the unit step (times t^(-3/2)), with a log Gamma that has its Mellin transform, meets the hypotheses at q = 1 *)
Definition lg_step (l : nat) (z : C) : C := if Req_EM_T (Re z) ((INR l + 3/2 + 1)/2) then (- ln 2 - ln (1 + (2 * Im z)^2) / 2, - (2 * ln 2 * Im z) - atan (2 * Im z)) else RtoC 0.
Example C182_nonvacuous : forall l eta, reflecting (lg_step l) /\ mellin_at (fun t => sqrt (2/PI) * Rpower t (3/2) * (step t / (sqrt (2/PI) * Rpower t (3/2)))) 1 eta (bessel_mellin (lg_step l) (INR l) 1 eta).
Proof.
  intros l eta. split.
  - intros z _. unfold lg_step. change (Re (Cconj z)) with (Re z). change (Im (Cconj z)) with (- Im z). destruct (Req_EM_T (Re z) ((INR l + 3/2 + 1)/2)); [|cring].
    replace (2 * - Im z) with (- (2 * Im z)) by ring. rewrite atan_opp. apply C_ext; cunf; [do 4 f_equal; ring|ring].
  - assert (U : bessel_mellin (lg_step l) (INR l) 1 eta = (1/(1 + eta^2), - eta/(1 + eta^2))).
    { unfold bessel_mellin, lg_step, Re, Im. cbn [fst snd]. destruct (Req_EM_T ((INR l + 3/2 + 1)/2) ((INR l + 3/2 + 1)/2)) as [_|E]; [|lra]. destruct (Req_EM_T ((INR l + 3/2 - 1)/2) ((INR l + 3/2 + 1)/2)) as [E|_]; [lra|].
      cbn [fst snd RtoC]. unfold modulus_phase. replace (2 * (eta/2)) with eta by field. assert (Q : 0 < 1 + eta^2) by nra.
      replace (ln 2 * eta + (- (2 * ln 2 * (eta/2)) - atan eta) - 0) with (- atan eta) by field. rewrite cos_neg, sin_neg, cos_atan, sin_atan.
      replace (ln 2 * 1 + (- ln 2 - ln (1 + eta^2) / 2) - 0) with (- (/2 * ln (1 + eta^2))) by field. rewrite exp_Ropp. fold (Rpower (1 + eta^2) (/2)). rewrite Rpower_sqrt by exact Q.
      replace (1 + eta²) with (1 + eta^2) by (unfold Rsqr; ring). pose proof (sqrt_lt_R0 _ Q) as S. pose proof (sqrt_sqrt (1 + eta^2) ltac:(lra)) as SS. set (s := sqrt (1 + eta^2)) in *. rewrite <- SS. f_equal; field; lra. }
    rewrite U. destruct (step_mellin eta) as [M1 M2]. pose proof PI_RGT_0.
    assert (W : forall (g : R -> R) v, is_RInt_gen (fun t => g t * step t) (at_right 0) (Rbar_locally p_infty) v -> is_RInt_gen (fun t => g t * (sqrt (2/PI) * Rpower t (3/2) * (step t / (sqrt (2/PI) * Rpower t (3/2))))) (at_right 0) (Rbar_locally p_infty) v).
    { intros g v. apply is_RInt_gen_ext. apply (Filter_prod _ _ _ (fun a => 0 < a) (fun b => 0 < b)).
      - exists (mkposreal 1 Rlt_0_1). intros a _ Ha. exact Ha.
      - exists 0. intros b Hb. exact Hb.
      - intros a b Ha Hb x _. assert (S : 0 < sqrt (2/PI)) by (apply sqrt_lt_R0, Rdiv_lt_0_compat; lra). assert (T : 0 < Rpower x (3/2)) by apply exp_pos. match goal with |- @eq _ ?a ?b => change (@eq R a b) end. field. split; lra. }
    split; [apply W; exact M1|apply W; exact M2].
Qed.

(** C183 (range): separations beyond half a step outside [1/kmax, 1/kmin] are not an error: the result is exactly 0 whatever the spectrum. *)
Theorem C183_outside_range_zero : forall lg w0 ell k0 D n pk R r, 0 < k0 -> 0 < D -> (2 <= n)%nat -> length pk = n ->
  r * (k0 * exp (INR (n-1) * D)) < exp (- (D/2)) \/ exp (D/2) < r * k0 ->
  pk_to_xi lg w0 ell (log_grid k0 D n) pk [r] R = Some [0].
Proof.
  intros lg w0 ell k0 D n pk sm r Hx HD Hn HL Hr. destruct (xi_spline lg w0 ell k0 D n pk sm Hx HD Hn HL) as (s & _ & _ & O & E). unfold pk_to_xi. rewrite E. cbn [eval_many].
  destruct (krgood_ok lg (INR ell + 1/2) 0 D 1 HD Rlt_0_1) as (K0 & K1 & _). pose proof (dual0_pos lg ell 0 k0 D n Hx HD) as R0.
  set (e := exp (INR (n-1) * D)) in *. assert (E0 : 0 < e) by apply exp_pos. set (kr := krgood lg (INR ell + 1/2) 0 D 1) in *. unfold Rdiv in K1. rewrite Rinv_1, Rmult_1_r in K1. apply Rabs_le_between in K1.
  assert (KL : exp (- (D/2)) <= kr) by (rewrite <- (exp_ln kr K0); destruct K1 as [[K|K] _]; [left; apply exp_increasing; exact K|right; f_equal; lra]).
  assert (KU : kr <= exp (D/2)) by (rewrite <- (exp_ln kr K0); destruct K1 as [_ [K|K]]; [left; apply exp_increasing; exact K|right; f_equal; lra]).
  assert (D0 : dual0 lg ell 0 k0 D n * (k0 * e) = kr) by (unfold dual0; fold kr e; field; split; lra).
  rewrite O; [cbn [option_map map]; rewrite Rmult_0_r; reflexivity|]. unfold first_x, last_x. rewrite grid_len, !grid_nth by lia. cbn [INR]. rewrite Rmult_0_l, exp_0, Rmult_1_r. fold e. set (d := dual0 lg ell 0 k0 D n) in *.
  destruct Hr as [Hr|Hr]; [left|right].
  - apply (Rmult_lt_reg_r (k0 * e)); [apply Rmult_lt_0_compat; assumption|]. lra.
  - apply (Rmult_lt_reg_r k0); [assumption|]. lra.
Qed.
Print Assumptions C183_outside_range_zero.
(** C183 (smoothing): with any positive smoothing in pk_to_xi (the default is 0.5; xi_to_pk has 0.005), the round trip never returns a non-zero
    spectrum: the sum of k^3 P^2 always decreases strictly. *)
Lemma weighted_seq (f g : nat -> R) n s : weighted (map f (seq s n)) (map g (seq s n)) = rsum n (fun i => (f (s + i)%nat)^3 * (g (s + i)%nat)^2).
Proof.
  revert s. induction n as [|n IH]; intros s; [reflexivity|]. cbn [seq map weighted]. rewrite IH. change (S n) with (1 + n)%nat. rewrite rsum_shift. cbn [rsum]. rewrite Nat.add_0_r, Rplus_0_l. f_equal.
  apply rsum_ext. intros k _. replace (S s + k)%nat with (s + (1 + k))%nat by lia. reflexivity.
Qed.
Lemma rsum_le n f g : (forall k, (k < n)%nat -> f k <= g k) -> rsum n f <= rsum n g.
Proof. induction n as [|n IH]; intros H; cbn [rsum]; [lra|]. pose proof (IH (fun k Hk => H k (Nat.lt_lt_succ_r _ _ Hk))). pose proof (H n (Nat.lt_succ_diag_r n)). lra. Qed.
Lemma rsum_lt n f g h : (forall k, (k < n)%nat -> f k <= g k) -> (h < n)%nat -> f h < g h -> rsum n f < rsum n g.
Proof.
  induction n as [|n IH]; intros H Hh HL; [lia|]. cbn [rsum]. pose proof (H n (Nat.lt_succ_diag_r n)). assert (HH : forall k, (k < n)%nat -> f k <= g k) by (intros k Hk; apply H; lia).
  destruct (Nat.eq_dec h n) as [->|N]; [pose proof (rsum_le n f g HH); lra|]. pose proof (IH HH ltac:(lia) HL). lra.
Qed.
Theorem C183_smoothing_always_shrinks_refuted : forall lg w0 w1 ell k0 D n pk R R', 0 < k0 -> 0 < D -> (2 <= n)%nat -> length pk = n -> 0 < R -> (exists i, nth i pk 0 <> 0) ->
  exists r0 xi pk', pk_to_xi lg w0 ell (log_grid k0 D n) pk (log_grid r0 D n) R = Some xi /\ xi_to_pk lg w1 ell (log_grid r0 D n) xi (log_grid k0 D n) R' = Some pk' /\
    weighted (log_grid k0 D n) pk' < weighted (log_grid k0 D n) pk /\ pk' <> pk.
Proof.
  intros lg w0 w1 ell k0 D n pk sm sm' Hx HD Hn HL Hsm (i0 & Hi0). assert (I0 : (i0 < n)%nat) by (destruct (Nat.lt_ge_cases i0 n) as [H|H]; [exact H|]; exfalso; apply Hi0, nth_overflow; lia).
  set (r0 := dual0 lg ell 0 k0 D n). pose proof (dual0_pos lg ell 0 k0 D n Hx HD) as R0. fold r0 in R0. set (c := (-1)^(ell/2)).
  set (xi := map (fun v => c * v) (one_way lg ell k0 D sm n pk)). set (pk' := map (fun v => c * (8 * PI * PI * PI) * v) (one_way lg ell r0 D sm' n xi)). exists r0, xi, pk'.
  assert (LX : length xi = n) by (unfold xi; rewrite map_length; apply one_way_len).
  assert (W : weighted (log_grid k0 D n) pk' < weighted (log_grid k0 D n) pk).
  { set (U := U0 lg ell D n). assert (G : good n U) by (apply good_U0; assumption). set (f := fun h => Rpower (k0 * exp (INR h * D)) (3/2) * nth h pk 0).
    set (F1 := fun h => f h * damp k0 D sm h). set (F2 := fun j => damp r0 D sm' j * core n U F1 j).
    assert (DL : forall y s j, 0 < damp y D s j <= 1). { intros y s j. unfold damp. split; [apply exp_pos|]. rewrite <- exp_0. assert (Z : - (y * exp (INR j * D) * s)^2 <= 0) by (pose proof (pow2_ge_0 (y * exp (INR j * D) * s)); lra). destruct Z as [Z|Z]; [left; apply exp_increasing; exact Z|rewrite Z; right; reflexivity]. }
    assert (DS : damp k0 D sm i0 < 1). { unfold damp. rewrite <- exp_0. apply exp_increasing. assert (0 < k0 * exp (INR i0 * D) * sm) by (repeat apply Rmult_lt_0_compat; try assumption; apply exp_pos). nra. }
    assert (EP : forall i, (i < n)%nat -> nth i pk' 0 = Rpower (k0 * exp (INR i * D)) (-(3/2)) * core n U F2 i).
    { intros i Hi. unfold pk'. rewrite (nth_indep _ 0 (c * (8 * PI * PI * PI) * 0)) by (rewrite map_length, one_way_len; exact Hi). rewrite (map_nth (fun v => c * (8 * PI * PI * PI) * v)). unfold xi.
      rewrite xi_scale by (try assumption; apply one_way_len). unfold r0. rewrite round_trip by assumption. fold r0. pose proof (const8 ell) as C8. fold c in C8.
      transitivity ((c * (8 * PI * PI * PI) * (c * Rpower (2*PI) (-3))) * (Rpower (k0 * exp (INR i * D)) (-(3/2)) * core n U F2 i)); [|rewrite C8; ring].
      fold U. unfold F2, F1, f. ring. }
    assert (GS : log_grid k0 D n = map (fun i => k0 * exp (INR i * D)) (seq 0 n)) by reflexivity.
    assert (LS : forall l : list R, length l = n -> l = map (fun i => nth i l 0) (seq 0 n)). { intros l Hl. apply (nth_ext _ _ 0 0); [rewrite map_length, seq_length; exact Hl|]. intros i Hi. rewrite nth_map_seq by lia. reflexivity. }
    rewrite GS. rewrite (LS pk HL). rewrite (LS pk') by (unfold pk'; rewrite map_length; apply one_way_len). rewrite !weighted_seq.
    assert (E1 : rsum n (fun i => (k0 * exp (INR (0 + i) * D))^3 * (nth (0 + i) pk' 0)^2) = rsum n (fun i => (core n U F2 i)^2)).
    { apply rsum_ext. intros i Hi. cbn [Nat.add]. rewrite EP by exact Hi. set (x := k0 * exp (INR i * D)). assert (X : 0 < x) by (apply Rmult_lt_0_compat; [exact Hx|apply exp_pos]). rewrite (rp3 x X). pose proof (rpinv x (3/2) X) as RV.
      transitivity ((Rpower x (-(3/2)) * Rpower x (3/2))^2 * (core n U F2 i)^2); [ring|]. rewrite RV. ring. }
    assert (E2 : rsum n (fun i => (k0 * exp (INR (0 + i) * D))^3 * (nth (0 + i) pk 0)^2) = rsum n (fun i => (f i)^2)).
    { apply rsum_ext. intros i Hi. cbn [Nat.add]. unfold f. set (x := k0 * exp (INR i * D)). assert (X : 0 < x) by (apply Rmult_lt_0_compat; [exact Hx|apply exp_pos]). rewrite (rp3 x X). ring. }
    match goal with |- ?a < ?b => change a with (rsum n (fun i => (k0 * exp (INR (0 + i) * D))^3 * (nth (0 + i) pk' 0)^2)); change b with (rsum n (fun i => (k0 * exp (INR (0 + i) * D))^3 * (nth (0 + i) pk 0)^2)) end.
    rewrite E1, E2. rewrite core_norm by (try exact G; lia).
    apply (Rle_lt_trans _ (rsum n (fun j => (core n U F1 j)^2))).
    - apply rsum_le. intros j _. unfold F2. rewrite Rpow_mult_distr. destruct (DL r0 sm' j). pose proof (pow2_ge_0 (core n U F1 j)). assert ((damp r0 D sm' j)^2 <= 1) by nra. nra.
    - rewrite core_norm by (try exact G; lia). apply (rsum_lt n _ _ i0).
      + intros h _. unfold F1. rewrite Rpow_mult_distr. destruct (DL k0 sm h). pose proof (pow2_ge_0 (f h)). assert ((damp k0 D sm h)^2 <= 1) by nra. nra.
      + exact I0.
      + unfold F1. rewrite Rpow_mult_distr. destruct (DL k0 sm i0). assert (F0 : f i0 <> 0) by (unfold f; apply Rmult_integral_contrapositive; split; [apply Rgt_not_eq, exp_pos|exact Hi0]).
        assert (0 < (f i0)^2) by (pose proof (pow2_gt_0 _ F0); assumption). assert ((damp k0 D sm i0)^2 < 1) by nra. nra. }
  split; [|split; [|split; [exact W|]]].
  - destruct (xi_spline lg w0 ell k0 D n pk sm Hx HD Hn HL) as (s & _ & V & _ & E). unfold pk_to_xi. rewrite E. fold r0 in V. rewrite V. reflexivity.
  - destruct (xi_spline lg w1 ell r0 D n xi sm' R0 HD Hn LX) as (s & _ & V & _ & E). unfold xi_to_pk. rewrite E. unfold r0 at 1 in V. rewrite dual0_dual0 in V by assumption. rewrite V. reflexivity.
  - intros E. rewrite E in W. lra.
Qed.
Print Assumptions C183_smoothing_always_shrinks_refuted.
Example C183_nonvacuous : length [3; 1; 4] = 3%nat /\ (exists i, nth i [3; 1; 4] 0 <> 0) /\ exp (1/2) < 1000 * (1/100).
Proof.
  split; [reflexivity|]. split; [exists 0%nat; cbn; lra|]. assert (H : exp (1/2) <= exp 1) by (left; apply exp_increasing; lra). pose proof exp_le_3. lra.
Qed.
