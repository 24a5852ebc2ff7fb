(** The compiled FFTLog is the same convolution. *)
From Coq Require Import Reals List ZArith Arith Lra Lia.
From Coquelicot Require Import Coquelicot.
From Verif Require Import M_Mcfit S_Mcfit P_Mcfit M_Spline M_Fftlog.
Import ListNotations.
Local Open Scope R_scope.

(** the coefficients actually applied, shifted by one sample (the reversal) *)
Definition ushift (N : nat) (u : nat -> C) (m : nat) : C :=
  ((if andb (Nat.even N) (m =? N/2)%nat then RtoC (Re (u m)) else u m) * tw N m 1)%C.
Lemma fhtq_core p a : length a = p_N p -> (0 < p_N p)%nat ->
  fhtq p a = map (core (p_N p) (ushift (p_N p) (fun m => nth m (p_u p) (RtoC 0))) (fun j => nth j a 0)) (seq 0 (p_N p)).
Proof.
  intros La H0. unfold fhtq. cbv zeta. set (N := p_N p) in *. set (u := fun m => nth m (p_u p) (RtoC 0)).
  set (B := map _ (seq 0 (N/2 + 1))).
  assert (HB : forall j, (j <= N/2)%nat -> nth j B (RtoC 0) = (dft N (fun i => nth i a 0%R) j * (if andb (Nat.even N) (j =? N/2)%nat then RtoC (Re (u j)) else u j))%C).
  { intros j Hj. unfold B. rewrite (nth_map_seq (fun m => let u0 := nth m (p_u p) (RtoC 0) in (nth m (rfft a) (RtoC 0) * (if andb (Nat.even N) (m =? N/2)%nat then RtoC (Re u0) else u0))%C)) by lia. cbv zeta. f_equal.
    unfold rfft. rewrite La. rewrite (nth_map_seq (fun m1 => csum N _)) by lia. reflexivity. }
  clearbody B. apply (nth_ext _ _ (0 / INR N) 0); [rewrite !map_length, rev_length, seq_length; unfold drfftb; rewrite map_length, seq_length; reflexivity|].
  intros n Hn. rewrite map_length, rev_length in Hn. unfold drfftb in Hn. rewrite map_length, seq_length in Hn.
  rewrite (map_nth (fun v => v / INR N)). rewrite nth_map_seq by exact Hn. rewrite rev_nth by (unfold drfftb; rewrite map_length, seq_length; exact Hn).
  unfold drfftb. rewrite map_length, seq_length. rewrite nth_map_seq by lia. unfold core. do 2 f_equal. apply csum_ext. intros m Hm.
  assert (T : Cconj (tw N m (N - S n)) = (tw N m 1 * tw N m n)%C).
  { rewrite (tw_sym N m (N - S n)), tw_conj by lia. replace (N - (N - S n))%nat with (1 + n)%nat by lia. rewrite <- tw_plus, !(tw_sym N m). reflexivity. }
  rewrite T, Cmult_assoc. f_equal. unfold herm. assert (HN' : (N < 2*(N/2) + 2)%nat) by (pose proof (Nat.mul_succ_div_gt N 2); lia).
  destruct (m <=? N/2)%nat eqn:E.
  - apply Nat.leb_le in E. rewrite HB by exact E. unfold ushift. rewrite Cmult_assoc. reflexivity.
  - apply Nat.leb_gt in E. rewrite HB by lia. unfold ushift. rewrite !conj_mult. rewrite (tw_conj N (N - m) 1) by lia. replace (N - (N - m))%nat with m by lia. rewrite Cmult_assoc. reflexivity.
Qed.
Lemma fhtq_len p a : length a = p_N p -> (0 < p_N p)%nat -> length (fhtq p a) = p_N p.
Proof. intros A B. rewrite fhtq_core by assumption. rewrite map_length, seq_length. reflexivity. Qed.
(** ** the low-ringing value of kr *)
Definition ring_arg (lg : C -> C) (mu q D kr : R) : R := ln (2/kr) / D + (Im (lg ((mu + 1 + q)/2, PI / (2 * D))) + Im (lg ((mu + 1 - q)/2, PI / (2 * D)))) / PI.
Lemma anint_near x : Rabs (x - IZR (anint x)) <= 1/2.
Proof.
  unfold anint. apply Rabs_le. destruct (Rle_dec 0 x) as [H|H].
  - destruct (base_Int_part (x + 1/2)). lra.
  - rewrite opp_IZR. destruct (base_Int_part (- x + 1/2)). lra.
Qed.
Lemma krgood_ok lg mu q D kr : 0 < D -> 0 < kr -> 0 < krgood lg mu q D kr /\ Rabs (ln (krgood lg mu q D kr / kr)) <= D/2 /\
  exists z : Z, ring_arg lg mu q D (krgood lg mu q D kr) = IZR z.
Proof.
  intros HD Hk. unfold krgood. destruct (Req_EM_T D 0) as [E|_]; [lra|]. cbv zeta. fold (ring_arg lg mu q D kr). set (arg := ring_arg lg mu q D kr). pose proof (anint_near arg) as NEAR.
  destruct (Req_EM_T arg (IZR (anint arg))) as [E|E].
  - split; [exact Hk|]. split; [replace (kr/kr) with 1 by (field; lra); rewrite ln_1, Rabs_R0; lra|]. exists (anint arg). exact E.
  - set (d := (arg - IZR (anint arg)) * D). split; [apply Rmult_lt_0_compat; [exact Hk|apply exp_pos]|]. split.
    + replace (kr * exp d / kr) with (exp d) by (field; lra). rewrite ln_exp. unfold d. rewrite Rabs_mult, (Rabs_right D) by lra. apply (Rmult_le_compat_r D) in NEAR; lra.
    + exists (anint arg). unfold ring_arg. replace (2 / (kr * exp d)) with (2/kr * exp (- d)) by (rewrite exp_Ropp; field; split; [apply Rgt_not_eq, exp_pos|lra]).
      rewrite ln_mult by first [apply exp_pos|apply Rdiv_lt_0_compat; lra]. rewrite ln_exp.
      transitivity (arg - d / D); [unfold arg, ring_arg; field; pose proof PI_RGT_0; split; lra|unfold d; field; lra].
Qed.
(** ** grids *)
Lemma ln10p : 0 < ln 10. Proof. rewrite <- ln_1. apply ln_increasing; lra. Qed.
Lemma lg10_grid x0 D i : 0 < x0 -> lg10 (x0 * exp (INR i * D)) * ln 10 = ln x0 + INR i * D.
Proof. intros H. pose proof ln10p. unfold lg10. rewrite ln_mult by (try exact H; apply exp_pos). rewrite ln_exp. field. lra. Qed.
Lemma last_grid x0 D n : (1 <= n)%nat -> last_of (log_grid x0 D n) = x0 * exp (INR (n-1) * D).
Proof. intros H. unfold last_of. rewrite grid_len. apply grid_nth. lia. Qed.
(** centre and spacing *)
Lemma centred x0 D n (c d : R) : 0 < x0 -> (2 <= n)%nat -> c * ln 10 = ln x0 + (INR n - 1)/2 * D -> d * ln 10 = D ->
  map (fun i => Rpower 10 (c + (INR i + 1 - (INR n + 1)/2) * d)) (seq 0 n) = log_grid x0 D n.
Proof.
  intros H Hn HC Hd. unfold log_grid. apply map_ext_in. intros i _. unfold Rpower. rewrite <- (exp_ln x0 H) at 1. rewrite <- exp_plus. f_equal.
  transitivity (c * ln 10 + (INR i + 1 - (INR n + 1)/2) * (d * ln 10)); [ring|]. rewrite HC, Hd. field.
Qed.
Lemma eval_nodes s : forall xs ys, (forall i, (i < length xs)%nat -> evaluate s (nth i xs 0) = Some (nth i ys 0)) -> length ys = length xs -> eval_many s xs = Some ys.
Proof.
  induction xs as [|x xs IH]; intros ys H L; [destruct ys; [reflexivity|discriminate]|]. destruct ys as [|y ys]; [discriminate|]. cbn [eval_many].
  rewrite (H 0%nat ltac:(cbn; lia) : evaluate s x = Some y). rewrite (IH ys); [reflexivity| |cbn in L; lia]. intros i Hi. exact (H (S i) ltac:(cbn; lia)).
Qed.
Lemma lmin_le d l : lmin d l <= d /\ forall x, In x l -> lmin d l <= x.
Proof.
  induction l as [|a l [I1 I2]]; cbn [lmin]; [split; [lra|intros x []]|]. split; [eapply Rle_trans; [apply Rmin_r|exact I1]|]. intros x [<-|H]; [apply Rmin_l|eapply Rle_trans; [apply Rmin_r|apply I2, H]].
Qed.
Lemma lmin_in d l : lmin d l = d \/ In (lmin d l) l.
Proof. induction l as [|a l IH]; cbn [lmin]; [left; reflexivity|]. unfold Rmin. destruct (Rle_dec a (lmin d l)); [right; left; reflexivity|]. destruct IH as [IH|IH]; [left; exact IH|right; right; exact IH]. Qed.
Lemma lmax_ge d l : d <= lmax d l /\ forall x, In x l -> x <= lmax d l.
Proof.
  induction l as [|a l [I1 I2]]; cbn [lmax]; [split; [lra|intros x []]|]. split; [eapply Rle_trans; [exact I1|apply Rmax_r]|]. intros x [<-|H]; [apply Rmax_l|eapply Rle_trans; [apply I2, H|apply Rmax_r]].
Qed.
Lemma lmax_in d l : lmax d l = d \/ In (lmax d l) l.
Proof. induction l as [|a l IH]; cbn [lmax]; [left; reflexivity|]. unfold Rmax. destruct (Rle_dec a (lmax d l)); [|right; left; reflexivity]. destruct IH as [IH|IH]; [left; exact IH|right; right; exact IH]. Qed.
Lemma grid_in x0 D n x : In x (log_grid x0 D n) -> exists i, (i < n)%nat /\ x = x0 * exp (INR i * D).
Proof. unfold log_grid. intros H. apply in_map_iff in H. destruct H as (i & <- & Hi). apply in_seq in Hi. exists i. split; [lia|reflexivity]. Qed.
Lemma in_grid x0 D n i : (i < n)%nat -> In (x0 * exp (INR i * D)) (log_grid x0 D n).
Proof. intros H. unfold log_grid. apply in_map_iff. exists i. split; [reflexivity|]. apply in_seq. lia. Qed.
Lemma grid_mono x0 D i j : 0 < x0 -> 0 < D -> (i <= j)%nat -> x0 * exp (INR i * D) <= x0 * exp (INR j * D).
Proof.
  intros Hx HD H. apply Rmult_le_compat_l; [lra|]. apply le_INR in H. assert (E : INR i * D <= INR j * D) by (apply Rmult_le_compat_r; lra).
  destruct E as [E|E]; [left; apply exp_increasing, E|rewrite E; right; reflexivity].
Qed.
Lemma lmin_grid x0 D n : 0 < x0 -> 0 < D -> (1 <= n)%nat -> lmin (nth 0 (log_grid x0 D n) 0) (log_grid x0 D n) = x0 * exp (INR 0 * D).
Proof.
  intros Hx HD Hn. rewrite grid_nth by lia. set (d := x0 * exp (INR 0 * D)). destruct (lmin_le d (log_grid x0 D n)) as [L1 _]. apply Rle_antisym; [exact L1|].
  destruct (lmin_in d (log_grid x0 D n)) as [E|E]; [lra|]. destruct (grid_in _ _ _ _ E) as (i & Hi & ->). apply grid_mono; [assumption|assumption|lia].
Qed.
Lemma lmax_grid x0 D n : 0 < x0 -> 0 < D -> (1 <= n)%nat -> lmax (nth 0 (log_grid x0 D n) 0) (log_grid x0 D n) = x0 * exp (INR (n-1) * D).
Proof.
  intros Hx HD Hn. rewrite grid_nth by lia. set (d := x0 * exp (INR 0 * D)). destruct (lmax_ge d (log_grid x0 D n)) as [_ L2]. apply Rle_antisym.
  - destruct (lmax_in d (log_grid x0 D n)) as [->|E]; [apply grid_mono; [assumption|assumption|lia]|]. destruct (grid_in _ _ _ _ E) as (i & Hi & ->). apply grid_mono; [assumption|assumption|lia].
  - apply L2, in_grid. lia.
Qed.
(** the start of the separations *)
Definition dual0 (lg : C -> C) (l : nat) (q x0 D : R) (n : nat) : R := krgood lg (INR l + 1/2) q D 1 / (x0 * exp (INR (n-1) * D)).
Lemma grid_span x0 D n : 0 < x0 -> (2 <= n)%nat -> (lg10 (last_of (log_grid x0 D n)) - lg10 (nth 0 (log_grid x0 D n) 0)) / (INR n - 1) * ln 10 = D.
Proof.
  intros Hx Hn. assert (2 <= INR n) by (apply (le_INR 2); exact Hn). rewrite last_grid by lia. rewrite grid_nth by lia.
  transitivity ((lg10 (x0 * exp (INR (n-1) * D)) * ln 10 - lg10 (x0 * exp (INR 0 * D)) * ln 10) / (INR n - 1)); [field; lra|]. rewrite !lg10_grid by exact Hx. rewrite minus_INR by lia. cbn [INR]. field. lra.
Qed.
Lemma xilm_grid lg l m q sm x0 D n pk : 0 < x0 -> 0 < D -> (2 <= n)%nat ->
  ComputeXiLM_fftlog lg l m (log_grid x0 D n) pk q sm =
   let p := fhti lg n (INR l + 1/2) q D 1 in
   let r := log_grid (dual0 lg l q x0 D n) D n in
   let a := map (fun i => Rpower (x0 * exp (INR i * D)) (INR m - 1/2) * nth i pk 0 * exp (- (x0 * exp (INR i * D) * sm)^2)) (seq 0 n) in
   (r, map (fun i => Rpower (2 * PI * nth i r 0) (-(3/2)) * nth i (fht p a) 0) (seq 0 n)).
Proof.
  intros Hx HD Hn. unfold ComputeXiLM_fftlog. cbv zeta. rewrite grid_len, grid_span by assumption. set (p := fhti lg n (INR l + 1/2) q D 1).
  destruct (krgood_ok lg (INR l + 1/2) q D 1 HD Rlt_0_1) as (K0 & _ & _). assert (X : 0 < x0 * exp (INR (n-1) * D)) by (apply Rmult_lt_0_compat; [exact Hx|apply exp_pos]). pose proof ln10p as L10.
  assert (ER : map (fun i => Rpower 10 (lg10 (p_kr p) - 1/2 * (lg10 (nth 0 (log_grid x0 D n) 0) + lg10 (last_of (log_grid x0 D n))) +
      (INR i + 1 - (INR n + 1)/2) * ((lg10 (last_of (log_grid x0 D n)) - lg10 (nth 0 (log_grid x0 D n) 0)) / (INR n - 1)))) (seq 0 n) = log_grid (dual0 lg l q x0 D n) D n).
  { apply centred; [apply Rdiv_lt_0_compat; assumption|exact Hn| |apply grid_span; assumption].
    rewrite last_grid by lia. rewrite grid_nth by lia. transitivity (lg10 (p_kr p) * ln 10 - 1/2 * (lg10 (x0 * exp (INR 0 * D)) * ln 10 + lg10 (x0 * exp (INR (n-1) * D)) * ln 10)); [ring|].
    rewrite !lg10_grid by exact Hx. unfold dual0. rewrite ln_div by assumption. rewrite ln_mult by (try exact Hx; apply exp_pos). rewrite ln_exp. unfold lg10. change (p_kr p) with (krgood lg (INR l + 1/2) q D 1).
    rewrite minus_INR by lia. cbn [INR]. field. lra. }
  rewrite ER. refine (f_equal (pair _) _). apply map_ext_in. intros i Hi. apply in_seq in Hi. refine (f_equal (Rmult _) _). refine (f_equal (fun a => nth i (fht p a) 0) _). apply map_ext_in. intros j Hj. apply in_seq in Hj. rewrite grid_nth by lia. reflexivity.
Qed.
(** ** unbiased transforms *)
Lemma seq_nth_u lg mu q D kr N m : (m <= N/2)%nat -> nth m (p_u (fhti lg N mu q D kr)) (RtoC 0) = (if Req_EM_T q 0 then u_unbiased lg mu D (krgood lg mu q D kr) N m else u_biased lg mu q D (krgood lg mu q D kr) N m).
Proof. intros H. unfold fhti. cbv zeta. cbn [p_u]. destruct (Req_EM_T q 0); apply nth_map_seq; lia. Qed.
Definition U0 (lg : C -> C) (l : nat) (D : R) (n : nat) : nat -> C := ushift n (u_unbiased lg (INR l + 1/2) D (krgood lg (INR l + 1/2) 0 D 1) n).
Lemma ushift_ext N u v m : u m = v m -> ushift N u m = ushift N v m.
Proof. intros H. unfold ushift. rewrite H. reflexivity. Qed.
Lemma fht0 lg l D n a i : (2 <= n)%nat -> length a = n -> (i < n)%nat -> nth i (fht (fhti lg n (INR l + 1/2) 0 D 1) a) 0 = core n (U0 lg l D n) (fun j => nth j a 0) i.
Proof.
  intros Hn La Hi. unfold fht. change (p_q (fhti lg n (INR l + 1/2) 0 D 1)) with 0. destruct (Req_EM_T 0 0) as [_|E]; [|lra].
  rewrite fhtq_core by (cbn [p_N fhti]; lia). change (p_N (fhti lg n (INR l + 1/2) 0 D 1)) with n. rewrite nth_map_seq by exact Hi.
  apply core_ext; [reflexivity| |exact Hi]. intros m Hm. unfold U0. apply ushift_ext. rewrite seq_nth_u by exact Hm. destruct (Req_EM_T 0 0) as [_|E]; [reflexivity|lra].
Qed.
Lemma sin_zpi z : sin (IZR z * PI) = 0.
Proof. apply sin_eq_0_1. exists z. reflexivity. Qed.
Lemma tw_half N : (2 <= N)%nat -> Nat.even N = true -> tw N (N/2) 1 = RtoC (-1).
Proof.
  intros H2 H. apply Nat.even_spec in H. destruct H as [h Hh]. assert (E : (N/2 = h)%nat) by (rewrite Hh, Nat.mul_comm; apply Nat.div_mul; lia). rewrite E. assert (0 < INR h) by (apply lt_0_INR; lia).
  unfold tw. rewrite Hh, mult_INR. cbn [INR]. replace (2 * PI * INR h * 1 / ((1 + 1) * INR h)) with PI by (field; lra).
  apply C_ext; cunf; rewrite exp_0; [rewrite cos_neg, cos_PI|rewrite sin_neg, sin_PI]; ring.
Qed.
Lemma tw_unit N m k : (tw N m k * Cconj (tw N m k))%C = RtoC 1.
Proof. unfold tw. apply cexp_unit. reflexivity. Qed.
Lemma good_U0 lg l D n : 0 < D -> (2 <= n)%nat -> good n (U0 lg l D n).
Proof.
  intros HD Hn. destruct (krgood_ok lg (INR l + 1/2) 0 D 1 HD Rlt_0_1) as (K0 & _ & z & Hz). set (kr := krgood lg (INR l + 1/2) 0 D 1) in *. set (mu := INR l + 1/2) in *.
  assert (NN : 0 < INR n) by (apply lt_0_INR; lia). pose proof PI_RGT_0 as HPI.
  assert (NY : Nat.even n = true -> u_unbiased lg mu D kr n (n/2) = RtoC (cos (IZR z * PI))).
  { intros He. assert (H2 : (n = 2 * (n/2))%nat) by (apply Nat.even_spec in He; destruct He as [h Hh]; replace (n/2)%nat with h; [lia|]; rewrite Hh, Nat.mul_comm; symmetry; apply Nat.div_mul; lia).
    unfold u_unbiased. destruct (n/2)%nat as [|m'] eqn:E; [lia|]. cbv zeta. rewrite <- E in *. assert (Hy : INR (n/2) * (PI / (INR n * D)) = PI / (2 * D)).
    { rewrite H2 at 2. rewrite mult_INR. cbn [INR]. assert (0 < INR (n/2)) by (apply lt_0_INR; lia). field. split; lra. }
    rewrite Hy. assert (HA : 2 * (ln (2/kr) * (PI/(2*D)) + Im (lg ((mu + 1)/2, PI/(2*D)))) = IZR z * PI).
    { rewrite <- Hz. unfold ring_arg. replace ((mu + 1 + 0)/2) with ((mu+1)/2) by (field; lra). replace ((mu + 1 - 0)/2) with ((mu+1)/2) by (field; lra). field. split; lra. }
    rewrite HA, sin_zpi. reflexivity. }
  assert (UN : forall m, (u_unbiased lg mu D kr n m * Cconj (u_unbiased lg mu D kr n m))%C = RtoC 1).
  { intros m. unfold u_unbiased. destruct m as [|m]; [cring|]. cbv zeta. match goal with |- context[cos ?a] => set (t := a) end. apply C_ext; cunf; [|ring]. pose proof (sin2_cos2 t) as S. unfold Rsqr in S. lra. }
  split; [|split].
  - intros m Hm. unfold U0. fold mu; fold kr. unfold ushift. rewrite conj_mult.
    assert (E : ((if andb (Nat.even n) (m =? n/2)%nat then RtoC (Re (u_unbiased lg mu D kr n m)) else u_unbiased lg mu D kr n m)) = u_unbiased lg mu D kr n m).
    { destruct (Nat.even n) eqn:Ev; [|reflexivity]. cbn [andb]. destruct (Nat.eqb_spec m (n/2)%nat) as [->|_]; [|reflexivity]. rewrite (NY eq_refl). reflexivity. }
    rewrite E. transitivity ((u_unbiased lg mu D kr n m * Cconj (u_unbiased lg mu D kr n m)) * (tw n m 1 * Cconj (tw n m 1)))%C; [ring|]. rewrite UN, tw_unit. ring.
  - unfold U0. fold mu; fold kr. unfold ushift. rewrite tw_0. cbn [u_unbiased]. destruct (andb _ _); cunf; ring.
  - intros He. unfold U0. fold mu; fold kr. unfold ushift. rewrite tw_half by assumption. rewrite He, Nat.eqb_refl. cbn [andb]. cunf. ring.
Qed.
Lemma grid_inc x0 D n : 0 < x0 -> 0 < D -> forall i, (S i < length (log_grid x0 D n))%nat -> nth i (log_grid x0 D n) 0 < nth (S i) (log_grid x0 D n) 0.
Proof. intros Hx HD i. rewrite grid_len. intros Hi. rewrite !grid_nth by lia. apply Rmult_lt_compat_l; [exact Hx|]. apply exp_increasing. rewrite S_INR. nra. Qed.
Lemma dual0_pos lg l q x0 D n : 0 < x0 -> 0 < D -> 0 < dual0 lg l q x0 D n.
Proof. intros Hx HD. destruct (krgood_ok lg (INR l + 1/2) q D 1 HD Rlt_0_1) as (K0 & _). apply Rdiv_lt_0_compat; [exact K0|]. apply Rmult_lt_0_compat; [exact Hx|apply exp_pos]. Qed.
Lemma dual0_dual0 lg l q x0 D n : 0 < x0 -> 0 < D -> dual0 lg l q (dual0 lg l q x0 D n) D n = x0.
Proof.
  intros Hx HD. destruct (krgood_ok lg (INR l + 1/2) q D 1 HD Rlt_0_1) as (K0 & _). unfold dual0. set (kr := krgood _ _ _ _ _) in *. set (e := exp (INR (n-1) * D)). assert (0 < e) by apply exp_pos. field. repeat split; lra.
Qed.
Lemma resampled x0 D n : 0 < x0 -> 0 < D -> (2 <= n)%nat ->
  let k_ := log_grid x0 D n in let lo := lg10 (lmin (nth 0 k_ 0) k_) in let hi := lg10 (lmax (nth 0 k_ 0) k_) in
  map (fun i => Rpower 10 (1/2 * (lo + hi) + (INR i + 1 - (INR n + 1)/2) * ((hi - lo)/(INR n - 1)))) (seq 0 n) = log_grid x0 D n.
Proof.
  intros Hx HD Hn k_ lo hi. pose proof ln10p as L10. assert (2 <= INR n) by (apply (le_INR 2); exact Hn). unfold lo, hi, k_. rewrite lmin_grid, lmax_grid by (try assumption; lia).
  apply centred; [exact Hx|exact Hn| |].
  - transitivity (1/2 * (lg10 (x0 * exp (INR 0 * D)) * ln 10 + lg10 (x0 * exp (INR (n-1) * D)) * ln 10)); [ring|]. rewrite !lg10_grid by exact Hx. rewrite minus_INR by lia. cbn [INR]. field.
  - transitivity ((lg10 (x0 * exp (INR (n-1) * D)) * ln 10 - lg10 (x0 * exp (INR 0 * D)) * ln 10) / (INR n - 1)); [field; lra|]. rewrite !lg10_grid by exact Hx. rewrite minus_INR by lia. cbn [INR]. field. lra.
Qed.
