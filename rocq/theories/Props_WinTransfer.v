(** Property theorems C179, C180: the window transfer without a window. *)
From Coq Require Import Reals List ZArith Arith Lra Lia.
From Coquelicot Require Import Coquelicot.
From Verif Require Import M_Mcfit M_WinTransfer S_Mcfit P_Mcfit Props_Mcfit.
Import ListNotations.
Local Open Scope R_scope.
Lemma shift_general UK q (p r p' r' : R -> R) x0 y1 D n lowring el er F ka mu :
  let y0 := out0 UK q n lowring x0 D n in let x1 := out0 UK q n lowring y1 D n in
  unitary UK q -> 0 < x0 -> 0 < y1 -> 0 < D -> (2 <= n)%nat -> (lowring = true \/ Nat.odd n = true) -> length F = n ->
  (forall i, p' (y1 * exp (INR i * D)) * Rpower (y1 * exp (INR i * D)) (-q) * (r (y0 * exp (INR i * D)) * Rpower (y0 * exp (INR i * D)) (-q)) = ka) ->
  (forall i, r' (x1 * exp (INR i * D)) * Rpower (x1 * exp (INR i * D)) (-q) * (p (x0 * exp (INR i * D)) * Rpower (x0 * exp (INR i * D)) (-q)) = mu) ->
  exists c G c', option_map (times p r) (mc_init (log_grid x0 D n) UK q (Some n) lowring) = Some c /\ mc_call c F el er = Some (log_grid y0 D n, G) /\
    option_map (times p' r') (mc_init (log_grid y1 D n) UK q (Some n) lowring) = Some c' /\ mc_call c' G el er = Some (log_grid x1 D n, map (fun v => ka * mu * v) F).
Proof.
  intros y0 x1 HU Hx Hy1 HD Hn HL HF P1 P2. assert (HNn : (n <= fft_len (Some n) n)%nat) by (cbn; lia).
  set (u := map (fun m => UK (q, (2 * PI / INR n / D * INR m)%R) * cexp (0%R, (- (2 * PI * lnxy UK q n lowring D / INR n / D * INR m))%R))%C (seq 0 (n/2 + 1))).
  pose proof (init_grid UK q (Some n) lowring x0 D n Hx Hn HNn) as I1. pose proof (init_grid UK q (Some n) lowring y1 D n Hy1 Hn HNn) as I2.
  cbn [fft_len] in I1, I2. fold y0 u in I1. fold x1 u in I2.
  pose proof (coeffs_good UK q n lowring D HU HD ltac:(lia) HL) as G. fold u in G.
  set (c := times p r {| c_x := log_grid x0 D n; c_q := q; c_N := n; c_y := log_grid y0 D n; c_u := u; c_pre := map (fun _ => 1) (log_grid x0 D n); c_post := map (fun _ => 1) (log_grid x0 D n) |}).
  set (c' := times p' r' {| c_x := log_grid y1 D n; c_q := q; c_N := n; c_y := log_grid x1 D n; c_u := u; c_pre := map (fun _ => 1) (log_grid y1 D n); c_post := map (fun _ => 1) (log_grid y1 D n) |}).
  assert (L1 : length (c_x c) = n) by (cbn; apply grid_len). assert (L2 : length (c_x c') = n) by (cbn; apply grid_len).
  set (gr := fun a i => a * exp (INR i * D)).
  assert (F1 : forall i, (i < n)%nat -> nth i (c_pre c) 0 = p (gr x0 i) /\ nth i (c_post c) 0 = r (gr y0 i) /\ nth i (c_x c) 0 = gr x0 i /\ nth i (c_y c) 0 = gr y0 i).
  { intros i Hi. unfold c, times. cbn [c_pre c_post c_x c_y]. rewrite grid_len, !nth_map_seq, !ones, !grid_nth by (rewrite ?grid_len; exact Hi). unfold gr. split; [ring|split; [ring|split; reflexivity]]. }
  assert (F2 : forall i, (i < n)%nat -> nth i (c_pre c') 0 = p' (gr y1 i) /\ nth i (c_post c') 0 = r' (gr x1 i) /\ nth i (c_x c') 0 = gr y1 i /\ nth i (c_y c') 0 = gr x1 i).
  { intros i Hi. unfold c', times. cbn [c_pre c_post c_x c_y]. rewrite grid_len, !nth_map_seq, !ones, !grid_nth by (rewrite ?grid_len; exact Hi). unfold gr. split; [ring|split; [ring|split; reflexivity]]. }
  assert (N1 : c_N c = n) by reflexivity. assert (N2 : c_N c' = n) by reflexivity.
  pose proof (call_core c F el er) as K1. rewrite L1, N1, (pad_none c F el er n L1 N1) in K1. specialize (K1 HF (le_n n) ltac:(lia)). rewrite Nat.sub_diag in K1.
  set (GG := map _ (seq 0 n)) in K1. assert (LG : length GG = n) by (unfold GG; rewrite map_length, seq_length; reflexivity).
  pose proof (call_core c' GG el er) as K2. rewrite L2, N2, (pad_none c' GG el er n L2 N2) in K2. specialize (K2 LG (le_n n) ltac:(lia)). rewrite Nat.sub_diag in K2.
  exists c, GG, c'. rewrite I1, I2. cbn [option_map].
  split; [reflexivity|]. split; [exact K1|]. split; [reflexivity|]. rewrite K2. f_equal. f_equal.
  apply (nth_ext _ _ 0 (ka * mu * 0)); [rewrite !map_length, seq_length; symmetry; exact HF|]. intros i Hi. rewrite map_length, seq_length in Hi. rewrite nth_map_seq by exact Hi. rewrite (map_nth (fun v => ka * mu * v)).
  destruct (F2 i Hi) as (_ & E2 & _ & E4). rewrite E2, E4. change (c_q c') with q. change (c_u c') with u. cbn [Nat.div Nat.divmod fst Nat.sub]. rewrite Nat.add_0_r.
  set (f := fun j => p (gr x0 j) * Rpower (gr x0 j) (-q) * nth j F 0). set (U := fun m => nth m u (RtoC 0)).
  rewrite (core_ext n U U _ (fun k => ka * core n U f k + 0 * core n U f k) i); [| |reflexivity|exact Hi].
  - rewrite core_lin by lia. rewrite core_core by (try exact G; try exact Hi; lia). unfold f. rewrite <- (P2 i). fold (gr x0 i) (gr x1 i). ring.
  - intros k Hk. unfold fin. rewrite L2, nth_map_seq by exact Hk. destruct (F2 k Hk) as (A1 & _ & A3 & _). rewrite A1, A3. change (c_q c') with q.
    unfold GG. rewrite nth_map_seq by exact Hk. destruct (F1 k Hk) as (_ & B2 & _ & B4). rewrite B2, B4. change (c_q c) with q. change (c_u c) with u.
    cbn [Nat.div Nat.divmod fst Nat.sub]. rewrite Nat.add_0_r. rewrite <- (P1 k). fold (gr y1 k) (gr y0 k). fold U.
    rewrite (core_ext n U U _ f k); [ring| |reflexivity|exact Hk].
    intros j Hj. unfold fin. rewrite L1, nth_map_seq by exact Hj. destruct (F1 j Hj) as (C1 & _ & C3 & _). rewrite C1, C3. reflexivity.
Qed.
(** the separations of multipole 2h start at *)
Definition r0 lg h n low k0 D := out0 (mellin_sphj lg (INR (2*h))) (3/2) n low k0 D n.
Lemma P2xi_shift lg h x0 y1 D n low el er P : reflecting lg -> 0 < x0 -> 0 < y1 -> 0 < D -> (2 <= n)%nat -> (low = true \/ Nat.odd n = true) -> length P = n ->
  exists c xi c' kk, P2xi lg h (log_grid x0 D n) (Some n) low = Some c /\ mc_call c P el er = Some (log_grid (r0 lg h n low x0 D) D n, xi) /\
    xi2P lg h (log_grid y1 D n) (Some n) low = Some c' /\ mc_call c' xi el er = Some (kk, map (fun v => (y1 / r0 lg h n low x0 D)^3 * v) P).
Proof.
  intros HG Hx Hy HD Hn HL HP. assert (HU : unitary (mellin_sphj lg (INR (2*h))) (3/2)) by (apply unit_sphj; [exact HG|pose proof (pos_INR (2*h)); lra]).
  set (UK := mellin_sphj lg (INR (2*h))) in *. set (y0 := r0 lg h n low x0 D). assert (Y0 : 0 < y0) by (apply out0_pos; exact Hx).
  set (w := y1 / y0). assert (W : 0 < w) by (apply Rdiv_lt_0_compat; assumption).
  pose proof (sgn_sq h) as S. assert (S0 : (-1)^h <> 0) by (intros Z; rewrite Z in S; lra). assert (C0 : 0 < Rpower (2*PI) (3/2)) by apply exp_pos.
  destruct (shift_general UK (3/2) (fun v => (-1)^h / Rpower (2*PI) (3/2) * v^3) one (fun v => v^3) (fun _ => Rpower (2*PI) (3/2) / (-1)^h) x0 y1 D n low el er P (Rpower w (3/2)) (Rpower w (3/2)) HU Hx Hy HD Hn HL HP) as (c & xi & c' & E1 & E2 & E3 & E4).
  - intros i. change (out0 UK (3/2) n low x0 D n) with y0. set (a := y0 * exp (INR i * D)). assert (A : 0 < a) by (apply Rmult_lt_0_compat; [exact Y0|apply exp_pos]).
    replace (y1 * exp (INR i * D)) with (w * a) by (unfold w, a; field; lra). rewrite (rp3 (w*a)) by (apply Rmult_lt_0_compat; assumption). rewrite <- !Rpower_mult_distr by assumption. unfold one.
    pose proof (rpinv a (3/2) A) as Z1. pose proof (rpinv w (3/2) W) as Z2. set (ap := Rpower a (3/2)) in *. set (am := Rpower a (-(3/2))) in *. set (wp := Rpower w (3/2)) in *. set (wm := Rpower w (-(3/2))) in *.
    transitivity (wp * (wm * wp) * (am * ap) * (am * ap)); [ring|]. rewrite Z1, Z2. ring.
  - intros i. set (g := Rpower (2*PI) (3/2)) in *. set (x1 := out0 UK (3/2) n low y1 D n). assert (EX : x1 = x0 / w).
    { unfold x1, w, y0, r0. fold UK. unfold out0. field. repeat split; try lra. apply Rgt_not_eq, exp_pos. }
    set (a := x0 * exp (INR i * D)). assert (A : 0 < a) by (apply Rmult_lt_0_compat; [exact Hx|apply exp_pos]). assert (WI : 0 < / w) by (apply Rinv_0_lt_compat; exact W).
    replace (x1 * exp (INR i * D)) with (/ w * a) by (rewrite EX; unfold a; field; lra). rewrite <- !Rpower_mult_distr by assumption. rewrite (rp3 a A).
    replace (Rpower (/ w) (-(3/2))) with (Rpower w (3/2)) by (unfold Rpower; rewrite ln_Rinv by exact W; f_equal; ring).
    pose proof (rpinv a (3/2) A) as Z1. set (ap := Rpower a (3/2)) in *. set (am := Rpower a (-(3/2))) in *. set (wp := Rpower w (3/2)) in *.
    transitivity (wp * (am * ap) * (am * ap)); [field; split; lra|]. rewrite Z1. ring.
  - exists c, xi, c', (log_grid (out0 UK (3/2) n low y1 D n) D n). split; [exact E1|]. split; [exact E2|]. split; [exact E3|]. rewrite E4. f_equal. f_equal. apply map_ext. intros v. rewrite (rp3 w W). reflexivity.
Qed.
Lemma ln10 : 0 < ln 10. Proof. rewrite <- ln_1. apply ln_increasing; lra. Qed.
Lemma log10_grid k0 D i : 0 < k0 -> log10 (k0 * exp (INR i * D)) = log10 k0 + INR i * (D / ln 10).
Proof. intros H. pose proof ln10. unfold log10. rewrite ln_mult by (try exact H; apply exp_pos). rewrite ln_exp. field. lra. Qed.
(** how many points are appended *)
Definition extra (k0 D : R) (n : nat) : nat := Z.to_nat (ceil ((2 + 1/2 * (D / ln 10) - (log10 k0 + INR (n-1) * (D / ln 10) + D / ln 10)) / (D / ln 10))).
Lemma pad_grid k0 D n : 0 < k0 -> (2 <= n)%nat -> pad_k (log_grid k0 D n) = log_grid k0 D (n + extra k0 D n).
Proof.
  intros Hk Hn. pose proof ln10 as L10. unfold pad_k. cbv zeta. rewrite grid_len, !grid_nth by lia. rewrite !log10_grid by exact Hk. cbn [INR]. rewrite Rmult_0_l, Rplus_0_r, Rmult_1_l.
  replace (log10 k0 + D / ln 10 - log10 k0) with (D / ln 10) by ring. unfold arange. fold (extra k0 D n). unfold log_grid. rewrite seq_app, map_app, map_map. f_equal. cbn [Nat.add].
  assert (SH : forall m (g : nat -> R), map g (seq n m) = map (fun i => g (n + i)%nat) (seq 0 m)).
  { intros m g. apply (nth_ext _ _ 0 0); [rewrite !map_length, !seq_length; reflexivity|]. intros i Hi. rewrite map_length, seq_length in Hi.
    rewrite (nth_indep _ 0 (g 0%nat)) by (rewrite map_length, seq_length; exact Hi). rewrite map_nth, nth_map_seq, seq_nth by exact Hi. reflexivity. }
  rewrite SH. apply map_ext_in. intros i _. unfold Rpower. rewrite <- (exp_ln k0 Hk) at 2. rewrite <- exp_plus. f_equal. unfold log10. rewrite plus_INR, minus_INR by lia. cbn [INR]. field. lra.
Qed.
Lemma pad_col_len n (col : list R) : (length col <= n)%nat -> length (pad_col n col) = n.
Proof. intros H. unfold pad_col. rewrite app_length, repeat_length. lia. Qed.

(** ** C179 *)
(** The padded wavenumbers continue the logarithmic grid, up to within half a step of k = 100. *)
Theorem C179_padding_continues_the_grid : forall k0 D n, 0 < k0 -> 0 < D -> (2 <= n)%nat -> exists m, pad_k (log_grid k0 D n) = log_grid k0 D (n + m) /\
  (k0 * exp (INR (n-1) * D) * exp (D/2) < 100 -> 100 * exp (- (D/2)) <= nth (n + m - 1) (pad_k (log_grid k0 D n)) 0 < 100 * exp (D/2)).
Proof.
  intros k0 D n Hk HD Hn. exists (extra k0 D n). split; [apply pad_grid; assumption|]. intros HL. rewrite pad_grid by assumption. pose proof ln10 as L10. set (m := extra k0 D n).
  assert (D10 : 0 < D / ln 10) by (apply Rdiv_lt_0_compat; assumption).
  assert (LL : log10 k0 + INR (n-1) * (D/ln 10) + 1/2 * (D / ln 10) < 2).
  { apply ln_increasing in HL; [|repeat apply Rmult_lt_0_compat; try exact Hk; apply exp_pos]. rewrite !ln_mult, !ln_exp in HL by (repeat apply Rmult_lt_0_compat; try exact Hk; apply exp_pos).
    replace 100 with (10*10) in HL by ring. rewrite (ln_mult 10 10) in HL by lra. unfold log10. apply (Rmult_lt_reg_r (ln 10)); [exact L10|].
    replace ((ln k0 / ln 10 + INR (n-1) * (D / ln 10) + 1/2 * (D / ln 10)) * ln 10) with (ln k0 + INR (n-1) * D + D/2) by (field; lra). lra. }
  set (q := (2 + 1/2 * (D / ln 10) - (log10 k0 + INR (n-1) * (D / ln 10) + D / ln 10)) / (D / ln 10)).
  assert (Q0 : 0 < q) by (unfold q; apply Rdiv_lt_0_compat; [lra|exact D10]).
  assert (CE : IZR (ceil q) - 1 < q <= IZR (ceil q)).
  { unfold ceil. rewrite opp_IZR. destruct (base_Int_part (- q)) as [B1 B2]. lra. }
  assert (CP : (0 < ceil q)%Z) by (apply lt_IZR; lra). assert (EM : INR m = IZR (ceil q)). { unfold m, extra. fold q. rewrite INR_IZR_INZ, Z2Nat.id by lia. reflexivity. }
  assert (M1 : (1 <= m)%nat). { apply INR_le. rewrite EM. cbn [INR]. apply IZR_le. lia. }
  rewrite grid_nth by lia. rewrite minus_INR, plus_INR by lia. rewrite EM. cbn [INR]. rewrite <- (exp_ln k0 Hk) at 1 2. rewrite <- exp_plus.
  assert (EH : exp (ln 100) = 100) by (apply exp_ln; lra). rewrite <- EH at 1 2. rewrite <- !exp_plus.
  assert (L100 : ln 100 = 2 * ln 10) by (replace 100 with (10*10) by ring; rewrite ln_mult by lra; ring).
  assert (QE : q * D = 2 * ln 10 + D/2 - ln k0 - INR (n-1) * D - D) by (unfold q, log10; field; split; lra). rewrite minus_INR in QE by lia. cbn [INR] in QE.
  assert (A1 : q * D <= IZR (ceil q) * D) by (apply Rmult_le_compat_r; lra). assert (A2 : (IZR (ceil q) - 1) * D < q * D) by (apply Rmult_lt_compat_r; lra).
  split.
  - destruct (Rle_lt_or_eq_dec (ln 100 + - (D/2)) (ln k0 + (INR n + IZR (ceil q) - 1) * D)) as [X|X]; [rewrite L100; lra|apply Rlt_le, exp_increasing, X|rewrite X; lra].
  - apply exp_increasing. rewrite L100. lra.
Qed.
Print Assumptions C179_padding_continues_the_grid.
(** the multipole number of the last column *)
Definition last_h (cols : list (nat * list R)) : nat := fst (last cols (0%nat, [])).
Definition rel lg n low k0 D y1 (c P : nat * list R) : Prop := fst P = fst c /\ snd P = map (fun v => (y1 / r0 lg (fst c) n low k0 D)^3 * v) (snd c).
Lemma both lg n low ex k0 D y1 cols : reflecting lg -> 0 < k0 -> 0 < y1 -> 0 < D -> (2 <= n)%nat -> (low = true \/ Nat.odd n = true) -> (forall c, In c cols -> length (snd c) = n) ->
  exists rr xis Ps, forward lg (Some n) low ex (log_grid k0 D n) cols = Some (rr, xis) /\ (cols <> [] -> rr = log_grid (r0 lg (last_h cols) n low k0 D) D n) /\
    backward lg (Some n) low ex (log_grid y1 D n) xis = Some Ps /\ Forall2 (rel lg n low k0 D y1) cols Ps.
Proof.
  intros HG Hk Hy HD Hn HL. induction cols as [|[h P] cols IH]; intros HC.
  - exists [], [], []. split; [reflexivity|]. split; [congruence|]. split; [reflexivity|constructor].
  - destruct IH as (rr & xis & Ps & A1 & A2 & A3 & A4); [intros c Hc; apply HC; right; exact Hc|].
    destruct (P2xi_shift lg h k0 y1 D n low ex ex P HG Hk Hy HD Hn HL (HC (h, P) (or_introl eq_refl))) as (c & xi & c' & kk & E1 & E2 & E3 & E4).
    exists (match cols with [] => log_grid (r0 lg h n low k0 D) D n | _ => rr end), ((h, xi) :: xis), ((h, map (fun v => (y1 / r0 lg h n low k0 D)^3 * v) P) :: Ps).
    cbn [forward backward]. rewrite E1, E2, A1, E3, E4, A3. split; [destruct cols; reflexivity|]. split.
    + intros _. destruct cols as [|c0 cols]; [reflexivity|]. rewrite A2 by discriminate. reflexivity.
    + split; [reflexivity|]. constructor; [split; reflexivity|exact A4].
Qed.
Lemma forall2_map (f : nat * list R -> nat * list R) (R0 : nat * list R -> nat * list R -> Prop) l l' : (forall c P, In c l -> R0 c P -> P = f c) -> Forall2 R0 l l' -> l' = map f l.
Proof.
  intros H F. induction F as [|c P l l' HR F IH]; [reflexivity|]. cbn [map]. f_equal; [apply H; [left; reflexivity|exact HR]|]. apply IH. intros; apply H; [right; assumption|assumption].
Qed.
(** If the window does nothing, the multipoles come back exactly as they went in (zero padded), provided the FFT is as long as the padded data and either all requested
    multipoles are the same one or the low-ringing shift is off. *)
Theorem C179_unit_window_identity : forall lg conv low ex k0 D n cols, reflecting lg -> (forall r xis, conv r xis = xis) -> 0 < k0 -> 0 < D -> (2 <= n)%nat -> cols <> [] ->
  (forall c, In c cols -> length (snd c) = n) ->
  let newk := pad_k (log_grid k0 D n) in let N := length newk in
  (low = true \/ Nat.odd N = true) -> (low = false \/ exists h, forall c, In c cols -> fst c = h) ->
  wt_call lg conv (Some N) low ex (log_grid k0 D n) cols = Some (newk, map (fun c => (fst c, snd c ++ repeat 0 (N - n))) cols).
Proof.
  intros lg conv low ex k0 D n cols HG Hconv Hk HD Hn HC0 HC newk N HL HH. assert (EK : newk = log_grid k0 D N). { unfold N, newk. rewrite pad_grid by assumption. rewrite grid_len. reflexivity. }
  assert (HN : (n <= N)%nat) by (unfold N, newk; rewrite pad_grid, grid_len by assumption; lia).
  set (cols' := map (fun c => (fst c, pad_col N (snd c))) cols).
  set (y1 := r0 lg (last_h cols') N low k0 D). assert (Hy : 0 < y1) by (apply out0_pos; exact Hk).
  assert (HC' : forall c, In c cols' -> length (snd c) = N).
  { intros c Hc. apply in_map_iff in Hc. destruct Hc as (c0 & <- & Hc0). cbn [snd]. apply pad_col_len. rewrite (HC c0 Hc0). exact HN. }
  destruct (both lg N low ex k0 D y1 cols' HG Hk Hy HD ltac:(lia) HL HC') as (rr & xis & Ps & A1 & A2 & A3 & A4).
  assert (CN : cols' <> []) by (unfold cols'; destruct cols; [congruence|discriminate]). specialize (A2 CN). fold y1 in A2. subst rr.
  unfold wt_call. cbv zeta. fold newk. fold N. fold cols'. rewrite EK at 1. rewrite A1, Hconv, A3. f_equal. f_equal.
  transitivity (map (fun c => c) cols').
  - apply (forall2_map _ (rel lg N low k0 D y1)); [|exact A4]. intros c P Hc (R1 & R2). destruct P as [hP lP]. destruct c as [hc lc]. cbn [fst snd] in *. subst hP. f_equal.
    rewrite R2. rewrite <- (map_id lc) at 2. apply map_ext. intros v. assert (E : y1 = r0 lg hc N low k0 D).
    { unfold y1, r0, out0. destruct HH as [->|[h HH]]; [reflexivity|]. assert (SAME : forall c, In c cols' -> fst c = h).
      { intros c Hc'. apply in_map_iff in Hc'. destruct Hc' as (c0 & <- & Hc0). cbn [fst]. apply HH, Hc0. }
      rewrite (SAME (hc, lc) Hc : hc = h). assert (LH : last_h cols' = h); [|rewrite LH; reflexivity]. unfold last_h. apply SAME. clear - CN. destruct cols' as [|c l]; [congruence|]. clear CN. revert c. induction l as [|b l IH]; intros c; [left; reflexivity|right; apply IH]. }
    rewrite <- E. replace (y1/y1) with 1 by (field; lra). ring.
  - rewrite map_id. unfold cols'. apply map_ext_in. intros c Hc. unfold pad_col. rewrite (HC c Hc). reflexivity.
Qed.
Print Assumptions C179_unit_window_identity.
Example C179_nonvacuous : reflecting (fun z => z) /\ (forall (r : list R) (xis : list (nat * list R)), (fun _ x => x) r xis = xis) /\
  (exists k0 D n, 0 < k0 /\ 0 < D /\ (2 <= n)%nat /\ (forall c : nat * list R, In c [(0%nat, repeat 1 n)] -> length (snd c) = n)).
Proof. split; [intros z _; reflexivity|]. split; [reflexivity|]. exists (1/10), 1, 5%nat. split; [lra|]. split; [lra|]. split; [lia|]. intros c [<-|[]]. reflexivity. Qed.

(** ** C180 *)
Lemma angle_back (z : C) : (z * Cconj z)%C = RtoC 1 -> 0 <= Re (z * cexp (0, - angle z)%R)%C -> z = cexp (0, angle z).
Proof.
  intros HU HP. set (w := (z * cexp (0, - angle z)%R)%C) in *. assert (HW : (w * Cconj w)%C = RtoC 1).
  { unfold w. rewrite conj_mult, <- cexp_conj. transitivity ((z * Cconj z) * (cexp (0, - angle z)%R * cexp (Cconj (0, - angle z)%R)))%C; [ring|]. rewrite HU, <- cexp_plus.
    replace ((0, - angle z)%R + Cconj (0, - angle z)%R)%C with (RtoC 0) by (apply C_ext; cunf; ring). rewrite cexp_0. ring. }
  pose proof (angle_real z) as AR. fold w in AR. assert (W1 : w = RtoC 1).
  { destruct w as [a b]. unfold Im in AR. cbn [snd] in AR. subst b. unfold Re in HP. cbn [fst] in HP. apply (f_equal fst) in HW. unfold Cmult, Cconj, RtoC in HW. cbn [fst snd] in HW.
    apply C_ext; unfold RtoC; cbn [fst snd]; [|reflexivity]. assert (Q : (a - 1) * (a + 1) = 0) by (transitivity (a * a - 0 * - 0 - 1); [ring|rewrite HW; ring]). apply Rmult_integral in Q. destruct Q; lra. }
  assert (E : (w * cexp (0, angle z)%R)%C = z).
  { unfold w. transitivity (z * (cexp (0, - angle z)%R * cexp (0, angle z)%R))%C; [ring|]. rewrite <- cexp_plus.
    replace ((0, - angle z)%R + (0, angle z)%R)%C with (RtoC 0) by (apply C_ext; cunf; ring). rewrite cexp_0. ring. }
  rewrite W1 in E. rewrite <- E at 1. ring.
Qed.
Lemma angle_pos (z : C) : 0 <= Re (z * cexp (0, - angle z)%R)%C.
Proof.
  destruct z as [a b]. unfold angle. cunf. rewrite exp_0, sin_neg, cos_neg. unfold atan2.
  assert (CA : forall t, 0 < cos (atan t)) by (intros t; pose proof (atan_bound t); apply cos_gt_0; lra).
  assert (SA : forall t, sin (atan t) = t * cos (atan t)). { intros t. pose proof (CA t) as Q. rewrite <- (atan_right_inv t) at 2 || rewrite <- (tan_atan t) at 2. unfold tan. field. lra. }
  destruct (Rlt_dec 0 a) as [Ha|Ha].
  - rewrite SA. replace (a * (1 * cos (atan (b/a))) - b * (1 * - (b/a * cos (atan (b/a))))) with (cos (atan (b/a)) * (a + b*b/a)) by (field; lra).
    apply Rmult_le_pos; [apply Rlt_le, CA|]. apply Rplus_le_le_0_compat; [lra|]. apply Rmult_le_pos; [apply Rle_0_sqr|apply Rlt_le, Rinv_0_lt_compat; exact Ha].
  - destruct (Rlt_dec a 0) as [Ha'|Ha'].
    + assert (X : 0 <= cos (atan (b/a)) * (- a + b*b/(-a))). { apply Rmult_le_pos; [apply Rlt_le, CA|]. apply Rplus_le_le_0_compat; [lra|]. apply Rmult_le_pos; [apply Rle_0_sqr|apply Rlt_le, Rinv_0_lt_compat; lra]. }
      destruct (Rle_dec 0 b).
      * rewrite neg_cos, neg_sin, SA. replace (a * (1 * - cos (atan (b/a))) - b * (1 * - - (b/a * cos (atan (b/a))))) with (cos (atan (b/a)) * (- a + b*b/(-a))) by (field; lra). exact X.
      * rewrite cos_minus, sin_minus, cos_PI, sin_PI, SA. replace (a * (1 * (cos (atan (b/a)) * -1 + b/a * cos (atan (b/a)) * 0)) - b * (1 * - (b/a * cos (atan (b/a)) * -1 - cos (atan (b/a)) * 0))) with (cos (atan (b/a)) * (- a + b*b/(-a))) by (field; lra). exact X.
    + assert (a = 0) by lra. subst a. destruct (Rlt_dec 0 b) as [Hb|Hb]; [rewrite sin_PI2; lra|]. destruct (Rlt_dec b 0) as [Hb'|Hb']; [rewrite sin_neg, sin_PI2; lra|]. replace b with 0 by lra. lra.
Qed.
(** consecutive even multipoles have different low-ringing shifts *)
Lemma lnxy_differ lg h n D : reflecting lg -> gamma_recurrence cexp lg -> 0 < D -> Nat.even n = true ->
  lnxy (mellin_sphj lg (INR (2*S h))) (3/2) n true D <> lnxy (mellin_sphj lg (INR (2*h))) (3/2) n true D.
Proof.
  intros HR HG HD HE E. unfold lnxy in E. rewrite HE in E. cbn [andb] in E. pose proof PI_RGT_0 as PI0. set (t := PI / D) in *. assert (T : 0 < t) by (apply Rdiv_lt_0_compat; assumption).
  pose proof (pos_INR (2*h)) as HP.
  assert (A : angle (mellin_sphj lg (INR (2*S h)) (3/2, t)) = angle (mellin_sphj lg (INR (2*h)) (3/2, t))).
  { assert (0 < D/PI) by (apply Rdiv_lt_0_compat; assumption). apply (Rmult_eq_reg_l (D/PI)); [exact E|lra]. }
  destruct (unit_sphj lg (INR (2*h)) HR ltac:(lra)) as [U1 _]. destruct (unit_sphj lg (INR (2*S h)) HR ltac:(pose proof (pos_INR (2*S h)); lra)) as [U2 _]. specialize (U1 t). specialize (U2 t).
  assert (EQ : mellin_sphj lg (INR (2*S h)) (3/2, t) = mellin_sphj lg (INR (2*h)) (3/2, t)).
  { rewrite (angle_back _ U2 (angle_pos _)), (angle_back _ U1 (angle_pos _)), A. reflexivity. }
  set (w := (1/2*(INR (2*h) + 3/2), 1/2*t) : C). assert (HW : 0 < Re w) by (unfold w, Re; cbn [fst]; lra). assert (HW' : 0 < Re (Cconj w)) by exact HW.
  assert (F0 : mellin_sphj lg (INR (2*h)) (3/2, t) = (cexp (0, ln 2 * t)%R * cexp (lg w) * cexp (- lg (Cconj w)))%C).
  { rewrite <- !cexp_plus. match goal with |- _ = cexp (?a + - ?b)%C => change (a + - b)%C with (a - b)%C end. unfold mellin_sphj. f_equal. f_equal; [f_equal; [apply C_ext; cunf; ring|]|]; f_equal; unfold w; apply C_ext; cunf; field. }
  assert (F1 : mellin_sphj lg (INR (2*S h)) (3/2, t) = (cexp (0, ln 2 * t)%R * cexp (lg (w + RtoC 1)) * cexp (- lg (Cconj w + RtoC 1)))%C).
  { replace (2 * S h)%nat with (2*h + 2)%nat by lia. rewrite plus_INR. cbn [INR]. rewrite <- !cexp_plus. match goal with |- _ = cexp (?a + - ?b)%C => change (a + - b)%C with (a - b)%C end. unfold mellin_sphj. f_equal. f_equal; [f_equal; [apply C_ext; cunf; ring|]|]; f_equal; unfold w; apply C_ext; cunf; field. }
  rewrite F0, F1, (HG w HW) in EQ. pose proof (HG _ HW') as G2.
  set (e := cexp (0, ln 2 * t)%R) in *. set (p := cexp (lg w)) in *. set (c := cexp (lg (Cconj w))) in *. set (ci := cexp (- lg (Cconj w))%C) in *.
  assert (I1 : (c * ci)%C = RtoC 1) by (unfold c, ci; rewrite <- cexp_plus, <- cexp_0; f_equal; ring).
  set (d := cexp (lg (Cconj w + RtoC 1)%C)) in *. set (di := cexp (- lg (Cconj w + RtoC 1))%C) in *.
  assert (I2 : (d * di)%C = RtoC 1) by (unfold d, di; rewrite <- cexp_plus, <- cexp_0; f_equal; ring).
  assert (I0 : (e * cexp (- (0, ln 2 * t)%R))%C = RtoC 1) by (unfold e; rewrite <- cexp_plus, <- cexp_0; f_equal; ring).
  assert (I3 : (p * cexp (- lg w))%C = RtoC 1) by (unfold p; rewrite <- cexp_plus, <- cexp_0; f_equal; ring).
  assert (K : w = Cconj w).
  { transitivity (e * (w * p) * di * (cexp (- (0, ln 2 * t)%R) * cexp (- lg w) * d))%C.
    - transitivity (w * (e * cexp (- (0, ln 2 * t)%R)) * (p * cexp (- lg w)) * (d * di))%C; [|ring]. rewrite I0, I2, I3. ring.
    - rewrite EQ, G2. transitivity (Cconj w * (e * cexp (- (0, ln 2 * t)%R)) * (p * cexp (- lg w)) * (c * ci))%C; [ring|]. rewrite I0, I1, I3. ring. }
  apply (f_equal snd) in K. unfold w, Cconj in K. cbn [fst snd] in K. lra.
Qed.
(** The separations used for all multipoles are those of the last one. With the low-ringing shift on (the default), a window that does nothing returns the monopole multiplied
    by a number that is never 1 when a quadrupole is computed with it: the theory monopole changes when the quadrupole is requested. Likewise for 2h and 2h+2. *)
Theorem C180_unit_window_not_identity_refuted : forall lg conv ex k0 D n h P Q, reflecting lg -> gamma_recurrence cexp lg -> (forall r xis, conv r xis = xis) ->
  0 < k0 -> 0 < D -> (2 <= n)%nat -> length P = n -> length Q = n ->
  let newk := pad_k (log_grid k0 D n) in let N := length newk in Nat.even N = true ->
  exists a, 0 < a /\ a <> 1 /\ wt_call lg conv (Some N) true ex (log_grid k0 D n) [(h, P); (S h, Q)] =
    Some (newk, [(h, map (fun v => a * v) (P ++ repeat 0 (N - n))); (S h, Q ++ repeat 0 (N - n))]).
Proof.
  intros lg conv ex k0 D n h P Q HR HG Hconv Hk HD Hn HP HQ newk N HE.
  assert (EK : newk = log_grid k0 D N). { unfold N, newk. rewrite pad_grid by assumption. rewrite grid_len. reflexivity. }
  assert (HN : (n <= N)%nat) by (unfold N, newk; rewrite pad_grid, grid_len by assumption; lia).
  set (P' := P ++ repeat 0 (N - n)). set (Q' := Q ++ repeat 0 (N - n)).
  assert (LP : length P' = N) by (unfold P'; rewrite app_length, repeat_length; lia). assert (LQ : length Q' = N) by (unfold Q'; rewrite app_length, repeat_length; lia).
  set (y1 := r0 lg (S h) N true k0 D). assert (Hy : 0 < y1) by (apply out0_pos; exact Hk).
  set (y0 := r0 lg h N true k0 D). assert (Hy0 : 0 < y0) by (apply out0_pos; exact Hk).
  destruct (both lg N true ex k0 D y1 [(h, P'); (S h, Q')] HR Hk Hy HD ltac:(lia) (or_introl eq_refl)) as (rr & xis & Ps & A1 & A2 & A3 & A4); [intros c [<-|[<-|[]]]; assumption|].
  specialize (A2 ltac:(discriminate)). change (last_h [(h, P'); (S h, Q')]) with (S h) in A2. fold y1 in A2. subst rr.
  exists ((y1/y0)^3). split; [apply pow_lt, Rdiv_lt_0_compat; assumption|]. split.
  - intros E. apply (lnxy_differ lg h N D HR HG HD HE). set (v := y1/y0) in *. assert (0 < v) by (apply Rdiv_lt_0_compat; assumption).
    assert (V : v = 1). { assert (X : (v - 1) * (v*v + v + 1) = 0) by (transitivity (v^3 - 1); [ring|lra]). apply Rmult_integral in X. destruct X as [X|X]; [lra|]. exfalso. assert (0 < v*v) by (apply Rmult_lt_0_compat; assumption). lra. }
    assert (EY : y1 = y0). { transitivity (v * y0); [unfold v; field; lra|rewrite V; ring]. }
    unfold y1, y0, r0, out0 in EY. apply Rmult_eq_reg_r in EY; [|apply Rinv_neq_0_compat; lra]. apply exp_inv in EY. lra.
  - unfold wt_call. cbv zeta. fold newk. fold N. cbn [map fst snd]. unfold pad_col. rewrite HP, HQ. fold P' Q'. rewrite EK at 1. rewrite A1, Hconv, A3. f_equal. f_equal.
    inversion A4 as [|? [h1 p1] ? ? [B1 B2] A5]; subst. inversion A5 as [|? [h2 p2] ? ? [B3 B4] A6]; subst. inversion A6; subst. cbn [fst snd] in *. subst. fold y0 y1. f_equal. f_equal. f_equal.
    rewrite <- (map_id Q') at 2. apply map_ext. intros u. replace (y1/y1) with 1 by (field; lra). ring.
Qed.
Print Assumptions C180_unit_window_not_identity_refuted.
(** A function satisfying the hypotheses on log Gamma: 0 on the strip 0 < Re z <= 1, extended by the recurrence. *)
Definition clog (z : C) : C := (ln (Re z * Re z + Im z * Im z) / 2, atan (Im z / Re z)).
Fixpoint lsum (n : nat) (z : C) : C := match n with O => RtoC 0 | S k => (clog (z - RtoC 1) + lsum k (z - RtoC 1))%C end.
Definition strip_lg (z : C) : C := lsum (Z.to_nat (ceil (Re z) - 1)) z.
Lemma clog_exp z : 0 < Re z -> cexp (clog z) = z.
Proof.
  destruct z as [a b]. unfold Re. cbn [fst]. intros Ha. unfold clog, Re, Im. cbn [fst snd]. set (s := a*a + b*b). assert (S0 : 0 < s) by (unfold s; pose proof (Rle_0_sqr b) as Q; unfold Rsqr in Q; assert (0 < a*a) by (apply Rmult_lt_0_compat; assumption); lra).
  assert (CA : 0 < cos (atan (b/a))) by (pose proof (atan_bound (b/a)); apply cos_gt_0; lra). assert (SA : sin (atan (b/a)) = b/a * cos (atan (b/a))). { assert (T : tan (atan (b/a)) = b/a) by (apply atan_right_inv || apply tan_atan). rewrite <- T at 2. unfold tan. field. lra. }
  assert (E2 : exp (ln s / 2) * exp (ln s / 2) = s) by (rewrite <- exp_plus; replace (ln s / 2 + ln s / 2) with (ln s) by field; apply exp_ln; exact S0).
  pose proof (exp_pos (ln s / 2)) as EP. set (e := exp (ln s / 2)) in *. set (c := cos (atan (b/a))) in *.
  assert (C2 : c * c * (s / (a*a)) = 1). { pose proof (sin2_cos2 (atan (b/a))) as Q. unfold Rsqr in Q. fold c in Q. rewrite SA in Q. rewrite <- Q. unfold s. field. lra. }
  assert (EC : e * c = a). { assert (X : (e*c) * (e*c) = a * a). { transitivity ((e*e) * (c*c)); [ring|]. rewrite E2. transitivity (a*a*(c*c*(s/(a*a)))); [field; lra|]. rewrite C2. ring. }
    assert (0 < e*c) by (apply Rmult_lt_0_compat; assumption). assert (Y : (e*c - a) * (e*c + a) = 0) by (transitivity ((e*c)*(e*c) - a*a); [ring|lra]). apply Rmult_integral in Y. destruct Y; lra. }
  apply C_ext; cunf; fold e c; [exact EC|]. rewrite SA. transitivity (e * c * b / a); [field; lra|]. rewrite EC. field. lra.
Qed.
Lemma clog_conj z : clog (Cconj z) = Cconj (clog z).
Proof. destruct z as [a b]. unfold clog. apply C_ext; cunf; [f_equal; f_equal; ring|]. replace (- b / a) with (- (b/a)) by (unfold Rdiv; ring). apply atan_opp. Qed.
Lemma lsum_conj n : forall z, lsum n (Cconj z) = Cconj (lsum n z).
Proof.
  induction n as [|n IH]; intros z; cbn [lsum]; [symmetry; apply conj_R|]. replace (Cconj z - RtoC 1)%C with (Cconj (z - RtoC 1)%C) by (apply C_ext; cunf; ring). rewrite clog_conj, IH, conj_plus. reflexivity.
Qed.
Lemma strip_hyps : reflecting strip_lg /\ gamma_recurrence cexp strip_lg.
Proof.
  split.
  - intros z _. unfold strip_lg. apply lsum_conj.
  - intros z Hz. unfold strip_lg. assert (E : ceil (Re (z + RtoC 1)%C) = (ceil (Re z) + 1)%Z).
    { destruct z as [a b]. unfold Re. cunf. unfold ceil. destruct (base_Int_part (- a)) as [B1 B2]. destruct (base_Int_part (- (a + 1))) as [B3 B4].
      assert (Int_part (- a) - 2 < Int_part (- (a+1)))%Z by (apply lt_IZR; rewrite minus_IZR; lra). assert (Int_part (- (a+1)) < Int_part (- a))%Z by (apply lt_IZR; lra). lia. }
    assert (CP : (1 <= ceil (Re z))%Z). { unfold ceil. destruct (base_Int_part (- Re z)) as [B _]. assert (Int_part (- Re z) < 0)%Z by (apply lt_IZR; lra). lia. }
    rewrite E. replace (Z.to_nat (ceil (Re z) + 1 - 1)) with (S (Z.to_nat (ceil (Re z) - 1))) by lia. cbn [lsum]. replace (z + RtoC 1 - RtoC 1)%C with z by ring. rewrite cexp_plus, clog_exp by exact Hz. reflexivity.
Qed.
Example C180_nonvacuous : reflecting strip_lg /\ gamma_recurrence cexp strip_lg /\ (forall (r : list R) (xis : list (nat * list R)), (fun _ x => x) r xis = xis) /\
  (exists k0 D n, 0 < k0 /\ 0 < D /\ (2 <= n)%nat /\ Nat.even (length (pad_k (log_grid k0 D n))) = true).
Proof.
  destruct strip_hyps as [A B]. split; [exact A|]. split; [exact B|]. split; [reflexivity|]. exists 1000, 1, 2%nat. split; [lra|]. split; [lra|]. split; [lia|].
  rewrite pad_grid by (try lra; lia). rewrite grid_len. unfold extra. pose proof ln10 as L.
  set (q := (2 + _ - _) / _). assert (Q : q < 0).
  { unfold q, log10. replace 1000 with (10*10*10) by ring. rewrite !ln_mult by lra. cbn [INR Nat.sub]. assert (0 < 1/ln 10) by (apply Rdiv_lt_0_compat; lra).
    replace ((2 + 1/2 * (1/ln 10) - ((ln 10 + ln 10 + ln 10)/ln 10 + 1 * (1/ln 10) + 1/ln 10)) / (1/ln 10)) with (- ln 10 - 3/2) by (field; lra). lra. }
  assert (CC : (ceil q <= 0)%Z). { unfold ceil. destruct (base_Int_part (- q)) as [_ B2]. assert (-1 < Int_part (- q))%Z by (apply lt_IZR; lra). lia. }
  replace (Z.to_nat (ceil q)) with 0%nat by lia. reflexivity.
Qed.
