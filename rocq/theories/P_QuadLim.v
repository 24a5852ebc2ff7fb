(** An integrand for which the routine uses up all its subintervals without saying so. *)
From Coq Require Import Reals ZArith Znumtheory List Arith Lra Lia.
From Verif Require Import M_Quad S_Quad P_QuadSort P_Quad P_QuadGK P_Quad2.
Import ListNotations.
Local Open Scope R_scope.

(* 1 on the grid of spacing 2^-14, 0 elsewhere *)
Definition spikes (x : R) : R := if Req_EM_T (IZR (Int_part (x * 16384))) (x * 16384) then 1 else 0.
Lemma spikes_on x z : x * 16384 = IZR z -> spikes x = 1.
Proof.
  intros H. unfold spikes. destruct (Req_EM_T _ _) as [E|E]; [reflexivity|]. contradiction E. rewrite H. f_equal.
  destruct (base_Int_part (IZR z)) as [A B]. apply le_IZR in A. assert (IZR z - 1 < IZR (Int_part (IZR z))) by lra. rewrite <- minus_IZR in H0. apply lt_IZR in H0. lia.
Qed.
Lemma spikes_off x : (forall z, x * 16384 <> IZR z) -> spikes x = 0.
Proof. intros H. unfold spikes. destruct (Req_EM_T _ _) as [E|E]; [|reflexivity]. symmetry in E. contradiction (H _ E). Qed.
Definition dyadic (c d : R) : Prop := exists (u : Z) (e : nat), c * 8192 = IZR u /\ d * 8192 = IZR (u + 2 ^ Z.of_nat e).
Lemma not_div j e : (j < 7)%nat -> ~ (10 ^ 16 | 2 ^ Z.of_nat e * nth j xz 0%Z)%Z.
Proof.
  intros Hj D. assert (D5 : (5 ^ 2 | 2 ^ Z.of_nat e * nth j xz 0)%Z).
  { apply Z.divide_trans with (10 ^ 16)%Z; [exists (400000000000000)%Z; reflexivity|exact D]. }
  apply Gauss in D5.
  - do 7 (destruct j as [|j]; [cbn [nth xz] in D5; destruct D5 as [q Q]; lia|]). lia.
  - apply rel_prime_sym. clear. induction e as [|e IH].
    + apply rel_prime_1.
    + rewrite Nat2Z.inj_succ, Z.pow_succ_r by lia. apply rel_prime_sym. apply rel_prime_mult; [|apply rel_prime_sym; exact IH]. apply bezout_rel_prime. exists 1%Z (-12)%Z. reflexivity.
Qed.
Lemma node_off c d j s : dyadic c d -> (j < 7)%nat -> s = 1 \/ s = -1 -> spikes (1/2 * (c + d) + s * (1/2 * (d - c) * nth j xgk15 0)) = 0.
Proof.
  intros (u & e & Hc & Hd) Hj Hs. apply spikes_off. intros z E. fold (xk j) in E. rewrite (xk_z j Hj) in E.
  set (Xj := nth j xz 0%Z) in *. set (p := (2 ^ Z.of_nat e)%Z) in *. rewrite plus_IZR in Hd.
  apply (not_div j e Hj). fold Xj p. 
  assert (Q : IZR (2 * u + p - z) * IZR (10 ^ 16) = - s * (IZR p * IZR Xj)).
  { rewrite minus_IZR, plus_IZR, mult_IZR. assert (V : (1/2 * (c + d) + s * (1/2 * (d - c) * (IZR Xj / IZR (10 ^ 16)))) * 16384 = (2 * IZR u + IZR p) + s * (IZR p * IZR Xj / IZR (10 ^ 16))).
    { replace c with (IZR u / 8192) by lra. replace d with ((IZR u + IZR p) / 8192) by lra. field. apply not_0_IZR. discriminate. }
    rewrite V in E. rewrite <- E. field. apply not_0_IZR. discriminate. }
  rewrite <- !mult_IZR in Q. destruct Hs as [-> | ->].
  - exists (- (2 * u + p - z))%Z. apply eq_IZR. rewrite !mult_IZR, opp_IZR. rewrite mult_IZR in Q. rewrite mult_IZR in Q. lra.
  - exists (2 * u + p - z)%Z. apply eq_IZR. rewrite !mult_IZR in *. lra.
Qed.
Definition asc0 : R := wk 7 * (1 - wk 7 / 2) + sum_n 7 (fun j => wk j * wk 7).
Lemma asc0_val : asc0 = 0.2094821410847278 * (1 - 0.2094821410847278 / 2) + 0.2094821410847278 * (0.02293532201052922 + 0.06309209262997855 + 0.1047900103222502 + 0.1406532597155259 + 0.1690047266392679 + 0.1903505780647854 + 0.2044329400752989).
Proof. unfold asc0, wk. cbn [sum_n nth wgk15]. ring. Qed.
Lemma asc0_range : 0.37 < asc0 < 0.38.
Proof. rewrite asc0_val. lra. Qed.
Lemma eps_pos : 0 < DBL_EPSILON <= 1 / 10 ^ 15 /\ 0 < DBL_MIN <= DBL_EPSILON.
Proof.
  unfold DBL_EPSILON, DBL_MIN. assert (0 < 2 ^ 52) by (apply pow_lt; lra). assert (0 < 2 ^ 1022) by (apply pow_lt; lra).
  split; split; try (apply Rinv_0_lt_compat; assumption).
  - unfold Rdiv. rewrite Rmult_1_l. apply Rinv_le_contravar; [apply pow_lt; lra|]. cbn [pow]. lra.
  - apply Rinv_le_contravar; [assumption|]. apply Rle_pow; [lra|lia].
Qed.
Lemma spike_rule c d : dyadic c d -> c < d -> gk15 spikes c d = (wk 7 / 2 * (d - c), asc0 / 2 * (d - c)).
Proof.
  intros D Hcd. unfold gk15, gauss_kronrod. set (h := 1/2 * (d - c)). set (m := 1/2 * (c + d)). assert (Hh : 0 < h) by (unfold h; lra).
  assert (M1 : spikes m = 1). { destruct D as (u & e & Hc & Hd). apply (spikes_on m (2 * u + 2 ^ Z.of_nat e)). rewrite plus_IZR, mult_IZR. rewrite plus_IZR in Hd. unfold m. lra. }
  assert (N1 : forall j, (j < 7)%nat -> spikes (m - h * nth j xgk15 0) = 0).
  { intros j Hj. etransitivity; [|exact (node_off c d j (-1) D Hj (or_intror eq_refl))]. f_equal. unfold m, h. ring. }
  assert (N2 : forall j, (j < 7)%nat -> spikes (m + h * nth j xgk15 0) = 0).
  { intros j Hj. etransitivity; [|exact (node_off c d j 1 D Hj (or_introl eq_refl))]. f_equal. unfold m, h. ring. }
  cbn [sum_n Nat.mul Nat.add]. rewrite M1. rewrite !N1, !N2 by lia. fold (wk 0) (wk 1) (wk 2) (wk 3) (wk 4) (wk 5) (wk 6) (wk 7).
  assert (W7 : wk 7 = 0.2094821410847278) by reflexivity. assert (G3 : nth 3 wg15 0 = 0.4179591836734694) by reflexivity.
  f_equal; [unfold h; field|].
  replace (1 * wk 7 + (0 + wk 1 * (0 + 0) + wk 3 * (0 + 0) + wk 5 * (0 + 0)) + (0 + wk 0 * (0 + 0) + wk 2 * (0 + 0) + wk 4 * (0 + 0) + wk 6 * (0 + 0))) with (wk 7) by ring.
  match goal with |- gk_err (Rabs (_ - ?g) * _) _ _ = _ => replace g with (nth 3 wg15 0) by ring end.
  replace (0 - 1/2 * wk 7) with (- (wk 7 / 2)) by field. rewrite Rabs_Ropp, (Rabs_pos_eq (wk 7 / 2)) by (rewrite W7; lra).
  rewrite (Rabs_pos_eq (1 - _)) by (rewrite W7; lra). rewrite (Rabs_pos_eq h) by lra. rewrite Rabs_R0. rewrite (Rabs_pos_eq (1 * wk 7)) by (rewrite W7; lra).
  match goal with |- gk_err _ (?A * h) (?B * h) = _ => replace A with asc0 by (unfold asc0; cbn [sum_n]; field); replace B with (wk 7) by ring end.
  assert (AR := asc0_range). assert (Ed : Rabs (wk 7 - nth 3 wg15 0) = 0.2084770425887416). { rewrite W7, G3. rewrite Rabs_left by lra. lra. } rewrite Ed.
  unfold gk_err. destruct (Req_EM_T (asc0 * h) 0) as [Q|_]; [apply Rmult_integral in Q; lra|]. destruct (Req_EM_T (0.2084770425887416 * h) 0) as [Q|_]; [apply Rmult_integral in Q; lra|]. cbn [andb].
  replace (200 * (0.2084770425887416 * h) / (asc0 * h)) with (200 * 0.2084770425887416 / asc0) by (field; lra).
  assert (S1 : 1 < 200 * 0.2084770425887416 / asc0). { apply (Rmult_lt_reg_r asc0); [lra|]. unfold Rdiv. rewrite Rmult_assoc, Rinv_l by lra. lra. }
  destruct (rltb_spec (Rpower (200 * 0.2084770425887416 / asc0) (3/2)) 1) as [L|L].
  { exfalso. assert (B : Rpower 1 (3/2) < Rpower (200 * 0.2084770425887416 / asc0) (3/2)) by (apply Rlt_Rpower_l; lra). unfold Rpower at 1 in B. rewrite ln_1, Rmult_0_r, exp_0 in B. lra. }
  assert (EP := eps_pos). assert (E15 : 1 / 10 ^ 15 <= 1 / 1000) by (cbn [pow]; lra).
  assert (MX : Rmax (asc0 * h) (50 * DBL_EPSILON * (wk 7 * h)) = asc0 * h).
  { apply Rmax_left. rewrite W7. replace (50 * DBL_EPSILON * (0.2094821410847278 * h)) with ((50 * DBL_EPSILON * 0.2094821410847278) * h) by ring. apply Rmult_le_compat_r; lra. }
  destruct (rltb _ (wk 7 * h)); rewrite ?MX; unfold h; field.
Qed.

Definition LIM : nat := Z.to_nat 8192.
Lemma LIM_z : Z.of_nat LIM = 8192%Z.
Proof. apply Z2Nat.id. lia. Qed.
Opaque LIM.
Definition dyws (w : ws) : Prop := forall i, (i < size w)%nat -> dyadic (al w i) (bl w i).
Definition K (s : lst) : Prop := linv (gk15 spikes) 0 1 LIM s /\ l_code s = 0%nat /\ dyws (l_ws s).
Lemma dy_width c d : dyadic c d -> c < d.
Proof. intros (u & e & A & B). rewrite plus_IZR in B. assert (0 < IZR (2 ^ Z.of_nat e)) by (apply IZR_lt; apply Z.pow_pos_nonneg; lia). lra. Qed.
Lemma widths w : wsinv (gk15 spikes) 0 1 w -> dyws w -> sum_n (size w) (el w) = asc0 / 2 /\ sum_n (size w) (rl w) = wk 7 / 2 /\
  forall i, (i < size w)%nat -> el w i = asc0 / 2 * (bl w i - al w i).
Proof.
  intros (Hs & HO & HP & HF) HD. assert (E : forall i, (i < size w)%nat -> el w i = asc0 / 2 * (bl w i - al w i) /\ rl w i = wk 7 / 2 * (bl w i - al w i)).
  { intros i Hi. destruct (HP i Hi) as (_ & _ & R). rewrite (spike_rule _ _ (HD i Hi) (dy_width _ _ (HD i Hi))) in R. injection R as R1 R2. split; symmetry; assumption. }
  assert (S : forall c, sum_n (size w) (fun i => c * (bl w i - al w i)) = c * 1).
  { intros c. transitivity (c * 1 - c * 0); [|ring]. rewrite <- (HF (fun x => c * x)). apply sum_ext. intros; ring. }
  split; [|split].
  - rewrite (sum_ext _ _ (fun i => asc0 / 2 * (bl w i - al w i))) by (intros; apply E; assumption). rewrite S. ring.
  - rewrite (sum_ext _ _ (fun i => wk 7 / 2 * (bl w i - al w i))) by (intros; apply E; assumption). rewrite S. ring.
  - intros i Hi. apply E, Hi.
Qed.
Lemma sum_le n F c : (forall i, (i < n)%nat -> F i <= c) -> sum_n n F <= INR n * c.
Proof. induction n as [|n IH]; intros H; [cbn; lra|]. cbn [sum_n]. rewrite S_INR. specialize (IH ltac:(intros; apply H; lia)). specialize (H n ltac:(lia)). lra. Qed.
Lemma K_body s : K s -> (l_iter s < limit (l_ws s))%nat -> K (body (gk15 spikes) (1 / 10 ^ 5) (1 / 10 ^ 10) s).
Proof.
  intros (I & HC & HD) Hl. assert (HL : limit (l_ws s) = LIM) by (apply I). rewrite HL in Hl.
  destruct (body_inv (gk15 spikes) 0 1 LIM (1 / 10 ^ 5) (1 / 10 ^ 10) s I Hl) as (I' & Hi & Ht). split; [exact I'|].
  destruct I as (W & _ & Hz & Hr & _ & Ha & He & _). assert (OF := ordered_first _ _ _ _ (proj1 (proj2 W)) ltac:(lia)). destruct OF as [Him Hmx].
  assert (HP := proj1 (proj2 (proj2 W)) _ Him). destruct HP as (P1 & P2 & _).
  destruct (widths (l_ws s) W HD) as (S1 & S2 & S3). assert (AR := asc0_range).
  set (im := order (l_ws s) 0%nat) in *. set (c := al (l_ws s) im) in *. set (d := bl (l_ws s) im) in *.
  (* the widest interval is wider than 1/8192 *)
  assert (WD : 1 / 8192 < d - c).
  { destruct (Rlt_le_dec (1 / 8192) (d - c)) as [|Q]; [assumption|]. exfalso.
    assert (B : sum_n (size (l_ws s)) (el (l_ws s)) <= INR (size (l_ws s)) * (asc0 / 2 * (1 / 8192))).
    { apply sum_le. intros i Hx. apply Rle_trans with (el (l_ws s) im); [apply Hmx, Hx|]. rewrite (S3 im Him). fold c d. apply Rmult_le_compat_l; lra. }
    rewrite S1 in B. assert (INR (size (l_ws s)) <= 8191). { rewrite INR_IZR_INZ. apply IZR_le. assert (LZ := LIM_z). lia. }
    assert (INR (size (l_ws s)) * (asc0 / 2 * (1 / 8192)) <= 8191 * (asc0 / 2 * (1 / 8192))) by (apply Rmult_le_compat_r; lra). lra. }
  destruct (HD im Him) as (u & e & Du & Dv). fold c in Du. fold d in Dv.
  assert (E1 : exists e', e = S e').
  { destruct e as [|e']; [|exists e'; reflexivity]. exfalso. rewrite plus_IZR in Dv. cbn in Dv. lra. }
  destruct E1 as (e' & ->). rewrite Nat2Z.inj_succ, Z.pow_succ_r in Dv by lia. set (q := (2 ^ Z.of_nat e')%Z) in *.
  assert (QP : 1 <= IZR q) by (apply IZR_le; unfold q; assert (0 < 2 ^ Z.of_nat e')%Z by (apply Z.pow_pos_nonneg; lia); lia).
  rewrite plus_IZR, mult_IZR in Dv.
  set (m := 1/2 * (c + d)). assert (Dm : m * 8192 = IZR (u + q)) by (rewrite plus_IZR; unfold m; lra).
  assert (Y1 : dyadic c m) by (exists u, e'; split; [exact Du|exact Dm]).
  assert (Y2 : dyadic m d). { exists (u + q)%Z, e'. split; [exact Dm|]. fold q. rewrite !plus_IZR. lra. }
  split.
  - unfold body. fold im c d m. rewrite (spike_rule c m Y1 (dy_width _ _ Y1)), (spike_rule m d Y2 (dy_width _ _ Y2)). cbn [l_code].
    destruct (rltb _ _); [|exact HC]. destruct (Nat.eqb_spec (l_iter s) (limit (l_ws s))); [lia|].
    destruct (rleb_spec (Rabs d) ((1 + 100 * DBL_EPSILON) * (Rabs m + 1000 * DBL_MIN))) as [Q|Q]; [exfalso|rewrite Bool.andb_false_r; exact HC].
    destruct eps_pos as [[Z1 Z2] [Z3 Z4]]. assert (Z5 : 1 / 10 ^ 15 <= 1 / 1000000000000) by (cbn [pow]; lra).
    rewrite !Rabs_pos_eq in Q by (unfold m; lra). assert (M : m <= 1) by (unfold m; lra). assert (D1 : d - m >= 1 / 8192) by (unfold m; lra).
    assert (T1 : 100 * DBL_EPSILON * m <= 100 * DBL_EPSILON * 1) by (apply Rmult_le_compat_l; lra).
    assert (T2 : (1 + 100 * DBL_EPSILON) * (1000 * DBL_MIN) <= 2 * (1000 * DBL_MIN)) by (apply Rmult_le_compat_r; lra).
    lra.
  - unfold body. fold im c d m. rewrite (spike_rule c m Y1 (dy_width _ _ Y1)), (spike_rule m d Y2 (dy_width _ _ Y2)). cbn [l_ws]. unfold update. fold im.
    destruct (rltb _ _); intros i Hx; cbn [size al bl] in *.
    + destruct (Nat.eq_dec i (size (l_ws s))) as [->|N]; [rewrite !set_eq; exact Y1|]. rewrite !(set_ne _ (size (l_ws s))) by lia.
      destruct (Nat.eq_dec i im) as [->|M]; [rewrite set_eq; exact Y2|rewrite set_ne by exact M; apply HD; lia].
    + destruct (Nat.eq_dec i (size (l_ws s))) as [->|N]; [rewrite !set_eq; exact Y2|]. rewrite !(set_ne _ (size (l_ws s))) by lia.
      destruct (Nat.eq_dec i im) as [->|M]; [rewrite set_eq; exact Y1|rewrite set_ne by exact M; apply HD; lia].
Qed.
Theorem silent : forall w, Z.of_nat (limit w) = 8192%Z -> exists v e n, integrate w spikes 0 1 (1 / 10 ^ 5) (1 / 10 ^ 10) = Some {| q_val := v; q_err := Some e; q_neval := Some n; q_warn := [] |} /\
  Z.of_nat n = 245745%Z /\
  Rmax (1 / 10 ^ 10) (1 / 10 ^ 5 * Rabs v) < e.
Proof.
  intros w HLz. assert (LZ := LIM_z). assert (HL : limit w = LIM) by lia. assert (NR : ~ refused (1 / 10 ^ 5) (1 / 10 ^ 10)) by (intros [Q _]; cbn [pow] in Q; lra).
  destruct (integrate_ok w (gk15 spikes) 0 1 (1 / 10 ^ 5) (1 / 10 ^ 10) ltac:(lia) NR) as (s & E & F & A).
  rewrite Rmin_left, Rmax_right in E, F by lra. rewrite HL in *.
  assert (K0 : K (first w (gk15 spikes) 0 1)).
  { assert (FI := first_inv (gk15 spikes) 0 1 w ltac:(lra) ltac:(lia)). rewrite HL in FI. split; [exact FI|]. unfold first. destruct (gk15 spikes 0 1). split; [reflexivity|].
    intros i Hi. cbn [l_ws ws_init size al bl] in *. replace i with 0%nat by lia. rewrite !set_eq. exists 0%Z, 13%nat. cbn. split; lra. }
  assert (KS : K s). { apply (loop_inv K (gk15 spikes) (1 / 10 ^ 5) (1 / 10 ^ 10) K_body (S LIM) (first w (gk15 spikes) 0 1) s K0); [|exact E]. unfold first. destruct (gk15 spikes 0 1). cbn [l_iter l_ws ws_init limit]. rewrite HL. lia. }
  destruct KS as (I & HC & HD). destruct F as (_ & _ & C & T). destruct I as (W & HL' & Hz & Hr & _ & Ha & He & Hn). destruct (widths (l_ws s) W HD) as (S1 & S2 & _).
  rewrite S2 in Ha. rewrite S1 in He. assert (AR := asc0_range). assert (W7 : wk 7 = 0.2094821410847278) by reflexivity.
  assert (TB : l_tol s < asc0 / 2). { rewrite T, Ha. rewrite (Rabs_pos_eq (wk 7 / 2)) by (rewrite W7; lra). rewrite W7. apply Rmax_lub_lt; cbn [pow]; lra. }
  assert (N : l_iter s = LIM).
  { unfold continue in C. rewrite HL', HC, He in C. destruct (Nat.ltb_spec (l_iter s) LIM); [|lia]. cbn [Nat.eqb andb] in C. destruct (rltb_spec (l_tol s) (asc0 / 2)); [discriminate C|contradiction]. }
  exists (1 * (wk 7 / 2)), (asc0 / 2), (30 * LIM - 15)%nat. split; [|split; [lia|]].
  - unfold integrate. rewrite A. destruct (rltb_spec 1 0); [lra|]. rewrite S1, S2, HC, Hn, N. cbn [report]. destruct (rltb (l_tol s) (asc0 / 2)); reflexivity.
  - rewrite Rmult_1_l. rewrite T, Ha in TB. exact TB.
Qed.
