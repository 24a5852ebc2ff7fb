(** * Proofs about the third-order kernels: the series used at large and the limits at small r *)
From Coq Require Import Reals ZArith Lra Lia Psatz.
From Coquelicot Require Import Coquelicot.
From Verif Require Import M_Jmn.
Local Open Scope R_scope.

(** ** the logarithm *)
Lemma mono0 (f df : R -> R) b x : f 0 = 0 -> (forall t, 0 <= t < b -> is_derive f t (df t)) -> (forall t, 0 <= t < b -> 0 <= df t) -> 0 <= x < b -> 0 <= f x.
Proof.
  intros H0 Hd Hp Hx. destruct (Req_dec x 0) as [->|Hn]; [lra|].
  destruct (MVT_gen f 0 x df) as (c & Hc & E).
  - intros t Ht. rewrite Rmin_left, Rmax_right in Ht by lra. apply Hd; lra.
  - intros t Ht. rewrite Rmin_left, Rmax_right in Ht by lra. apply continuity_pt_filterlim. apply (@ex_derive_continuous R_AbsRing R_NormedModule). eexists. apply Hd. lra.
  - rewrite Rmin_left, Rmax_right in Hc by lra. rewrite H0 in E. assert (0 <= df c) by (apply Hp; lra). nra.
Qed.
Definition S6 (x : R) : R := 2 * (x + x ^ 3 / 3 + x ^ 5 / 5 + x ^ 7 / 7 + x ^ 9 / 9 + x ^ 11 / 11).
Definition S9 (x : R) : R := 2 * (x + x ^ 3 / 3 + x ^ 5 / 5 + x ^ 7 / 7 + x ^ 9 / 9 + x ^ 11 / 11 + x ^ 13 / 13 + x ^ 15 / 15 + x ^ 17 / 17).
Lemma ser6_lo x : 0 <= x < 1 -> S6 x <= ln (1 + x) - ln (1 - x).
Proof.
  intro Hx. cut (0 <= ln (1 + x) - ln (1 - x) - S6 x); [lra|].
  apply (mono0 (fun x => ln (1 + x) - ln (1 - x) - S6 x) (fun x => 2 * x ^ 12 / (1 - x * x)) 1); [..|exact Hx].
  - rewrite Rplus_0_r, Rminus_0_r, ln_1. unfold S6. field.
  - intros t Ht. unfold S6. auto_derive; [lra|]. field. repeat split; nra.
  - intros t Ht. apply Rle_div_r; [nra|]. rewrite Rmult_0_l. assert (0 <= t ^ 12) by (apply pow_le; lra). lra.
Qed.
Lemma ser6_hi x : 0 <= x < 1 -> ln (1 + x) - ln (1 - x) <= S6 x + 2 / 13 * x ^ 13 / (1 - x * x).
Proof.
  intro Hx. cut (0 <= S6 x + 2 / 13 * x ^ 13 / (1 - x * x) - (ln (1 + x) - ln (1 - x))); [lra|].
  apply (mono0 (fun x => S6 x + 2 / 13 * x ^ 13 / (1 - x * x) - (ln (1 + x) - ln (1 - x))) (fun x => 4 / 13 * x ^ 14 / (1 - x * x) ^ 2) 1); [..|exact Hx].
  - rewrite Rplus_0_r, Rminus_0_r, ln_1. unfold S6. field.
  - intros t Ht. unfold S6. auto_derive; [repeat split; nra|]. field. repeat split; nra.
  - intros t Ht. assert (0 < (1 - t * t) ^ 2) by (apply pow_lt; nra). apply Rle_div_r; [assumption|]. rewrite Rmult_0_l. assert (0 <= t ^ 14) by (apply pow_le; lra). lra.
Qed.
Lemma ser9_lo x : 0 <= x < 1 -> S9 x <= ln (1 + x) - ln (1 - x).
Proof.
  intro Hx. cut (0 <= ln (1 + x) - ln (1 - x) - S9 x); [lra|].
  apply (mono0 (fun x => ln (1 + x) - ln (1 - x) - S9 x) (fun x => 2 * x ^ 18 / (1 - x * x)) 1); [..|exact Hx].
  - rewrite Rplus_0_r, Rminus_0_r, ln_1. unfold S9. field.
  - intros t Ht. unfold S9. auto_derive; [lra|]. field. repeat split; nra.
  - intros t Ht. apply Rle_div_r; [nra|]. rewrite Rmult_0_l. assert (0 <= t ^ 18) by (apply pow_le; lra). lra.
Qed.
Lemma ser9_hi x : 0 <= x < 1 -> ln (1 + x) - ln (1 - x) <= S9 x + 2 / 19 * x ^ 19 / (1 - x * x).
Proof.
  intro Hx. cut (0 <= S9 x + 2 / 19 * x ^ 19 / (1 - x * x) - (ln (1 + x) - ln (1 - x))); [lra|].
  apply (mono0 (fun x => S9 x + 2 / 19 * x ^ 19 / (1 - x * x) - (ln (1 + x) - ln (1 - x))) (fun x => 4 / 19 * x ^ 20 / (1 - x * x) ^ 2) 1); [..|exact Hx].
  - rewrite Rplus_0_r, Rminus_0_r, ln_1. unfold S9. field.
  - intros t Ht. unfold S9. auto_derive; [repeat split; nra|]. field. repeat split; nra.
  - intros t Ht. assert (0 < (1 - t * t) ^ 2) by (apply pow_lt; nra). apply Rle_div_r; [assumption|]. rewrite Rmult_0_l. assert (0 <= t ^ 20) by (apply pow_le; lra). lra.
Qed.
Lemma logr_small r : 0 < r < 1 -> logr r = ln (1 + r) - ln (1 - r).
Proof. intro Hr. unfold logr. rewrite Rabs_left by lra. rewrite Rcomplements.ln_div by lra. replace (r + 1) with (1 + r) by ring. replace (- (r - 1)) with (1 - r) by ring. reflexivity. Qed.
Lemma logr_inv x : 0 < x < 1 -> logr (/ x) = ln (1 + x) - ln (1 - x).
Proof.
  intro Hx. unfold logr. assert (1 < / x) by (rewrite <- Rinv_1; apply Rinv_lt_contravar; lra). rewrite Rabs_pos_eq by lra.
  rewrite <- Rcomplements.ln_div by lra. f_equal. field. lra.
Qed.
Lemma ser6 x b : 0 < x -> x * x <= b -> b < 1 -> exists rho, 0 <= rho <= 2 / 13 / (1 - b) /\ ln (1 + x) - ln (1 - x) = S6 x + rho * x ^ 13.
Proof.
  intros Hx Hb Hb1. assert (Hx1 : x < 1) by nra. pose proof (ser6_lo x ltac:(lra)) as L. pose proof (ser6_hi x ltac:(lra)) as U.
  assert (P : 0 < x ^ 13) by (apply pow_lt; lra). exists ((ln (1 + x) - ln (1 - x) - S6 x) / x ^ 13). split; [|field; lra]. split.
  - apply Rle_div_r; lra.
  - apply Rle_div_l; [exact P|]. apply Rle_trans with (2 / 13 * x ^ 13 / (1 - x * x)); [lra|].
    replace (2 / 13 / (1 - b) * x ^ 13) with (2 / 13 * x ^ 13 * / (1 - b)) by (field; lra). unfold Rdiv at 1. apply Rmult_le_compat_l; [lra|]. apply Rinv_le_contravar; lra.
Qed.
Lemma ser9 x b : 0 < x -> x * x <= b -> b < 1 -> exists rho, 0 <= rho <= 2 / 19 / (1 - b) /\ ln (1 + x) - ln (1 - x) = S9 x + rho * x ^ 19.
Proof.
  intros Hx Hb Hb1. assert (Hx1 : x < 1) by nra. pose proof (ser9_lo x ltac:(lra)) as L. pose proof (ser9_hi x ltac:(lra)) as U.
  assert (P : 0 < x ^ 19) by (apply pow_lt; lra). exists ((ln (1 + x) - ln (1 - x) - S9 x) / x ^ 19). split; [|field; lra]. split.
  - apply Rle_div_r; lra.
  - apply Rle_div_l; [exact P|]. apply Rle_trans with (2 / 19 * x ^ 19 / (1 - x * x)); [lra|].
    replace (2 / 19 / (1 - b) * x ^ 19) with (2 / 19 * x ^ 19 * / (1 - b)) by (field; lra). unfold Rdiv at 1. apply Rmult_le_compat_l; [lra|]. apply Rinv_le_contravar; lra.
Qed.
(** ** the differences *)
Lemma g00_far_diff x rho : 0 < x -> logr (/ x) = 2 * (x + x ^ 3 / 3 + x ^ 5 / 5 + x ^ 7 / 7 + x ^ 9 / 9 + x ^ 11 / 11) + rho * x ^ 13 -> let y := x * x in
  g00_far (/ x) - g00_near (/ x) = y ^ 3 * (((-1 / 792) + y * ((19 / 5544) + y * ((-5 / 1848) + y * ((1 / 5544) + y * (1 / 2772))))) + rho * ((0) + y * ((-1 / 144) + y * ((19 / 1008) + y * ((-5 / 336) + y * ((1 / 1008) + y * (1 / 504))))))).
Proof. intros Hx E y. unfold g00_far, g00_near. rewrite E. unfold y. field. lra. Qed.
Lemma g01_far_diff x rho : 0 < x -> logr (/ x) = 2 * (x + x ^ 3 / 3 + x ^ 5 / 5 + x ^ 7 / 7 + x ^ 9 / 9 + x ^ 11 / 11) + rho * x ^ 13 -> let y := x * x in
  g01_far (/ x) - g01_near (/ x) = y ^ 3 * (((-5 / 5544) + y * ((1 / 504) + y * ((-1 / 1848) + y * ((-1 / 792) + y * (1 / 1386))))) + rho * ((0) + y * ((-5 / 1008) + y * ((11 / 1008) + y * ((-1 / 336) + y * ((-1 / 144) + y * (1 / 252))))))).
Proof. intros Hx E y. unfold g01_far, g01_near. rewrite E. unfold y. field. lra. Qed.
Lemma g10_far_diff x rho : 0 < x -> logr (/ x) = 2 * (x + x ^ 3 / 3 + x ^ 5 / 5 + x ^ 7 / 7 + x ^ 9 / 9 + x ^ 11 / 11) + rho * x ^ 13 -> let y := x * x in
  g10_far (/ x) - g10_near (/ x) = y ^ 3 * (((0) + y * ((1 / 728) + y * ((-4 / 1365) + y * (1 / 616)))) + rho * ((0) + y * ((-1 / 112) + y * ((3 / 112) + y * ((-3 / 112) + y * (1 / 112)))))).
Proof. intros Hx E y. unfold g10_far, g10_near. rewrite E. unfold y. field. lra. Qed.
Lemma g11_far_diff x rho : 0 < x -> logr (/ x) = 2 * (x + x ^ 3 / 3 + x ^ 5 / 5 + x ^ 7 / 7 + x ^ 9 / 9 + x ^ 11 / 11) + rho * x ^ 13 -> let y := x * x in
  g11_far (/ x) - g11_near (/ x) = y ^ 3 * (((-1 / 1848) + y * ((1 / 1848) + y * ((1 / 616) + y * ((-5 / 1848) + y * (1 / 924))))) + rho * ((0) + y * ((-1 / 336) + y * ((1 / 336) + y * ((1 / 112) + y * ((-5 / 336) + y * (1 / 168))))))).
Proof. intros Hx E y. unfold g11_far, g11_near. rewrite E. unfold y. field. lra. Qed.
Lemma g02_far_diff x rho : 0 < x -> logr (/ x) = 2 * (x + x ^ 3 / 3 + x ^ 5 / 5 + x ^ 7 / 7 + x ^ 9 / 9 + x ^ 11 / 11) + rho * x ^ 13 -> let y := x * x in
  g02_far (/ x) - g02_near (/ x) = y ^ 3 * (((3 / 1232) + y * ((-3 / 308) + y * ((9 / 616) + y * ((-3 / 308) + y * (3 / 1232))))) + rho * ((0) + y * ((3 / 224) + y * ((-3 / 56) + y * ((9 / 112) + y * ((-3 / 56) + y * (3 / 224))))))).
Proof. intros Hx E y. unfold g02_far, g02_near. rewrite E. unfold y. field. lra. Qed.
Lemma g20_far_diff x rho : 0 < x -> logr (/ x) = 2 * (x + x ^ 3 / 3 + x ^ 5 / 5 + x ^ 7 / 7 + x ^ 9 / 9 + x ^ 11 / 11) + rho * x ^ 13 -> let y := x * x in
  g20_far (/ x) - g20_near (/ x) = y ^ 3 * (((-9 / 1232) + y * ((3 / 154) + y * ((-9 / 616) + y * ((0) + y * (3 / 1232))))) + rho * ((0) + y * ((-9 / 224) + y * ((3 / 28) + y * ((-9 / 112) + y * ((0) + y * (3 / 224))))))).
Proof. intros Hx E y. unfold g20_far, g20_near. rewrite E. unfold y. field. lra. Qed.
Lemma g00_zero_diff r rho : 0 < r -> logr r = 2 * (r + r ^ 3 / 3 + r ^ 5 / 5 + r ^ 7 / 7 + r ^ 9 / 9 + r ^ 11 / 11) + rho * r ^ 13 -> let y := r * r in
  g00_near r - (-1 / 18) = y * (((58 / 945) + y * ((-94 / 2205) + y * ((26 / 3969) + y * ((166 / 218295) + y * ((151 / 291060) + y * ((25 / 49896) + y * ((-47 / 24948) + y * (1 / 792)))))))) + rho * ((0) + y * ((0) + y * ((0) + y * ((0) + y * ((-1 / 504) + y * ((-1 / 1008) + y * ((5 / 336) + y * ((-19 / 1008) + y * (1 / 144)))))))))).
Proof. intros Hr E y. unfold g00_near. rewrite E. unfold y. field. lra. Qed.
Lemma g01_zero_diff r rho : 0 < r -> logr r = 2 * (r + r ^ 3 / 3 + r ^ 5 / 5 + r ^ 7 / 7 + r ^ 9 / 9 + r ^ 11 / 11) + rho * r ^ 13 -> let y := r * r in
  g01_near r - (-1 / 18) = y * (((26 / 945) + y * ((-62 / 2205) + y * ((2 / 405) + y * ((134 / 218295) + y * ((23 / 29106) + y * ((-163 / 349272) + y * ((-1 / 1134) + y * (5 / 5544)))))))) + rho * ((0) + y * ((0) + y * ((0) + y * ((0) + y * ((-1 / 252) + y * ((1 / 144) + y * ((1 / 336) + y * ((-11 / 1008) + y * (5 / 1008)))))))))).
Proof. intros Hr E y. unfold g01_near. rewrite E. unfold y. field. lra. Qed.
Lemma g10_zero_diff r rho : 0 < r -> logr r = 2 * (r + r ^ 3 / 3 + r ^ 5 / 5 + r ^ 7 / 7 + r ^ 9 / 9 + r ^ 11 / 11) + rho * r ^ 13 -> let y := r * r in
  g10_near r - (-1 / 18) = y * (((2 / 21) + y * ((-2 / 35) + y * ((2 / 245) + y * ((2 / 2205) + y * ((2 / 8085) + y * ((19 / 12936) + y * ((-2 / 693) + y * (1 / 616)))))))) + rho * ((0) + y * ((0) + y * ((0) + y * ((0) + y * ((0) + y * ((-1 / 112) + y * ((3 / 112) + y * ((-3 / 112) + y * (1 / 112)))))))))).
Proof. intros Hr E y. unfold g10_near. rewrite E. unfold y. field. lra. Qed.
Lemma g11_zero_diff r rho : 0 < r -> logr r = 2 * (r + r ^ 3 / 3 + r ^ 5 / 5 + r ^ 7 / 7 + r ^ 9 / 9 + r ^ 11 / 11) + rho * r ^ 13 -> let y := r * r in
  g11_near r - (-1 / 18) = y * (((-2 / 315) + y * ((-2 / 147) + y * ((22 / 6615) + y * ((34 / 72765) + y * ((103 / 97020) + y * ((-167 / 116424) + y * ((1 / 8316) + y * (1 / 1848)))))))) + rho * ((0) + y * ((0) + y * ((0) + y * ((0) + y * ((-1 / 168) + y * ((5 / 336) + y * ((-1 / 112) + y * ((-1 / 336) + y * (1 / 336)))))))))).
Proof. intros Hr E y. unfold g11_near. rewrite E. unfold y. field. lra. Qed.
Lemma g02_zero_diff r rho : 0 < r -> logr r = 2 * (r + r ^ 3 / 3 + r ^ 5 / 5 + r ^ 7 / 7 + r ^ 9 / 9 + r ^ 11 / 11) + rho * r ^ 13 -> let y := r * r in
  g02_near r - (0) = y * (((-8 / 35) + y * ((24 / 245) + y * ((-8 / 735) + y * ((-8 / 8085) + y * ((79 / 43120) + y * ((-169 / 25872) + y * ((25 / 3696) + y * (-3 / 1232)))))))) + rho * ((0) + y * ((0) + y * ((0) + y * ((0) + y * ((-3 / 224) + y * ((3 / 56) + y * ((-9 / 112) + y * ((3 / 56) + y * (-3 / 224)))))))))).
Proof. intros Hr E y. unfold g02_near. rewrite E. unfold y. field. lra. Qed.
Lemma g20_zero_diff r rho : 0 < r -> logr r = 2 * (r + r ^ 3 / 3 + r ^ 5 / 5 + r ^ 7 / 7 + r ^ 9 / 9 + r ^ 11 / 11) + rho * r ^ 13 -> let y := r * r in
  g20_near r - (-1 / 3) = y * (((12 / 35) + y * ((-12 / 49) + y * ((4 / 105) + y * ((12 / 2695) + y * ((13 / 3920) + y * ((59 / 25872) + y * ((-13 / 1232) + y * (9 / 1232)))))))) + rho * ((0) + y * ((0) + y * ((0) + y * ((0) + y * ((-3 / 224) + y * ((0) + y * ((9 / 112) + y * ((-3 / 28) + y * (9 / 224)))))))))).
Proof. intros Hr E y. unfold g20_near. rewrite E. unfold y. field. lra. Qed.
Lemma g10_far_diff9 x rho : 0 < x -> logr (/ x) = 2 * (x + x ^ 3 / 3 + x ^ 5 / 5 + x ^ 7 / 7 + x ^ 9 / 9 + x ^ 11 / 11 + x ^ 13 / 13 + x ^ 15 / 15 + x ^ 17 / 17) + rho * x ^ 19 -> let y := x * x in
  g10_far (/ x) - g10_near (/ x) = y ^ 6 * (((2 / 85085) + y * ((59 / 61880) + y * ((-1 / 510) + y * (1 / 952)))) + rho * ((0) + y * ((-1 / 112) + y * ((3 / 112) + y * ((-3 / 112) + y * (1 / 112)))))).
Proof. intros Hx E y. unfold g10_far, g10_near. rewrite E. unfold y. field. lra. Qed.

(** ** Horner bounds *)
Lemma hor y b a c A C : 0 <= y <= b -> Rabs a <= A -> Rabs c <= C -> Rabs (a + y * c) <= A + b * C.
Proof.
  intros Hy Ha Hc. eapply Rle_trans; [apply Rabs_triang|]. rewrite Rabs_mult, (Rabs_pos_eq y) by lra.
  pose proof (Rabs_pos c). apply Rplus_le_compat; [exact Ha|]. apply Rmult_le_compat; lra.
Qed.
Lemma absq a : Rabs a <= Rabs a. Proof. lra. Qed.
Lemma absn a : 0 <= a -> Rabs a <= a. Proof. intro; rewrite Rabs_pos_eq; lra. Qed.
Lemma absm a : a <= 0 -> Rabs a <= - a. Proof. intro; rewrite Rabs_left1; lra. Qed.
Lemma rho_b rho b a A : 0 <= rho <= b -> Rabs a <= A -> Rabs (rho * a) <= b * A.
Proof. intros H Ha. rewrite Rabs_mult, (Rabs_pos_eq rho) by lra. pose proof (Rabs_pos a). apply Rmult_le_compat; lra. Qed.
Lemma sum_b a b A B : Rabs a <= A -> Rabs b <= B -> Rabs (a + b) <= A + B.
Proof. intros. eapply Rle_trans; [apply Rabs_triang|]. lra. Qed.
Ltac hn Hy := first [eapply hor; [exact Hy|hn Hy|hn Hy] | apply absn; lra | apply absm; lra].
Ltac hb Hy Hr := eapply Rle_trans; [eapply sum_b; [hn Hy|eapply rho_b; [exact Hr|hn Hy]]|lra].

Lemma far_setup r : 60 <= r -> exists x rho, 0 < x /\ r = / x /\ 0 <= x * x <= / 3600 /\ 0 <= rho <= / 6 /\
  logr (/ x) = 2 * (x + x ^ 3 / 3 + x ^ 5 / 5 + x ^ 7 / 7 + x ^ 9 / 9 + x ^ 11 / 11) + rho * x ^ 13.
Proof.
  intro Hr. assert (Hx : 0 < / r) by (apply Rinv_0_lt_compat; lra). assert (Hx1 : / r <= / 60) by (apply Rinv_le_contravar; lra).
  assert (Hxx : / r * / r <= / 3600) by nra.
  destruct (ser6 (/ r) (/ 3600) Hx Hxx ltac:(lra)) as (rho & Hrho & E). exists (/ r), rho.
  split; [exact Hx|]. split; [rewrite Rinv_inv; reflexivity|]. split; [nra|]. split; [lra|]. rewrite logr_inv by lra. exact E.
Qed.
Lemma y3 x : 0 < x -> (x * x) ^ 3 = / (/ x) ^ 6. Proof. intro. field. lra. Qed.
Ltac far L := let Hr := fresh "Hr" in let x := fresh "x" in let rho := fresh "rho" in let Hx := fresh "Hx" in let Hy := fresh "Hy" in let Hrho := fresh "Hrho" in let E := fresh "E" in let P3 := fresh "P3" in let y := fresh "y" in intro Hr; destruct (far_setup _ Hr) as (x & rho & Hx & -> & Hy & Hrho & E); rewrite (L x rho Hx E); cbv zeta; rewrite Rabs_mult, <- y3 by exact Hx;
  assert (P3 : 0 <= (x * x) ^ 3) by (apply pow_le; lra); rewrite (Rabs_pos_eq _ P3); rewrite (Rmult_comm _ ((x * x) ^ 3)); apply Rmult_le_compat_l; [exact P3|];
  set (y := x * x) in *; clearbody y; hb Hy Hrho.
Lemma g00_far_ok r : 60 <= r -> Rabs (g00_far r - g00_near r) <= / 100 * / r ^ 6. Proof. far g00_far_diff. Qed.
Lemma g01_far_ok r : 60 <= r -> Rabs (g01_far r - g01_near r) <= / 100 * / r ^ 6. Proof. far g01_far_diff. Qed.
Lemma g10_far_ok r : 60 <= r -> Rabs (g10_far r - g10_near r) <= / 100 * / r ^ 6. Proof. far g10_far_diff. Qed.
Lemma g11_far_ok r : 60 <= r -> Rabs (g11_far r - g11_near r) <= / 100 * / r ^ 6. Proof. far g11_far_diff. Qed.
Lemma g02_far_ok r : 60 <= r -> Rabs (g02_far r - g02_near r) <= / 100 * / r ^ 6. Proof. far g02_far_diff. Qed.
Lemma g20_far_ok r : 60 <= r -> Rabs (g20_far r - g20_near r) <= / 100 * / r ^ 6. Proof. far g20_far_diff. Qed.

(** the first wrong coefficient *)
Ltac wrong L c := let Hr := fresh "Hr" in let x := fresh "x" in let rho := fresh "rho" in let Hx := fresh "Hx" in let Hy := fresh "Hy" in let Hrho := fresh "Hrho" in let E := fresh "E" in let P3 := fresh "P3" in let y := fresh "y" in intro Hr; destruct (far_setup _ Hr) as (x & rho & Hx & -> & Hy & Hrho & E); rewrite (L x rho Hx E); cbv zeta;
  assert (P3 : 0 < (x * x) ^ 3) by (apply pow_lt; nra);
  replace ((/ x) ^ 6) with (/ (x * x) ^ 3) by (field; lra);
  match goal with |- Rabs (_ * (_ * ((?a + ?z * ?b) + rho * ?d)) - _) <= _ =>
    replace (/ z ^ 3 * (z ^ 3 * ((a + z * b) + rho * d)) - c) with ((0 + z * b) + rho * d) by (field; lra) end;
  set (y := x * x) in *; clearbody y; hb Hy Hrho.
Lemma g00_far_bad r : 60 <= r -> Rabs (r ^ 6 * (g00_far r - g00_near r) - -1 / 792) <= / 100000. Proof. wrong g00_far_diff (-1 / 792). Qed.
Lemma g01_far_bad r : 60 <= r -> Rabs (r ^ 6 * (g01_far r - g01_near r) - -5 / 5544) <= / 100000. Proof. wrong g01_far_diff (-5 / 5544). Qed.
Lemma g11_far_bad r : 60 <= r -> Rabs (r ^ 6 * (g11_far r - g11_near r) - -1 / 1848) <= / 100000. Proof. wrong g11_far_diff (-1 / 1848). Qed.
Lemma g02_far_bad r : 60 <= r -> Rabs (r ^ 6 * (g02_far r - g02_near r) - 3 / 1232) <= / 100000. Proof. wrong g02_far_diff (3 / 1232). Qed.
Lemma g20_far_bad r : 60 <= r -> Rabs (r ^ 6 * (g20_far r - g20_near r) - -9 / 1232) <= / 100000. Proof. wrong g20_far_diff (-9 / 1232). Qed.
(** g10's series is right to its order *)
Lemma g10_far_good r : 60 <= r -> Rabs (g10_far r - g10_near r) <= / 1000 * / r ^ 12.
Proof.
  intro Hr. assert (Hx : 0 < / r) by (apply Rinv_0_lt_compat; lra). assert (Hx1 : / r <= / 60) by (apply Rinv_le_contravar; lra).
  assert (Hxx : / r * / r <= / 3600) by nra.
  destruct (ser9 (/ r) (/ 3600) Hx Hxx ltac:(lra)) as (rho & Hrho & E). rewrite <- (logr_inv (/ r)) in E by lra.
  pose proof (g10_far_diff9 (/ r) rho Hx E) as D. cbv zeta in D. rewrite Rinv_inv in D. rewrite D.
  replace (/ r ^ 12) with ((/ r * / r) ^ 6) by (field; lra). assert (P6 : 0 <= (/ r * / r) ^ 6) by (apply pow_le; nra).
  rewrite Rabs_mult, (Rabs_pos_eq _ P6), (Rmult_comm (/ 1000)). apply Rmult_le_compat_l; [exact P6|].
  assert (Hy : 0 <= / r * / r <= / 3600) by nra. assert (Hrho' : 0 <= rho <= / 9) by lra. set (y := / r * / r) in *. clearbody y. hb Hy Hrho'.
Qed.

(** ** the limit of small r *)
Lemma zero_setup r : 0 < r <= / 2 -> exists rho, 0 <= r * r <= / 4 /\ 0 <= rho <= 21 / 100 /\
  logr r = 2 * (r + r ^ 3 / 3 + r ^ 5 / 5 + r ^ 7 / 7 + r ^ 9 / 9 + r ^ 11 / 11) + rho * r ^ 13.
Proof.
  intro Hr. destruct (ser6 r (/ 4) ltac:(lra) ltac:(nra) ltac:(lra)) as (rho & Hrho & E). exists rho. split; [nra|]. split; [lra|]. rewrite logr_small by lra. exact E.
Qed.
Ltac zz L := let Hr := fresh "Hr" in let x := fresh "x" in let rho := fresh "rho" in let Hx := fresh "Hx" in let Hy := fresh "Hy" in let Hrho := fresh "Hrho" in let E := fresh "E" in let P3 := fresh "P3" in let y := fresh "y" in intro Hr; destruct (zero_setup _ Hr) as (rho & Hy & Hrho & E);
  match type of Hr with 0 < ?r <= _ => let D := fresh "D" in pose proof (L r rho ltac:(lra) E) as D; cbv zeta in D;
   let X := match type of D with ?X = _ => X end in
   match goal with |- Rabs ?Y <= _ => replace Y with X by lra end; rewrite D; rewrite Rabs_mult, (Rabs_pos_eq (r * r)) by lra; rewrite (Rmult_comm _ (r * r)) || idtac;
   apply Rle_trans with (r * r * (1 / 2)); [|lra]; apply Rmult_le_compat_l; [lra|]; set (y := r * r) in *; clearbody y; clear D E; hb Hy Hrho end.
Lemma g00_zero r : 0 < r <= / 2 -> Rabs (g00_near r - -1 / 18) <= r * r / 2. Proof. zz g00_zero_diff. Qed.
Lemma g01_zero r : 0 < r <= / 2 -> Rabs (g01_near r - -1 / 18) <= r * r / 2. Proof. zz g01_zero_diff. Qed.
Lemma g10_zero r : 0 < r <= / 2 -> Rabs (g10_near r - -1 / 18) <= r * r / 2. Proof. zz g10_zero_diff. Qed.
Lemma g11_zero r : 0 < r <= / 2 -> Rabs (g11_near r - -1 / 18) <= r * r / 2. Proof. zz g11_zero_diff. Qed.
Lemma g02_zero r : 0 < r <= / 2 -> Rabs (g02_near r - 0) <= r * r / 2. Proof. zz g02_zero_diff. Qed.
Lemma g20_zero r : 0 < r <= / 2 -> Rabs (g20_near r - -1 / 3) <= r * r / 2. Proof. zz g20_zero_diff. Qed.
