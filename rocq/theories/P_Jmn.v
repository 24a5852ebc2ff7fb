(** * Proofs about the third-order kernels: angular averages *)
From Coq Require Import Reals ZArith Lra Lia Psatz.
From Coquelicot Require Import Coquelicot.
From Verif Require Import M_Jmn S_Kernels S_Jmn P_Kernels.
Local Open Scope R_scope.

(** ** bilinearity *)
Lemma dot_sym a b : dot a b = dot b a. Proof. destruct a as [[? ?] ?], b as [[? ?] ?]; unfold dot; ring. Qed.
Lemma dot_pl a b c : dot (plus a b) c = dot a c + dot b c. Proof. destruct a as [[? ?] ?], b as [[? ?] ?], c as [[? ?] ?]; unfold dot, plus; ring. Qed.
Lemma dot_pr a b c : dot c (plus a b) = dot c a + dot c b. Proof. rewrite dot_sym, dot_pl, (dot_sym a), (dot_sym b). reflexivity. Qed.
Lemma dot_nl a b : dot (neg a) b = - dot a b. Proof. destruct a as [[? ?] ?], b as [[? ?] ?]; unfold dot, neg; ring. Qed.
Lemma dot_nr a b : dot a (neg b) = - dot a b. Proof. rewrite dot_sym, dot_nl, dot_sym. reflexivity. Qed.
Lemma F2_qmq q : 0 < dot q q -> spt_F2 q (neg q) = 0 /\ spt_F2 (neg q) q = 0 /\ spt_G2 q (neg q) = 0 /\ spt_G2 (neg q) q = 0.
Proof. intro H. unfold spt_F2, spt_G2. rewrite ?dot_nl, ?dot_nr, ?dot_nl. repeat split; field; lra. Qed.

(** ** the average of a polynomial over 1 + r^2 - 2 r c *)
Section frac.
  Variable r : R. Hypothesis Hr : 0 < r. Hypothesis Hr1 : r <> 1.
  Lemma den_pos c : -1 <= c <= 1 -> 0 < 1 + r * r - 2 * r * c.
  Proof. intro Hc. assert (0 < (r - 1) * (r - 1)) by (assert (r - 1 <> 0) by lra; nra). nra. Qed.
  Lemma log_sq : ln (1 + r * r - 2 * r * (-1)) - ln (1 + r * r - 2 * r * 1) = 2 * logr r.
  Proof.
    assert (Ha : 0 < Rabs (r - 1)) by (apply Rabs_pos_lt; lra).
    replace (1 + r * r - 2 * r * -1) with ((r + 1) * (r + 1)) by ring.
    replace (1 + r * r - 2 * r * 1) with (Rabs (r - 1) * Rabs (r - 1)).
    2:{ rewrite <- Rabs_mult, Rabs_pos_eq by apply Rle_0_sqr. ring. }
    rewrite !ln_mult by lra. unfold logr. rewrite Rcomplements.ln_div by lra. ring.
  Qed.
  Lemma avg_frac n0 n1 n2 n3 n4 :
    let m := (1 + r * r) / (2 * r) in let q3 := n4 in let q2 := n3 + m * q3 in let q1 := n2 + m * q2 in let q0 := n1 + m * q1 in
    is_RInt (fun c => (n0 + n1 * c + n2 * c ^ 2 + n3 * c ^ 3 + n4 * c ^ 4) / (1 + r * r - 2 * r * c)) (-1) 1
      (2 * (- (q0 + q2 / 3) / (2 * r) + (n0 + m * q0) * logr r / (2 * r))).
  Proof.
    intros m q3 q2 q1 q0.
    set (F := fun c => - (q0 * c + q1 * (c ^ 2 / 2) + q2 * (c ^ 3 / 3) + q3 * (c ^ 4 / 4)) / (2 * r) - (n0 + m * q0) / (2 * r) * ln (1 + r * r - 2 * r * c)).
    replace (2 * (- (q0 + q2 / 3) / (2 * r) + (n0 + m * q0) * logr r / (2 * r))) with (Hierarchy.minus (F 1) (F (-1))).
    2:{ change (F 1 + - F (-1) = 2 * (- (q0 + q2 / 3) / (2 * r) + (n0 + m * q0) * logr r / (2 * r))).
        transitivity (2 * (- (q0 + q2 / 3) / (2 * r)) + (n0 + m * q0) / (2 * r) * (2 * logr r)); [|field; lra].
        rewrite <- log_sq. unfold F. field. lra. }
    apply (is_RInt_derive F).
    - intros c Hc. rewrite Rmin_left, Rmax_right in Hc by lra. pose proof (den_pos c Hc). unfold F. auto_derive; [lra|].
      unfold q0, q1, q2, q3, m. field. lra.
    - intros c Hc. rewrite Rmin_left, Rmax_right in Hc by lra. pose proof (den_pos c Hc).
      apply (@ex_derive_continuous R_AbsRing R_NormedModule). auto_derive. lra.
  Qed.
  Lemma is_RInt_mirror (f : R -> R) I : is_RInt f (-1) 1 I -> is_RInt (fun c => f (- c)) (-1) 1 I.
  Proof.
    intro H. assert (X := is_RInt_comp_opp f 1 (-1) I). replace (- (-1)) with 1 in X by ring. specialize (X H).
    apply is_RInt_swap in X. apply is_RInt_opp in X. rewrite opp_opp in X. apply (is_RInt_ext _ (fun c => f (- c))) in X; [exact X|]. intros x _. apply opp_opp.
  Qed.
End frac.

(** ** the symmetrised third-order kernels *)
Definition T3 (x y : R) (k q : vec) : R :=
  1/54 * (spt_G2 k (neg q) * (x * spt_alpha (plus k (neg q)) q + y * spt_beta (plus k (neg q)) q)
          + x * spt_alpha q (plus k (neg q)) * spt_F2 k (neg q) + y * spt_beta q (plus k (neg q)) * spt_G2 k (neg q)).
Lemma neg_neg q : neg (neg q) = q. Proof. destruct q as [[? ?] ?]; unfold neg; rewrite !Ropp_involutive; reflexivity. Qed.
Lemma plus_comm' a b : plus a b = plus b a. Proof. destruct a as [[? ?] ?], b as [[? ?] ?]; unfold plus. f_equal; [f_equal|]; ring. Qed.
Lemma F2_sym a b : spt_F2 a b = spt_F2 b a. Proof. unfold spt_F2. rewrite (dot_sym b a), (Rmult_comm (dot b b) (dot a a)). unfold Rdiv. ring. Qed.
Lemma G2_sym a b : spt_G2 a b = spt_G2 b a. Proof. unfold spt_G2. rewrite (dot_sym b a), (Rmult_comm (dot b b) (dot a a)). unfold Rdiv. ring. Qed.
Lemma F3_T k q : 0 < dot q q -> sym3 spt_F3 k q (neg q) = T3 7 2 k q + T3 7 2 k (neg q).
Proof.
  intro Hq. destruct (F2_qmq q Hq) as (E1 & E2 & E3 & E4). unfold sym3, spt_F3. rewrite E1, E2, E3, E4. unfold T3. rewrite neg_neg.
  rewrite (plus_comm' q k), (plus_comm' (neg q) k), (F2_sym q k), (F2_sym (neg q) k), (G2_sym q k), (G2_sym (neg q) k).
  rewrite !Rmult_0_r, !Rmult_0_l. field.
Qed.
Lemma G3_T k q : 0 < dot q q -> sym3 spt_G3 k q (neg q) = T3 3 6 k q + T3 3 6 k (neg q).
Proof.
  intro Hq. destruct (F2_qmq q Hq) as (E1 & E2 & E3 & E4). unfold sym3, spt_G3. rewrite E1, E2, E3, E4. unfold T3. rewrite neg_neg.
  rewrite (plus_comm' q k), (plus_comm' (neg q) k), (F2_sym q k), (F2_sym (neg q) k), (G2_sym q k), (G2_sym (neg q) k).
  rewrite !Rmult_0_r, !Rmult_0_l. field.
Qed.
Definition nT0 (x y r : R) : R := r ^ 2 / 54 * (3 / 7 * (x - y)).
Definition nT1 (x y r : R) : R := r ^ 2 / 54 * (3 / 7 * (y / r - x * r) - (r + / r) / 2 * (x - y) + x / r * (5 / 7 * (1 + r * r))).
Definition nT2 (x y r : R) : R := r ^ 2 / 54 * (4 / 7 * (x - y) - (r + / r) / 2 * (y / r - x * r) + x / r * (- ((r + / r) / 2) * (1 + r * r) - 10 / 7 * r)).
Definition nT3 (x y r : R) : R := r ^ 2 / 54 * (4 / 7 * (y / r - x * r) + x / r * (2 / 7 * (1 + r * r) + 2 * r * ((r + / r) / 2))).
Definition nT4 (x y r : R) : R := r ^ 2 / 54 * (x / r * (- 4 / 7 * r)).
Section T.
  Variables (K r : R). Hypothesis HK : 0 < K. Hypothesis Hr : 0 < r. Hypothesis Hr1 : r <> 1.
  Section vecs.
    Variables (k q : vec) (c : R). Hypothesis Hc : -1 <= c <= 1.
    Hypothesis d_kk : dot k k = K * K. Hypothesis d_qq : dot q q = r * r * (K * K). Hypothesis d_kq : dot k q = r * c * (K * K).
    Lemma d_qk : dot q k = r * c * (K * K). Proof. rewrite dot_sym. apply d_kq. Qed.
    Ltac dd := repeat (rewrite ?dot_pl, ?dot_pr, ?dot_nl, ?dot_nr); rewrite ?d_kk, ?d_qk, ?d_kq, ?d_qq.
    Ltac fin := pose proof (den_pos r Hr Hr1 c Hc) as Hd; dd; field; repeat split; try lra; try nra;
      try (assert (0 < K * K) by nra; assert (0 < K * K * (1 + r * r - 2 * r * c)) by (apply Rmult_lt_0_compat; lra); lra).
    Lemma T_vec x y : r ^ 2 * T3 x y k q = (nT0 x y r + nT1 x y r * c + nT2 x y r * c ^ 2 + nT3 x y r * c ^ 3 + nT4 x y r * c ^ 4) / (1 + r * r - 2 * r * c).
    Proof. unfold nT0, nT1, nT2, nT3, nT4, T3, spt_G2, spt_F2, spt_alpha, spt_beta. fin. Qed.
    (** G2(k,-q) (alpha(q,p) + alpha(p,q)), p = k - q *)
    Lemma A_vec : r ^ 2 * (spt_G2 k (neg q) * (spt_alpha q (plus k (neg q)) + spt_alpha (plus k (neg q)) q)) =
      (r ^ 2 * (3 / 7) + r ^ 2 * (3 / 7 * / r * (1 + r * r) - 3 / 7 * r - (r + / r) / 2) * c
       + r ^ 2 * (- 2 * (3 / 7) - (r + / r) / 2 * (/ r * (1 + r * r) - r) + 4 / 7) * c ^ 2
       + r ^ 2 * (2 * ((r + / r) / 2) + 4 / 7 * (/ r * (1 + r * r) - r)) * c ^ 3 + r ^ 2 * (- 8 / 7) * c ^ 4) / (1 + r * r - 2 * r * c).
    Proof. unfold spt_G2, spt_alpha. fin. Qed.
    (** G2(k,-q) against the two parts of the azimuthal average of (n.q)(n.p)/(q^2 p^2) *)
    Lemma H3_vec : r ^ 2 * (spt_G2 k (neg q) * (- (1 - c * c) / 2 * / (1 + r * r - 2 * r * c))) =
      (- (r ^ 2 * (3 / 14)) + r ^ 2 * ((r + / r) / 4) * c + r ^ 2 * (3 / 14 - 4 / 14) * c ^ 2 + - (r ^ 2 * ((r + / r) / 4)) * c ^ 3 + r ^ 2 * (4 / 14) * c ^ 4) / (1 + r * r - 2 * r * c).
    Proof. unfold spt_G2. fin. Qed.
    Lemma H4_vec : r ^ 2 * (spt_G2 k (neg q) * ((c / r - (3 * (c * c) - 1) / 2) * / (1 + r * r - 2 * r * c))) =
      (r ^ 2 * (3 / 14) + r ^ 2 * (3 / 7 / r - (r + / r) / 4) * c + r ^ 2 * (- 9 / 14 - (r + / r) / 2 / r + 4 / 14) * c ^ 2 + r ^ 2 * ((r + / r) * 3 / 4 + 4 / 7 / r) * c ^ 3 + r ^ 2 * (- 12 / 14) * c ^ 4) / (1 + r * r - 2 * r * c).
    Proof. unfold spt_G2. fin. Qed.
  End vecs.
  Section pol.
    Variable phi : R.
    Lemma k_kk : dot (kvec K) (kvec K) = K * K. Proof. unfold kvec, dot. ring. Qed.
    Lemma q_qq c : -1 <= c <= 1 -> dot (qvec (r * K) c phi) (qvec (r * K) c phi) = r * r * (K * K).
    Proof. intro Hc. rewrite qq by exact Hc. ring. Qed.
    Lemma k_kq c : dot (kvec K) (qvec (r * K) c phi) = r * c * (K * K). Proof. unfold kvec, qvec, dot. ring. Qed.
    Lemma over_T x y :
      is_RInt (fun c => r ^ 2 * (T3 x y (kvec K) (qvec (r * K) c phi) + T3 x y (kvec K) (neg (qvec (r * K) c phi)))) (-1) 1
       (let m := (1 + r * r) / (2 * r) in let q3 := nT4 x y r in let q2 := nT3 x y r + m * q3 in let q1 := nT2 x y r + m * q2 in let q0 := nT1 x y r + m * q1 in
        4 * (- (q0 + q2 / 3) / (2 * r) + (nT0 x y r + m * q0) * logr r / (2 * r))).
    Proof.
      pose proof (avg_frac r Hr Hr1 (nT0 x y r) (nT1 x y r) (nT2 x y r) (nT3 x y r) (nT4 x y r)) as H. cbv zeta in H |- *.
      pose proof (is_RInt_mirror _ _ H) as H'.
      pose proof (is_RInt_plus _ _ _ _ _ _ H H') as HS.
      match type of HS with is_RInt _ _ _ ?I => match goal with |- is_RInt _ _ _ ?J => replace J with I end end.
      2:{ match goal with |- Hierarchy.plus ?a ?b = ?c => change (a + b = c) end. field. lra. }
      apply (is_RInt_ext _ _ _ _ _) with (2 := HS). intros c Hc. rewrite Rmin_left, Rmax_right in Hc by lra.
      match goal with |- Hierarchy.plus ?a ?b = ?c => change (a + b = c) end.
      rewrite Rmult_plus_distr_l. rewrite (T_vec (kvec K) (qvec (r * K) c phi) c ltac:(lra) k_kk (q_qq c ltac:(lra)) (k_kq c)).
      rewrite (T_vec (kvec K) (neg (qvec (r * K) c phi)) (- c) ltac:(lra) k_kk); [reflexivity| |].
      - rewrite dot_nl, dot_nr, Ropp_involutive. apply q_qq; lra.
      - rewrite dot_nr, k_kq. ring.
    Qed.
  End pol.
End T.

(** the six kernels *)
Section avgs.
  Variables (K r phi : R). Hypothesis HK : 0 < K. Hypothesis Hr : 0 < r. Hypothesis Hr1 : r <> 1.
  Lemma scal_avg (f : R -> R) I : is_RInt (fun c => r ^ 2 * f c) (-1) 1 I -> r ^ 2 * over_cosines f = I / 2.
  Proof.
    intro H. unfold over_cosines.
    assert (X : is_RInt f (-1) 1 (/ r ^ 2 * I)).
    { apply (is_RInt_ext (fun c => scal (/ r ^ 2) (r ^ 2 * f c))); [intros c _; unfold scal; simpl; unfold mult; simpl; field; lra|]. exact (is_RInt_scal _ _ _ (/ r ^ 2) _ H). }
    rewrite (is_RInt_unique _ _ _ _ X). field. lra.
  Qed.
  Lemma d_q c : -1 <= c <= 1 -> 0 < dot (qvec (r * K) c phi) (qvec (r * K) c phi).
  Proof. intro Hc. rewrite q_qq by assumption. apply Rmult_lt_0_compat; nra. Qed.
  Lemma g00_avg : r ^ 2 * over_cosines (fun c => sym3 spt_F3 (kvec K) (qvec (r * K) c phi) (neg (qvec (r * K) c phi))) = g00_near r.
  Proof.
    erewrite scal_avg.
    2:{ eapply is_RInt_ext; [|exact (over_T K r HK Hr Hr1 phi 7 2)]. intros c Hc. rewrite Rmin_left, Rmax_right in Hc by lra. cbv beta. rewrite F3_T by (apply d_q; lra). reflexivity. }
    cbv zeta. unfold nT0, nT1, nT2, nT3, nT4, g00_near. field. lra.
  Qed.
  Lemma g11_avg : r ^ 2 * over_cosines (fun c => sym3 spt_G3 (kvec K) (qvec (r * K) c phi) (neg (qvec (r * K) c phi))) = g11_near r.
  Proof.
    erewrite scal_avg.
    2:{ eapply is_RInt_ext; [|exact (over_T K r HK Hr Hr1 phi 3 6)]. intros c Hc. rewrite Rmin_left, Rmax_right in Hc by lra. cbv beta. rewrite G3_T by (apply d_q; lra). reflexivity. }
    cbv zeta. unfold nT0, nT1, nT2, nT3, nT4, g11_near. field. lra.
  Qed.
  Lemma g01_mean : g01_near r = (g00_near r + g11_near r) / 2.
  Proof. unfold g01_near, g00_near, g11_near. field. lra. Qed.
  Lemma g10_avg : r ^ 2 * over_cosines (fun c => spt_G2 (kvec K) (neg (qvec (r * K) c phi)) *
       (spt_alpha (qvec (r * K) c phi) (plus (kvec K) (neg (qvec (r * K) c phi))) + spt_alpha (plus (kvec K) (neg (qvec (r * K) c phi))) (qvec (r * K) c phi))) = 3 * g10_near r.
  Proof.
    erewrite scal_avg.
    2:{ eapply is_RInt_ext; [|refine (avg_frac r Hr Hr1 _ _ _ _ _)]. intros c Hc. rewrite Rmin_left, Rmax_right in Hc by lra. symmetry.
        refine (A_vec K r HK Hr Hr1 (kvec K) (qvec (r * K) c phi) c _ _ _ _); [lra|apply k_kk|apply q_qq; lra|apply k_kq]. }
    cbv zeta. unfold g10_near. field. lra.
  Qed.
  Lemma g02_avg : r ^ 2 * over_cosines (fun c => spt_G2 (kvec K) (neg (qvec (r * K) c phi)) * (- (1 - c * c) / 2 * / (1 + r * r - 2 * r * c))) = g02_near r / 2.
  Proof.
    erewrite scal_avg.
    2:{ eapply is_RInt_ext; [|refine (avg_frac r Hr Hr1 _ _ _ _ _)]. intros c Hc. rewrite Rmin_left, Rmax_right in Hc by lra. symmetry.
        refine (H3_vec K r HK Hr Hr1 (kvec K) (qvec (r * K) c phi) c _ _ _ _); [lra|apply k_kk|apply q_qq; lra|apply k_kq]. }
    cbv zeta. unfold g02_near. field. lra.
  Qed.
  Lemma g20_avg : r ^ 2 * over_cosines (fun c => spt_G2 (kvec K) (neg (qvec (r * K) c phi)) * ((c / r - (3 * (c * c) - 1) / 2) * / (1 + r * r - 2 * r * c))) = g20_near r / 2.
  Proof.
    erewrite scal_avg.
    2:{ eapply is_RInt_ext; [|refine (avg_frac r Hr Hr1 _ _ _ _ _)]. intros c Hc. rewrite Rmin_left, Rmax_right in Hc by lra. symmetry.
        refine (H4_vec K r HK Hr Hr1 (kvec K) (qvec (r * K) c phi) c _ _ _ _); [lra|apply k_kk|apply q_qq; lra|apply k_kq]. }
    cbv zeta. unfold g20_near. field. lra.
  Qed.
End avgs.

(** ** with a line of sight *)
From Verif Require Import P_KInt.
Section los.
  Variables (K r m : R). Hypothesis HK : 0 < K. Hypothesis Hr : 0 < r. Hypothesis Hr1 : r <> 1. Hypothesis Hm : -1 <= m <= 1.
  Lemma G2_phi c phi : -1 <= c <= 1 -> spt_G2 (kvec K) (neg (qvec (r * K) c phi)) = spt_G2 (kvec K) (neg (qvec (r * K) c 0)).
  Proof. intro Hc. unfold spt_G2. rewrite ?dot_nr, ?dot_nl, ?dot_nr, !k_kq, !q_qq by exact Hc. reflexivity. Qed.
  Lemma az_G2 c : -1 <= c <= 1 ->
    K ^ 2 * azimuthal (fun phi => spt_G2 (kvec K) (neg (qvec (r * K) c phi)) *
       (dot (los m) (qvec (r * K) c phi) * dot (los m) (minus (kvec K) (qvec (r * K) c phi))
        / (dot (qvec (r * K) c phi) (qvec (r * K) c phi) * dot (minus (kvec K) (qvec (r * K) c phi)) (minus (kvec K) (qvec (r * K) c phi)))))
    = spt_G2 (kvec K) (neg (qvec (r * K) c 0)) * (- (1 - c * c) / 2 * / (1 + r * r - 2 * r * c))
      + m ^ 2 * (spt_G2 (kvec K) (neg (qvec (r * K) c 0)) * ((c / r - (3 * (c * c) - 1) / 2) * / (1 + r * r - 2 * r * c))).
  Proof.
    intro Hc. pose proof (den_pos r Hr Hr1 c Hc) as Hd.
    assert (Hne : 0 < K * K + r * K * (r * K) - 2 * K * (r * K) * c).
    { replace (K * K + r * K * (r * K) - 2 * K * (r * K) * c) with (K * K * (1 + r * r - 2 * r * c)) by ring. apply Rmult_lt_0_compat; nra. }
    assert (Ha : 0 < r * K) by (apply Rmult_lt_0_compat; lra).
    pose proof (az_11 K (r * K) c m Ha Hc Hne) as E.
    rewrite (az_ext _ (fun phi => spt_G2 (kvec K) (neg (qvec (r * K) c 0)) *
       (dot (los m) (qvec (r * K) c phi) * dot (los m) (minus (kvec K) (qvec (r * K) c phi))
        / (dot (qvec (r * K) c phi) (qvec (r * K) c phi) * dot (minus (kvec K) (qvec (r * K) c phi)) (minus (kvec K) (qvec (r * K) c phi)))))) by (intro phi; rewrite (G2_phi c phi Hc); reflexivity).
    unfold azimuthal in E |- *. rewrite RInt_scal'. set (G := spt_G2 (kvec K) (neg (qvec (r * K) c 0))).
    unfold Rdiv at 1 in E. unfold Rdiv at 1.
    transitivity (K ^ 2 * (G * (RInt (fun phi => dot (los m) (qvec (r * K) c phi) * dot (los m) (minus (kvec K) (qvec (r * K) c phi)) / (dot (qvec (r * K) c phi) (qvec (r * K) c phi) * dot (minus (kvec K) (qvec (r * K) c phi)) (minus (kvec K) (qvec (r * K) c phi)))) 0 (2 * PI) * / (2 * PI)))); [ring|].
    rewrite E. rewrite (BB (r * K) c m Hc Hm). rewrite (bb K (r * K) c Hne). field. repeat split; lra.
  Qed.
  Lemma g2_avg : 2 * r ^ 2 * (K ^ 2 * over_cosines (fun c => azimuthal (fun phi => spt_G2 (kvec K) (neg (qvec (r * K) c phi)) *
       (dot (los m) (qvec (r * K) c phi) * dot (los m) (minus (kvec K) (qvec (r * K) c phi))
        / (dot (qvec (r * K) c phi) (qvec (r * K) c phi) * dot (minus (kvec K) (qvec (r * K) c phi)) (minus (kvec K) (qvec (r * K) c phi)))))))
    = g02_near r + g20_near r * m ^ 2.
  Proof.
    set (f3 := fun c => r ^ 2 * (spt_G2 (kvec K) (neg (qvec (r * K) c 0)) * (- (1 - c * c) / 2 * / (1 + r * r - 2 * r * c)))).
    set (f4 := fun c => r ^ 2 * (spt_G2 (kvec K) (neg (qvec (r * K) c 0)) * ((c / r - (3 * (c * c) - 1) / 2) * / (1 + r * r - 2 * r * c)))).
    assert (X3 : ex_RInt f3 (-1) 1).
    { unfold f3. eexists. eapply is_RInt_ext; [|refine (avg_frac r Hr Hr1 _ _ _ _ _)]. intros c Hc. rewrite Rmin_left, Rmax_right in Hc by lra. symmetry.
      refine (H3_vec K r HK Hr Hr1 (kvec K) (qvec (r * K) c 0) c _ _ _ _); [lra|apply k_kk|apply q_qq; lra|apply k_kq]. }
    assert (X4 : ex_RInt f4 (-1) 1).
    { unfold f4. eexists. eapply is_RInt_ext; [|refine (avg_frac r Hr Hr1 _ _ _ _ _)]. intros c Hc. rewrite Rmin_left, Rmax_right in Hc by lra. symmetry.
      refine (H4_vec K r HK Hr Hr1 (kvec K) (qvec (r * K) c 0) c _ _ _ _); [lra|apply k_kk|apply q_qq; lra|apply k_kq]. }
    pose proof (g02_avg K r 0 HK Hr Hr1) as E3. pose proof (g20_avg K r 0 HK Hr Hr1) as E4.
    unfold over_cosines in E3, E4 |- *. unfold Rdiv at 1 in E3. unfold Rdiv at 1 in E4.
    rewrite <- Rmult_assoc, <- RInt_scal' in E3. rewrite <- Rmult_assoc, <- RInt_scal' in E4.
    change (RInt f3 (-1) 1 * / 2 = g02_near r / 2) in E3. change (RInt f4 (-1) 1 * / 2 = g20_near r / 2) in E4.
    replace (g02_near r) with (RInt f3 (-1) 1) by lra. replace (g20_near r) with (RInt f4 (-1) 1) by lra.
    match goal with |- 2 * r ^ 2 * (K ^ 2 * (?I / 2)) = _ => transitivity (r ^ 2 * (K ^ 2 * I)); [field|] end.
    rewrite <- !RInt_scal'.
    rewrite (RInt_ext _ (fun c => Hierarchy.plus (f3 c) (m ^ 2 * f4 c))).
    - rewrite (@RInt_plus R_CompleteNormedModule f3 (fun c => m ^ 2 * f4 c)); [|exact X3|exact (ex_RInt_scal f4 (-1) 1 (m ^ 2) X4)].
      rewrite RInt_scal'. match goal with |- Hierarchy.plus ?a ?b = ?c => change (a + b = c) end. ring.
    - intros c Hc. rewrite Rmin_left, Rmax_right in Hc by lra. rewrite (az_G2 c) by lra.
      match goal with |- ?a = Hierarchy.plus ?b ?c => change (a = b + c) end. unfold f3, f4. ring.
  Qed.
End los.
