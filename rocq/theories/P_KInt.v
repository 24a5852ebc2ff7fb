(** * Proofs about the second-order integrals *)
From Coq Require Import Reals ZArith Lra Lia Psatz.
From Coquelicot Require Import Coquelicot.
From Verif Require Import M_Kernels S_Kernels P_Kernels.
Local Open Scope R_scope.

(** an integral that does not exist is 0 in Coquelicot's real library *)
Lemma RInt_nonex (f : R -> R) a b : ~ ex_RInt f a b -> RInt f a b = 0.
Proof.
  intro H. unfold RInt, iota.
  change (R_complete_lim (fun A : R -> Prop => forall x : R, is_RInt f a b x -> A x) = 0). unfold R_complete_lim.
  match goal with |- real (Lub_Rbar ?E) = 0 => assert (HE : is_lub_Rbar E p_infty) end; [|rewrite (is_lub_Rbar_unique _ _ HE); reflexivity]. split.
  - intros x _. exact I.
  - intros l Hl. destruct l as [l| |]; simpl; [| exact I |].
    + assert (Hx : Rbar_le (l + 1) l) by (apply Hl; intros x Hx; exfalso; apply H; exists x; exact Hx). simpl in Hx. lra.
    + apply (Hl 0). intros x Hx; exfalso; apply H; exists x; exact Hx.
Qed.
Lemma RInt_scal' (f : R -> R) a b l : RInt (fun x => l * f x) a b = l * RInt f a b.
Proof.
  destruct (Req_dec l 0) as [->|Hl].
  - rewrite Rmult_0_l. rewrite (RInt_ext (fun x => 0 * f x) (fun _ => 0)) by (intros; apply Rmult_0_l). rewrite RInt_const. apply Rmult_0_r.
  - assert (Hd : ex_RInt f a b \/ ~ ex_RInt f a b) by apply Classical_Prop.classic.
    destruct Hd as [Hf|Hf].
    + apply (RInt_scal f a b l Hf).
    + rewrite (RInt_nonex f) by exact Hf. rewrite RInt_nonex; [symmetry; apply Rmult_0_r|]. intro He. apply Hf.
      apply (ex_RInt_ext (fun x => scal (/ l) (l * f x))); [intros x _; unfold scal; simpl; unfold mult; simpl; field; exact Hl|].
      exact (ex_RInt_scal (fun x : R => l * f x) a b (/ l) He).
Qed.
Lemma is_RInt_even (f : R -> R) c I : (forall x, f (- x) = f x) -> is_RInt f 0 c I -> is_RInt f (- c) 0 I.
Proof.
  intros He HI. assert (X := is_RInt_comp_opp f 0 (- c) I). rewrite Ropp_involutive, Ropp_0 in X. specialize (X HI).
  apply is_RInt_swap in X. apply is_RInt_opp in X. rewrite opp_opp in X.
  apply (is_RInt_ext _ f) in X; [exact X|]. intros x _. rewrite opp_opp. apply He.
Qed.
Lemma RInt_even (f : R -> R) c : 0 <= c -> (forall x, f (- x) = f x) -> RInt f (- c) c = 2 * RInt f 0 c.
Proof.
  intros Hc He. assert (Hd : ex_RInt f 0 c \/ ~ ex_RInt f 0 c) by apply Classical_Prop.classic.
  destruct Hd as [[I HI]|Hn].
  - pose proof (is_RInt_even f c I He HI) as HJ. rewrite (is_RInt_unique _ _ _ _ HI).
    pose proof (is_RInt_Chasles f _ _ _ _ _ HJ HI) as HS. rewrite (is_RInt_unique _ _ _ _ HS). change (I + I = 2 * I). ring.
  - rewrite (RInt_nonex f 0 c) by exact Hn. rewrite RInt_nonex; [symmetry; apply Rmult_0_r|]. intro H. apply Hn.
    apply (ex_RInt_Chasles_2 f (- c) 0 c); [lra|exact H].
Qed.
Lemma RInt_nonneg (f : R -> R) a b : a <= b -> (forall x, a < x < b -> 0 <= f x) -> 0 <= RInt f a b.
Proof.
  intros Hab Hf. assert (Hd : ex_RInt f a b \/ ~ ex_RInt f a b) by apply Classical_Prop.classic.
  destruct Hd as [He|Hn]; [apply RInt_ge_0; assumption|]. rewrite RInt_nonex by exact Hn. lra.
Qed.

(** ** symmetry, homogeneity, sign *)
Definition even_in_v (f : R -> R -> R) : Prop := forall u v, f u (- v) = f u v.
Lemma integrand_even f P k x v : even_in_v f -> integrand f P k x (- v) = integrand f P k x v.
Proof.
  intro He. unfold integrand. rewrite He. replace (exp x - - v) with (exp x + v) by ring. replace (exp x + - v) with (exp x - v) by ring. ring.
Qed.
Lemma Integrate2_scal g a0 a1 b0 b1 l : Integrate2 (fun x y => l * g x y) a0 a1 b0 b1 = l * Integrate2 g a0 a1 b0 b1.
Proof.
  unfold Integrate2. rewrite <- RInt_scal'. apply RInt_ext. intros x _. apply RInt_scal'.
Qed.
Lemma Integrate2_even g a0 b0 : (forall x y, g x (- y) = g x y) -> Integrate2 g a0 (-1) b0 1 = 2 * Integrate2 g a0 0 b0 1.
Proof.
  intro He. unfold Integrate2. rewrite <- RInt_scal'. apply RInt_ext. intros x _. apply (RInt_even (g x) 1); [lra|]. intro; apply He.
Qed.
Lemma Integrate2_ext g h a0 a1 b0 b1 : (forall x y, Rmin a0 b0 < x < Rmax a0 b0 -> Rmin a1 b1 < y < Rmax a1 b1 -> g x y = h x y) ->
  Integrate2 g a0 a1 b0 b1 = Integrate2 h a0 a1 b0 b1.
Proof. intro H. unfold Integrate2. apply RInt_ext. intros x Hx. apply RInt_ext. intros y Hy. apply H; assumption. Qed.
Lemma Integrate2_nonneg g a0 a1 b0 b1 : a0 <= b0 -> a1 <= b1 -> (forall x y, a0 < x < b0 -> a1 < y < b1 -> 0 <= g x y) -> 0 <= Integrate2 g a0 a1 b0 b1.
Proof. intros H0 H1 H. unfold Integrate2. apply RInt_nonneg; [assumption|]. intros x Hx. apply RInt_nonneg; [assumption|]. intros y Hy. apply H; assumption. Qed.

Lemma evens : even_in_v F2 /\ even_in_v G2 /\ even_in_v S2 /\ even_in_v h03 /\ even_in_v h04.
Proof.
  assert (H : forall v, - v * - v = v * v) by (intro; ring).
  unfold even_in_v, F2, G2, S2, h03, h04. refine (conj _ (conj _ (conj _ (conj _ _)))); intros u v; cbv zeta; rewrite !H; reflexivity.
Qed.
Lemma evens_I : even_in_v f00 /\ even_in_v f01 /\ even_in_v f02 /\ even_in_v f11 /\ even_in_v f12 /\ even_in_v f20 /\ even_in_v f21 /\ even_in_v f23 /\ even_in_v f32 /\ even_in_v f33.
Proof.
  assert (H : forall v, - v * - v = v * v) by (intro; ring).
  assert (H3 : forall x v, x * - v * - v = x * v * v) by (intros; ring).
  assert (H4 : forall v, (- v) ^ 4 = v ^ 4) by (intro; ring).
  unfold even_in_v, f00, f01, f02, f11, f12, f20, f21, f23, f32, f33. repeat match goal with |- _ /\ _ => split end; intros u v; cbv zeta; rewrite ?H, ?H3, ?H4; reflexivity.
Qed.

(** ** the full-range integral of the specification *)
Lemma bip f P k : 0 < k -> bipolar (fun q r k => f ((q + r) / k) ((r - q) / k)) P k = k / (8 * PI ^ 2) * Integrate2 (integrand f P k) (ln 1) (-1) (ln (2 * QMAX / k)) 1.
Proof.
  intro Hk. unfold bipolar, Integrate2. rewrite ln_1. f_equal. apply RInt_ext. intros x _. apply RInt_ext. intros v _.
  unfold integrand. cbv zeta. f_equal. f_equal; field; lra.
Qed.
Lemma I_sym f P k : 0 < k -> even_in_v f -> I_integral f true P k = bipolar (fun q r k => f ((q + r) / k) ((r - q) / k)) P k.
Proof.
  intros Hk He. rewrite bip by exact Hk. unfold I_integral. destruct (Rle_dec k 0); [lra|]. cbv zeta.
  rewrite Integrate2_even by (intros; apply integrand_even; exact He). field. apply PI_neq0.
Qed.
Lemma K_sym f P k : 0 < k -> even_in_v f -> K_integral f true P k = bipolar (fun q r k => f ((q + r) / k) ((r - q) / k)) P k.
Proof.
  intros Hk He. rewrite <- (I_sym f P k Hk He). unfold I_integral, K_integral. destruct (Rle_dec k 0); [lra|]. cbv zeta. field. apply PI_neq0.
Qed.
Lemma K_nsym f P k : 0 < k -> K_integral f false P k = bipolar (fun q r k => f ((q + r) / k) ((r - q) / k)) P k.
Proof.
  intros Hk. rewrite bip by exact Hk. unfold K_integral. destruct (Rle_dec k 0); [lra|]. cbv zeta. field. apply PI_neq0.
Qed.
Lemma bipolar_ext f g P k : 0 < k <= 2 * 10 ^ 5 -> (forall q r, 0 < q -> 0 < r -> k < q + r -> f q r k = g q r k) -> bipolar f P k = bipolar g P k.
Proof.
  intros Hk H. unfold bipolar. f_equal. apply RInt_ext. intros x Hx. apply RInt_ext. intros v Hv.
  rewrite Rmin_left in Hv by lra. rewrite Rmax_right in Hv by lra.
  assert (0 <= ln (2 * 10 ^ 5 / k)). { rewrite <- ln_1. apply Rcomplements.ln_le; [lra|]. apply Rle_div_r; lra. }
  rewrite Rmin_left in Hx by assumption. assert (1 < exp x) by (rewrite <- exp_0; apply exp_increasing; lra).
  cbv zeta. f_equal. apply H; [apply Rmult_lt_0_compat; lra|apply Rmult_lt_0_compat; lra|nra].
Qed.

(** ** in terms of the three sides *)
Section sides.
  Variables q r k : R. Hypothesis Hq : 0 < q. Hypothesis Hr : 0 < r. Hypothesis Hk : 0 < k.
  Let u := (q + r) / k. Let v := (r - q) / k.
  Ltac sd := unfold side_F2, side_G2, side_S2, side_alpha, side_dot, u, v; field; repeat split; try lra; try nra.
  Lemma F2_side : F2 u v = side_F2 q r k. Proof. unfold F2; sd. Qed.
  Lemma G2_side : G2 u v = side_G2 q r k. Proof. unfold G2; sd. Qed.
  Lemma S2_side : S2 u v = side_S2 q r k. Proof. unfold S2; sd. Qed.
  Lemma k11_side : k11 u v = side_alpha q r k. Proof. unfold k11; sd. Qed.
  Lemma uv1 : u - v <> 0.
  Proof. unfold u, v. replace ((q + r) / k - (r - q) / k) with (2 * (q / k)) by (field; lra). assert (0 < q / k) by (apply Rdiv_lt_0_compat; lra). lra. Qed.
  Lemma uv2 : u + v <> 0.
  Proof. unfold u, v. replace ((q + r) / k + (r - q) / k) with (2 * (r / k)) by (field; lra). assert (0 < r / k) by (apply Rdiv_lt_0_compat; lra). lra. Qed.
End sides.

(** ** homogeneity *)
Lemma integrand_scal f P k l x v : integrand f (fun q => l * P q) k x v = l ^ 2 * integrand f P k x v.
Proof. unfold integrand. cbv zeta. ring. Qed.
Lemma Int_scal f P k l a0 a1 b0 b1 : Integrate2 (integrand f (fun q => l * P q) k) a0 a1 b0 b1 = l ^ 2 * Integrate2 (integrand f P k) a0 a1 b0 b1.
Proof. rewrite <- Integrate2_scal. apply Integrate2_ext. intros; apply integrand_scal. Qed.
Lemma I_scal f s P k l : I_integral f s (fun q => l * P q) k = l ^ 2 * I_integral f s P k.
Proof. unfold I_integral. destruct (Rle_dec k 0); [ring|]. cbv zeta. rewrite !Int_scal. destruct s; ring. Qed.
Lemma K_scal f s P k l : K_integral f s (fun q => l * P q) k = l ^ 2 * K_integral f s P k.
Proof. unfold K_integral. destruct (Rle_dec k 0); [ring|]. cbv zeta. rewrite !Int_scal. destruct s; ring. Qed.
Ltac zcases z := let H := fresh in destruct z as [|H|H]; [..|]; repeat (try destruct H as [H|H|]).
Lemma I_eval_scal P k m n l : I_eval (fun q => l * P q) k m n = option_map (fun x => l ^ 2 * x) (I_eval P k m n).
Proof.
  unfold I_eval. destruct (4 * m + n)%Z as [|p|p]; [cbn [option_map]; f_equal; apply I_scal| |reflexivity].
  do 4 (try destruct p as [p|p|]); cbn [option_map]; try reflexivity; f_equal; apply I_scal.
Qed.
Lemma K_eval_scal P k m n t part l : K_eval (fun q => l * P q) k m n t part = option_map (fun x => l ^ 2 * x) (K_eval P k m n t part).
Proof.
  unfold K_eval. destruct (2 * (3 * m + (if t then 1 else 0)) + n)%Z as [|p|p]; [cbn [option_map]; f_equal; apply K_scal| |reflexivity].
  do 4 (try destruct p as [p|p|]); cbn [option_map]; try reflexivity; try (f_equal; apply K_scal); destruct (part =? 0)%Z; f_equal; apply K_scal.
Qed.
Lemma I_k0 P k m n x : k <= 0 -> I_eval P k m n = Some x -> x = 0.
Proof.
  intros Hk. assert (H : forall f s, I_integral f s P k = 0) by (intros; unfold I_integral; destruct (Rle_dec k 0); [reflexivity|lra]).
  unfold I_eval. destruct (4 * m + n)%Z as [|p|p]; [rewrite H; congruence| |discriminate].
  do 4 (try destruct p as [p|p|]); rewrite ?H; congruence.
Qed.
Lemma K_k0 P k m n t part x : k <= 0 -> K_eval P k m n t part = Some x -> x = 0.
Proof.
  intros Hk. assert (H : forall f s, K_integral f s P k = 0) by (intros; unfold K_integral; destruct (Rle_dec k 0); [reflexivity|lra]).
  unfold K_eval. destruct (2 * (3 * m + (if t then 1 else 0)) + n)%Z as [|p|p]; [rewrite H; congruence| |discriminate].
  do 4 (try destruct p as [p|p|]); rewrite ?H; destruct (part =? 0)%Z; congruence.
Qed.
(** ** sign *)
Lemma bipolar_nonneg f P k : 0 < k <= 2 * 10 ^ 5 -> (forall q, 0 < q -> 0 <= P q) -> (forall q r, 0 < q -> 0 < r -> 0 <= f q r k) -> 0 <= bipolar f P k.
Proof.
  intros Hk HP Hf. unfold bipolar. apply Rmult_le_pos.
  - apply Rlt_le, Rdiv_lt_0_compat; [lra|]. pose proof PI_RGT_0. nra.
  - assert (H0 : 0 <= ln (2 * 10 ^ 5 / k)). { rewrite <- ln_1. apply Rcomplements.ln_le; [lra|]. apply Rle_div_r; lra. }
    apply RInt_nonneg; [exact H0|]. intros x Hx. apply RInt_nonneg; [lra|]. intros v Hv. cbv zeta.
    assert (1 < exp x) by (rewrite <- exp_0; apply exp_increasing; lra).
    assert (0 < k / 2 * (exp x - v)) by (apply Rmult_lt_0_compat; lra). assert (0 < k / 2 * (exp x + v)) by (apply Rmult_lt_0_compat; lra).
    repeat (apply Rmult_le_pos; try lra); auto.
Qed.

(** ** Cauchy-Schwarz *)
Lemma umax_pos k : 0 < k <= 2 * 10 ^ 5 -> 0 <= ln (2 * 10 ^ 5 / k).
Proof. intro Hk. rewrite <- ln_1. apply Rcomplements.ln_le; [lra|]. apply Rle_div_r; lra. Qed.
Lemma bipolar_lin f g P k t : 0 < k <= 2 * 10 ^ 5 -> bipolar_exists f P k -> bipolar_exists g P k ->
  bipolar_exists (fun q r k => f q r k + t * g q r k) P k /\
  bipolar (fun q r k => f q r k + t * g q r k) P k = bipolar f P k + t * bipolar g P k.
Proof.
  intros Hk [Hf1 Hf2] [Hg1 Hg2]. pose proof (umax_pos k Hk) as Hu.
  set (gf := fun x v => let q := k / 2 * (exp x - v) in let r := k / 2 * (exp x + v) in exp x * q * r * P q * P r * f q r k).
  set (gg := fun x v => let q := k / 2 * (exp x - v) in let r := k / 2 * (exp x + v) in exp x * q * r * P q * P r * g q r k).
  set (gs := fun x v => let q := k / 2 * (exp x - v) in let r := k / 2 * (exp x + v) in exp x * q * r * P q * P r * (f q r k + t * g q r k)).
  change (forall x, 0 < x < ln (2 * 10 ^ 5 / k) -> ex_RInt (gf x) (-1) 1) in Hf1.
  change (forall x, 0 < x < ln (2 * 10 ^ 5 / k) -> ex_RInt (gg x) (-1) 1) in Hg1.
  change (ex_RInt (fun x => RInt (gf x) (-1) 1) 0 (ln (2 * 10 ^ 5 / k))) in Hf2.
  change (ex_RInt (fun x => RInt (gg x) (-1) 1) 0 (ln (2 * 10 ^ 5 / k))) in Hg2.
  assert (E1 : forall x, 0 < x < ln (2 * 10 ^ 5 / k) -> is_RInt (gs x) (-1) 1 (RInt (gf x) (-1) 1 + t * RInt (gg x) (-1) 1)).
  { intros x Hx. apply (is_RInt_ext (fun v => Hierarchy.plus (gf x v) (scal t (gg x v)))).
    - intros v _. change (gf x v + t * gg x v = gs x v). unfold gf, gg, gs. cbv zeta. ring.
    - apply (@is_RInt_plus R_NormedModule); [exact (RInt_correct _ _ _ (Hf1 x Hx))|]. apply (@is_RInt_scal R_NormedModule). exact (RInt_correct _ _ _ (Hg1 x Hx)). }
  assert (E2 : is_RInt (fun x => RInt (gs x) (-1) 1) 0 (ln (2 * 10 ^ 5 / k))
    (RInt (fun x => RInt (gf x) (-1) 1) 0 (ln (2 * 10 ^ 5 / k)) + t * RInt (fun x => RInt (gg x) (-1) 1) 0 (ln (2 * 10 ^ 5 / k)))).
  { apply (is_RInt_ext (fun x => Hierarchy.plus (RInt (gf x) (-1) 1) (scal t (RInt (gg x) (-1) 1)))).
    - intros x Hx. rewrite Rmin_left, Rmax_right in Hx by exact Hu. symmetry. apply is_RInt_unique, E1, Hx.
    - apply (@is_RInt_plus R_NormedModule); [exact (RInt_correct _ _ _ Hf2)|]. apply (@is_RInt_scal R_NormedModule). exact (RInt_correct _ _ _ Hg2). }
  split.
  - split; [intros x Hx; eexists; apply (E1 x Hx)|eexists; exact E2].
  - change (k / (8 * PI ^ 2) * RInt (fun x => RInt (gs x) (-1) 1) 0 (ln (2 * 10 ^ 5 / k))
      = k / (8 * PI ^ 2) * RInt (fun x => RInt (gf x) (-1) 1) 0 (ln (2 * 10 ^ 5 / k)) + t * (k / (8 * PI ^ 2) * RInt (fun x => RInt (gg x) (-1) 1) 0 (ln (2 * 10 ^ 5 / k)))).
    rewrite (is_RInt_unique _ _ _ _ E2). ring.
Qed.
Lemma quad_nonneg a b c : (forall t, 0 <= a + t * (2 * b) + t ^ 2 * c) -> b ^ 2 <= a * c.
Proof.
  intro H. destruct (Req_dec c 0) as [->|Hc].
  - destruct (Req_dec b 0) as [->|Hb]; [lra|]. exfalso. specialize (H (- (a + 1) / (2 * b))).
    replace (a + - (a + 1) / (2 * b) * (2 * b) + (- (a + 1) / (2 * b)) ^ 2 * 0) with (-1) in H by (field; exact Hb). lra.
  - assert (Hc' : 0 < c \/ c < 0) by lra. destruct Hc' as [Hc'|Hc'].
    + specialize (H (- b / c)). replace (a + - b / c * (2 * b) + (- b / c) ^ 2 * c) with (a - b ^ 2 / c) in H by (field; exact Hc).
      assert (b ^ 2 / c <= a) by lra. apply Rle_div_l in H0; lra.
    + exfalso. pose proof (H 0) as H0. pose proof (H ((a + 1 + b ^ 2 - c) / - c)) as Hp. pose proof (H (- ((a + 1 + b ^ 2 - c) / - c))) as Hn.
      set (s := (a + 1 + b ^ 2 - c) / - c) in *. assert (Es : s * (- c) = a + 1 + b ^ 2 - c) by (unfold s; field; exact Hc).
      assert (1 <= s) by (unfold s; apply Rle_div_r; nra). nra.
Qed.
Lemma bipolar_CS f g P k : 0 < k <= 2 * 10 ^ 5 -> (forall q, 0 < q -> 0 <= P q) ->
  bipolar_exists (fun q r k => f q r k * f q r k) P k -> bipolar_exists (fun q r k => f q r k * g q r k) P k -> bipolar_exists (fun q r k => g q r k * g q r k) P k ->
  bipolar (fun q r k => f q r k * g q r k) P k ^ 2 <= bipolar (fun q r k => f q r k * f q r k) P k * bipolar (fun q r k => g q r k * g q r k) P k.
Proof.
  intros Hk HP Hff Hfg Hgg. apply quad_nonneg. intro t.
  destruct (bipolar_lin _ _ P k (2 * t) Hk Hff Hfg) as [H1 E1]. destruct (bipolar_lin _ _ P k (t ^ 2) Hk H1 Hgg) as [H2 E2].
  rewrite E1 in E2.
  replace (bipolar (fun q r k0 => f q r k0 * f q r k0) P k + t * (2 * bipolar (fun q r k0 => f q r k0 * g q r k0) P k) + t ^ 2 * bipolar (fun q r k0 => g q r k0 * g q r k0) P k)
    with (bipolar (fun q r k : R => f q r k * f q r k + 2 * t * (f q r k * g q r k) + t ^ 2 * (g q r k * g q r k)) P k) by (rewrite E2; ring).
  apply bipolar_nonneg; [exact Hk|exact HP|]. intros q r _ _.
  replace (f q r k * f q r k + 2 * t * (f q r k * g q r k) + t ^ 2 * (g q r k * g q r k)) with (Rsqr (f q r k + t * g q r k)) by (unfold Rsqr; ring). apply Rle_0_sqr.
Qed.
(** ** a spectrum for which they exist: P(q) = q^3 *)
Lemma cube_exists k A B C D h : 0 < k ->
  (forall x, continuous A x) -> (forall x, continuous B x) -> (forall x, continuous C x) -> (forall x, continuous D x) ->
  (forall x v, 0 < x -> -1 < v < 1 -> (k / 2 * (exp x - v) * (k / 2 * (exp x + v))) ^ 4 * h (k / 2 * (exp x - v)) (k / 2 * (exp x + v)) k = (A x + B x * v ^ 2) * (C x + D x * v ^ 2)) ->
  0 < k <= 2 * 10 ^ 5 -> bipolar_exists h (fun q => q ^ 3) k.
Proof.
  intros Hk HA HB HC HD Hh Hk'. pose proof (umax_pos k Hk') as Hu.
  assert (E : forall x, 0 < x -> is_RInt (fun v => let q := k / 2 * (exp x - v) in let r := k / 2 * (exp x + v) in exp x * q * r * q ^ 3 * r ^ 3 * h q r k) (-1) 1
     (exp x * (2 * (A x * C x) + 2 / 3 * (A x * D x + B x * C x) + 2 / 5 * (B x * D x)))).
  { intros x Hx. set (F := fun v => exp x * (A x * C x * v + (A x * D x + B x * C x) * v ^ 3 / 3 + B x * D x * v ^ 5 / 5)).
    apply (is_RInt_ext (fun v => exp x * ((A x + B x * v ^ 2) * (C x + D x * v ^ 2)))).
    { intros v Hv. rewrite Rmin_left, Rmax_right in Hv by lra. rewrite <- Hh by (try exact Hx; lra). cbv zeta. match goal with |- @eq _ ?a ?b => change (@eq R a b) end. ring. }
    replace (exp x * (2 * (A x * C x) + 2 / 3 * (A x * D x + B x * C x) + 2 / 5 * (B x * D x))) with (Hierarchy.minus (F 1) (F (-1))).
    2:{ change (F 1 + - F (-1) = exp x * (2 * (A x * C x) + 2 / 3 * (A x * D x + B x * C x) + 2 / 5 * (B x * D x))). unfold F. field. }
    apply (is_RInt_derive F).
    - intros v _. unfold F. auto_derive; [exact I|]. field.
    - intros v _. apply (@ex_derive_continuous R_AbsRing R_NormedModule). auto_derive; exact I. }
  split; [intros x Hx; eexists; apply (E x); lra|].
  apply (ex_RInt_ext (fun x => exp x * (2 * (A x * C x) + 2 / 3 * (A x * D x + B x * C x) + 2 / 5 * (B x * D x)))).
  - intros x Hx. rewrite Rmin_left, Rmax_right in Hx by exact Hu. symmetry. apply is_RInt_unique, E. lra.
  - apply (@ex_RInt_continuous R_CompleteNormedModule). intros x _.
    assert (M : forall f g : R -> R, continuous f x -> continuous g x -> continuous (fun y => f y * g y) x) by (intros; apply (@continuous_mult R_UniformSpace R_AbsRing); assumption).
    assert (Ad : forall f g : R -> R, continuous f x -> continuous g x -> continuous (fun y => f y + g y) x) by (intros; apply (@continuous_plus R_UniformSpace R_AbsRing R_NormedModule); assumption).
    assert (Cc : forall c : R, continuous (fun _ : R => c) x) by (intros; apply continuous_const).
    apply M; [apply continuous_exp|]. apply Ad; [apply Ad|]; (apply M; [apply Cc|]); try apply Ad; apply M; auto.
Qed.

(** ** the two halves *)
Lemma I_nsym f P k : 0 < k <= 2 * 10 ^ 5 -> bipolar_halves_exist (fun q r k => f ((q + r) / k) ((r - q) / k)) P k ->
  I_integral f false P k = bipolar (fun q r k => f ((q + r) / k) ((r - q) / k)) P k.
Proof.
  intros Hk [H1 [H2 H3]]. pose proof (umax_pos k Hk) as Hu. rewrite bip by lra. unfold I_integral. destruct (Rle_dec k 0); [lra|]. cbv zeta.
  rewrite ln_1. unfold QMAX in *. set (U := ln (2 * 10 ^ 5 / k)) in *.
  set (g := fun x v => let q := k / 2 * (exp x - v) in let r := k / 2 * (exp x + v) in exp x * q * r * P q * P r * f ((q + r) / k) ((r - q) / k)).
  change (forall x, 0 < x < U -> ex_RInt (g x) (-1) 0 /\ ex_RInt (g x) 0 1) in H1.
  change (ex_RInt (fun x => RInt (g x) (-1) 0) 0 U) in H2. change (ex_RInt (fun x => RInt (g x) 0 1) 0 U) in H3.
  assert (Eg : forall a b, Integrate2 (integrand f P k) 0 a U b = RInt (fun x => RInt (g x) a b) 0 U).
  { intros a b. unfold Integrate2. apply RInt_ext. intros x _. apply RInt_ext. intros v _. unfold integrand, g. cbv zeta. f_equal. f_equal; field; lra. }
  rewrite !Eg.
  assert (E : RInt (fun x => RInt (g x) (-1) 1) 0 U = RInt (fun x => RInt (g x) (-1) 0) 0 U + RInt (fun x => RInt (g x) 0 1) 0 U).
  { apply is_RInt_unique. apply (is_RInt_ext (fun x => Hierarchy.plus (RInt (g x) (-1) 0) (RInt (g x) 0 1))).
    - intros x Hx. rewrite Rmin_left, Rmax_right in Hx by exact Hu. destruct (H1 x Hx) as [Ha Hb]. apply (RInt_Chasles (g x)); assumption.
    - apply (@is_RInt_plus R_NormedModule); [exact (RInt_correct _ _ _ H2)|exact (RInt_correct _ _ _ H3)]. }
  rewrite E. field. apply PI_neq0.
Qed.
Lemma poly_exists k c0 c1 c2 c3 c4 c5 h : 0 < k <= 2 * 10 ^ 5 ->
  (forall x, continuous c0 x) -> (forall x, continuous c1 x) -> (forall x, continuous c2 x) -> (forall x, continuous c3 x) -> (forall x, continuous c4 x) -> (forall x, continuous c5 x) ->
  (forall x v, 0 < x -> -1 < v < 1 -> (k / 2 * (exp x - v) * (k / 2 * (exp x + v))) ^ 4 * h (k / 2 * (exp x - v)) (k / 2 * (exp x + v)) k
      = c0 x + c1 x * v + c2 x * v ^ 2 + c3 x * v ^ 3 + c4 x * v ^ 4 + c5 x * v ^ 5) ->
  bipolar_halves_exist h (fun q => q ^ 3) k.
Proof.
  intros Hk C0 C1 C2 C3 C4 C5 Hh. pose proof (umax_pos k Hk) as Hu.
  set (F := fun x v => exp x * (c0 x * v + c1 x * (v ^ 2 / 2) + c2 x * (v ^ 3 / 3) + c3 x * (v ^ 4 / 4) + c4 x * (v ^ 5 / 5) + c5 x * (v ^ 6 / 6))).
  assert (E : forall a b x, -1 <= a <= b -> b <= 1 -> 0 < x -> is_RInt (fun v => let q := k / 2 * (exp x - v) in let r := k / 2 * (exp x + v) in exp x * q * r * q ^ 3 * r ^ 3 * h q r k) a b (F x b - F x a)).
  { intros a b x Hab Hb Hx.
    apply (is_RInt_ext (fun v => exp x * (c0 x + c1 x * v + c2 x * v ^ 2 + c3 x * v ^ 3 + c4 x * v ^ 4 + c5 x * v ^ 5))).
    { intros v Hv. rewrite Rmin_left, Rmax_right in Hv by lra. rewrite <- Hh by (try exact Hx; lra). cbv zeta. match goal with |- @eq _ ?a ?b => change (@eq R a b) end. ring. }
    change (F x b - F x a) with (Hierarchy.minus (F x b) (F x a)). apply (is_RInt_derive (F x)).
    - intros v _. unfold F. auto_derive; [exact I|]. field.
    - intros v _. apply (@ex_derive_continuous R_AbsRing R_NormedModule). auto_derive; exact I. }
  assert (Co : forall a b, -1 <= a <= b -> b <= 1 -> ex_RInt (fun x => RInt (fun v => let q := k / 2 * (exp x - v) in let r := k / 2 * (exp x + v) in exp x * q * r * q ^ 3 * r ^ 3 * h q r k) a b) 0 (ln (2 * 10 ^ 5 / k))).
  { intros a b Hab Hb. apply (ex_RInt_ext (fun x => F x b - F x a)).
    - intros x Hx. rewrite Rmin_left, Rmax_right in Hx by exact Hu. symmetry. apply is_RInt_unique, E; try assumption; lra.
    - apply (@ex_RInt_continuous R_CompleteNormedModule). intros x _.
      assert (M : forall f g : R -> R, continuous f x -> continuous g x -> continuous (fun y => f y * g y) x) by (intros; apply (@continuous_mult R_UniformSpace R_AbsRing); assumption).
      assert (Ad : forall f g : R -> R, continuous f x -> continuous g x -> continuous (fun y => f y + g y) x) by (intros; apply (@continuous_plus R_UniformSpace R_AbsRing R_NormedModule); assumption).
      assert (Cc : forall c : R, continuous (fun _ : R => c) x) by (intros; apply continuous_const).
      assert (CF : forall v, continuous (fun y => F y v) x).
      { intro v. unfold F. apply M; [apply continuous_exp|]. repeat apply Ad; apply M; auto. }
      apply (@continuous_minus R_UniformSpace R_AbsRing R_NormedModule); apply CF. }
  split; [intros x Hx; split; eexists; apply E; lra|]. split; apply Co; lra.
Qed.

Lemma halves_ext f g P k : 0 < k <= 2 * 10 ^ 5 -> (forall q r, 0 < q -> 0 < r -> k < q + r -> f q r k = g q r k) -> bipolar_halves_exist f P k -> bipolar_halves_exist g P k.
Proof.
  intros Hk H [H1 [H2 H3]]. pose proof (umax_pos k Hk) as Hu.
  assert (E : forall x v, 0 < x -> -1 < v < 1 -> f (k / 2 * (exp x - v)) (k / 2 * (exp x + v)) k = g (k / 2 * (exp x - v)) (k / 2 * (exp x + v)) k).
  { intros x v Hx Hv. assert (1 < exp x) by (rewrite <- exp_0; apply exp_increasing; lra). apply H; [apply Rmult_lt_0_compat; lra|apply Rmult_lt_0_compat; lra|nra]. }
  split.
  - intros x Hx. destruct (H1 x Hx) as [A B]. split; [eapply ex_RInt_ext; [|exact A]|eapply ex_RInt_ext; [|exact B]]; intros v Hv; rewrite Rmin_left, Rmax_right in Hv by lra; cbv beta zeta; rewrite E by lra; reflexivity.
  - split; [eapply ex_RInt_ext; [|exact H2]|eapply ex_RInt_ext; [|exact H3]]; intros x Hx; rewrite Rmin_left, Rmax_right in Hx by exact Hu; apply RInt_ext; intros v Hv; rewrite Rmin_left, Rmax_right in Hv by lra; cbv beta zeta; rewrite E by lra; reflexivity.
Qed.
