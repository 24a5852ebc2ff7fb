From Coq Require Import Reals ZArith List Arith Lra Lia.
From Coquelicot Require Import Coquelicot.
From Verif Require Import M_Quad S_Quad P_QuadSort P_Quad P_Simps.
Import ListNotations.
Local Open Scope R_scope.
Ltac req := match goal with |- @eq _ ?a ?b => change (@eq R a b) end.

Definition wk (j : nat) := nth j wgk15 0.
Definition xk (j : nat) := nth j xgk15 0.
Definition G (g : R -> R) : R := g 0 * wk 7 + sum_n 7 (fun j => wk j * (g (- xk j) + g (xk j))).
Lemma xk_bound j : 0 <= xk j <= 1.
Proof. unfold xk. do 8 (destruct j as [|j]; [cbn; lra|]). destruct j; cbn; lra. Qed.
Lemma gk15_value f a b : fst (gk15 f a b) = (1/2) * (b - a) * G (fun u => f ((1/2) * (a + b) + (1/2) * (b - a) * u)).
Proof.
  unfold gk15, gauss_kronrod, G. cbn [fst sum_n Nat.mul Nat.add].
  set (c := 1/2 * (a + b)). set (h := 1/2 * (b - a)).
  replace (c + h * 0) with c by ring. fold (wk 0) (wk 1) (wk 2) (wk 3) (wk 4) (wk 5) (wk 6) (wk 7).
  fold (xk 0) (xk 1) (xk 2) (xk 3) (xk 4) (xk 5) (xk 6).
  replace (c - h * xk 0) with (c + h * - xk 0) by ring. replace (c - h * xk 1) with (c + h * - xk 1) by ring. replace (c - h * xk 2) with (c + h * - xk 2) by ring.
  replace (c - h * xk 3) with (c + h * - xk 3) by ring. replace (c - h * xk 4) with (c + h * - xk 4) by ring. replace (c - h * xk 5) with (c + h * - xk 5) by ring.
  replace (c - h * xk 6) with (c + h * - xk 6) by ring. ring.
Qed.
(* only the values on [a, b] matter *)
Lemma gk15_ext f g a b : a <= b -> (forall x, a <= x <= b -> f x = g x) -> gk15 f a b = gk15 g a b.
Proof.
  intros Hab H. unfold gk15. set (c := 1/2 * (a + b)). set (h := 1/2 * (b - a)). fold (xk 0).
  assert (Hh : 0 <= h) by (unfold h; lra).
  assert (P : forall j, f (c - h * nth j xgk15 0) = g (c - h * nth j xgk15 0) /\ f (c + h * nth j xgk15 0) = g (c + h * nth j xgk15 0)).
  { intros j. assert (B := xk_bound j). unfold xk in B. assert (0 <= h * nth j xgk15 0 <= h). { split; [apply Rmult_le_pos; lra|]. rewrite <- (Rmult_1_r h) at 2. apply Rmult_le_compat_l; lra. }
    split; apply H; unfold c, h in *; lra. }
  assert (C : f c = g c) by (apply H; unfold c; lra).
  unfold gauss_kronrod. cbn [sum_n]. rewrite C. rewrite !(fun j => proj1 (P j)), !(fun j => proj2 (P j)). reflexivity.
Qed.
(* the estimate is not negative *)
Lemma wk_pos j : 0 <= wk j.
Proof. unfold wk. do 8 (destruct j as [|j]; [cbn; lra|]). destruct j; cbn; lra. Qed.
Lemma sum_pos n F : (forall j, 0 <= F j) -> 0 <= sum_n n F.
Proof. intros H. induction n as [|n IH]; cbn; [lra|]. specialize (H n). lra. Qed.
Lemma gk_err_pos e s r : 0 <= e -> 0 <= s -> 0 <= gk_err e s r.
Proof.
  intros He Hs. unfold gk_err. set (e1 := if andb _ _ then _ else e). assert (0 <= e1).
  { unfold e1. destruct (Req_EM_T s 0); cbn [andb]; [lra|]. destruct (Req_EM_T e 0); cbn [andb]; [lra|]. destruct (rltb _ 1); [|exact Hs].
    apply Rmult_le_pos; [exact Hs|]. left. apply exp_pos. }
  destruct (rltb _ r); [apply Rle_trans with e1; [assumption|apply Rmax_l]|assumption].
Qed.
Lemma gk15_err_pos f a b : a <= b -> 0 <= snd (gk15 f a b).
Proof.
  intros H. unfold gk15, gauss_kronrod. cbn [snd]. apply gk_err_pos.
  - apply Rmult_le_pos; [apply Rabs_pos|lra].
  - apply Rmult_le_pos; [|apply Rabs_pos]. apply Rplus_le_le_0_compat; [apply Rmult_le_pos; [apply (wk_pos 7)|apply Rabs_pos]|].
    apply sum_pos. intros j. apply Rmult_le_pos; [apply (wk_pos j)|]. apply Rplus_le_le_0_compat; apply Rabs_pos.
Qed.

(* --- polynomials --- *)
Fixpoint powsum (cs : list R) (k : nat) (u : R) : R := match cs with [] => 0 | c :: t => c * u ^ k + powsum t (S k) u end.
Definition poly (cs : list R) (u : R) : R := powsum cs 0 u.
Lemma G_lin a f g : G (fun u => a * f u + g u) = a * G f + G g.
Proof. unfold G. cbn [sum_n]. ring. Qed.
Definition mu (k : nat) : R := (1 - (-1) ^ (S k)) / INR (S k).
Local Open Scope Z_scope.
Definition wz : list Z := [2293532201052922; 6309209262997855; 10479001032225020; 14065325971552590; 16900472663926790; 19035057806478540; 20443294007529890; 20948214108472780].
Definition xz : list Z := [9914553711208126; 9491079123427585; 8648644233597691; 7415311855993944; 5860872354676911; 4058451513773972; 2077849550078985].
Fixpoint zsum (n : nat) (F : nat -> Z) : Z := match n with O => 0 | S m => zsum m F + F m end.
Definition zmom (k : nat) : Z := 0 ^ Z.of_nat k * nth 7 wz 0 + zsum 7 (fun j => nth j wz 0 * ((- nth j xz 0) ^ Z.of_nat k + nth j xz 0 ^ Z.of_nat k)).
Definition zden (k : nat) : Z := 10 ^ 17 * (10 ^ 16) ^ Z.of_nat k.
Definition zok (k : nat) : bool := Z.abs (zmom k * Z.of_nat (S k) - (1 - (-1) ^ Z.of_nat (S k)) * zden k) * 10 ^ 16 <=? zden k * Z.of_nat (S k).
Lemma all_ok : forallb zok (seq 0 24) = true.
Proof. vm_compute. reflexivity. Qed.
Local Open Scope R_scope.
Lemma wk_z j : (j < 8)%nat -> wk j = IZR (nth j wz 0%Z) / IZR (10 ^ 17).
Proof. intros H. unfold wk. do 8 (destruct j as [|j]; [cbn [nth wgk15 wz]; lra|]). lia. Qed.
Lemma xk_z j : (j < 7)%nat -> xk j = IZR (nth j xz 0%Z) / IZR (10 ^ 16).
Proof. intros H. unfold xk. do 7 (destruct j as [|j]; [cbn [nth xgk15 xz]; lra|]). lia. Qed.
Lemma sum_IZR n F : IZR (zsum n F) = sum_n n (fun j => IZR (F j)).
Proof. induction n as [|n IH]; cbn [zsum sum_n]; [reflexivity|]. rewrite plus_IZR, IH. reflexivity. Qed.
Lemma pow_IZR' z n : IZR (z ^ Z.of_nat n) = IZR z ^ n.
Proof. symmetry. apply pow_IZR. Qed.
Lemma pow_div a b k : b <> 0 -> (a / b) ^ k = a ^ k / b ^ k.
Proof. intros H. unfold Rdiv. rewrite Rpow_mult_distr, pow_inv. reflexivity. Qed.
Lemma scale_sum n F c : sum_n n (fun j => F j / c) = sum_n n F / c.
Proof. induction n as [|n IH]; cbn [sum_n]; [unfold Rdiv; ring|]. rewrite IH. unfold Rdiv. ring. Qed.
Lemma mom_z k : G (fun u => u ^ k) = IZR (zmom k) / IZR (zden k).
Proof.
  unfold G, zmom, zden. rewrite plus_IZR, !mult_IZR, sum_IZR, !pow_IZR'.
  set (D := IZR (10 ^ 17)). set (X := IZR (10 ^ 16)). assert (HD : D <> 0) by (apply not_0_IZR; discriminate). assert (HX : X <> 0) by (apply not_0_IZR; discriminate).
  assert (HXk : X ^ k <> 0) by (apply pow_nonzero; exact HX).
  rewrite (sum_ext 7 _ (fun j => IZR (nth j wz 0 * ((- nth j xz 0) ^ Z.of_nat k + nth j xz 0 ^ Z.of_nat k))%Z / (D * X ^ k))).
  - rewrite scale_sum. rewrite (wk_z 7) by lia. fold D. destruct k as [|k]; [cbn [pow]; field; exact HD|]. rewrite !pow_i by lia. unfold Rdiv. ring.
  - intros j Hj. rewrite (wk_z j), (xk_z j) by lia. fold D X. rewrite mult_IZR, plus_IZR, !pow_IZR', opp_IZR.
    replace (- (IZR (nth j xz 0%Z) / X)) with ((- IZR (nth j xz 0%Z)) / X) by (unfold Rdiv; ring). rewrite !pow_div by exact HX. field. split; assumption.
Qed.
Definition tiny : R := 1 / 10 ^ 16.
Lemma moment_ok k : (k < 24)%nat -> Rabs (G (fun u => u ^ k) - mu k) <= tiny.
Proof.
  intros H. assert (A := all_ok). rewrite forallb_forall in A. specialize (A k ltac:(apply in_seq; lia)). unfold zok in A. apply Z.leb_le in A. apply IZR_le in A.
  assert (DP : 0 < IZR (zden k)). { apply IZR_lt. unfold zden. apply Z.mul_pos_pos; [reflexivity|]. apply Z.pow_pos_nonneg; lia. }
  assert (SP : 0 < INR (S k)) by (apply lt_0_INR; lia).
  rewrite !mult_IZR, abs_IZR, minus_IZR, !mult_IZR, minus_IZR, pow_IZR', <- INR_IZR_INZ in A.
  rewrite mom_z. unfold mu.
  replace (IZR (zmom k) / IZR (zden k) - (1 - (-1) ^ S k) / INR (S k)) with ((IZR (zmom k) * INR (S k) - (1 - (-1) ^ S k) * IZR (zden k)) / (IZR (zden k) * INR (S k))) by (field; split; lra).
  assert (PP : 0 < IZR (zden k) * INR (S k)) by (apply Rmult_lt_0_compat; assumption).
  unfold Rdiv at 1. rewrite Rabs_mult, (Rabs_pos_eq (/ (IZR (zden k) * INR (S k)))) by (left; apply Rinv_0_lt_compat; exact PP).
  apply (Rmult_le_reg_r (IZR (zden k) * INR (S k))); [exact PP|]. rewrite Rmult_assoc, Rinv_l, Rmult_1_r by lra.
  apply (Rmult_le_reg_r (IZR (10 ^ 16))); [apply IZR_lt; reflexivity|]. unfold tiny.
  replace (1 / 10 ^ 16 * (IZR (zden k) * INR (S k)) * IZR (10 ^ 16)) with (IZR (zden k) * INR (S k)) by (change (10 ^ 16)%Z with (10 ^ Z.of_nat 16)%Z; rewrite pow_IZR'; field; apply pow_nonzero; lra).
  exact A.
Qed.
Fixpoint l1 (cs : list R) : R := match cs with [] => 0 | c :: t => Rabs c + l1 t end.
Fixpoint exact (cs : list R) (k : nat) : R := match cs with [] => 0 | c :: t => c * mu k + exact t (S k) end.
Lemma G_poly : forall cs k, (k + length cs <= 24)%nat -> Rabs (G (powsum cs k) - exact cs k) <= tiny * l1 cs.
Proof.
  induction cs as [|c t IH]; intros k H; cbn [powsum exact l1].
  - unfold G. cbn [sum_n]. replace (0 * wk 7 + _ - 0) with 0 by ring. rewrite Rabs_R0. lra.
  - cbn [length] in H. rewrite (G_lin c (fun u => u ^ k) (powsum t (S k))). specialize (IH (S k) ltac:(lia)). assert (M := moment_ok k ltac:(lia)).
    replace (c * G (fun u => u ^ k) + G (powsum t (S k)) - (c * mu k + exact t (S k))) with (c * (G (fun u => u ^ k) - mu k) + (G (powsum t (S k)) - exact t (S k))) by ring.
    eapply Rle_trans; [apply Rabs_triang|]. rewrite Rabs_mult. rewrite Rmult_plus_distr_l. apply Rplus_le_compat; [|exact IH].
    rewrite Rmult_comm. apply Rmult_le_compat_r; [apply Rabs_pos|exact M].
Qed.
(* the true integral of the polynomial *)
Fixpoint prim (cs : list R) (k : nat) (u : R) : R := match cs with [] => 0 | c :: t => c * (u ^ (S k) / INR (S k)) + prim t (S k) u end.
Lemma prim_ends : forall cs k, prim cs k 1 - prim cs k (-1) = exact cs k.
Proof. induction cs as [|c t IH]; intros k; cbn [prim exact]; [ring|]. rewrite <- IH. unfold mu. rewrite pow1. unfold Rdiv. ring. Qed.
Lemma prim_derive (c0 h : R) : h <> 0 -> forall cs k (x : R), is_derive (fun x : R => h * prim cs k ((x - c0) / h)) x (powsum cs k ((x - c0) / h)).
Proof.
  intros Hh. induction cs as [|c t IH]; intros k x; cbn [prim powsum].
  - apply (is_derive_ext (fun _ : R => 0)); [intros; req; ring|]. apply dconst.
  - apply (is_derive_ext (fun x : R => h * (c * (((x - c0) / h) ^ (S k) / INR (S k))) + h * prim t (S k) ((x - c0) / h))); [intros; req; ring|].
    apply dplus; [|apply IH]. assert (HI : INR (S k) <> 0) by (apply not_0_INR; lia).
    apply (is_derive_ext (fun x : R => (h * c / INR (S k)) * (((x - c0) / h) ^ (S k)))); [intros; req; field; repeat split; assumption|].
    assert (D : is_derive (fun x : R => ((x - c0) / h) ^ (S k)) x (INR (S k) * (1 / h) * ((x - c0) / h) ^ k)).
    { apply (is_derive_pow (fun x : R => (x - c0) / h) (S k) x (1 / h)). auto_derive; [exact I|]. field. exact Hh. }
    pose proof (dmul (fun _ => h * c / INR (S k)) _ x 0 _ (dconst _ x) D) as E. cbv beta in E.
    replace (c * ((x - c0) / h) ^ k) with (0 * ((x - c0) / h) ^ S k + h * c / INR (S k) * (INR (S k) * (1 / h) * ((x - c0) / h) ^ k)); [exact E|]. field. repeat split; assumption.
Qed.
Lemma powsum_cont (c0 h : R) cs : forall k (x : R), continuous (fun x : R => powsum cs k ((x - c0) / h)) x.
Proof.
  induction cs as [|c t IH]; intros k x; cbn [powsum]; [apply continuous_const|].
  apply (continuous_plus (V := R_NormedModule)); [|apply IH]. apply (ex_derive_continuous (V := R_NormedModule)).
  apply (ex_derive_mult (fun _ => c)); [apply ex_derive_const|]. apply (ex_derive_pow (fun x : R => (x - c0) / h)). 
  apply (ex_derive_ext (fun x : R => (x - c0) * / h)); [reflexivity|]. apply (ex_derive_mult (fun x : R => x - c0) (fun _ => / h)); [|apply ex_derive_const]. auto_derive. exact I.
Qed.
(** A polynomial of degree at most 23, written about the middle of the interval in units of its half width. *)
Definition scaled (a b : R) (cs : list R) (x : R) : R := poly cs ((x - (a + b) / 2) / ((b - a) / 2)).
Theorem gk15_poly a b cs : a < b -> (length cs <= 24)%nat ->
  ex_RInt (scaled a b cs) a b /\ Rabs (fst (gk15 (scaled a b cs) a b) - RInt (scaled a b cs) a b) <= (b - a) * l1 cs * tiny.
Proof.
  intros Hab HL. set (c0 := (a + b) / 2). set (h := (b - a) / 2). assert (Hh : h <> 0) by (unfold h; lra).
  assert (I : is_RInt (scaled a b cs) a b (h * exact cs 0)).
  { replace (h * exact cs 0) with (minus (h * prim cs 0 ((b - c0) / h)) (h * prim cs 0 ((a - c0) / h))).
    - apply (is_RInt_derive (fun x => h * prim cs 0 ((x - c0) / h))).
      + intros x _. apply (prim_derive c0 h Hh cs 0 x).
      + intros x _. apply (powsum_cont c0 h cs 0 x).
    - unfold minus, plus, opp. cbn. replace ((b - c0) / h) with 1 by (unfold c0, h; field; lra). replace ((a - c0) / h) with (-1) by (unfold c0, h; field; lra). rewrite <- (prim_ends cs 0). ring. }
  split; [eexists; exact I|]. rewrite (is_RInt_unique _ _ _ _ I). rewrite gk15_value.
  assert (E : G (fun u => scaled a b cs (1/2 * (a + b) + 1/2 * (b - a) * u)) = G (powsum cs 0)).
  { assert (P : forall u, scaled a b cs (1/2 * (a + b) + 1/2 * (b - a) * u) = powsum cs 0 u). { intros u. unfold scaled, poly. f_equal. field. lra. }
    unfold G. cbn [sum_n]. rewrite !P. reflexivity. }
  rewrite E. replace (1/2 * (b - a)) with h by (unfold h; field).
  replace (h * G (powsum cs 0) - h * exact cs 0) with (h * (G (powsum cs 0) - exact cs 0)) by ring. rewrite Rabs_mult, (Rabs_pos_eq h) by (unfold h; lra).
  assert (B := G_poly cs 0 ltac:(lia)). assert (L : 0 <= l1 cs). { clear. induction cs as [|c t IH]; cbn; [lra|]. assert (Q := Rabs_pos c). lra. }
  assert (T : 0 < tiny) by (unfold tiny; apply Rdiv_lt_0_compat; [lra|apply pow_lt; lra]).
  apply Rle_trans with (h * (tiny * l1 cs)); [apply Rmult_le_compat_l; [unfold h; lra|exact B]|].
  replace ((b - a) * l1 cs * tiny) with ((b - a) * (tiny * l1 cs)) by ring. apply Rmult_le_compat_r; [apply Rmult_le_pos; lra|unfold h; lra].
Qed.
