(** Proofs about the terms of the power expansion: orders in the amplitude of the linear spectrum. *)
From Coq Require Import Reals Lra Bool.
From Verif Require Import M_Terms S_Terms.
Local Open Scope R_scope.

(** t n = n a + O(n^2) *)
Definition O1 (t : R -> R) (a : R) : Prop := exists M d, 0 <= M /\ 0 < d <= 1 /\ forall n, 0 < n < d -> Rabs (t n - n * a) <= M * n ^ 2.
(** t n = a + O(n) *)
Definition O0 (t : R -> R) (a : R) : Prop := exists M d, 0 <= M /\ 0 < d <= 1 /\ forall n, 0 < n < d -> Rabs (t n - a) <= M * n.

Lemma O1_ext t t' a : (forall n, 0 < n -> t n = t' n) -> O1 t a -> O1 t' a.
Proof. intros H (M & d & HM & Hd & B). exists M, d. repeat split; try tauto. intros n Hn. rewrite <- H by tauto. auto. Qed.
Lemma O1_val t a a' : a = a' -> O1 t a -> O1 t a'. Proof. intros ->; auto. Qed.
Lemma O1_norm : O1 (fun n => n) 1.
Proof. exists 0, 1. split; [lra|]. split; [lra|]. intros n Hn. replace (n - n * 1) with 0 by ring. rewrite Rabs_R0. lra. Qed.
Lemma O1_sq c : O1 (fun n => n ^ 2 * c) 0.
Proof. exists (Rabs c), 1. split; [apply Rabs_pos|]. split; [lra|]. intros n Hn. replace (n ^ 2 * c - n * 0) with (c * n ^ 2) by ring. rewrite Rabs_mult, (Rabs_pos_eq (n ^ 2)) by (apply pow_le; lra). lra. Qed.
Lemma O1_add s t a b : O1 s a -> O1 t b -> O1 (fun n => s n + t n) (a + b).
Proof.
  intros (M & d & HM & Hd & B) (M' & d' & HM' & Hd' & B'). exists (M + M'), (Rmin d d').
  split; [lra|]. split; [split; [apply Rmin_glb_lt; lra | pose proof (Rmin_l d d'); lra]|].
  intros n Hn. pose proof (Rmin_l d d'). pose proof (Rmin_r d d').
  replace (s n + t n - n * (a + b)) with ((s n - n * a) + (t n - n * b)) by ring.
  eapply Rle_trans; [apply Rabs_triang|]. assert (E1 := B n ltac:(lra)). assert (E2 := B' n ltac:(lra)). lra.
Qed.
Lemma O1_scal c t a : O1 t a -> O1 (fun n => c * t n) (c * a).
Proof.
  intros (M & d & HM & Hd & B). exists (Rabs c * M), d. split; [apply Rmult_le_pos; [apply Rabs_pos | lra]|]. split; [lra|].
  intros n Hn. replace (c * t n - n * (c * a)) with (c * (t n - n * a)) by ring. rewrite Rabs_mult, Rmult_assoc.
  apply Rmult_le_compat_l; [apply Rabs_pos | auto].
Qed.
Lemma O1_scalr c t a : O1 t a -> O1 (fun n => t n * c) (a * c).
Proof. intros H. eapply O1_val; [apply Rmult_comm|]. eapply O1_ext; [|apply (O1_scal c _ _ H)]. intros; simpl; ring. Qed.
Lemma O1_opp t a : O1 t a -> O1 (fun n => - t n) (- a).
Proof. intros H. eapply O1_val; [|eapply O1_ext; [|apply (O1_scal (-1) _ _ H)]]; [ring | intros; simpl; ring]. Qed.
Lemma O1_sub s t a b : O1 s a -> O1 t b -> O1 (fun n => s n - t n) (a - b).
Proof. intros H H'. apply (O1_add _ _ _ _ H (O1_opp _ _ H')). Qed.
Lemma O1_bound t a : O1 t a -> exists M d, 0 <= M /\ 0 < d <= 1 /\ forall n, 0 < n < d -> Rabs (t n) <= M * n.
Proof.
  intros (M & d & HM & Hd & B). exists (M + Rabs a), d. split; [pose proof (Rabs_pos a); lra|]. split; [lra|]. intros n Hn.
  replace (t n) with ((t n - n * a) + n * a) by ring. eapply Rle_trans; [apply Rabs_triang|]. rewrite Rabs_mult, (Rabs_pos_eq n) by lra.
  specialize (B n Hn). assert (M * n ^ 2 <= M * n). { apply Rmult_le_compat_l; [lra|]. simpl. rewrite Rmult_1_r. rewrite <- (Rmult_1_r n) at 3. apply Rmult_le_compat_l; lra. }
  lra.
Qed.
Lemma O1_mul s t a b : O1 s a -> O1 t b -> O1 (fun n => s n * t n) 0.
Proof.
  intros Hs Ht. destruct (O1_bound _ _ Hs) as (M & d & HM & Hd & B), (O1_bound _ _ Ht) as (M' & d' & HM' & Hd' & B').
  exists (M * M'), (Rmin d d'). split; [apply Rmult_le_pos; lra|]. split; [split; [apply Rmin_glb_lt; lra | pose proof (Rmin_l d d'); lra]|].
  intros n Hn. pose proof (Rmin_l d d'). pose proof (Rmin_r d d'). replace (s n * t n - n * 0) with (s n * t n) by ring. rewrite Rabs_mult.
  replace (M * M' * n ^ 2) with ((M * n) * (M' * n)) by ring.
  apply Rmult_le_compat; [apply Rabs_pos | apply Rabs_pos | apply B; lra | apply B'; lra].
Qed.
Lemma O1_0 : O1 (fun _ => 0) 0.
Proof. exists 0, 1. split; [lra|]. split; [lra|]. intros n _. replace (0 - n * 0) with 0 by ring. rewrite Rabs_R0. lra. Qed.
Lemma O1_const0 c : c = 0 -> O1 (fun _ => c) 0. Proof. intros ->. apply O1_0. Qed.
Lemma O1_pow2 t a : O1 t a -> O1 (fun n => t n ^ 2) 0.
Proof. intros H. eapply O1_ext; [|apply (O1_mul _ _ _ _ H H)]. intros; simpl; ring. Qed.
Lemma O1_O0 t a : O1 t a -> O0 (fun n => t n / n) a.
Proof.
  intros (M & d & HM & Hd & B). exists M, d. split; [lra|]. split; [lra|]. intros n Hn.
  replace (t n / n - a) with ((t n - n * a) / n) by (field; lra). unfold Rdiv. rewrite Rabs_mult, Rabs_inv, (Rabs_pos_eq n) by lra.
  apply Rmult_le_reg_r with n; [lra|]. rewrite Rmult_assoc, Rinv_l by lra. rewrite Rmult_1_r. eapply Rle_trans; [apply B, Hn|]. right. ring.
Qed.
Lemma O0_lim t a : O0 t a -> forall e, 0 < e -> exists d, 0 < d /\ forall n, 0 < n < d -> Rabs (t n - a) < e.
Proof.
  intros (M & d & HM & Hd & B) e He. exists (Rmin d (e / (M + 1))). split; [apply Rmin_glb_lt; [lra | apply Rdiv_lt_0_compat; lra]|].
  intros n Hn. pose proof (Rmin_l d (e / (M + 1))). pose proof (Rmin_r d (e / (M + 1))). eapply Rle_lt_trans; [apply B; lra|].
  assert (n * (M + 1) < e). { apply Rmult_lt_reg_r with (/ (M + 1)); [apply Rinv_0_lt_compat; lra|]. rewrite Rmult_assoc, Rinv_r, Rmult_1_r by lra. unfold Rdiv in *. lra. }
  lra.
Qed.
(** quotients of order one quantities *)
Lemma O0_bound t a : O0 t a -> exists M d, 0 <= M /\ 0 < d <= 1 /\ forall n, 0 < n < d -> Rabs (t n) <= M.
Proof.
  intros (M & d & HM & Hd & B). exists (M + Rabs a), d. split; [pose proof (Rabs_pos a); lra|]. split; [lra|]. intros n Hn.
  replace (t n) with ((t n - a) + a) by ring. eapply Rle_trans; [apply Rabs_triang|]. specialize (B n Hn). assert (M * n <= M * 1) by (apply Rmult_le_compat_l; lra). lra.
Qed.
Lemma O0_mul s t a b : O0 s a -> O0 t b -> O0 (fun n => s n * t n) (a * b).
Proof.
  intros Hs Ht. destruct (O0_bound _ _ Hs) as (Ks & ds & HKs & Hds & Bs). destruct Hs as (M & d & HM & Hd & B), Ht as (M' & d' & HM' & Hd' & B').
  exists (Ks * M' + M * Rabs b), (Rmin ds (Rmin d d')).
  pose proof (Rmin_l ds (Rmin d d')). pose proof (Rmin_r ds (Rmin d d')). pose proof (Rmin_l d d'). pose proof (Rmin_r d d').
  split. { assert (0 <= Ks * M') by (apply Rmult_le_pos; lra). assert (0 <= M * Rabs b) by (apply Rmult_le_pos; [lra | apply Rabs_pos]). lra. }
  split. { split; [repeat apply Rmin_glb_lt; lra | lra]. }
  intros n Hn. replace (s n * t n - a * b) with (s n * (t n - b) + (s n - a) * b) by ring. eapply Rle_trans; [apply Rabs_triang|]. rewrite !Rabs_mult.
  assert (E1 : Rabs (s n) * Rabs (t n - b) <= Ks * (M' * n)) by (apply Rmult_le_compat; [apply Rabs_pos | apply Rabs_pos | apply Bs; lra | apply B'; lra]).
  assert (E2 : Rabs (s n - a) * Rabs b <= (M * n) * Rabs b) by (apply Rmult_le_compat_r; [apply Rabs_pos | apply B; lra]).
  lra.
Qed.
Lemma O0_inv t a : a <> 0 -> O0 t a -> O0 (fun n => / t n) (/ a).
Proof.
  intros Ha (M & d & HM & Hd & B). assert (Pa : 0 < Rabs a) by (apply Rabs_pos_lt; auto).
  set (d' := Rmin d (Rabs a / (2 * (M + 1)))).
  assert (Hd' : 0 < d') by (apply Rmin_glb_lt; [lra | apply Rdiv_lt_0_compat; lra]).
  exists (M * (2 / (Rabs a * Rabs a))), d'. split. { apply Rmult_le_pos; [lra|]. apply Rlt_le, Rdiv_lt_0_compat; [lra | apply Rmult_lt_0_compat; lra]. }
  pose proof (Rmin_l d (Rabs a / (2 * (M + 1)))) as L1. pose proof (Rmin_r d (Rabs a / (2 * (M + 1)))) as L2. fold d' in L1, L2.
  split; [lra|]. intros n Hn. specialize (B n ltac:(lra)).
  assert (Hs : M * n <= Rabs a / 2).
  { assert (n * (2 * (M + 1)) <= Rabs a).
    { apply Rmult_le_reg_r with (/ (2 * (M + 1))); [apply Rinv_0_lt_compat; lra|]. rewrite Rmult_assoc, Rinv_r, Rmult_1_r by lra. unfold Rdiv in *. lra. }
    lra. }
  assert (Lo : Rabs a / 2 <= Rabs (t n)).
  { pose proof (Rabs_triang (t n) (a - t n)) as T. replace (t n + (a - t n)) with a in T by ring. rewrite (Rabs_minus_sym a (t n)) in T. lra. }
  assert (Ht : t n <> 0) by (intros Z; rewrite Z, Rabs_R0 in Lo; lra).
  replace (/ t n - / a) with ((a - t n) * (/ t n * / a)) by (field; auto). rewrite !Rabs_mult, !Rabs_inv, (Rabs_minus_sym a).
  replace (M * (2 / (Rabs a * Rabs a)) * n) with ((M * n) * (/ (Rabs a / 2) * / Rabs a)) by (field; lra).
  apply Rmult_le_compat; [apply Rabs_pos | apply Rmult_le_pos; apply Rlt_le, Rinv_0_lt_compat; lra | auto |].
  apply Rmult_le_compat_r; [apply Rlt_le, Rinv_0_lt_compat; lra|]. apply Rinv_le_contravar; lra.
Qed.
Lemma O0_O1 t a : O0 (fun n => t n / n) a -> O1 t a.
Proof.
  intros (M & d & HM & Hd & B). exists M, d. split; [lra|]. split; [lra|]. intros n Hn. specialize (B n Hn).
  replace (t n - n * a) with ((t n / n - a) * n) by (field; lra). rewrite Rabs_mult, (Rabs_pos_eq n) by lra.
  replace (M * n ^ 2) with (M * n * n) by ring. apply Rmult_le_compat_r; lra.
Qed.
(** (p/r)(q/r) r with p, q, r of first order *)
Lemma O1_ratio p q r a b c : c <> 0 -> O1 p (a * c) -> O1 q (b * c) -> O1 r c -> O1 (fun n => (p n / r n) * (q n / r n) * r n) (a * b * c).
Proof.
  intros Hc Hp Hq Hr. pose proof (O1_O0 _ _ Hp) as Op. pose proof (O1_O0 _ _ Hq) as Oq. pose proof (O1_O0 _ _ Hr) as Or. pose proof (O0_inv _ _ Hc Or) as Oi.
  apply O0_O1. pose proof (O0_mul _ _ _ _ (O0_mul _ _ _ _ Op Oq) Oi) as H.
  destruct H as (M & d & HM & Hd & B). destruct Or as (M' & d' & HM' & Hd' & B').
  assert (Pc : 0 < Rabs c) by (apply Rabs_pos_lt; auto).
  set (d'' := Rmin d (Rmin d' (Rabs c / (2 * (M' + 1))))).
  assert (0 < d'') by (repeat apply Rmin_glb_lt; try lra; apply Rdiv_lt_0_compat; lra).
  pose proof (Rmin_l d (Rmin d' (Rabs c / (2 * (M' + 1))))) as L1. pose proof (Rmin_r d (Rmin d' (Rabs c / (2 * (M' + 1))))) as L2. fold d'' in L1, L2.
  pose proof (Rmin_l d' (Rabs c / (2 * (M' + 1)))) as L3. pose proof (Rmin_r d' (Rabs c / (2 * (M' + 1)))) as L4.
  exists M, d''. split; [lra|]. split; [lra|]. intros n Hn. specialize (B n ltac:(lra)). specialize (B' n ltac:(lra)).
  assert (Hs : M' * n <= Rabs c / 2).
  { assert (n * (2 * (M' + 1)) <= Rabs c).
    { apply Rmult_le_reg_r with (/ (2 * (M' + 1))); [apply Rinv_0_lt_compat; lra|]. rewrite Rmult_assoc, Rinv_r, Rmult_1_r by lra. unfold Rdiv in *. lra. }
    lra. }
  assert (Hr0 : r n <> 0). { intros Z. rewrite Z in B'. unfold Rdiv in B'. rewrite Rmult_0_l, Rminus_0_l, Rabs_Ropp in B'. lra. }
  replace (p n / r n * (q n / r n) * r n / n) with (p n / n * (q n / n) * / (r n / n)) by (field; split; lra).
  replace (a * b * c) with (a * c * (b * c) * / c) by (field; auto). exact B.
Qed.
Lemma O1_P t P a : (forall n, P n = Some (t n)) -> O1 t a -> linear_limit P a.
Proof.
  intros HP H e He. destruct (O0_lim _ _ (O1_O0 _ _ H) e He) as (d & Hd & B). exists d. split; auto. intros n Hn. exists (t n). split; auto.
Qed.

(** * orders of the terms *)
Ltac red_at := cbn [at_norm k f norm plin Im Jm Km Lm pdd0 pdv0 pvv0 sigk0 kurt0 siglin0 two hz00 hz01 hz11 ld00 ld01 ld11a ld11b dvv vvv sigv sbv2 sv2 sbv4 hH].
Create HintDb ord.
Ltac ord1 :=
  match goal with
  | |- O1 (fun n => ?c) _ => apply O1_const0; ring
  | |- O1 (fun n => @?s n + @?t n) _ => eapply (O1_add s t)
  | |- O1 (fun n => @?s n - @?t n) _ => eapply (O1_sub s t)
  | |- O1 (fun n => - @?t n) _ => eapply (O1_opp t)
  | |- O1 (fun n => ?c * @?t n) _ => eapply (O1_scal c t)
  | |- O1 (fun n => @?t n * ?c) _ => eapply (O1_scalr c t)
  | |- O1 (fun n => n) _ => apply O1_norm
  | |- O1 (fun n => @?s n * @?t n) _ => eapply (O1_mul s t)
  | |- O1 (fun n => @?t n ^ 2) _ => eapply (O1_pow2 t)
  end.
Ltac ord := eapply O1_val; [| repeat (first [solve [eauto 2 with ord] | ord1]) ]; [try ring ..].

Section Orders.
Variable m : matter.
Hypothesis PS : pure_spt m.
Local Notation A := (at_norm m).
Lemma o_Plin : O1 (fun n => Plin (A n)) (plin m). Proof. unfold Plin; red_at. ord. Qed.
Lemma o_J a b : O1 (fun n => J (A n) a b) (Jm m a b). Proof. unfold J; red_at. ord. Qed.
Lemma o_I a b : O1 (fun n => I (A n) a b) 0. Proof. apply (O1_sq (Im m a b)). Qed.
Lemma o_K a : O1 (fun n => K (A n) a) 0. Proof. apply (O1_sq (Km m a)). Qed.
Lemma o_L a : O1 (fun n => L (A n) a) 0.
Proof.
  unfold L; red_at. destruct (Lm m a) as ((x & y) & z).
  apply O1_ext with (fun n => n ^ 2 * x + (n ^ 2 * y) * n + (n ^ 2 * z) * n ^ 2); [intros; ring|].
  eapply O1_val; [| apply O1_add; [apply O1_add; [apply O1_sq | eapply O1_mul; [apply O1_sq | apply O1_norm]] | eapply O1_mul; [apply O1_sq | eapply O1_pow2, O1_norm]]]; ring.
Qed.
Lemma o_sk : O1 (fun n => sigmasq_k (A n)) (sigk0 m). Proof. unfold sigmasq_k; red_at. ord. Qed.
Lemma o_ku : O1 (fun n => kurtosis (A n)) 0. Proof. apply (O1_sq (kurt0 m)). Qed.
Lemma o_sv : O1 (fun n => sigma_v (A n) ^ 2) (siglin0 m ^ 2).
Proof.
  destruct PS as (_ & _ & _ & _ & _ & _ & _ & _ & _ & E & _). unfold sigma_v; red_at. rewrite E.
  apply O1_ext with (fun n => n * siglin0 m ^ 2).
  - intros n Hn. rewrite Rpow_mult_distr. f_equal. simpl. rewrite Rmult_1_r. symmetry. apply sqrt_sqrt. lra.
  - ord.
Qed.
Hint Resolve o_Plin o_J o_I o_K o_L o_sk o_ku o_sv : ord.
Lemma o_Pdd : O1 (fun n => Pdd (A n)) (plin m).
Proof.
  unfold Pdd; red_at. apply O1_ext with (fun n => n * plin m + n ^ 2 * pdd0 m); [intros; ring|]. ord.
Qed.
Lemma o_Pdv : O1 (fun n => Pdv (A n)) (- f m * plin m).
Proof.
  destruct PS as (_ & _ & _ & _ & _ & _ & _ & E & _). unfold Pdv; red_at. rewrite E. apply O1_ext with (fun n => - f m * (n * plin m + n ^ 2 * pdv0 m)); [intros; ring|]. ord.
Qed.
Lemma o_Pvv : O1 (fun n => Pvv (A n)) (f m ^ 2 * plin m).
Proof.
  destruct PS as (_ & _ & _ & _ & _ & _ & _ & _ & E & _). unfold Pvv; red_at. rewrite E. apply O1_ext with (fun n => f m ^ 2 * (n * plin m + n ^ 2 * pvv0 m)); [intros; ring|]. ord.
Qed.
Lemma o_P00 : O1 (fun n => P00 (A n)) (plin m).
Proof. destruct PS as (E1 & _ & _ & E2 & _). unfold P00; red_at. rewrite E1, E2. ord. Qed.
Lemma o_P01 : O1 (fun n => P01 (A n)) (2 * f m * plin m).
Proof. destruct PS as (_ & E1 & _ & _ & E2 & _). unfold P01; red_at. rewrite E1, E2. ord. Qed.
Lemma o_P11v : O1 (fun n => P11_vec (A n)) 0.
Proof. destruct PS as (_ & _ & _ & _ & _ & E & _). unfold P11_vec; red_at. rewrite E. destruct (two m); ord. Qed.
Hint Resolve o_Pdd o_Pdv o_Pvv o_P00 o_P01 o_P11v : ord.
Lemma o_P112 : O1 (fun n => P11_2 (A n)) 0. Proof. apply o_P11v. Qed.
Lemma o_P114 : O1 (fun n => P11_4 (A n)) (f m ^ 2 * plin m).
Proof.
  destruct PS as (_ & _ & E1 & _ & _ & _ & E2 & _). unfold P11_4; red_at. rewrite E1, E2. unfold P11_scal; cbv zeta; red_at. destruct (two m); ord.
Qed.
Lemma o_sigsq s : s = 0 -> O1 (fun n => sigsq (A n) s) (siglin0 m ^ 2).
Proof.
  intros ->. unfold sigsq; red_at. apply O1_ext with (fun n => sigma_v (A n) ^ 2); [intros; unfold Rdiv; ring|]. auto with ord.
Qed.
Lemma o_s1 : O1 (fun n => sigsq (A n) (sbv2 m)) (siglin0 m ^ 2). Proof. apply o_sigsq, PS. Qed.
Lemma o_s2 : O1 (fun n => sigsq (A n) (sv2 m)) (siglin0 m ^ 2). Proof. apply o_sigsq, PS. Qed.
Lemma o_s3 : O1 (fun n => sigsq (A n) (sbv4 m)) (siglin0 m ^ 2). Proof. apply o_sigsq, PS. Qed.
Hint Resolve o_P112 o_P114 o_s1 o_s2 o_s3 : ord.
Lemma o_P02n : O1 (fun n => P02_2n (A n)) 0. Proof. unfold P02_2n; red_at. ord. Qed.
Lemma o_P02v : O1 (fun n => P02_2v (A n)) 0. Proof. unfold P02_2v; red_at. destruct (two m); ord. Qed.
Hint Resolve o_P02n o_P02v : ord.
Lemma o_P022 : O1 (fun n => P02_2 (A n)) 0. Proof. unfold P02_2; red_at. ord. Qed.
Lemma o_P024 : O1 (fun n => P02_4 (A n)) 0. Proof. unfold P02_4; red_at. ord. Qed.
Lemma o_P12n : O1 (fun n => P12_4n (A n)) 0. Proof. unfold P12_4n; red_at. ord. Qed.
Lemma o_P12v : O1 (fun n => P12_4v (A n)) 0. Proof. unfold P12_4v; red_at. destruct (two m); ord. Qed.
Hint Resolve o_P022 o_P024 o_P12n o_P12v : ord.
Lemma o_P124 : O1 (fun n => P12_4 (A n)) 0. Proof. unfold P12_4; red_at. ord. Qed.
Lemma o_P126 : O1 (fun n => P12_6 (A n)) 0. Proof. unfold P12_6; red_at. ord. Qed.
Lemma o_P22n : O1 (fun n => P22_4n (A n)) 0. Proof. unfold P22_4n; red_at. destruct (two m); ord. Qed.
Lemma o_P22n6 : O1 (fun n => P22_6n (A n)) 0. Proof. unfold P22_6n; red_at. destruct (two m); ord. Qed.
Hint Resolve o_P124 o_P126 o_P22n o_P22n6 : ord.
Lemma o_P224 : O1 (fun n => P22_4 (A n)) 0. Proof. unfold P22_4; red_at. destruct (two m); ord. Qed.
Lemma o_P226 : O1 (fun n => P22_6 (A n)) 0. Proof. unfold P22_6; red_at. destruct (two m); ord. Qed.
Lemma o_P034 : O1 (fun n => P03_4 (A n)) 0. Proof. unfold P03_4; red_at. destruct (two m); ord. Qed.
Lemma o_P134 : O1 (fun n => P13_4 (A n)) 0. Proof. unfold P13_4; red_at. destruct (two m); ord. Qed.
Lemma o_P044 : O1 (fun n => P04_4 (A n)) 0. Proof. unfold P04_4; red_at. destruct (two m); ord. Qed.
Lemma o_P046 : O1 (fun n => P04_6 (A n)) 0. Proof. unfold P04_6; red_at. destruct (two m); ord. Qed.
Hint Resolve o_P224 o_P226 o_P034 o_P134 o_P044 o_P046 : ord.
Lemma o_d0 : O1 (fun n => dm_mu0 (A n)) (plin m). Proof. apply o_P00. Qed.
Lemma o_d2 : O1 (fun n => dm_mu2 (A n)) (2 * f m * plin m). Proof. unfold dm_mu2; red_at. ord. Qed.
Lemma o_d4 : O1 (fun n => dm_mu4 (A n)) (f m ^ 2 * plin m). Proof. unfold dm_mu4; cbv zeta; red_at. destruct (two m); ord. Qed.
Lemma o_d6 : two m = true -> exists g, (forall n, dm_mu6 (A n) = Some (g n)) /\ O1 g 0.
Proof.
  intros T. unfold dm_mu6, P13_6; red_at. rewrite T. exists (fun n => P12_6 (A n) + P22_6 (A n) + - (f m * k m) ^ 2 * sigsq (A n) (sv2 m) * P11_4 (A n) + P04_6 (A n)).
  split; [reflexivity|]. ord.
Qed.
Hint Resolve o_d0 o_d2 o_d4 : ord.

Variable t : tracers.
Hypothesis NS : no_sims t.
Lemma o_st : O1 (fun n => stochasticity t) 0.
Proof. apply O1_const0. unfold stochasticity. destruct NS as (_ & _ & _ & _ & E1 & E2). destruct (Req_EM_T _ _); auto. Qed.
Lemma o_Phm b c : O1 (fun n => Phm (A n) t b c) (b * plin m).
Proof. destruct NS as (E & _). unfold Phm; red_at. rewrite E. ord. Qed.
Lemma o_Phh b2 : O1 (fun n => Phh (A n) t b2) (ib1 t * ib1b t * plin m). Proof. unfold Phh; red_at. ord. Qed.
Lemma o_s2h : O1 (fun n => s2 (A n) t) (siglin0 m ^ 2).
Proof. destruct NS as (_ & E & _). unfold s2, sigh; red_at. rewrite E. auto with ord. Qed.
Lemma o_s2bh : O1 (fun n => s2b (A n) t) (siglin0 m ^ 2).
Proof. destruct NS as (_ & E & _). unfold s2b, sigh; red_at. rewrite E. auto with ord. Qed.
Hint Resolve o_st o_Phm o_Phh o_s2h o_s2bh : ord.
Lemma o_H00 : plin m <> 0 -> O1 (fun n => H00 (A n) t) (ib1 t * ib1b t * plin m).
Proof.
  intros Z. unfold H00. eapply O1_val; [|apply O1_add; [|apply o_st]]; [apply Rplus_0_r|].
  exact (O1_ratio _ _ _ _ _ _ Z (o_Phm (ib1 t) (bs t)) (o_Phm (ib1b t) (bsb t)) o_P00).
Qed.
Lemma o_H01 b2 : O1 (fun n => H01 (A n) t b2) (f m * (ib1 t + ib1b t) * plin m). Proof. unfold H01; red_at. ord. Qed.
Hint Resolve o_H01 : ord.
Lemma o_H112 : O1 (fun n => H11_2 (A n) t) 0. Proof. unfold H11_2; red_at. ord. Qed.
Lemma o_H114 : O1 (fun n => H11_4 (A n) t) (f m ^ 2 * plin m). Proof. unfold H11_4; red_at. ord. field. Qed.
Lemma o_H022 : O1 (fun n => H02_2 (A n) t) 0. Proof. unfold H02_2; red_at. ord. Qed.
Lemma o_H024 : O1 (fun n => H02_4 (A n) t) 0. Proof. unfold H02_4; red_at. ord. Qed.
Lemma o_H124 : O1 (fun n => H12_4 (A n) t) 0. Proof. unfold H12_4; red_at. ord. Qed.
Lemma o_H126 : O1 (fun n => H12_6 (A n) t) 0. Proof. unfold H12_6; red_at. ord. Qed.
Lemma o_H224 : O1 (fun n => H22_4 (A n) t) 0. Proof. unfold H22_4; red_at. ord. Qed.
Lemma o_H034 : O1 (fun n => H03_4 (A n) t) 0. Proof. unfold H03_4; red_at. ord. Qed.
Hint Resolve o_H112 o_H114 o_H022 o_H024 o_H124 o_H126 o_H224 o_H034 : ord.
Lemma o_H134 : O1 (fun n => H13_4 (A n) t) 0. Proof. unfold H13_4; red_at. ord. Qed.
Lemma o_H044 : O1 (fun n => H04_4 (A n) t) 0. Proof. unfold H04_4; red_at. ord. Qed.
Hint Resolve o_H134 o_H044 : ord.
Lemma o_b0 : plin m <> 0 -> O1 (fun n => bi_mu0 (A n) t) (ib1 t * ib1b t * plin m). Proof. apply o_H00. Qed.
Lemma o_b2 : O1 (fun n => bi_mu2 (A n) t) (f m * (ib1 t + ib1b t) * plin m).
Proof. destruct NS as (_ & _ & E & _). unfold bi_mu2, correction. rewrite E. ord. Qed.
Lemma o_b4 : O1 (fun n => bi_mu4 (A n) t) (f m ^ 2 * plin m).
Proof. destruct NS as (_ & _ & _ & E & _). unfold bi_mu4, correction. rewrite E. ord. Qed.
Lemma o_b6 : O1 (fun n => bi_mu6 (A n) t) 0. Proof. unfold bi_mu6; red_at. ord. Qed.
End Orders.
