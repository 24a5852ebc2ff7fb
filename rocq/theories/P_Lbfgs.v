(** * The two-loop recursion *)
From Coq Require Import Reals List Arith ZArith Lia Lra Bool Psatz.
Import ListNotations.
From Verif Require Import M_Lbfgs S_Lbfgs.
Set Implicit Arguments.
Local Open Scope R_scope.

(** ** sums *)
Lemma sum_ext : forall n f g, (forall i, (i < n)%nat -> f i = g i) -> sum n f = sum n g.
Proof. induction n; simpl; intros; auto. rewrite (IHn f g), H; auto. Qed.
Lemma sum_plus : forall n f g, sum n (fun i => f i + g i) = sum n f + sum n g.
Proof. induction n; simpl; intros; [lra|]. rewrite IHn. lra. Qed.
Lemma sum_scal : forall n c f, sum n (fun i => c * f i) = c * sum n f.
Proof. induction n; simpl; intros; [lra|]. rewrite IHn. lra. Qed.
Lemma sum_scal_r : forall n c f, sum n (fun i => f i * c) = sum n f * c.
Proof. induction n; simpl; intros; [lra|]. rewrite IHn. lra. Qed.
Lemma sum_0 : forall n f, (forall i, (i < n)%nat -> f i = 0) -> sum n f = 0.
Proof. induction n; simpl; intros; auto. rewrite IHn, H; auto. lra. Qed.
Lemma sum_swap : forall n m f, sum n (fun i => sum m (fun j => f i j)) = sum m (fun j => sum n (fun i => f i j)).
Proof.
  induction n; simpl; intros; [symmetry; apply sum_0; auto|]. rewrite IHn, <- sum_plus. auto.
Qed.
Lemma sum_delta : forall n i f, (i < n)%nat -> sum n (fun j => delta i j * f j) = f i.
Proof.
  induction n; simpl; intros; [lia|]. unfold delta at 2. destruct (Nat.eqb_spec i n).
  - subst. rewrite sum_0; [lra|]. intros j Hj. unfold delta. rewrite (proj2 (Nat.eqb_neq n j)) by lia. lra.
  - rewrite IHn by lia. lra.
Qed.
Lemma delta_sym : forall i j, delta i j = delta j i.
Proof. intros. unfold delta. rewrite Nat.eqb_sym. auto. Qed.
Lemma sum_S : forall n f, sum (S n) f = f O + sum n (fun i => f (S i)).
Proof. induction n; intros; [simpl; lra|]. change (sum (S (S n)) f) with (sum (S n) f + f (S n)). rewrite IHn. simpl. lra. Qed.

(** ** vectors *)
Lemma len_map2 : forall h u v, length u = length v -> length (map2 h u v) = length u.
Proof. induction u; destruct v; simpl; intros; auto; try lia. Qed.
Lemma len_scale : forall c v, length (vscale c v) = length v.
Proof. intros. apply map_length. Qed.
Lemma e_map2 : forall h u v i, h 0 0 = 0 -> length u = length v -> e (map2 h u v) i = h (e u i) (e v i).
Proof. unfold e. induction u; destruct v; simpl; intros; try lia; destruct i; auto. Qed.
Lemma e_add : forall u v i, length u = length v -> e (vadd u v) i = e u i + e v i.
Proof. intros. apply e_map2; auto; lra. Qed.
Lemma e_sub : forall u v i, length u = length v -> e (vsub u v) i = e u i - e v i.
Proof. intros. apply e_map2; auto; lra. Qed.
Lemma e_scale : forall c v i, e (vscale c v) i = c * e v i.
Proof. intros. unfold e, vscale. replace 0 with (c * 0) at 1 by lra. apply map_nth. Qed.
Lemma dot_inner : forall N u v, length u = N -> length v = N -> dot u v = inner N u v.
Proof.
  unfold inner. induction N; destruct u, v; simpl length; intros; try lia; auto. rewrite sum_S. simpl dot. unfold e at 1 2. simpl nth.
  rewrite (IHN u v) by lia. auto.
Qed.
Lemma dot_pos : forall v, 0 <= dot v v.
Proof. induction v; simpl; [lra|nra]. Qed.
Lemma dot_zero : forall v, dot v v = 0 -> forall i, e v i = 0.
Proof.
  unfold e. induction v; simpl; intros H i; [destruct i; auto|]. pose proof (dot_pos v). assert (a = 0) by nra. destruct i; auto. apply IHv. subst; lra.
Qed.
Lemma norm_sq : forall v, norm v * norm v = dot v v.
Proof. intros. apply sqrt_sqrt, dot_pos. Qed.
Lemma norm_zero : forall v, norm v = 0 <-> dot v v = 0.
Proof. intros. unfold norm. split; intros H; [apply sqrt_eq_0; auto; apply dot_pos|]. rewrite H. apply sqrt_0. Qed.
Lemma norm_nonneg : forall v, 0 <= norm v.
Proof. intros. apply sqrt_pos. Qed.
Lemma dot_comm : forall u v, dot u v = dot v u.
Proof. induction u; destruct v; simpl; auto. rewrite IHu. lra. Qed.
Lemma dot_scale_l : forall c u v, dot (vscale c u) v = c * dot u v.
Proof. induction u; destruct v; simpl; intros; try lra. fold (vscale c u). rewrite IHu. lra. Qed.
Lemma dot_scale_r : forall c u v, dot u (vscale c v) = c * dot u v.
Proof. intros. rewrite dot_comm, dot_scale_l, dot_comm. auto. Qed.
Lemma dot_sub_l : forall u v w, length u = length v -> dot (vsub u v) w = dot u w - dot v w.
Proof. induction u; destruct v, w; simpl; intros; try lia; try lra. rewrite IHu by lia. lra. Qed.
Lemma dot_add_l : forall u v w, length u = length v -> dot (vadd u v) w = dot u w + dot v w.
Proof. induction u; destruct v, w; simpl; intros; try lia; try lra. rewrite IHu by lia. lra. Qed.

(** ** nested form *)
Fixpoint nested (h0 c : R) (l : list pair) (q : vec) : vec :=
  match l with
  | [] => vscale c (vscale h0 q)
  | p :: l' =>
      let a := prho p * dot (ps p) q in
      let z := nested h0 c l' (vsub q (vscale a (py p))) in
      vadd z (vscale (a - prho p * dot (py p) z) (ps p))
  end.
Fixpoint zip3 (s y : list vec) (r : list R) : list pair := match s, y, r with a :: s', b :: y', c :: r' => mkPair a b c :: zip3 s' y' r' | _, _, _ => [] end.
Lemma loop2_shift : forall idx s y rho a z s0 y0 r0 a0, loop2 (map S idx) (s0 :: s) (y0 :: y) (r0 :: rho) (a0 :: a) z = loop2 idx s y rho a z.
Proof. induction idx; intros; cbn [map loop2 nth]; auto. Qed.
Lemma loop2_app : forall i j s y rho a z, loop2 (i ++ j) s y rho a z = loop2 j s y rho a (loop2 i s y rho a z).
Proof. induction i; intros; cbn [app loop2]; auto. Qed.
Lemma two_loop_nested : forall k s y rho q h0 c, (k <= length s)%nat -> (k <= length y)%nat -> (k <= length rho)%nat ->
  (let '(q', a) := loop1 k s y rho q in loop2 (rev (seq 0 k)) s y rho a (vscale c (vscale h0 q'))) = nested h0 c (zip3 (firstn k s) (firstn k y) (firstn k rho)) q.
Proof.
  induction k; intros s y rho q h0 c Hs Hy Hr; [reflexivity|].
  destruct s as [|s0 s], y as [|y0 y], rho as [|r0 rho]; simpl in Hs, Hy, Hr; try lia.
  cbn [loop1 firstn zip3 nested]. cbn [ps py prho].
  specialize (IHk s y rho (vsub q (vscale (r0 * dot s0 q) y0)) h0 c ltac:(lia) ltac:(lia) ltac:(lia)).
  destruct (loop1 k s y rho (vsub q (vscale (r0 * dot s0 q) y0))) as [q' a]. cbn [seq rev]. rewrite loop2_app. rewrite <- seq_shift, <- map_rev, loop2_shift, IHk. reflexivity.
Qed.
Definition wf_pair (N : nat) (p : pair) : Prop := length (ps p) = N /\ length (py p) = N.
Lemma nested_length : forall N h0 c l q, Forall (wf_pair N) l -> length q = N -> length (nested h0 c l q) = N.
Proof.
  intros N h0 c l q HF. revert q. induction HF as [|p l [Hp1 Hp2] HF]; intros q Hq; cbn [nested]; [rewrite !len_scale; auto|].
  unfold vadd. rewrite len_map2, IHHF; auto; unfold vsub; rewrite ?len_map2; rewrite ?len_scale; try congruence. rewrite IHHF; auto. rewrite len_map2; rewrite ?len_scale; congruence.
Qed.
(** V q and V^T z *)
Lemma V_vec : forall N p q l, wf_pair N p -> length q = N -> (l < N)%nat -> sum N (fun j => Vmat p l j * e q j) = e (vsub q (vscale (prho p * dot (ps p) q) (py p))) l.
Proof.
  intros N p q l [H1 H2] Hq Hl. rewrite e_sub, e_scale by (rewrite len_scale; congruence). rewrite (@dot_inner N) by auto. unfold Vmat, inner.
  rewrite (@sum_ext N _ (fun j => delta l j * e q j + (- (prho p * e (py p) l)) * (e (ps p) j * e q j))) by (intros; ring).
  rewrite sum_plus, sum_delta, sum_scal by auto. ring.
Qed.
Lemma Vt_vec : forall N p (z : nat -> R) i, (i < N)%nat -> sum N (fun k => Vmat p k i * z k) = z i - prho p * sum N (fun k => e (py p) k * z k) * e (ps p) i.
Proof.
  intros N p z i Hi. unfold Vmat.
  rewrite (@sum_ext N _ (fun k => delta i k * z k + (- (prho p * e (ps p) i)) * (e (py p) k * z k))) by (intros; rewrite (delta_sym i); ring).
  rewrite sum_plus, sum_delta, sum_scal by auto. ring.
Qed.
Theorem nested_matrix : forall N h0 c l q i, Forall (wf_pair N) l -> length q = N -> (i < N)%nat -> e (nested h0 c l q) i = mat_vec N (Hmat N (c * h0) l) q i.
Proof.
  intros N h0 c l q i HF. revert q i. induction HF as [|p l Hp HF]; intros q i Hq Hi; cbn [nested Hmat].
  - unfold mat_vec. rewrite !e_scale. cbn [Hmat]. rewrite (@sum_ext N _ (fun j => (c * h0) * (delta i j * e q j))) by (intros; ring). rewrite sum_scal, sum_delta by auto. ring.
  - set (a := prho p * dot (ps p) q). set (q' := vsub q (vscale a (py p))). set (z := nested h0 c l q').
    assert (Lq : length q' = N) by (unfold q', vsub; destruct Hp; rewrite len_map2; rewrite ?len_scale; congruence).
    assert (Lz : length z = N) by (apply nested_length; auto).
    rewrite e_add by (rewrite len_scale; destruct Hp; congruence). rewrite e_scale.
    assert (K : forall k, (k < N)%nat -> e z k = sum N (fun b => Hmat N (c * h0) l k b * sum N (fun j => Vmat p b j * e q j))).
    { intros k Hk. unfold z. rewrite IHHF by auto. unfold mat_vec. apply sum_ext. intros b Hb. f_equal. symmetry. apply V_vec; auto. }
    unfold mat_vec. cbn [Hmat].
    rewrite (@sum_ext N _ (fun j => sum N (fun k => Vmat p k i * sum N (fun b => Hmat N (c * h0) l k b * (Vmat p b j * e q j))) + (prho p * e (ps p) i) * (e (ps p) j * e q j))).
    2:{ intros j Hj. rewrite Rmult_plus_distr_r. f_equal; [|ring]. rewrite <- sum_scal_r. apply sum_ext. intros k Hk. rewrite <- sum_scal_r, <- sum_scal. apply sum_ext. intros. ring. }
    rewrite sum_plus, sum_scal, sum_swap.
    rewrite (@sum_ext N (fun k => sum N (fun j => Vmat p k i * sum N (fun b => Hmat N (c * h0) l k b * (Vmat p b j * e q j)))) (fun k => Vmat p k i * e z k)).
    2:{ intros k Hk. rewrite sum_scal. f_equal. rewrite K by auto. rewrite sum_swap. apply sum_ext. intros b Hb. rewrite sum_scal. auto. }
    rewrite Vt_vec by auto. change (sum N (fun j => e (ps p) j * e q j)) with (inner N (ps p) q). change (sum N (fun k => e (py p) k * e z k)) with (inner N (py p) z).
    destruct Hp. rewrite <- !dot_inner by auto. unfold a. ring.
Qed.
(** ** positive definiteness *)
Lemma vsub_zero : forall q w, length w = length q -> vsub q (vscale 0 w) = q.
Proof. unfold vsub, vscale. induction q; destruct w; simpl; intros; try lia; auto. rewrite IHq by lia. f_equal. lra. Qed.
Lemma nested_pos : forall N h0 c l q, 0 < c * h0 -> Forall (wf_pair N) l -> Forall (fun p => 0 <= prho p) l -> length q = N -> dot q q <> 0 -> 0 < dot (nested h0 c l q) q.
Proof.
  intros N h0 c l q Hc HF. revert q. induction HF as [|p l Hp HF]; intros q HR Hq Hz; cbn [nested].
  - rewrite !dot_scale_l. pose proof (dot_pos q). nra.
  - inversion HR; subst. destruct Hp as [P1 P2].
    set (a := prho p * dot (ps p) q). set (q' := vsub q (vscale a (py p))). set (z := nested h0 c l q').
    assert (Lq : length q' = length q) by (unfold q', vsub; rewrite len_map2; rewrite ?len_scale; congruence).
    assert (Lz : length z = length q) by (apply nested_length; auto).
    rewrite dot_add_l by (rewrite len_scale; congruence). rewrite dot_scale_l.
    assert (E : dot z q' = dot z q - a * dot (py p) z).
    { unfold q'. rewrite (dot_comm z), dot_sub_l by (rewrite len_scale; congruence). rewrite dot_scale_l, (dot_comm q z). auto. }
    assert (T : dot z q + (a - prho p * dot (py p) z) * dot (ps p) q = dot z q' + prho p * (dot (ps p) q * dot (ps p) q)) by (rewrite E; unfold a; ring).
    rewrite T. destruct (Req_EM_T (dot (ps p) q) 0) as [Z|Z].
    + assert (q' = q).
      { unfold q', a. rewrite Z, Rmult_0_r. apply vsub_zero. auto. }
      rewrite Z. assert (0 < dot z q'). { unfold z. rewrite H. apply IHHF; auto. } lra.
    + destruct (Req_EM_T (dot q' q') 0) as [Z'|Z'].
      * assert (dot z q' = 0). { rewrite dot_comm, (@dot_inner (length q)) by auto. apply sum_0. intros. rewrite (dot_zero _ Z'). ring. }
        rewrite H. destruct (Req_EM_T (prho p) 0) as [R0|R0].
        -- exfalso. apply Hz. assert (q' = q).
           { unfold q', a. rewrite R0, Rmult_0_l. apply vsub_zero. auto. }
           congruence.
        -- assert (0 < prho p) by lra. rewrite Rplus_0_l. apply Rmult_lt_0_compat; auto. nra.
      * assert (0 < dot z q') by (apply IHHF; auto). assert (0 <= prho p * (dot (ps p) q * dot (ps p) q)) by (apply Rmult_le_pos; nra). lra.
Qed.
