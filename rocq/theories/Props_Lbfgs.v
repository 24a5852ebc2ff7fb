(** * C58, C59, C60: the L-BFGS minimiser *)
From Coq Require Import Reals List Arith ZArith Lia Lra Bool Psatz.
Import ListNotations.
From Verif Require Import M_Lbfgs S_Lbfgs P_Lbfgs P_Lbfgs2.
Set Implicit Arguments.
Local Open Scope R_scope.

(** The triple the code stores for an update (s, y): rho = 1/(y.s), or 1000 when y.s = 0. *)
Definition triple (p : vec * vec) : pair := mkPair (fst p) (snd p) (if Req_EM_T (dot (snd p) (fst p)) 0 then 1000 else 1 / dot (snd p) (fst p)).
Definition dims (N : nat) (l : list (vec * vec)) : Prop := Forall (fun p => length (fst p) = N /\ length (snd p) = N) l.

Lemma nth_error_firstn_lt : forall (A : Type) M i (l : list A), (i < M)%nat -> nth_error (firstn M l) i = nth_error l i.
Proof. induction M; intros i l H; [lia|]. destruct l, i; simpl; auto. apply IHM. lia. Qed.
(** ** C60 *)
(** After any sequence of successful updates (oldest first) from an empty memory, each of the three arrays
    holds the last M entries, newest first, followed by zeros. *)
Theorem C60_sliding_window : forall M N l H, updates (fresh M N) l = Some H ->
  ms H = firstn M (rev (map fst l) ++ repeat (zeros N) M) /\
  my H = firstn M (rev (map snd l) ++ repeat (zeros N) M) /\
  mrho H = firstn M (rev (map (fun p => prho (triple p)) l) ++ repeat 0 M).
Proof.
  intros M N l H U. apply updates_gen with (M := M) (Ls := repeat (zeros N) M) (Ly := repeat (zeros N) M) (Lr := repeat 0 M) in U; rewrite ?repeat_length; auto;
    try (simpl; rewrite firstn_all2; auto; rewrite repeat_length; auto). tauto.
Qed.
(** Row i is the i-th newest update, in all three arrays: they stay aligned. *)
Theorem C60_rows_aligned : forall M N l H i p, updates (fresh M N) l = Some H -> (i < M)%nat -> (i < length l)%nat -> nth_error l (length l - 1 - i) = Some p ->
  nth_error (ms H) i = Some (fst p) /\ nth_error (my H) i = Some (snd p) /\ nth_error (mrho H) i = Some (prho (triple p)).
Proof.
  intros M N l H i p U Hi Hl Hp. destruct (C60_sliding_window _ _ _ U) as (A & B & C). rewrite A, B, C.
  assert (K : forall (A B : Type) (h : A -> B) (l : list A) pad p, (i < length l)%nat -> nth_error l (length l - 1 - i) = Some p -> nth_error (firstn M (rev (map h l) ++ pad)) i = Some (h p)).
  { clear - Hi. intros A B h l pad p Hl Hp. rewrite nth_error_firstn_lt by auto.
    rewrite nth_error_app1 by (rewrite rev_length, map_length; auto). rewrite <- map_rev, nth_error_map.
    assert (nth_error (rev l) i = Some p) as ->; auto. rewrite nth_error_nth' with (d := p) by (rewrite rev_length; auto). f_equal.
    rewrite rev_nth by auto. replace (length l - S i)%nat with (length l - 1 - i)%nat by lia. apply nth_error_nth with (d := p) in Hp. auto. }
  split; [apply (K _ _ fst); auto|split; [apply (K _ _ snd); auto|apply (K _ _ (fun p => prho (triple p))); auto]].
Qed.
(** Updates succeed exactly when the gradient difference is not zero. *)
Theorem C60_update_succeeds_iff : forall H s y, snd (mem_update H s y) = true <-> exists i, nth i y 0 <> 0.
Proof.
  intros H s y. unfold mem_update. rewrite norm_sq. destruct (Req_EM_T (dot y y) 0) as [Z|Z]; cbn [snd].
  - split; [discriminate|]. intros [i Hi]. exfalso. apply Hi. apply (dot_zero _ Z).
  - split; auto. intros _. clear - Z. induction y; [simpl in Z; lra|]. destruct (Req_EM_T a 0).
    + destruct IHy as [i Hi]; [simpl in Z; subst; lra|]. exists (S i). auto.
    + exists 0%nat. auto.
Qed.
(** A failed update is not a no-op: it has already rotated the window, so the oldest pair is now in the
    place of the newest. *)
Theorem C60_failed_update_rotates_refuted : exists M N l H H' s y, updates (fresh M N) l = Some H /\ mem_update H s y = (H', false) /\ ms H' <> ms H /\ nth_error (ms H') 0 = Some (zeros N).
Proof.
  exists 2%nat, 1%nat, [([1], [1])], (mkMem (1 / (rhok [1] [1] * (norm [1] * norm [1]))) [[1]; [0]] [[1]; [0]] [rhok [1] [1]; 0]). eexists. exists [0], [0].
  assert (norm [1] * norm [1] <> 0) by (rewrite norm_sq; simpl; lra). assert (norm [0] * norm [0] = 0) by (rewrite norm_sq; simpl; lra).
  split; [|split; [|split]].
  - simpl. unfold mem_update. destruct (Req_EM_T (norm [1] * norm [1]) 0); [contradiction|]. reflexivity.
  - unfold mem_update. destruct (Req_EM_T (norm [0] * norm [0]) 0); [|contradiction]. reflexivity.
  - simpl. intro E. injection E. intros. lra.
  - reflexivity.
Qed.

(** ** C58 *)
Lemma firstn_pairs : forall M N l H it, updates (fresh M N) l = Some H -> (length l <= it)%nat -> exists z, firstn (Nat.min M it) (stored H) = firstn M (map triple (rev l)) ++ z /\ Forall (fun p => prho p = 0) z.
Proof.
  intros M N l H it U Hit. rewrite (updates_stored _ _ _ U). rewrite firstn_firstn. replace (Nat.min (Nat.min M it) M) with (Nat.min M it) by lia.
  change (fun p : vec * vec => mkPair (fst p) (snd p) (rhok (fst p) (snd p))) with triple.
  exists (firstn (Nat.min M it - length l) (zip3 (repeat (zeros N) M) (repeat (zeros N) M) (repeat 0 M))). split; [|apply Forall_firstn, zip3_repeat].
  rewrite firstn_app, map_length, rev_length. f_equal. destruct (le_dec M it).
  - rewrite Nat.min_l by auto. auto.
  - rewrite Nat.min_r by lia. rewrite !firstn_all2; auto; rewrite map_length, rev_length; lia.
Qed.
(** The initial scaling after the updates: (y.s)/(y.y) of the newest pair, as the code computes it. *)
Definition scaling (l : list (vec * vec)) : R := match rev l with [] => 1 | p :: _ => 1 / (prho (triple p) * dot (snd p) (snd p)) end.
Lemma scaling_eq : forall M N l H, updates (fresh M N) l = Some H -> H0k H = scaling l.
Proof. intros. rewrite (updates_H0 _ _ _ H0). unfold h0_of, scaling. destruct (rev l) as [|[s y] r]; auto. Qed.

(** The step computed by the two-loop recursion after the updates l is H g, where H is the explicit BFGS
    matrix of the last M update pairs on top of the scaled identity. [it] is the iteration counter, which
    exceeds the number of updates when the memory has been reset in between. *)
Theorem C58_step_is_matrix_times_gradient : forall M N l H g gnorm it i,
  updates (fresh M N) l = Some H -> dims N l -> length g = N -> (0 < it)%nat -> (length l <= it)%nat -> (i < N)%nat ->
  nth i (compute_step M H g gnorm it) 0 = mat_vec N (Hmat N (scaling l) (firstn M (map triple (rev l)))) g i.
Proof.
  intros M N l H g gn it i U D Hg Hit Hl Hi. assert (W : wf_mem M N H) by (eapply updates_wf; eauto; apply wf_fresh).
  rewrite (compute_step_nested _ _ _ W). rewrite (proj2 (Nat.eqb_neq it 0)) by lia.
  destruct (@firstn_pairs _ _ _ _ it U Hl) as (z & E & HZ). change (nth i ?v 0) with (e v i). rewrite (@nested_matrix N); auto.
  - unfold mat_vec. apply sum_ext. intros j Hj. f_equal. rewrite E, Hmat_nulls by auto. rewrite Rmult_1_l, (scaling_eq _ _ _ U). auto.
  - destruct W as (_ & _ & _ & W1 & W2). apply Forall_firstn, wf_zip3; auto.
Qed.
(** First iteration (no pairs yet): the normalised gradient. *)
Theorem C58_first_step : forall M N g gnorm i, length g = N -> nth i (compute_step M (fresh M N) g gnorm 0) 0 = / gnorm * nth i g 0.
Proof.
  intros. rewrite (@compute_step_nested M N) by apply wf_fresh. rewrite Nat.min_0_r. cbn [firstn Nat.eqb nested]. change (nth i ?v 0) with (e v i). rewrite !e_scale. cbn [fresh H0k]. change (nth i ?v 0) with (e v i). ring.
Qed.
(** The recursion read off an arbitrary memory content, whatever its origin. *)
Theorem C58_any_memory : forall M N H g gnorm it i, wf_mem M N H -> length g = N -> (0 < it)%nat -> (i < N)%nat ->
  nth i (compute_step M H g gnorm it) 0 = mat_vec N (Hmat N (H0k H) (firstn (Nat.min M it) (stored H))) g i.
Proof.
  intros M N H g gn it i W Hg Hit Hi. rewrite (compute_step_nested _ _ _ W). rewrite (proj2 (Nat.eqb_neq it 0)) by lia. change (nth i ?v 0) with (e v i). rewrite (@nested_matrix N); auto.
  - rewrite Rmult_1_l. auto.
  - destruct W as (_ & _ & _ & W1 & W2). apply Forall_firstn, wf_zip3; auto.
Qed.
(** With positive curvature in every stored pair, the step has a strictly positive projection on the
    gradient: minus the step is a descent direction. *)
Theorem C58_descent : forall M N l H g gnorm it,
  updates (fresh M N) l = Some H -> dims N l -> Forall (fun p => 0 < dot (snd p) (fst p)) l -> l <> [] -> length g = N -> (exists i, nth i g 0 <> 0) -> (length l <= it)%nat ->
  0 < dot (compute_step M H g gnorm it) g.
Proof.
  intros M N l H g gn it U D C Hne Hg [i0 Hi0] Hl. assert (W : wf_mem M N H) by (eapply updates_wf; eauto; apply wf_fresh).
  assert (0 < it)%nat by (destruct l; [congruence|simpl in Hl; lia]).
  rewrite (compute_step_nested _ _ _ W). rewrite (proj2 (Nat.eqb_neq it 0)) by lia.
  destruct (@firstn_pairs _ _ _ _ it U Hl) as (z & E & HZ).
  assert (T : forall p, In p l -> 0 < prho (triple p)).
  { intros p Hp. rewrite Forall_forall in C. specialize (C p Hp). unfold triple; simpl. destruct (Req_EM_T _ 0); [lra|]. apply Rdiv_lt_0_compat; lra. }
  apply nested_pos with (N := N); auto.
  - rewrite Rmult_1_l, (scaling_eq _ _ _ U). unfold scaling. destruct (rev l) as [|p r] eqn:R; [lra|].
    assert (Hp : In p l) by (rewrite in_rev, R; left; auto). pose proof (updates_nonzero _ _ U) as NZ. rewrite Forall_forall in NZ. specialize (NZ p Hp). pose proof (dot_pos (snd p)).
    apply Rdiv_lt_0_compat; [lra|]. apply Rmult_lt_0_compat; auto. lra.
  - destruct W as (_ & _ & _ & W1 & W2). apply Forall_firstn, wf_zip3; auto.
  - rewrite E. apply Forall_app. split.
    + apply Forall_firstn. apply Forall_forall. intros x Hx. apply in_map_iff in Hx. destruct Hx as (p & <- & Hp). apply in_rev in Hp. left. auto.
    + eapply Forall_impl; [|exact HZ]. simpl. intros. lra.
  - intro Z. apply Hi0. apply (dot_zero _ Z).
Qed.

Section Loop.
Variables (M N : nat) (f : vec -> R) (fprime : vec -> vec).
Variable ls : vec -> vec -> vec -> R -> option (R * R).

(** Whatever the memory, the direction handed to the line search is either zero or a strict descent direction:
    the angle test replaces bad directions by the gradient. *)
Theorem C58_direction_always_descends : forall d z b H, choose_direction M N d = (z, b, H) ->
  Gnorm (curr d) = norm (G (curr d)) -> Gnorm (curr d) <> 0 -> norm z = 0 \/ dot (vneg z) (G (curr d)) < 0.
Proof.
  intros d z b H E HG NG. unfold choose_direction in E. pose proof (norm_nonneg (G (curr d))) as NN.
  set (w := compute_step M (hess d) (G (curr d)) (Gnorm (curr d)) (iter d)) in *.
  destruct (Req_EM_T (norm w) 0) as [Z|Z]; [inversion E; subst; auto|].
  destruct (Rlt_dec (dot w (G (curr d)) / norm w / Gnorm (curr d)) (1 / 100)) as [L|L]; inversion E; subst; right; unfold vneg; rewrite dot_scale_l.
  - rewrite dot_scale_l, <- norm_sq, <- HG. assert (0 < / Gnorm (curr d)) by (apply Rinv_0_lt_compat; lra). assert (/ Gnorm (curr d) * (Gnorm (curr d) * Gnorm (curr d)) = Gnorm (curr d)) by (field; auto). lra.
  - pose proof (norm_nonneg w). assert (0 < norm w * Gnorm (curr d)) by (apply Rmult_lt_0_compat; lra).
    assert (H2 : dot w (G (curr d)) = (dot w (G (curr d)) / norm w / Gnorm (curr d)) * (norm w * Gnorm (curr d))) by (field; auto).
    assert (0 < dot w (G (curr d))) by (rewrite H2; clear H2; apply Rmult_lt_0_compat; lra). lra.
Qed.

(** ** C59: termination and status *)
Variable o : options.
(** what each status code says about the final data *)
Definition status_true (d : data) : Prop :=
  (status d = (-1)%Z /\ (max_iter o <= Z.of_nat (iter d))%Z) \/
  (status d = 2%Z /\ test_conv o = true /\ exists t, factr o = Some t /\ Rabs (F (curr d) - F (prev d)) / Rmax (Rmax (F (curr d)) (F (prev d))) 1 <= t * eps o) \/
  (status d = 3%Z /\ test_conv o = true /\ exists t, gtol o = Some t /\ forall i, (i < length (G (curr d)))%nat -> Rabs (nth i (G (curr d)) 0) <= t) \/
  (status d = (-4)%Z /\ ls (X (curr d)) (vneg (vscale (/ Gnorm (curr d)) (G (curr d)))) (G (curr d)) (F (curr d)) = None) \/
  (status d = (-5)%Z /\ forall i, nth i (vsub (G (curr d)) (G (prev d))) 0 = 0).
Lemma amax_bound : forall g i, (i < length g)%nat -> Rabs (nth i g 0) <= amax_abs g.
Proof.
  induction g as [|a g]; simpl; intros i Hi; [lia|]. destruct g as [|b g]; [destruct i; [simpl; lra|simpl in Hi; lia]|].
  destruct i; [apply Rmax_l|]. eapply Rle_trans; [apply IHg; simpl in *; lia|]. apply Rmax_r.
Qed.
Lemma iterate_cases : forall d, match iterate M N fprime ls o d with
  | Stop d' => status_true d' /\ iter d' = iter d
  | Yield d' => iter d' = S (iter d) /\ prev d' = curr d /\ status d' = 0%Z /\ check_convergence o d = 0%Z
  | NaN d' => Gnorm (curr d) = 0 /\ curr d' = curr d
  end.
Proof.
  intros d. unfold iterate. destruct (check_convergence o d =? 0)%Z eqn:EC; cbn [negb].
  2:{ split; [|reflexivity]. unfold check_convergence in *. unfold status_true. cbn [status iter curr prev with_status].
      destruct (iter d =? 0)%nat; [discriminate|]. destruct (Z.leb_spec (max_iter o) (Z.of_nat (iter d))); [left; auto|].
      destruct (test_conv o) eqn:TC; cbn [negb] in *; [|discriminate].
      destruct (match factr o with Some fa => if Rle_dec (Rabs (F (curr d) - F (prev d)) / Rmax (Rmax (F (curr d)) (F (prev d))) 1) (fa * eps o) then true else false | None => false end) eqn:EF.
      - right; left. repeat split; auto. destruct (factr o) as [t|]; [|discriminate]. exists t. split; auto. destruct (Rle_dec _ _); [auto|discriminate].
      - destruct (match gtol o with Some t => if Rle_dec (amax_abs (G (curr d))) t then true else false | None => false end) eqn:EG; [|discriminate].
        right; right; left. repeat split; auto. destruct (gtol o) as [t|]; [|discriminate]. exists t. split; auto. destruct (Rle_dec _ _); [|discriminate]. intros i Hi. eapply Rle_trans; [apply amax_bound; auto|auto]. }
  destruct (Req_EM_T (Gnorm (curr d)) 0) as [Z|Z]; [auto|].
  unfold search. destruct (choose_direction M N d) as [[z b] H] eqn:ED. unfold do_linesearch.
  assert (TAIL : forall newX newF H1, match (let c := new_state newX newF (fprime newX) in let sk := vsub (X c) (X (curr d)) in let yk := vsub (G c) (G (curr d)) in
     match mem_update H1 sk yk with (H', false) => Stop (mkData c (curr d) H' (iter d) (-5)%Z (hist d ++ [F (curr d)])) | (H', true) => Yield (mkData c (curr d) H' (S (iter d)) 0%Z (hist d ++ [F (curr d)])) end) with
     | Stop d' => status_true d' /\ iter d' = iter d | Yield d' => iter d' = S (iter d) /\ prev d' = curr d /\ status d' = 0%Z /\ check_convergence o d = 0%Z | NaN d' => Gnorm (curr d) = 0 /\ curr d' = curr d end).
  { intros newX newF H1. cbv zeta. destruct (mem_update H1 _ _) as [H' []] eqn:EU; [repeat split; auto; apply Z.eqb_eq; auto|]. split; auto. right; right; right; right. split; auto. cbn [curr prev].
    unfold mem_update in EU. destruct (Req_EM_T _ 0) as [Z2|]; [|discriminate]. rewrite norm_sq in Z2. apply dot_zero. auto. }
  destruct (ls (X (curr d)) (vneg z) (G (curr d)) (F (curr d))) as [[a nf]|] eqn:EL; [apply TAIL|].
  destruct b.
  - split; auto. right; right; right; left. split; auto. cbn [curr with_status]. unfold choose_direction in ED.
    destruct (Req_EM_T (norm _) 0); [discriminate|]. destruct (Rlt_dec _ _); [|discriminate]. inversion ED; subst. auto.
  - destruct (ls (X (curr d)) (vneg (vscale (/ Gnorm (curr d)) (G (curr d)))) (G (curr d)) (F (curr d))) as [[a nf]|] eqn:EL2; [apply TAIL|].
    split; auto. right; right; right; left. split; auto.
Qed.
Definition budget (d : data) : nat := if (iter d =? 0)%nat then Nat.max 1 (Z.to_nat (max_iter o)) else (Z.to_nat (max_iter o) - iter d)%nat.
Lemma run_terminates : forall fuel d, (budget d < fuel)%nat -> exists ys ev, run M N fprime ls fuel o d = (ys, Some ev) /\ (length ys <= budget d)%nat.
Proof.
  induction fuel; intros d Hf; [lia|]. simpl. pose proof (iterate_cases d) as C. destruct (iterate M N fprime ls o d) as [d'|d'|d']; try (eexists [], _; split; [reflexivity|simpl; lia]).
  destruct C as (E1 & _ & _ & E2).
  assert (B : (S (budget d') <= budget d)%nat).
  { unfold budget. rewrite E1. cbn [Nat.eqb]. unfold check_convergence in E2. destruct (Nat.eqb_spec (iter d) 0); [lia|]. destruct (Z.leb_spec (max_iter o) (Z.of_nat (iter d))); [discriminate|]. lia. }
  destruct (IHfuel d' ltac:(lia)) as (ys & ev & R & L). rewrite R. exists (d' :: ys), ev. split; auto. simpl. lia.
Qed.
(** A run performs at most max_iter iterations (at least one is allowed) and ends. *)
Theorem C59_terminates : forall p0, exists ys ev, run M N fprime ls (S (Nat.max 1 (Z.to_nat (max_iter o)))) o (init M N f fprime p0) = (ys, Some ev) /\
  ((1 <= max_iter o)%Z -> (Z.of_nat (length ys) <= max_iter o)%Z).
Proof.
  intros p0. destruct (@run_terminates (S (Nat.max 1 (Z.to_nat (max_iter o)))) (init M N f fprime p0)) as (ys & ev & R & L); [unfold budget; cbn [iter init Nat.eqb]; lia|].
  exists ys, ev. split; auto. intros. unfold budget in L; cbn [iter init Nat.eqb] in L. lia.
Qed.
(** Running longer than needed changes nothing: the ending is a function of the inputs only. *)
Theorem C59_ending_unique : forall fuel1 fuel2 d ys1 ys2 e1 e2, run M N fprime ls fuel1 o d = (ys1, Some e1) -> run M N fprime ls fuel2 o d = (ys2, Some e2) -> ys1 = ys2 /\ e1 = e2.
Proof.
  induction fuel1; intros fuel2 d ys1 ys2 e1 e2 R1 R2; [simpl in R1; inversion R1|]. destruct fuel2; [simpl in R2; inversion R2|]. simpl in R1, R2.
  destruct (iterate M N fprime ls o d) as [d'|d'|d'].
  - destruct (run M N fprime ls fuel1 o d') as [y1 f1] eqn:Q1. destruct (run M N fprime ls fuel2 o d') as [y2 f2] eqn:Q2. inversion R1; inversion R2; subst. destruct (IHfuel1 _ _ _ _ _ _ Q1 Q2). subst; auto.
  - inversion R1; inversion R2; subst; auto.
  - inversion R1; inversion R2; subst; auto.
Qed.
(** The status at the end is one of the five documented codes, and its message is true of the data that
    run_nlopt returns; the iteration counter is the number of yields plus the starting value. *)
Theorem C59_status_documented_and_true : forall fuel d ys d', run M N fprime ls fuel o d = (ys, Some (Stop d')) ->
  status_true d' /\ In (status d') [(-1)%Z; 2%Z; 3%Z; (-4)%Z; (-5)%Z] /\ iter d' = (iter d + length ys)%nat.
Proof.
  intros fuel d ys d' R. assert (K : status_true d' /\ iter d' = (iter d + length ys)%nat).
  { revert d ys R. induction fuel; intros d ys R; [inversion R|]. simpl in R. pose proof (iterate_cases d) as C. destruct (iterate M N fprime ls o d) as [d1|d1|d1].
    - destruct (run M N fprime ls fuel o d1) as [y1 f1] eqn:Q. inversion R; subst. destruct C as (E1 & _). destruct (IHfuel _ _ Q) as [S1 I1]. split; auto. simpl. lia.
    - inversion R; subst. destruct C. split; auto. simpl. lia.
    - inversion R. }
  destruct K as [K I]. split; [|split]; auto. destruct K as [[K _]|[[K _]|[[K _]|[[K _]|[K _]]]]]; rewrite K; simpl; auto 6.
Qed.
(** The only other ending is a vanishing gradient, where the code divides by zero. *)
Theorem C59_undefined_only_at_zero_gradient : forall fuel d ys d', run M N fprime ls fuel o d = (ys, Some (NaN d')) -> Gnorm (curr d') = 0.
Proof.
  induction fuel; intros d ys d' R; [inversion R|]. simpl in R. pose proof (iterate_cases d) as C. destruct (iterate M N fprime ls o d) as [d1|d1|d1].
  - destruct (run M N fprime ls fuel o d1) as [y1 f1] eqn:Q. inversion R; subst. eauto.
  - inversion R.
  - inversion R; subst. destruct C. congruence.
Qed.

(** ** C59: monotonicity *)
(** The line search honours its contract: the value is that of f at the new point, the step is positive
    and the Armijo condition holds with a positive constant. *)
Variable c1 : R.
Hypothesis c1_pos : 0 < c1.
Hypothesis ls_contract : forall x p g fx a nf, ls x p g fx = Some (a, nf) -> 0 < a /\ nf = f (vadd x (vscale a p)) /\ nf <= fx + c1 * a * dot p g.
Hypothesis fprime_dim : forall x, length x = N -> length (fprime x) = N.
(** the recorded objective, gradient and norm belong to the recorded point *)
Definition consistent (s : state) : Prop := length (X s) = N /\ F s = f (X s) /\ G s = fprime (X s) /\ Gnorm s = norm (G s).
Definition good (d : data) : Prop := consistent (curr d) /\ wf_mem M N (hess d).
Lemma choose_len : forall d z b H, good d -> choose_direction M N d = (z, b, H) -> length z = N /\ wf_mem M N H.
Proof.
  intros d z b H [(LX & _ & EG & _) W] E. unfold choose_direction in E.
  assert (LG : length (G (curr d)) = N) by (rewrite EG; auto).
  destruct (Req_EM_T _ 0).
  - inversion E; subst. split; auto. apply compute_step_len; auto.
  - destruct (Rlt_dec _ _); inversion E; subst; split; auto; try apply wf_fresh; try (rewrite len_scale; auto). apply compute_step_len; auto.
Qed.
Lemma search_good : forall d x fx H H', good d -> Gnorm (curr d) <> 0 -> search M N ls d = (Some (x, fx, H), H') ->
  length x = N /\ wf_mem M N H /\ fx = f x /\ (fx < F (curr d) \/ (fx <= F (curr d) /\ x = X (curr d))).
Proof.
  intros d x fx H H' GD NG E. unfold search in E. destruct (choose_direction M N d) as [[z b] H1] eqn:ED. destruct (choose_len GD ED) as [Lz W1].
  pose proof GD as [(LX & EF & EG & EN) W]. assert (LG : length (G (curr d)) = N) by (rewrite EG; auto).
  pose proof (C58_direction_always_descends _ ED EN NG) as DD.
  assert (K : forall p a nf, length p = N -> (norm p = 0 \/ dot (vneg p) (G (curr d)) < 0) -> ls (X (curr d)) (vneg p) (G (curr d)) (F (curr d)) = Some (a, nf) ->
     length (vadd (X (curr d)) (vscale a (vneg p))) = N /\ nf = f (vadd (X (curr d)) (vscale a (vneg p))) /\ (nf < F (curr d) \/ (nf <= F (curr d) /\ vadd (X (curr d)) (vscale a (vneg p)) = X (curr d)))).
  { intros p a nf Lp Dp EL. destruct (@ls_contract _ _ _ _ _ _ EL) as (A1 & A2 & A3). split; [unfold vadd, vneg; rewrite len_map2; rewrite ?len_scale; congruence|]. split; auto.
    destruct Dp as [Dp|Dp].
    - right. apply norm_zero in Dp. assert (Z := dot_zero _ Dp). assert (E0 : vadd (X (curr d)) (vscale a (vneg p)) = X (curr d)).
      { apply nth_ext with (d := 0) (d' := 0); [unfold vadd, vneg; rewrite len_map2; rewrite ?len_scale; congruence|]. intros n Hn.
        change (e (vadd (X (curr d)) (vscale a (vneg p))) n = e (X (curr d)) n). rewrite e_add by (unfold vneg; rewrite !len_scale; congruence). unfold vneg. rewrite !e_scale, Z. ring. }
      split; auto. rewrite A2, E0, EF. lra.
    - left. assert (0 < c1 * a) by (apply Rmult_lt_0_compat; auto). nra. }
  unfold do_linesearch in E. destruct (ls (X (curr d)) (vneg z) (G (curr d)) (F (curr d))) as [[a nf]|] eqn:EL.
  - inversion E; subst. destruct (K z a fx Lz DD EL) as (K1 & K2 & K3). auto.
  - destruct b; [discriminate|]. destruct (ls (X (curr d)) (vneg (vscale (/ Gnorm (curr d)) (G (curr d)))) (G (curr d)) (F (curr d))) as [[a nf]|] eqn:EL2; [|discriminate].
    inversion E; subst. destruct (K (vscale (/ Gnorm (curr d)) (G (curr d))) a fx) as (K1 & K2 & K3); auto.
    + rewrite len_scale. auto.
    + right. unfold vneg. rewrite !dot_scale_l, <- norm_sq, <- EN. pose proof (norm_nonneg (G (curr d))). assert (/ Gnorm (curr d) * (Gnorm (curr d) * Gnorm (curr d)) = Gnorm (curr d)) by (field; auto). lra.
    + split; [|split]; auto. apply wf_fresh.
Qed.
Lemma self_sub : forall v, dot (vsub v v) (vsub v v) = 0.
Proof. unfold vsub. induction v; simpl; [lra|]. rewrite IHv. lra. Qed.
Lemma iterate_good : forall d, good d -> match iterate M N fprime ls o d with
  | Yield d' => good d' /\ F (curr d') < F (curr d) | Stop d' => consistent (curr d') /\ F (curr d') <= F (curr d) | NaN d' => consistent (curr d') /\ F (curr d') <= F (curr d) end.
Proof.
  intros d GD. unfold iterate. destruct (check_convergence o d =? 0)%Z; cbn [negb]; [|split; [apply GD|simpl; lra]].
  destruct (Req_EM_T (Gnorm (curr d)) 0) as [Z|Z]; [split; [apply GD|simpl; lra]|].
  destruct (search M N ls d) as [[[[x fx] H]|] H'] eqn:ES; [|split; [apply GD|simpl; lra]].
  destruct (search_good GD Z ES) as (Lx & WH & Ef & Dec). cbv zeta. cbn [X G new_state].
  assert (CN : consistent (new_state x fx (fprime x))) by (unfold consistent, new_state; simpl; auto).
  pose proof GD as [(LX & EF & EG & EN) W].
  assert (W2 : wf_mem M N (fst (mem_update H (vsub x (X (curr d))) (vsub (fprime x) (G (curr d)))))).
  { assert (LGd : length (G (curr d)) = N) by (rewrite EG; auto). assert (LFx : length (fprime x) = N) by auto.
    apply wf_update; auto; unfold vsub; rewrite len_map2; congruence. }
  destruct (mem_update H (vsub x (X (curr d))) (vsub (fprime x) (G (curr d)))) as [H2 []] eqn:EU; cbn [curr F new_state].
  - split; [split; auto|]. destruct Dec as [Dec|[_ Dec]]; auto. exfalso. unfold mem_update in EU. rewrite norm_sq in EU. rewrite EG, Dec, self_sub in EU. destruct (Req_EM_T 0 0); [discriminate|lra].
  - split; auto. simpl. destruct Dec as [Dec|[Dec _]]; lra.
Qed.
Lemma good_init : forall p0, length p0 = N -> good (init M N f fprime p0).
Proof. intros. split; [repeat split; auto|apply wf_fresh]. Qed.
(** the objective values before each iteration, strictly decreasing *)
Fixpoint decreasing (l : list R) : Prop := match l with a :: ((b :: _) as l') => b < a /\ decreasing l' | _ => True end.
(** The objective strictly decreases at every yielded iterate, and the returned point is never worse than
    any iterate; its recorded objective, gradient and norm belong to it. *)
Theorem C59_objective_decreases : forall fuel p0 ys ev d', length p0 = N -> run M N fprime ls fuel o (init M N f fprime p0) = (ys, Some ev) -> (ev = Stop d' \/ ev = NaN d') ->
  decreasing (map f (p0 :: map (fun d => X (curr d)) ys)) /\
  (forall x, In x (p0 :: map (fun d => X (curr d)) ys) -> f (X (curr d')) <= f x) /\ consistent (curr d').
Proof.
  intros fuel p0 ys ev d' L0 R HE.
  assert (K : forall fuel d ys, good d -> run M N fprime ls fuel o d = (ys, Some ev) ->
     decreasing (map f (X (curr d) :: map (fun d => X (curr d)) ys)) /\ (forall x, In x (X (curr d) :: map (fun d => X (curr d)) ys) -> f (X (curr d')) <= f x) /\ consistent (curr d')).
  { clear fuel p0 ys L0 R. induction fuel; intros d ys GD R; [inversion R|]. simpl in R. pose proof (iterate_good GD) as IG. pose proof GD as [(_ & EF & _) _].
    destruct (iterate M N fprime ls o d) as [d1|d1|d1].
    - destruct (run M N fprime ls fuel o d1) as [y1 f1] eqn:Q. inversion R; subst. destruct IG as [G1 L1]. destruct (IHfuel _ _ G1 Q) as (A & B & C). pose proof G1 as [(_ & EF1 & _) _].
      split; [|split; auto].
      + cbn [map]. cbn [map] in A. split; auto. rewrite <- EF1, <- EF. auto.
      + intros x [<-|Hx]; [|apply B; auto]. specialize (B (X (curr d1)) (or_introl eq_refl)). rewrite <- EF. rewrite <- EF1 in B. lra.
    - inversion R; subst. destruct HE as [HE|HE]; inversion HE; subst. destruct IG as [C L]. repeat split; auto; try apply C. intros x [<-|[]]. destruct C as (_ & EC & _). lra.
    - inversion R; subst. destruct HE as [HE|HE]; inversion HE; subst. destruct IG as [C L]. repeat split; auto; try apply C. intros x [<-|[]]. destruct C as (_ & EC & _). lra. }
  apply (K fuel _ _ (good_init _ L0) R).
Qed.
End Loop.

(** ** where the documented behaviour fails *)
(** max_iter = 0 still performs one iteration. *)
Definition ex_f (x : vec) : R := nth 0 x 0 * nth 0 x 0.
Definition ex_g (x : vec) : vec := [2 * nth 0 x 0].
Definition ex_ls (x p g : vec) (fx : R) : option (R * R) := Some (1 / 2, ex_f (vadd x (vscale (1 / 2) p))).
Lemma norm1 : forall a, 0 <= a -> norm [a] = a.
Proof. intros. unfold norm. simpl. replace (a * a + 0) with (a * a) by ring. apply sqrt_square. auto. Qed.
Theorem C59_zero_max_iter_refuted : exists M N f fprime ls o p0 d, max_iter o = 0%Z /\ iterate M N fprime ls o (init M N f fprime p0) = Yield d /\ X (curr d) <> p0.
Proof.
  exists 1%nat, 1%nat, ex_f, ex_g, ex_ls, (mkOpt None None 0 true 0), [1]. eexists. split; [reflexivity|].
  unfold iterate, init, check_convergence. cbn [iter curr hess hist Nat.eqb negb Z.eqb new_state Gnorm]. unfold ex_g at 1. cbn [nth].
  assert (N2 : norm [2 * 1] = 2) by (rewrite norm1; lra). destruct (Req_EM_T (norm [2 * 1]) 0) as [Z0|Z0]; [exfalso; rewrite N2 in Z0; lra|].
  assert (CD : choose_direction 1 1 (mkData (new_state [1] (ex_f [1]) (ex_g [1])) (new_state [1] (ex_f [1]) (ex_g [1])) (fresh 1 1) 0 0 []) = ([/ 2 * (1 * (2 * 1))], false, fresh 1 1)).
  { unfold choose_direction. cbn [curr hess iter new_state Gnorm G].
    assert (compute_step 1 (fresh 1 1) (ex_g [1]) (norm (ex_g [1])) 0 = [/ 2 * (1 * (2 * 1))]) as ->.
    { unfold compute_step. simpl. unfold ex_g; simpl. rewrite N2. reflexivity. }
    assert (norm [/ 2 * (1 * (2 * 1))] = 1) as -> by (rewrite norm1; lra). destruct (Req_EM_T 1 0); [lra|].
    unfold ex_g; cbn [nth]. rewrite N2. cbn [dot]. destruct (Rlt_dec _ _); auto. lra. }
  unfold search. rewrite CD. unfold do_linesearch. cbn [curr X G F new_state]. unfold ex_ls at 1. unfold mem_update.
  destruct (Req_EM_T _ 0) as [Z|Z].
  - exfalso. rewrite norm_sq in Z. simpl in Z. lra.
  - split; [reflexivity|]. simpl. intro E. injection E. lra.
Qed.
(** Continuing a previous fit with the convergence test on stops at once with "tolerance reached", whatever
    the objective: the previous state of the new minimiser is a copy of the current one. *)
Theorem C59_restart_stops_immediately_refuted : forall M N f fprime ls o p0 n fuel t,
  (0 < n)%nat -> (Z.of_nat n < max_iter o)%Z -> test_conv o = true -> factr o = Some t -> 0 <= t * eps o ->
  exists d, run M N fprime ls (S fuel) o (restart M N f fprime p0 n) = ([], Some (Stop d)) /\ status d = 2%Z /\ iter d = n /\ X (curr d) = p0.
Proof.
  intros M N f fprime ls o p0 n fuel t Hn Hm Ht Hf Hp. cbn [run]. unfold iterate.
  assert (check_convergence o (restart M N f fprime p0 n) = 2%Z) as ->.
  { unfold check_convergence, restart. cbn [iter curr prev init]. rewrite (proj2 (Nat.eqb_neq n 0)) by lia. rewrite (proj2 (Z.leb_gt _ _)) by auto. rewrite Ht, Hf. cbn [negb].
    destruct (Rle_dec _ _) as [|Hle]; auto. exfalso. apply Hle. unfold Rminus. rewrite Rplus_opp_r, Rabs_R0. unfold Rdiv. rewrite Rmult_0_l. auto. }
  eexists. split; [reflexivity|]. auto.
Qed.
(** A starting point with zero gradient is not recognised as converged: the first pass divides by zero. *)
Theorem C59_stationary_start_refuted : forall M N f fprime ls o p0 fuel, norm (fprime p0) = 0 ->
  exists d, run M N fprime ls (S fuel) o (init M N f fprime p0) = ([], Some (NaN d)).
Proof. intros. cbn [run]. unfold iterate, init, check_convergence. simpl. rewrite H. destruct (Req_EM_T 0 0); [|lra]. eexists. reflexivity. Qed.
(** The documented relative test uses |f|; the code's test implies it, and they agree for non-negative f, ... *)
Theorem C59_tolerance_implies_documented : forall a b t, Rabs (a - b) / Rmax (Rmax a b) 1 <= t -> Rabs (a - b) / Rmax (Rmax (Rabs a) (Rabs b)) 1 <= t.
Proof.
  intros a b t H. eapply Rle_trans; [|exact H]. unfold Rdiv. apply Rmult_le_compat_l; [apply Rabs_pos|]. apply Rinv_le_contravar.
  - eapply Rlt_le_trans; [|apply Rmax_r]. lra.
  - apply Rle_max_compat_r. apply Rmax_lub; [eapply Rle_trans; [apply Rle_abs|apply Rmax_l]|eapply Rle_trans; [apply Rle_abs|apply Rmax_r]].
Qed.
Theorem C59_tolerance_documented_nonneg : forall a b t, 0 <= a -> 0 <= b -> (Rabs (a - b) / Rmax (Rmax a b) 1 <= t <-> Rabs (a - b) / Rmax (Rmax (Rabs a) (Rabs b)) 1 <= t).
Proof. intros. rewrite !Rabs_pos_eq with (x := a), !Rabs_pos_eq with (x := b) by auto. tauto. Qed.
(** ... but not in general: with negative values the documented test can hold while the code goes on. *)
Theorem C59_tolerance_negative_refuted : exists o d t, test_conv o = true /\ factr o = Some t /\ (0 < iter d)%nat /\
  Rabs (F (curr d) - F (prev d)) / Rmax (Rmax (Rabs (F (curr d))) (Rabs (F (prev d)))) 1 <= t * eps o /\ check_convergence o d = 0%Z.
Proof.
  exists (mkOpt (Some 1) None 100 true (1 / 10)), (mkData (mkState [] (-100) [] 0) (mkState [] (-99) [] 0) (fresh 1 1) 1 0 []), 1. repeat split; auto.
  - cbn [curr prev F eps]. assert (Rabs (-100) = 100) as -> by (rewrite Rabs_left; lra). assert (Rabs (-99) = 99) as -> by (rewrite Rabs_left; lra).
    rewrite (Rmax_left 100 99), Rmax_left by lra. assert (Rabs (-100 - -99) = 1) as -> by (rewrite Rabs_left; lra). lra.
  - unfold check_convergence. cbn [iter max_iter test_conv factr gtol curr prev F eps negb Nat.eqb Z.leb Z.of_nat]. change (100 <=? Z.of_nat 1)%Z with false. cbn match.
    assert (Rabs (-100 - -99) = 1) as -> by (rewrite Rabs_left; lra). rewrite (Rmax_right (Rmax (-100) (-99)) 1) by (rewrite Rmax_right; lra). destruct (Rle_dec _ _); auto. lra.
Qed.

(** the hypotheses are met: the quadratic above with its exact line search *)
Example ex_contract_met : exists l H, updates (fresh 2 1) l = Some H /\ dims 1 l /\ Forall (fun p => 0 < dot (snd p) (fst p)) l /\ length l = 1%nat.
Proof.
  exists [([-1], [-2])]. eexists. split; [|split; [|split]]; auto.
  - simpl. unfold mem_update. destruct (Req_EM_T _ 0) as [Z|Z]; [|reflexivity]. exfalso. rewrite norm_sq in Z. simpl in Z. lra.
  - repeat constructor.
  - repeat constructor. simpl. lra.
Qed.
(** a line search with the Armijo contract exists for the quadratic: along -p with p.g > 0 small enough *)
Definition armijo_ls (x p g : vec) (fx : R) : option (R * R) :=
  let nf := ex_f (vadd x (vscale (1 / 4) p)) in if Rle_dec nf (fx + 1 / 10000 * (1 / 4) * dot p g) then Some (1 / 4, nf) else None.
Example ex_ls_contract : (forall x p g fx a nf, armijo_ls x p g fx = Some (a, nf) -> 0 < a /\ nf = ex_f (vadd x (vscale a p)) /\ nf <= fx + 1 / 10000 * a * dot p g)
  /\ armijo_ls [1] [-1] [2] 1 <> None.
Proof.
  split.
  - intros x p g fx a nf H. unfold armijo_ls in H. destruct (Rle_dec _ _); inversion H; subst. repeat split; auto; lra.
  - unfold armijo_ls. destruct (Rle_dec _ _) as [|n]; [discriminate|]. exfalso. apply n. unfold ex_f. simpl. lra.
Qed.
Print Assumptions C58_step_is_matrix_times_gradient.
Print Assumptions C58_descent.
Print Assumptions C59_objective_decreases.
Print Assumptions C60_sliding_window.
