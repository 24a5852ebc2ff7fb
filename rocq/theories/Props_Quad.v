(** Properties C117-C123: one-dimensional adaptive integration in the compiled library. *)
From Coq Require Import Reals ZArith List Arith Lra Lia Sorted Permutation.
From Coquelicot Require Import Coquelicot.
From Verif Require Import M_Quad S_Quad P_QuadSort P_Quad P_QuadGK P_Quad2 P_QuadWs P_QuadLim P_QuadRef P_QuadSub M_QuadPar S_QuadPar P_QuadPar.
Import ListNotations.
Local Open Scope R_scope.

(** C117: for every integrand, limits and tolerances (not refused) Integrate ends; its value is, up to the sign of the orientation, the sum of the
    basic rule over a list of subintervals cutting the range, obtained by bisecting again and again a subinterval of largest estimate, and stopping as soon as the
    accuracy asked for is met (once at least one bisection is done), or with warning 3 (an interval too small), or when the limit is reached. The error estimate and number of
    evaluations returned belong to the same list. *)
Theorem C117_adaptive : forall w f a b er ea, (2 <= limit w)%nat -> ~ (ea <= 0 /\ (er < 50 * DBL_EPSILON \/ er < 5 / 10 ^ 29)) ->
  let val I := fst (gk15 f (fst I) (snd I)) in let est I := snd (gk15 f (fst I) (snd I)) in
  exists ans l, integrate w f a b er ea = Some ans /\ cuts (Rmin a b) (Rmax a b) l /\
    refines est (accurate val est er ea) [(Rmin a b, Rmax a b)] l /\ (2 <= length l <= limit w)%nat /\
    q_val ans = (if Rle_dec a b then 1 else -1) * lsum (map val l) /\ q_err ans = Some (lsum (map est l)) /\ q_neval ans = Some (15 * (2 * length l - 1))%nat /\
    (accurate val est er ea l -> q_warn ans = []) /\ (accurate val est er ea l \/ q_warn ans = [3%nat] \/ length l = limit w).
Proof.
  intros w f a b er ea HL NR val est. destruct (integrate_ok w (gk15 f) a b er ea HL NR) as (s & E & F & A). set (lo := Rmin a b) in *. set (hi := Rmax a b) in *.
  assert (Hlh : lo <= hi) by (unfold lo, hi; apply Rle_trans with a; [apply Rmin_l|apply Rmax_l]).
  destruct F as (I & I2 & C & T). destruct I as (W & HLs & Hz & Hr & Hc & Ha & He & Hn). destruct (pieces_rule _ _ _ _ W) as [P1 P2].
  assert (LP : length (pieces (l_ws s)) = l_iter s) by (unfold pieces; rewrite map_length, seq_length; exact Hz).
  rewrite Ha, P1 in T. rewrite P2 in He. fold val in T, P1. fold est in P2, He.
  eexists. exists (pieces (l_ws s)). split; [exact A|]. split; [apply (pieces_cut (gk15 f)), W|]. split; [|split; [lia|]].
  { assert (R := loop_refines (gk15 f) lo hi (limit w) er ea (S (limit w)) _ s (first_inv (gk15 f) lo hi w Hlh HL)). rewrite first_pieces in R. apply R; [|exact E]. unfold first. destruct (gk15 f lo hi). cbn. lia. }
  cbn [q_val q_err q_neval q_warn]. rewrite P1, P2, Hn, LP. split.
  { destruct (rltb_spec b a), (Rle_dec a b); try reflexivity; lra. }
  split; [reflexivity|]. split; [f_equal; lia|]. rewrite T. split.
  - intros AC. unfold accurate in AC. destruct (rltb_spec (Rmax ea (er * Rabs (lsum (map val (pieces (l_ws s)))))) (lsum (map est (pieces (l_ws s))))); [lra|reflexivity].
  - unfold accurate. destruct (rltb_spec (Rmax ea (er * Rabs (lsum (map val (pieces (l_ws s)))))) (lsum (map est (pieces (l_ws s))))) as [Q|Q]; [right|left; lra].
    unfold continue in C. rewrite T, He in C. destruct (rltb_spec (Rmax ea (er * Rabs (lsum (map val (pieces (l_ws s)))))) (lsum (map est (pieces (l_ws s))))) as [_|]; [|contradiction].
    destruct (Nat.ltb_spec (l_iter s) (limit (l_ws s))); [|right; lia]. left. destruct Hc as [Hc|Hc]; rewrite Hc in *; [discriminate C|reflexivity].
Qed.
Print Assumptions C117_adaptive.
(** swapping the limits changes the sign *)
Theorem C117_orientation : forall w f a b er ea ans, (2 <= limit w)%nat -> a <> b -> integrate w f a b er ea = Some ans ->
  exists ans', integrate w f b a er ea = Some ans' /\ q_val ans' = - q_val ans /\ q_err ans' = q_err ans /\ q_neval ans' = q_neval ans /\ q_warn ans' = q_warn ans.
Proof.
  intros w f a b er ea ans HL N E. assert (DEC : refused er ea \/ ~ refused er ea) by (destruct (refuse_spec er ea); auto). destruct DEC as [Q|Q].
  - unfold integrate, integrate_rule in *. destruct (refuse_spec er ea); [|contradiction]. injection E as <-. eexists. split; [reflexivity|]. cbn. split; [ring|auto].
  - destruct (integrate_ok w (gk15 f) a b er ea HL Q) as (s & A1 & _ & A2). destruct (integrate_ok w (gk15 f) b a er ea HL Q) as (s' & B1 & _ & B2).
    rewrite (Rmin_comm b a), (Rmax_comm b a), A1 in B1. injection B1 as <-. unfold integrate in *. rewrite A2 in E. injection E as <-. eexists. split; [exact B2|]. cbn [q_val q_err q_neval q_warn].
    split; [|auto]. destruct (rltb_spec b a), (rltb_spec a b); try ring; lra.
Qed.
Print Assumptions C117_orientation.
(** only the values of the integrand between the limits matter *)
Theorem C117_inside : forall w f g a b er ea, (2 <= limit w)%nat -> (forall x, Rmin a b <= x <= Rmax a b -> f x = g x) -> integrate w f a b er ea = integrate w g a b er ea.
Proof. exact integrate_ext. Qed.
Print Assumptions C117_inside.
(** the basic rule integrates polynomials of degree 23 (here: in powers of the distance to the middle over the half width, with coefficients cs) to the accuracy of the tabulated constants *)
Theorem C117_rule_exact : forall a b (cs : list R), a < b -> (length cs <= 24)%nat ->
  let p x := lsum (map (fun k => nth k cs 0 * ((x - (a + b) / 2) / ((b - a) / 2)) ^ k) (seq 0 (length cs))) in
  ex_RInt p a b /\ Rabs (fst (gk15 p a b) - RInt p a b) <= (b - a) * lsum (map Rabs cs) / 10 ^ 16.
Proof.
  intros a b cs Hab HL p. assert (PE : forall x, scaled a b cs x = p x).
  { intros x. unfold scaled, poly, p. set (u := (x - (a + b) / 2) / ((b - a) / 2)). clearbody u. clear.
    assert (K : forall cs k, powsum cs k u = lsum (map (fun j => nth (j - k) cs 0 * u ^ j) (seq k (length cs)))).
    { clear cs. induction cs as [|c t IH]; intros k; [reflexivity|]. cbn [powsum length seq map lsum]. rewrite Nat.sub_diag. cbn [nth]. f_equal. rewrite IH. apply lsum_ext. intros j Hj. apply in_seq in Hj.
      replace (j - k)%nat with (S (j - S k)) by lia. reflexivity. }
    rewrite K. apply lsum_ext. intros j _. rewrite Nat.sub_0_r. reflexivity. }
  assert (LE : l1 cs = lsum (map Rabs cs)) by (clear; induction cs as [|c t IH]; [reflexivity|cbn; rewrite IH; reflexivity]).
  destruct (gk15_poly a b cs Hab HL) as [I B].
  assert (I' : ex_RInt p a b) by (apply (ex_RInt_ext (scaled a b cs)); [intros; apply PE|exact I]). split; [exact I'|].
  rewrite <- (gk15_ext (scaled a b cs) p a b ltac:(lra) ltac:(intros; apply PE)). rewrite <- (RInt_ext (scaled a b cs) p a b) by (intros; apply PE).
  rewrite <- LE. unfold tiny in B. lra.
Qed.
Print Assumptions C117_rule_exact.
Definition ws0 (n : nat) : ws := {| limit := n; size := 0; al := fun _ => 0; bl := fun _ => 0; rl := fun _ => 0; el := fun _ => 0; order := fun _ => 0%nat |}.
Example C117_nonvacuous : (2 <= limit (ws0 8192))%nat /\ ~ (1 / 10 ^ 10 <= 0 /\ (1 / 10 ^ 5 < 50 * DBL_EPSILON \/ 1 / 10 ^ 5 < 5 / 10 ^ 29)).
Proof. split; [cbn [limit ws0]; apply Nat.leb_le; vm_compute; reflexivity|]. intros [Q _]. cbn [pow] in Q. lra. Qed.

(** C118: when the estimate bounds the error of the rule on every subinterval of the range, it bounds the error of the result. *)
Theorem C118_error_bound : forall w f a b er ea ans e, (2 <= limit w)%nat -> a <= b -> ex_RInt f a b ->
  (forall c d, a <= c <= d -> d <= b -> Rabs (fst (gk15 f c d) - RInt f c d) <= snd (gk15 f c d)) ->
  integrate w f a b er ea = Some ans -> q_err ans = Some e -> Rabs (q_val ans - RInt f a b) <= e.
Proof.
  intros w f a b er ea ans e HL Hab EX H E QE. assert (DEC : refused er ea \/ ~ refused er ea) by (destruct (refuse_spec er ea); auto). destruct DEC as [Q|Q].
  { unfold integrate, integrate_rule in E. destruct (refuse_spec er ea); [|contradiction]. injection E as <-. discriminate QE. }
  destruct (C117_adaptive w f a b er ea HL Q) as (ans' & l & E' & CU & _ & _ & V & ER & _). rewrite E in E'. injection E' as <-. rewrite Rmin_left, Rmax_right in CU by lra.
  rewrite QE in ER. injection ER as ->. rewrite V. destruct (Rle_dec a b); [|lra]. rewrite Rmult_1_l. destruct CU as [CI CF].
  assert (AD : RInt f a b = lsum (map (fun I => RInt f (fst I) (snd I)) l)).
  { transitivity (RInt f a b - RInt f a a); [rewrite RInt_point; unfold zero; cbn; ring|]. rewrite <- (CF (fun x => RInt f a x)). apply lsum_ext. intros [c d] HI. cbn [fst snd]. destruct (CI c d HI) as [C1 C2].
    assert (E1 : ex_RInt f a c) by (apply (ex_RInt_Chasles_1 (V := R_CompleteNormedModule) f a c b); [lra|exact EX]).
    assert (E2 : ex_RInt f a d) by (apply (ex_RInt_Chasles_1 (V := R_CompleteNormedModule) f a d b); [lra|exact EX]).
    assert (E3 : ex_RInt f c d) by (apply (ex_RInt_Chasles_2 (V := R_CompleteNormedModule) f a c d); [lra|exact E2]).
    assert (CH := RInt_Chasles f a c d E1 E3). change (RInt f a c + RInt f c d = RInt f a d) in CH. lra. }
  rewrite AD. apply lsum_sound. intros [c d] HI. cbn [fst snd]. destruct (CI c d HI) as [C1 C2]. apply H; lra.
Qed.
Print Assumptions C118_error_bound.
(* constants meet the hypothesis: the rule is off by at most 1e-16 of their size, and the estimate is at least 50 epsilon of it *)
Lemma gk15_zero c d : gk15 (fun _ => 0) c d = (0, 0).
Proof.
  unfold gk15, gauss_kronrod. cbn [sum_n Nat.mul Nat.add]. f_equal; [ring|]. repeat rewrite ?Rmult_0_l, ?Rabs_R0, ?Rplus_0_l, ?Rmult_0_r, ?Rminus_0_r, ?Rplus_0_l.
  unfold gk_err. destruct (Req_EM_T 0 0) as [_|N]; [|contradiction]. cbn [andb]. destruct (rltb_spec (DBL_MIN / (50 * DBL_EPSILON)) 0); [rewrite Rmult_0_r; apply Rmax_left; lra|reflexivity].
Qed.
Example C118_nonvacuous : ex_RInt (fun _ : R => 0) 0 1 /\ forall c d, 0 <= c <= d -> d <= 1 -> Rabs (fst (gk15 (fun _ => 0) c d) - RInt (fun _ => 0) c d) <= snd (gk15 (fun _ => 0) c d).
Proof.
  split; [apply ex_RInt_const|]. intros c d _ _. rewrite gk15_zero. cbn [fst snd]. rewrite RInt_const. unfold scal. cbn. unfold mult. cbn. rewrite Rmult_0_r, Rminus_0_r, Rabs_R0. lra.
Qed.

(** C119 (refuted part and what holds): a missed accuracy is always reported. It is not: with the workspace of the library (8192 subintervals) and the default tolerances there is an integrand for
    which all the subintervals are used, the estimate exceeds the tolerance, and nothing is printed; the code for that case (4) is never reported for any call. Refused tolerances (1) and
    intervals too small (3) are reported. *)
Theorem C119_limit_silent_refuted : exists f, forall w, Z.of_nat (limit w) = 8192%Z ->
  exists v e n, integrate w f 0 1 (1 / 10 ^ 5) (1 / 10 ^ 10) = Some {| q_val := v; q_err := Some e; q_neval := Some n; q_warn := [] |} /\
  Z.of_nat n = (15 * (2 * 8192 - 1))%Z /\ Rmax (1 / 10 ^ 10) (1 / 10 ^ 5 * Rabs v) < e.
Proof. exists spikes. exact silent. Qed.
Print Assumptions C119_limit_silent_refuted.
Theorem C119_warnings_partial : forall w f a b er ea ans, (2 <= limit w)%nat -> integrate w f a b er ea = Some ans ->
  (ea <= 0 /\ (er < 50 * DBL_EPSILON \/ er < 5 / 10 ^ 29) <-> q_warn ans = [1%nat]) /\ (q_warn ans = [] \/ q_warn ans = [1%nat] \/ q_warn ans = [3%nat]) /\
  (q_warn ans = [3%nat] -> exists e, q_err ans = Some e /\ Rmax ea (er * Rabs (q_val ans)) < e).
Proof.
  intros w f a b er ea ans HL E. assert (DEC : refused er ea \/ ~ refused er ea) by (destruct (refuse_spec er ea); auto). destruct DEC as [Q|Q].
  - unfold integrate, integrate_rule in E. destruct (refuse_spec er ea); [|contradiction]. injection E as <-. cbn. split; [split; [reflexivity|intros _; exact Q]|]. split; [auto|discriminate].
  - destruct (integrate_ok w (gk15 f) a b er ea HL Q) as (s & _ & (I & _ & _ & T) & A). unfold integrate in E. rewrite E in A. injection A as ->. destruct I as (_ & _ & _ & _ & Hc & Ha & _). cbn [q_warn q_err q_val].
    split; [split; [intros N; contradiction|]|split].
    + destruct (rltb (l_tol s) _); [|intros Z; discriminate Z]. destruct Hc as [-> | ->]; intros Z; discriminate Z.
    + destruct (rltb (l_tol s) _); [|auto]. destruct Hc as [-> | ->]; auto.
    + destruct (rltb_spec (l_tol s) (sum_n (size (l_ws s)) (el (l_ws s)))) as [LT|]; [|discriminate]. intros _. eexists. split; [reflexivity|]. rewrite T, Ha in LT. rewrite Rabs_mult.
      replace (Rabs (if rltb b a then -1 else 1)) with 1; [rewrite Rmult_1_l; exact LT|]. destruct (rltb b a); unfold Rabs; destruct (Rcase_abs _); lra.
Qed.
Print Assumptions C119_warnings_partial.

(** C120: integrating with a substitution integrates the same integral: for positive limits and a continuous integrand the transformed integral exists and is equal. *)
Theorem C120_substitution : forall s (f : R -> R) a b, 0 < a -> 0 < b -> (forall x, Rmin a b <= x <= Rmax a b -> continuous f x) ->
  is_RInt (fun u => f (sub_x s u) * sub_dx s u) (sub_u s a) (sub_u s b) (RInt f a b) /\
  forall w er ea, integrate_sub w s f a b er ea = integrate w (fun u => f (sub_x s u) * sub_dx s u) (sub_u s a) (sub_u s b) er ea.
Proof. intros s f a b Ha Hb Hf. split; [apply sub_integral; assumption|reflexivity]. Qed.
Print Assumptions C120_substitution.
(** the integrand is only ever evaluated between the limits *)
Theorem C120_inside : forall w s f g a b er ea, (2 <= limit w)%nat -> 0 < a -> 0 < b -> (forall x, Rmin a b <= x <= Rmax a b -> f x = g x) ->
  integrate_sub w s f a b er ea = integrate_sub w s g a b er ea.
Proof.
  intros w s f g a b er ea HL Ha Hb H. unfold integrate_sub. apply integrate_ext; [exact HL|]. intros u Hu. cbv beta. rewrite H; [reflexivity|]. apply (sub_range s a b u Ha Hb Hu).
Qed.
Print Assumptions C120_inside.

(** C121: a recycled workspace gives the same answer as a new one, whatever earlier integrations left in it. *)
Theorem C121_no_memory : forall w1 w2 f a b er ea, (2 <= limit w1)%nat -> limit w1 = limit w2 -> integrate w1 f a b er ea = integrate w2 f a b er ea.
Proof. intros w1 w2 f a b er ea. apply integrate_fresh. Qed.
Print Assumptions C121_no_memory.
Example C121_nonvacuous : exists w1 w2, (2 <= limit w1)%nat /\ limit w1 = limit w2 /\ order w1 5 <> order w2 5 /\ al w1 0 <> al w2 0.
Proof. exists (ws0 10), {| limit := 10; size := 7; al := fun _ => 1; bl := fun _ => 2; rl := fun _ => 3; el := fun _ => 4; order := fun _ => 9%nat |}. cbn. repeat split; try lia. lra. Qed.

(** C122: concurrent integrations do not disturb each other. For any number of threads, any distribution of the iterations, any interleaving:
    a workspace is never held by two threads; every result written to the output is the one of a run alone; when all threads are done every slot is filled;
    no thread is ever stuck; and no run goes on for ever. (partial: taking and returning a workspace are single steps, which the code guarantees only for taking.) *)
Section C122.
Variables (L : nat) (w0 : ws) (P : nat -> prog) (g0 : glob).
Definition assigned : Prop := forall t i p, In (i, p) (t_jobs (g_thr g0 t)) -> p = P i.
Theorem C122_exclusive_partial : (2 <= L)%nat -> starts L g0 -> forall n g, runs L n g0 g -> forall t1 t2 id, holds g t1 id -> holds g t2 id -> t1 = t2.
Proof.
  intros HL ST n g RU t1 t2 id.
  assert (K : forall g', runs L n g0 g' -> StronglySorted lt (keys (g_map g')) /\ (forall t id, ids (t_pc (g_thr g' t)) = Some id -> In (id, true) (g_map g')) /\
    forall t1 t2 id, ids (t_pc (g_thr g' t1)) = Some id -> ids (t_pc (g_thr g' t2)) = Some id -> t1 = t2).
  { destruct ST as (A & _ & C & D). 
    assert (Z : StronglySorted lt (keys (g_map g0)) /\ (forall t id, ids (t_pc (g_thr g0 t)) = Some id -> In (id, true) (g_map g0)) /\
      forall t1 t2 id, ids (t_pc (g_thr g0 t1)) = Some id -> ids (t_pc (g_thr g0 t2)) = Some id -> t1 = t2).
    { split; [exact C|]. split; [intros t i; rewrite A; discriminate|intros t t' i; rewrite A; discriminate]. }
    clear A C D. intros g' RU'. clear RU. induction RU' as [|n g1 g2 g3 S RU' IH]; [exact Z|]. apply IH. apply (excl_step L g1 g2 Z S). }
  destruct (K g RU) as (_ & _ & X). intros H1 H2. apply (X t1 t2 id); [unfold holds in H1; destruct (t_pc (g_thr g t1))|unfold holds in H2; destruct (t_pc (g_thr g t2))]; cbn; try contradiction; subst; reflexivity.
Qed.
Theorem C122_results_partial : (2 <= L)%nat -> limit w0 = L -> starts L g0 -> assigned -> forall n g, runs L n g0 g ->
  (forall i v, g_out g i = Some v -> evaluates w0 (P i) v) /\
  ((forall t, t_jobs (g_thr g t) = []) -> forall t i p, In (i, p) (t_jobs (g_thr g0 t)) -> exists v, g_out g i = Some v /\ evaluates w0 (P i) v).
Proof.
  intros HL HW ST AS n g RU. assert (I0 : Inv L w0 (fun i => val w0 (P i)) g0) by (apply inv_start; [exact ST|intros t i p H; rewrite (AS t i p H); reflexivity]).
  assert (I := inv_runs L w0 _ HL HW n g0 g I0 RU).
  assert (O : forall i v, g_out g i = Some v -> evaluates w0 (P i) v). { intros i v H. apply (iv_out _ _ _ _ I) in H. rewrite H. apply val_ok. lia. }
  split; [exact O|]. intros DN t i p H. destruct (kept_runs L (fun _ => 0) n g0 g RU t i) as [Q|(q & Q)]; [right; exists p; exact H| |rewrite DN in Q; destruct Q].
  destruct (g_out g i) as [v|] eqn:E; [|contradiction]. exists v. split; [reflexivity|apply O, E].
Qed.
Theorem C122_progress_partial : (2 <= L)%nat -> limit w0 = L -> starts L g0 -> assigned -> forall n g, runs L n g0 g ->
  forall t, t_jobs (g_thr g t) <> [] -> exists g', step L g g' /\ forall t', t' <> t -> g_thr g' t' = g_thr g t'.
Proof.
  intros HL HW ST AS n g RU t NE. assert (I0 : Inv L w0 (fun i => val w0 (P i)) g0) by (apply inv_start; [exact ST|intros t' i p H; rewrite (AS t' i p H); reflexivity]).
  apply (can_step L w0 _ HL HW g t (inv_runs L w0 _ HL HW n g0 g I0 RU) NE).
Qed.
Theorem C122_finite_partial : (2 <= L)%nat -> limit w0 = L -> starts L g0 -> assigned -> forall N, (forall t, (N <= t)%nat -> t_jobs (g_thr g0 t) = []) ->
  exists B, forall n g, runs L n g0 g -> (n <= B)%nat.
Proof.
  intros HL HW ST AS N HN. assert (I0 : Inv L w0 (fun i => val w0 (P i)) g0) by (apply inv_start; [exact ST|intros t' i p H; rewrite (AS t' i p H); reflexivity]).
  exists (total L w0 N (g_thr g0)). intros n g RU. assert (X := bounded L w0 _ HL HW N n g0 g I0 HN RU). lia.
Qed.
End C122.
Print Assumptions C122_exclusive_partial.
Print Assumptions C122_results_partial.
Print Assumptions C122_progress_partial.
Print Assumptions C122_finite_partial.

(** C122, the unprotected return: starting without workspaces, two threads with integrations to do can reach a state in which the next action of one is to
    insert a new workspace into the shared map (inside the critical section) and the next action of the other is to search and write the same map
    (release, outside any critical section): a data race. *)
Definition map_race (g : glob) (inserting releasing : nat) : Prop :=
  (inserting <> releasing)%nat /\
  (exists i r k js, g_thr g inserting = {| t_jobs := (i, Call r k) :: js; t_pc := POut |} /\ first_free (g_map g) = None) /\
  (exists id ans, t_pc (g_thr g releasing) = PRel id ans /\ In id (keys (g_map g))).
Section Race.
Variables (L : nat) (w0 : ws) (V : nat -> R).
Hypothesis HL : (2 <= L)%nat.
Hypothesis Hw : limit w0 = L.
Lemma to_release t : forall n g, Inv L w0 V g -> (left_ L w0 (g_thr g t) <= n)%nat -> forall id s0 i r k js, g_thr g t = {| t_jobs := (i, Call r k) :: js; t_pc := PLoop id s0 |} ->
  exists m g' ans, runs L m g g' /\ g_map g' = g_map g /\ (forall t', (t' <> t)%nat -> g_thr g' t' = g_thr g t') /\ t_pc (g_thr g' t) = PRel id ans.
Proof.
  induction n as [n IH] using lt_wf_ind. intros g HI HN id s0 i r k js HT. assert (ST := s_round L g t i r k js id s0 HT). cbv zeta in ST.
  set (s := body (gk15 (r_f r)) (r_rel r) (r_abs r) (with_ws (g_heap g id) s0)) in *.
  set (g1 := {| g_map := g_map g; g_heap := M_Quad.set (g_heap g) id (l_ws s); g_out := g_out g; g_thr := put_thr g t {| t_jobs := (i, Call r k) :: js; t_pc := if continue s then PLoop id s else PRel id (answer_of r s) |} |}) in ST.
  assert (HO : forall t', (t' <> t)%nat -> g_thr g1 t' = g_thr g t') by (intros t' N; cbn [g1 g_thr]; apply put_ne, N).
  assert (H1 : g_thr g1 t = {| t_jobs := (i, Call r k) :: js; t_pc := if continue s then PLoop id s else PRel id (answer_of r s) |}) by apply put_eq.
  destruct (continue s) eqn:EC.
  - destruct (step_cost L w0 V HL Hw g g1 HI ST) as (t0 & LT & _). assert (t0 = t) by (destruct (Nat.eq_dec t0 t) as [->|N]; [reflexivity|rewrite (HO t0 N) in LT; lia]). subst t0.
    destruct (IH (left_ L w0 (g_thr g1 t))) with (g := g1) (id := id) (s0 := s) (i := i) (r := r) (k := k) (js := js) as (m & g' & ans & RU & EM & OT & PR); [lia|exact (inv_step L w0 V HL Hw g g1 HI ST)|lia|exact H1|].
    exists (S m), g', ans. split; [eapply runs_S; [exact ST|exact RU]|]. split; [exact EM|]. split; [|exact PR]. intros t' N. rewrite (OT t' N). apply HO, N.
  - exists 1%nat, g1, (answer_of r s). split; [eapply runs_S; [exact ST|apply runs_0]|]. split; [reflexivity|]. split; [exact HO|]. rewrite H1. reflexivity.
Qed.
End Race.
Theorem C122_unprotected_release_refuted : forall L P g0 t1 t2 i1 r1 k1 js1 i2 r2 k2 js2, (2 <= L)%nat -> starts L g0 -> assigned P g0 -> g_map g0 = [] -> (t1 <> t2)%nat ->
  t_jobs (g_thr g0 t1) = (i1, Call r1 k1) :: js1 -> t_jobs (g_thr g0 t2) = (i2, Call r2 k2) :: js2 -> exists n g, runs L n g0 g /\ map_race g t1 t2.
Proof.
  intros L P g0 t1 t2 i1 r1 k1 js1 i2 r2 k2 js2 HL ST AS EM NE J1 J2. set (w0 := ws0 L). assert (Hw : limit w0 = L) by reflexivity.
  assert (I0 : Inv L w0 (fun i => val w0 (P i)) g0) by (apply inv_start; [exact ST|intros t i p H; rewrite (AS t i p H); reflexivity]).
  assert (T1 : g_thr g0 t1 = {| t_jobs := (i1, Call r1 k1) :: js1; t_pc := POut |}). { destruct ST as [A _]. specialize (A t1). destruct (g_thr g0 t1). cbn in *. congruence. }
  assert (T2 : g_thr g0 t2 = {| t_jobs := (i2, Call r2 k2) :: js2; t_pc := POut |}). { destruct ST as [A _]. specialize (A t2). destruct (g_thr g0 t2). cbn in *. congruence. }
  assert (S1 := s_new L g0 t2 i2 r2 k2 js2 0%nat w0 T2). rewrite EM in S1. specialize (S1 eq_refl (fun x => x) Hw). cbn [map_set] in S1.
  set (g1 := {| g_map := [(0%nat, true)]; g_heap := M_Quad.set (g_heap g0) 0 w0; g_thr := put_thr g0 t2 {| t_jobs := (i2, Call r2 k2) :: js2; t_pc := PHave 0 |}; g_out := g_out g0 |}) in S1.
  assert (I1 := inv_step L w0 _ HL Hw g0 g1 I0 S1). assert (U2 : g_thr g1 t2 = {| t_jobs := (i2, Call r2 k2) :: js2; t_pc := PHave 0 |}) by apply put_eq.
  assert (U1 : g_thr g1 t1 = g_thr g0 t1) by (cbn [g1 g_thr]; apply put_ne; exact NE).
  assert (FIN : forall m g ans, runs L m g1 g -> g_map g = g_map g1 -> g_thr g t1 = g_thr g1 t1 -> t_pc (g_thr g t2) = PRel 0 ans -> exists n g, runs L n g0 g /\ map_race g t1 t2).
  { intros m g ans RU GM OT PR. exists (S m), g. split; [eapply runs_S; [exact S1|exact RU]|]. split; [exact NE|]. split.
    - exists i1, r1, k1, js1. rewrite OT, U1, GM. split; [exact T1|reflexivity].
    - exists 0%nat, ans. split; [exact PR|]. rewrite GM. left. reflexivity. }
  destruct (refuses r2) eqn:RF.
  - assert (S2 := s_refuse L g1 t2 i2 r2 k2 js2 0%nat U2 RF). eapply (FIN 1%nat); [eapply runs_S; [exact S2|apply runs_0]|reflexivity|cbn [g_thr]; apply put_ne; exact NE|cbn [g_thr]; rewrite put_eq; reflexivity].
  - assert (S2 := s_init L g1 t2 i2 r2 k2 js2 0%nat U2 RF). cbv zeta in S2. match type of S2 with step _ _ ?x => set (g2 := x) in S2 end.
    assert (I2 := inv_step L w0 _ HL Hw g1 g2 I1 S2). edestruct (to_release L w0 _ HL Hw t2 _ g2 I2 (le_n _)) as (m & g' & ans & RU & GM & OT & PR); [apply put_eq|].
    eapply (FIN (S m) g' ans); [eapply runs_S; [exact S2|exact RU]|rewrite GM; reflexivity|rewrite OT by exact NE; apply put_ne; exact NE|exact PR].
Qed.
Print Assumptions C122_unprotected_release_refuted.
(* two threads sharing three iterations, one workspace left over from before: they meet the hypotheses, and can run *)
Definition rq (x : R) : req := {| r_f := fun t => t * x; r_a := 0; r_b := x; r_rel := 1; r_abs := 1 |}.
Definition job (i : nat) : prog := Call (rq (INR i)) (fun a => Ret (2 * q_val a)).
Definition g_ex : glob := {| g_map := [(3%nat, false)]; g_heap := fun _ => ws0 16; g_out := fun _ => None;
  g_thr := fun t => {| t_jobs := match t with 0 => [(0, job 0); (2, job 2)] | 1 => [(1, job 1)] | _ => [] end%nat; t_pc := POut |} |}.
Example C122_nonvacuous : (2 <= 16)%nat /\ starts 16 g_ex /\ assigned job g_ex /\ exists g g', runs 16 2 g_ex g' /\ step 16 g g' /\ holds g' 0 3 /\ holds g' 1 4.
Proof.
  split; [lia|]. split; [|split].
  - split; [reflexivity|]. split; [reflexivity|]. split; [repeat constructor|]. intros id u [Q|[]]. injection Q as <- <-. split; reflexivity.
  - intros t i p. cbn [g_ex g_thr t_jobs]. destruct t as [|[|t]]; [intros [Q|[Q|[]]]|intros [Q|[]]|intros []]; injection Q as <- <-; reflexivity.
  - set (g1 := {| g_map := map_set (g_map g_ex) 3 true; g_heap := g_heap g_ex; g_thr := put_thr g_ex 0 {| t_jobs := [(0%nat, job 0); (2%nat, job 2)]; t_pc := PHave 3 |}; g_out := g_out g_ex |}).
    assert (S1 : step 16 g_ex g1) by (apply (s_reuse 16 g_ex 0 0 (rq (INR 0)) _ [(2%nat, job 2)] 3); reflexivity).
    set (g2 := {| g_map := map_set (g_map g1) 4 true; g_heap := M_Quad.set (g_heap g1) 4 (ws0 16); g_thr := put_thr g1 1 {| t_jobs := [(1%nat, job 1)]; t_pc := PHave 4 |}; g_out := g_out g1 |}).
    assert (S2 : step 16 g1 g2). { apply (s_new 16 g1 1 1 (rq (INR 1)) _ [] 4); try reflexivity. cbn. intros [Q|[]]; discriminate Q. }
    exists g1, g2. split; [eapply runs_S; [exact S1|]; eapply runs_S; [exact S2|apply runs_0]|]. split; [exact S2|]. split; reflexivity.
Qed.

Example C122_race_nonvacuous : let g := {| g_map := []; g_heap := fun _ => ws0 16; g_out := fun _ => None; g_thr := g_thr g_ex |} in starts 16 g /\ assigned job g /\ g_map g = [] /\ t_jobs (g_thr g 0) = [(0%nat, job 0); (2%nat, job 2)] /\ t_jobs (g_thr g 1) = [(1%nat, job 1)].
Proof.
  split; [|split; [|repeat split]].
  - split; [reflexivity|]. split; [reflexivity|]. split; [constructor|]. intros id u [].
  - intros t i p. cbn [g_ex g_thr t_jobs]. destruct t as [|[|t]]; [intros [Q|[Q|[]]]|intros [Q|[]]|intros []]; injection Q as <- <-; reflexivity.
Qed.
