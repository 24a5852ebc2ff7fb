(** * C29, C30: window convolution *)
From Coq Require Import Reals List Arith Lia Lra Bool.
From Coquelicot Require Import Coquelicot.
Import ListNotations.
From Verif Require Import M_Transfer M_Window P_Window P_Legendre P_Window2.
Set Implicit Arguments.
Local Open Scope R_scope.

(** ** the Legendre polynomials used here are the usual ones *)
Theorem C30_legendre_polynomials : forall n x,
  legendre 0 x = 1 /\ legendre 1 x = x /\ (INR n + 2) * legendre (S (S n)) x = (2 * INR n + 3) * x * legendre (S n) x - (INR n + 1) * legendre n x /\ legendre n 1 = 1.
Proof. intros. repeat split; auto. apply bonnet. apply legendre_at_1. Qed.
Theorem C30_legendre_orthogonal : forall n m, RInt (fun t => legendre n t * legendre m t) (-1) 1 = if (n =? m)%nat then 2 / (2 * INR n + 1) else 0.
Proof. intros. destruct (n =? m)%nat eqn:E; [apply Nat.eqb_eq in E; subst; apply norm|apply Nat.eqb_neq in E; apply orthogonal; auto]. Qed.

(** sum over the list returned by get_coefficients *)
Definition total (f : nat -> R -> R) (cs : list (nat * R)) : R := fold_right (fun qc acc => f (fst qc) (snd qc) + acc) 0 cs.
Lemma total_csum : forall f cs, total f cs = csum f cs.
Proof. unfold total. induction cs as [|[q co] cs]; simpl; auto. rewrite IHcs. auto. Qed.

(** For all ell, ell' and mu: the returned coefficients, without their (2 ell+1)/(2 q+1) factor, expand L_ell L_ell' . *)
Theorem C30_product_expansion : forall ell ellp mu,
  legendre ell mu * legendre ellp mu = total (fun q co => co * (2 * INR q + 1) / (2 * INR ell + 1) * legendre q mu) (get_coefficients ell ellp).
Proof. intros. rewrite total_csum, product_expansion. auto. Qed.
(** The multipole numbers are |ell-ell'|, |ell-ell'|+2, ..., ell+ell', in this order. *)
Theorem C30_multipole_numbers : forall ell ellp, map fst (get_coefficients ell ellp) = map (fun i => (Nat.max ell ellp - Nat.min ell ellp + 2 * i)%nat) (seq 0 (S (Nat.min ell ellp))).
Proof.
  intros. unfold get_coefficients.
  assert (G : forall p, (p <= Nat.min ell ellp)%nat -> map fst (coeffs_upto ell ellp p) = map (fun i => (ell + ellp - 2 * p + 2 * i)%nat) (seq 0 (S p))).
  { induction p; intros H; [simpl; f_equal; lia|]. cbn [coeffs_upto map fst]. rewrite IHp by lia. 
    change (seq 0 (S (S p))) with (0%nat :: seq 1 (S p)). rewrite (map_cons _ 0%nat). apply f_equal2; [lia|]. rewrite <- (seq_shift (S p)), map_map. apply map_ext_in. intros i Hi. apply in_seq in Hi. lia. }
  rewrite G by auto. apply map_ext_in. intros i Hi. lia.
Qed.
Theorem C30_positive : forall ell ellp q co, In (q, co) (get_coefficients ell ellp) -> 0 < co.
Proof.
  intros ell ellp q co I. apply in_coeffs_upto in I. destruct I as (i & Hi & -> & ->). rewrite coefficient_c by lia.
  pose proof (@c_pos ell ellp i ltac:(lia) ltac:(lia)). pose proof (pos_INR (ell + ellp - 2 * i)). pose proof (pos_INR ell).
  apply Rdiv_lt_0_compat; [apply Rmult_lt_0_compat|]; lra.
Qed.
Theorem C30_bare_sum_is_one : forall ell ellp, total (fun q co => co * (2 * INR q + 1) / (2 * INR ell + 1)) (get_coefficients ell ellp) = 1.
Proof.
  intros. pose proof (C30_product_expansion ell ellp 1) as H. rewrite (proj1 (legendre_at_1 ell)), (proj1 (legendre_at_1 ellp)) in H.
  rewrite total_csum in *. rewrite (@csum_ext _ (fun q co => co * (2 * INR q + 1) / (2 * INR ell + 1))) in H by (intros; rewrite (proj1 (legendre_at_1 q)); ring). lra.
Qed.
(** Exchanging the two multipoles changes each coefficient only through the prefactor. *)
Theorem C30_exchange : forall ell ellp q co, In (q, co) (get_coefficients ell ellp) <-> In (q, co * (2 * INR ellp + 1) / (2 * INR ell + 1)) (get_coefficients ellp ell).
Proof.
  assert (K : forall ell ellp q co, In (q, co) (get_coefficients ell ellp) -> In (q, co * (2 * INR ellp + 1) / (2 * INR ell + 1)) (get_coefficients ellp ell)).
  { intros ell ellp q co I. apply in_coeffs_upto in I. apply in_coeffs_upto. destruct I as (i & Hi & -> & ->). exists i. split; [lia|]. split; [lia|].
    rewrite !coefficient_c by lia. rewrite (c_sym ell ellp), (Nat.add_comm ellp ell). pose proof (pos_INR (ell + ellp - 2 * i)). pose proof (pos_INR ell). field. lra. }
  intros. split; [apply K|]. intros I. apply K in I. pose proof (pos_INR ell). pose proof (pos_INR ellp).
  replace (co * (2 * INR ellp + 1) / (2 * INR ell + 1) * (2 * INR ell + 1) / (2 * INR ellp + 1)) with co in I by (field; lra). auto.
Qed.
(** Each coefficient is the ell-multipole of L_ell' L_q, and the multipoles not listed vanish. *)
Theorem C30_coefficients_are_projections : forall ell ellp q,
  (forall co, In (q, co) (get_coefficients ell ellp) -> co = (2 * INR ell + 1) / 2 * RInt (fun t => legendre ell t * legendre ellp t * legendre q t) (-1) 1) /\
  (~ In q (map fst (get_coefficients ell ellp)) -> RInt (fun t => legendre ell t * legendre ellp t * legendre q t) (-1) 1 = 0).
Proof.
  intros. pose proof (projection ell ellp q) as P. split.
  - intros co I. rewrite P. symmetry. apply csum_pick; auto. apply coeffs_NoDup. auto.
  - intros N. rewrite csum_none in P by auto. pose proof (pos_INR ell). apply Rmult_integral in P. destruct P as [P|P]; [lra|auto].
Qed.

(** ** the convolution *)
(** multipoles a_0, a_2, a_4, ... as an angular function *)
Definition angular (a : list R) (mu : R) : R := series 0 a mu.
Lemma angular_series : forall a mu, angular a mu = fold_right Rplus 0 (map (fun j => nth j a 0 * legendre (2 * j) mu) (seq 0 (length a))).
Proof.
  intros. unfold angular. assert (G : forall l j0, series j0 l mu = fold_right Rplus 0 (map (fun j => nth (j - j0) l 0 * legendre (2 * j) mu) (seq j0 (length l)))).
  { induction l; intros; auto. cbn [series length seq map fold_right]. rewrite Nat.sub_diag. cbn [nth]. f_equal. rewrite IHl. f_equal. apply map_ext_in. intros j Hj. apply in_seq in Hj.
    replace (j - j0)%nat with (S (j - S j0)) by lia. auto. }
  rewrite G. f_equal. apply map_ext. intros. rewrite Nat.sub_0_r. auto.
Qed.
(** the separations and input have matching shapes: one row of nc multipoles per separation *)
Definition input_ok (w : window) (ells : list nat) (r : list R) (xi : list (list R)) (nc : nat) : Prop :=
  length xi = length r /\ List.Forall (fun row => length row = nc) xi /\ (npoles w <= nc)%nat /\ (forall ell, In ell ells -> Nat.even ell = true /\ (ell <= w_maxl w)%nat).
Lemma call_entry : forall I w ells r xi nc, input_ok w ells r xi nc ->
  exists cols, call_loop I w ells r xi nc = WOk cols /\ length cols = length ells /\
  forall i n, (i < length ells)%nat -> (n < length r)%nat -> length (nth i cols []) = length r /\
    nth n (nth i cols []) 0 = dot (firstn (npoles w) (nth n xi [])) (kernel I w (nth i ells 0%nat) (nth n r 0)).
Proof.
  intros I w ells r xi nc (H1 & H2 & H3 & H4). rewrite call_loop_ok; auto.
  - eexists. split; [reflexivity|]. split; [apply map_length|]. intros i n Hi Hn.
    set (f := fun ell => map (fun p => dot (snd p) (kernel I w ell (fst p))) (combine r (map (firstn (npoles w)) xi))).
    rewrite (nth_indep (map f ells) [] (f 0%nat)) by (rewrite map_length; auto). rewrite map_nth. unfold f.
    assert (LC : length (combine r (map (firstn (npoles w)) xi)) = length r) by (rewrite combine_length, map_length; lia).
    split; [rewrite map_length; auto|].
    set (g := fun p : R * list R => dot (snd p) (kernel I w (nth i ells 0%nat) (fst p))).
    rewrite (nth_indep (map g _) 0 (g (0, []))) by (rewrite map_length; lia). rewrite map_nth. rewrite combine_nth by (rewrite map_length; auto). unfold g. cbn [fst snd].
    f_equal. rewrite <- (map_nth (firstn (npoles w)) xi []). f_equal. destruct (npoles w); reflexivity.
  - apply forallb_forall. intros ell Hin. destruct (H4 ell Hin). unfold has_spline. rewrite H, (proj2 (Nat.leb_le _ _)); auto.
Qed.
Lemma row_len : forall w ells r xi nc n, input_ok w ells r xi nc -> (n < length r)%nat -> length (firstn (npoles w) (nth n xi [])) = npoles w.
Proof.
  intros w ells r xi nc n (H1 & H2 & H3 & H4) Hn. rewrite firstn_length. rewrite (proj1 (List.Forall_forall _ _) H2 (nth n xi [])) by (apply nth_In; lia). lia.
Qed.
(** At a tabulated separation (where the interpolation returns the tabulated value) the output column of ell is the
    ell-multipole of the product of the window and the correlation function, for any window and any input. *)
Theorem C30_convolution_is_multipole_of_product : forall I w ells r xi nc, input_ok w ells r xi nc ->
  (forall m tab, length tab = length (w_s w) -> (m < length (w_s w))%nat -> I (w_s w) tab (nth m (w_s w) 0) = nth m tab 0) -> length (w_W w) = length (w_s w) ->
  exists cols, call_loop I w ells r xi nc = WOk cols /\ length cols = length ells /\
  forall i n m, (i < length ells)%nat -> (n < length r)%nat -> (m < length (w_s w))%nat -> nth n r 0 = nth m (w_s w) 0 ->
   nth n (nth i cols []) 0 = (2 * INR (nth i ells 0%nat) + 1) / 2 *
     RInt (fun mu => legendre (nth i ells 0%nat) mu * (angular (nth m (w_W w) []) mu * angular (firstn (npoles w) (nth n xi [])) mu)) (-1) 1.
Proof.
  intros I w ells r xi nc Hok HI HW. destruct (call_entry I Hok) as (cols & E & L1 & V). exists cols. split; auto. split; auto.
  intros i n m Hi Hn Hm Er. rewrite (proj2 (V i n Hi Hn)). unfold kernel. rewrite dot_map_seq by (eapply row_len; eauto).
  assert (C : covered w (nth n r 0) = true).
  { rewrite Er. unfold covered, smin, smax.
    assert (Mn : forall l d x, (In x l \/ d <= x) -> rmin d l <= x).
    { induction l; intros d x [Hx|Hx]; cbn [rmin]; try (destruct Hx; fail); auto.
      - destruct Hx as [<- | Hx]; apply IHl; auto. right. apply Rmin_r.
      - apply IHl. right. eapply Rle_trans; [apply Rmin_l|auto]. }
    assert (Mx : forall l d x, (In x l \/ x <= d) -> x <= rmax d l).
    { induction l; intros d x [Hx|Hx]; cbn [rmax]; try (destruct Hx; fail); auto.
      - destruct Hx as [<- | Hx]; apply IHl; auto. right. apply Rmax_r.
      - apply IHl. right. eapply Rle_trans; [exact Hx|apply Rmax_l]. }
    destruct (Rle_dec _ _) as [|N]; [|exfalso; apply N; apply Mn; left; apply nth_In; auto].
    destruct (Rle_dec _ _) as [|N]; [auto|exfalso; apply N; apply Mx; left; apply nth_In; auto]. }
  rewrite (@gdot_ext _ (fun j => kern_row (get_coefficients (nth i ells 0%nat) (2 * j)) (nth m (w_W w) []))).
  - rewrite <- kdot_gdot. apply kdot_product. destruct Hok as (_ & _ & _ & H4). apply H4. apply nth_In. auto.
  - intros j. rewrite C, Er. rewrite HI by (auto; unfold kern_table; rewrite map_length; auto). unfold kern_table.
    set (f := kern_row _). rewrite (nth_indep (map f (w_W w)) 0 (f [])) by (rewrite map_length; lia). rewrite map_nth. auto.
Qed.

(** ** C29 *)
(** the window (1, 0, 0, ...) at every tabulated separation *)
Definition trivial_window (w : window) : Prop := List.Forall (fun row => exists k, row = 1 :: repeat 0 k) (w_W w).
Lemma kern_row_trivial : forall ell j k, Nat.even ell = true -> kern_row (get_coefficients ell (2 * j)) (1 :: repeat 0 k) = if (j =? ell / 2)%nat then 1 else 0.
Proof.
  intros ell j k He. rewrite kern_row_projection by auto.
  rewrite (RInt_ext _ (fun t => L ell t * L (2 * j) t)).
  - apply Nat.even_spec in He. destruct He as [h Eh]. subst ell. replace (2 * h / 2)%nat with h by (rewrite Nat.mul_comm, Nat.div_mul; lia).
    destruct (j =? h)%nat eqn:E.
    + apply Nat.eqb_eq in E. subst. rewrite norm. pose proof (pos_INR (2 * h)). field. lra.
    + apply Nat.eqb_neq in E. rewrite orthogonal by lia. ring.
  - intros t _. cbn [series]. assert (Z : forall n j0, series j0 (repeat 0 n) t = 0) by (induction n; intros; simpl; auto; rewrite IHn; lra). rewrite Z.
    replace (2 * 0)%nat with 0%nat by lia. rewrite legendre_0. rewrite Rmult_1_r, Rplus_0_r, Rmult_1_r. reflexivity.
Qed.
(** With the trivial window, for an interpolation that reproduces constant tables: every output column is the input
    column number ell/2, i.e. the input multipole of that order when column j holds the multipole 2j. *)
Theorem C29_trivial_window_identity : forall I w ells r xi nc, input_ok w ells r xi nc -> trivial_window w -> length (w_W w) = length (w_s w) ->
  (forall v x, I (w_s w) (repeat v (length (w_s w))) x = v) -> (forall ell, In ell ells -> (ell <= w_maxlp w)%nat) ->
  exists cols, call_loop I w ells r xi nc = WOk cols /\ length cols = length ells /\
  forall i n, (i < length ells)%nat -> (n < length r)%nat -> nth n (nth i cols []) 0 = nth (nth i ells 0%nat / 2) (nth n xi []) 0.
Proof.
  intros I w ells r xi nc Hok Ht HW HI Hl. destruct (call_entry I Hok) as (cols & E & L1 & V). exists cols. split; auto. split; auto.
  intros i n Hi Hn. rewrite (proj2 (V i n Hi Hn)). unfold kernel. rewrite dot_map_seq by (eapply row_len; eauto).
  set (ell := nth i ells 0%nat). assert (Hin : In ell ells) by (apply nth_In; auto). destruct Hok as (O1 & O2 & O3 & O4). destruct (O4 ell Hin) as [Ev _].
  rewrite (@gdot_ext _ (fun j => if (j =? ell / 2)%nat then 1 else 0)).
  - rewrite gdot_delta. cbn [Nat.leb]. rewrite Nat.sub_0_r. assert (ell / 2 < npoles w)%nat.
    { unfold npoles. specialize (Hl ell Hin). pose proof (Nat.div_le_mono ell (w_maxlp w) 2 ltac:(lia) Hl). lia. }
    rewrite <- (firstn_skipn (npoles w) (nth n xi [])) at 2. rewrite app_nth1; auto. rewrite firstn_length, (proj1 (List.Forall_forall _ _) O2 (nth n xi [])) by (apply nth_In; lia). lia.
  - intros j. destruct (covered w (nth n r 0)); auto.
    replace (kern_table w ell j) with (repeat (if (j =? ell / 2)%nat then 1 else 0) (length (w_s w))); [apply HI|].
    rewrite <- HW. unfold kern_table. clear - Ht Ev. unfold trivial_window in Ht. induction (w_W w); auto. inversion Ht as [|? ? T1 T2]; subst. destruct T1 as [k ->].
    cbn [length repeat map]. rewrite <- (IHl T2). rewrite kern_row_trivial by auto. auto.
Qed.
(** When the requested multipoles are 0, 2, 4, ... in order, the output equals the input. *)
Theorem C29_identity_for_ordered_multipoles : forall I w ells r xi, input_ok w ells r xi (length ells) -> trivial_window w -> length (w_W w) = length (w_s w) ->
  (forall v x, I (w_s w) (repeat v (length (w_s w))) x = v) -> (forall i, (i < length ells)%nat -> nth i ells 0%nat = (2 * i)%nat) -> (forall ell, In ell ells -> (ell <= w_maxlp w)%nat) ->
  exists cols, call_loop I w ells r xi (length ells) = WOk cols /\ length cols = length ells /\
  forall i n, (i < length ells)%nat -> (n < length r)%nat -> nth n (nth i cols []) 0 = nth i (nth n xi []) 0.
Proof.
  intros I w ells r xi Hok Ht HW HI Ho Hl. destruct (@C29_trivial_window_identity I w ells r xi _ Hok Ht HW HI Hl) as (cols & E & L1 & V).
  exists cols. split; auto. split; auto. intros i n Hi Hn. rewrite V, Ho by auto. rewrite Nat.mul_comm, Nat.div_mul by lia. auto.
Qed.
(** Outside the tabulated separations nothing is convolved, whatever the window. *)
Theorem C29_outside_range_unconvolved : forall I w ells r xi nc, input_ok w ells r xi nc -> (forall ell, In ell ells -> (ell <= w_maxlp w)%nat) ->
  exists cols, call_loop I w ells r xi nc = WOk cols /\ length cols = length ells /\
  forall i n, (i < length ells)%nat -> (n < length r)%nat -> (forall s, In s (w_s w) -> nth n r 0 < s) \/ (forall s, In s (w_s w) -> s < nth n r 0) -> w_s w <> [] ->
   nth n (nth i cols []) 0 = nth (nth i ells 0%nat / 2) (nth n xi []) 0.
Proof.
  intros I w ells r xi nc Hok Hl. destruct (call_entry I Hok) as (cols & E & L1 & V). exists cols. split; auto. split; auto.
  intros i n Hi Hn Hr Hs. rewrite (proj2 (V i n Hi Hn)). unfold kernel. rewrite dot_map_seq by (eapply row_len; eauto).
  set (ell := nth i ells 0%nat). assert (Hin : In ell ells) by (apply nth_In; auto). destruct Hok as (O1 & O2 & O3 & O4).
  assert (C : covered w (nth n r 0) = false).
  { unfold covered, smin, smax. destruct (w_s w) as [|s0 s] eqn:Es; [congruence|]. cbn [hd].
    assert (Mn : forall l d x, x < d -> (forall y, In y l -> x < y) -> x < rmin d l).
    { induction l; intros; cbn [rmin]; auto. apply IHl; [apply Rmin_glb_lt; auto; apply H0; left; auto|intros; apply H0; right; auto]. }
    assert (Mx : forall l d x, d < x -> (forall y, In y l -> y < x) -> rmax d l < x).
    { induction l; intros; cbn [rmax]; auto. apply IHl; [apply Rmax_lub_lt; auto; apply H0; left; auto|intros; apply H0; right; auto]. }
    destruct Hr as [Hr|Hr].
    - destruct (Rle_dec _ _) as [N|]; auto. exfalso. pose proof (Mn (s0 :: s) s0 (nth n r 0) (Hr s0 (or_introl eq_refl)) Hr). lra.
    - destruct (Rle_dec _ _); auto. destruct (Rle_dec _ _) as [N|]; auto. exfalso. pose proof (Mx (s0 :: s) s0 (nth n r 0) (Hr s0 (or_introl eq_refl)) Hr). lra. }
  rewrite C. rewrite gdot_delta. cbn [Nat.leb]. rewrite Nat.sub_0_r. assert (ell / 2 < npoles w)%nat.
  { unfold npoles. specialize (Hl ell Hin). pose proof (Nat.div_le_mono ell (w_maxlp w) 2 ltac:(lia) Hl). lia. }
  rewrite <- (firstn_skipn (npoles w) (nth n xi [])) at 2. rewrite app_nth1; auto. rewrite firstn_length, (proj1 (List.Forall_forall _ _) O2 (nth n xi [])) by (apply nth_In; lia). lia.
Qed.
(** Input columns are matched to multipoles by position, not by the requested order: with ells = [2; 0] (both
    legal) the trivial window returns the two columns exchanged. *)
Theorem C29_unordered_multipoles_refuted : exists (I : interpolator) w ells r xi cols, input_ok w ells r xi (length ells) /\ trivial_window w /\
  (forall v x, I (w_s w) (repeat v (length (w_s w))) x = v) /\ call_loop I w ells r xi (length ells) = WOk cols /\ nth 0 (nth 0 cols []) 0 <> nth 0 (nth 0 xi []) 0.
Proof.
  pose (w := {| w_s := [1]; w_W := [[1; 0; 0]]; w_ncol := 3; w_maxlp := 2; w_maxl := 2 |}).
  pose (I := (fun _ t _ => nth 0 t 0) : interpolator).
  assert (Hok : input_ok w [2; 0]%nat [1] [[5; 7]] 2).
  { split; [reflexivity|]. split; [repeat constructor|]. split; [cbv; lia|]. intros ell [<-|[<-|[]]]; split; auto; simpl; lia. }
  assert (Ht : trivial_window w) by (repeat constructor; exists 2%nat; reflexivity).
  assert (HI : forall v x, I (w_s w) (repeat v (length (w_s w))) x = v) by reflexivity.
  destruct (@C29_trivial_window_identity I w [2; 0]%nat [1] [[5; 7]] 2 Hok Ht eq_refl HI) as (cols & E & L1 & V).
  { intros ell [<-|[<-|[]]]; simpl; lia. }
  exists I, w, [2; 0]%nat, [1], [[5; 7]], cols. split; auto. split; auto. split; auto. split; auto.
  rewrite (V 0%nat 0%nat) by (simpl; lia). simpl. lra.
Qed.

(** Fewer input columns than kernels, or an unavailable multipole, raise. *)
Theorem C29_bad_input_raises : forall I w ell ells r xi nc,
  (Nat.odd ell = true \/ (w_maxl w < ell)%nat -> call_loop I w (ell :: ells) r xi nc = WKeyError) /\
  (Nat.even ell = true -> (ell <= w_maxl w)%nat -> (nc < npoles w)%nat -> call_loop I w (ell :: ells) r xi nc = WValueError).
Proof.
  intros. cbn [call_loop]. unfold has_spline. split.
  - intros H. assert (Nat.even ell && (ell <=? w_maxl w)%nat = false) as ->; auto. destruct H as [H|H].
    + rewrite <- Nat.negb_even in H. destruct (Nat.even ell); [discriminate|auto].
    + apply andb_false_iff. right. apply Nat.leb_gt. auto.
  - intros -> H2 H3. rewrite (proj2 (Nat.leb_le _ _) H2). cbn [andb negb]. rewrite (proj2 (Nat.eqb_neq _ _)) by lia. rewrite (proj2 (Nat.ltb_ge _ _)) by lia. auto.
Qed.
(** The constructor accepts exactly the windows with enough multipole columns. *)
Theorem C30_enough_window_columns : forall w, setup w = WOk tt <-> (w_maxl w / 2 + w_maxlp w / 2 < w_ncol w)%nat.
Proof.
  intros w. unfold setup. set (b := forallb _ _).
  assert (E : b = true <-> (w_maxl w / 2 + w_maxlp w / 2 < w_ncol w)%nat).
  { unfold b. rewrite forallb_forall. split.
    - intros H. specialize (H (2 * (w_maxl w / 2))%nat). rewrite forallb_forall in H.
      assert (In1 : forall n, In (2 * (n / 2))%nat (evens_to n)). { intros n. unfold evens_to. apply in_map_iff. exists (n / 2)%nat. split; auto. apply in_seq. lia. }
      specialize (H (In1 _) (2 * (w_maxlp w / 2))%nat (In1 _)). rewrite forallb_forall in H.
      specialize (H (2 * (w_maxl w / 2) + 2 * (w_maxlp w / 2) - 2 * 0, coefficient (2 * (w_maxl w / 2)) (2 * (w_maxlp w / 2)) 0)%nat).
      cbn [fst] in H. assert (F : In ((2 * (w_maxl w / 2) + 2 * (w_maxlp w / 2) - 2 * 0)%nat, coefficient (2 * (w_maxl w / 2)) (2 * (w_maxlp w / 2)) 0) (get_coefficients (2 * (w_maxl w / 2)) (2 * (w_maxlp w / 2)))).
      { unfold get_coefficients. apply in_coeffs_upto. exists 0%nat. split; [lia|auto]. }
      specialize (H F). apply Nat.ltb_lt in H. rewrite Nat.mul_0_r, Nat.sub_0_r in H. rewrite <- Nat.mul_add_distr_l, Nat.mul_comm, Nat.div_mul in H by lia. auto.
    - intros H ell Hl. apply forallb_forall. intros ellp Hlp. apply forallb_forall. intros [q co] I. apply Nat.ltb_lt. cbn [fst]. unfold get_coefficients in I. apply in_coeffs_upto in I.
      destruct I as (i & Hi & -> & _). unfold evens_to in *. apply in_map_iff in Hl. apply in_map_iff in Hlp. destruct Hl as (a & <- & Ha). destruct Hlp as (c0 & <- & Hc). apply in_seq in Ha. apply in_seq in Hc.
      apply Nat.le_lt_trans with (a + c0)%nat; [|lia]. apply Nat.div_le_upper_bound; lia. }
  destruct b; rewrite <- E; split; auto; discriminate.
Qed.

(** non-vacuity: the coefficients of (2, 2) computed exactly *)
Example coefficients_2_2 : get_coefficients 2 2 = [(0%nat, 1); (2%nat, 2 / 7); (4%nat, 2 / 7)] /\ setup {| w_s := [1]; w_W := [[1; 0; 0; 0; 0]]; w_ncol := 5; w_maxlp := 4; w_maxl := 4 |} = WOk tt.
Proof.
  split; [|vm_compute; reflexivity || reflexivity]. unfold get_coefficients. cbn [Nat.min coeffs_upto Nat.add Nat.sub Nat.mul].
  repeat (f_equal; try (unfold coefficient, G; simpl; field)).
Qed.

Print Assumptions C30_product_expansion.
Print Assumptions C30_convolution_is_multipole_of_product.
Print Assumptions C29_trivial_window_identity.
