(** Proofs about the interpolation table of the bias-to-mass relation. *)
From Coq Require Import Reals List Arith Lia Lra Bool.
Import ListNotations.
From Verif Require Import M_Interp S_Interp Props_Interp M_Tinker S_Tinker P_Tinker.
Local Open Scope R_scope.

Lemma linspace_length a b n : length (linspace a b n) = n.
Proof. unfold linspace. rewrite map_length, seq_length. reflexivity. Qed.
Lemma linspace_nth a b n i : (i < n)%nat -> nth i (linspace a b n) 0 = a + INR i * ((b - a) / INR (n - 1)).
Proof.
  intros H. unfold linspace. rewrite (nth_indep _ 0 (a + INR 0 * ((b - a) / INR (n - 1)))) by (rewrite map_length, seq_length; lia).
  rewrite (map_nth (fun i => a + INR i * ((b - a) / INR (n - 1)))). rewrite seq_nth by lia. reflexivity.
Qed.
Lemma linspace_axis a b n : a < b -> (2 <= n)%nat -> axis (linspace a b n).
Proof.
  intros Hab Hn. split. rewrite linspace_length; auto. intros i j Hij Hj. rewrite linspace_length in Hj. rewrite !linspace_nth by lia.
  apply Rplus_lt_compat_l, Rmult_lt_compat_r. apply Rdiv_lt_0_compat. lra. apply lt_0_INR. lia. apply lt_INR, Hij.
Qed.
Lemma grid_axes : Forall axis grid.
Proof. unfold grid, grid_sigma8, grid_b1. repeat apply Forall_cons; try apply Forall_nil; apply linspace_axis; lra || lia. Qed.
Lemma s8_nth i : (i < 100)%nat -> nth i grid_sigma8 0 = s8_node i.
Proof. intros. unfold grid_sigma8. rewrite linspace_nth by auto. unfold s8_node. replace (INR (100 - 1)) with 99 by (simpl; lra). lra. Qed.
Lemma b1_nth j : (j < 70)%nat -> nth j grid_b1 0 = b1_node j.
Proof. intros. unfold grid_b1. rewrite linspace_nth by auto. unfold b1_node. replace (INR (70 - 1)) with 69 by (simpl; lra). lra. Qed.
Lemma s8_len : length grid_sigma8 = 100%nat. Proof. apply linspace_length. Qed.
Lemma b1_len : length grid_b1 = 70%nat. Proof. apply linspace_length. Qed.
Lemma node_spec i j : (i < 100)%nat -> (j < 70)%nat -> node grid [i; j] = [s8_node i; b1_node j].
Proof. intros. unfold grid. cbn [node]. rewrite s8_nth, b1_nth by auto. reflexivity. Qed.
Lemma valid_spec i j : (i < 100)%nat -> (j < 70)%nat -> valid_index grid [i; j].
Proof. intros. unfold grid. constructor. rewrite s8_len; auto. constructor. rewrite b1_len; auto. constructor. Qed.
Lemma box_spec s b : in_box grid [s; b] <-> (0.3 <= s <= 1 /\ 0.9 <= b <= 8).
Proof.
  assert (A0 : nth 0 grid_sigma8 0 = 0.3) by (rewrite s8_nth by lia; unfold s8_node; simpl; lra).
  assert (A1 : nth (length grid_sigma8 - 1) grid_sigma8 0 = 1) by (rewrite s8_len, s8_nth by lia; unfold s8_node; replace (INR (100 - 1)) with 99 by (simpl; lra); lra).
  assert (B0 : nth 0 grid_b1 0 = 0.9) by (rewrite b1_nth by lia; unfold b1_node; simpl; lra).
  assert (B1 : nth (length grid_b1 - 1) grid_b1 0 = 8) by (rewrite b1_len, b1_nth by lia; unfold b1_node; replace (INR (70 - 1)) with 69 by (simpl; lra); lra).
  split.
  - intros H. unfold grid in H. inversion H as [|p g x xs H1 H2]; subst. inversion H2 as [|p' g' x' xs' H3 H4]; subst. rewrite A0, A1 in H1. rewrite B0, B1 in H3. auto.
  - intros (H1 & H2). unfold grid. constructor. rewrite A0, A1; auto. constructor. rewrite B0, B1; auto. constructor.
Qed.
Lemma row_nth brentq spline c s bs l j : row_entries brentq spline c s bs = Some l -> (j < length bs)%nat -> table_entry brentq spline c s (nth j bs 0) = Some (nth j l 0).
Proof.
  revert l j. induction bs as [|b bs IH]; intros l j H Hj; [simpl in Hj; lia|]. cbn [row_entries] in H.
  destruct (table_entry brentq spline c s b) as [m|] eqn:E; [|discriminate H]. destruct (row_entries brentq spline c s bs) as [l'|]; [|discriminate H]. injection H as <-.
  destruct j as [|j]; cbn [nth]; auto. apply IH; auto. simpl in Hj; lia.
Qed.
Lemma rows_nth brentq spline c ss bs t i j : all_rows brentq spline c ss bs = Some t -> (i < length ss)%nat -> (j < length bs)%nat -> table_entry brentq spline c (nth i ss 0) (nth j bs 0) = Some (nth j (nth i t []) 0).
Proof.
  revert t i. induction ss as [|s ss IH]; intros t i H Hi Hj; [simpl in Hi; lia|]. cbn [all_rows] in H.
  destruct (row_entries brentq spline c s bs) as [l|] eqn:E; [|discriminate H]. destruct (all_rows brentq spline c ss bs) as [t'|]; [|discriminate H]. injection H as <-.
  destruct i as [|i]; cbn [nth]. apply row_nth; auto. apply IH; auto. simpl in Hi; lia.
Qed.
(** the value in the grid *)
Definition looked_up (t : list (list R)) (s b : R) : R := evaluate_linear (as_table t) (find_indices grid [s; b]) (norm_distances grid [s; b]).
Lemma call_in t s b : in_box grid [s; b] -> call grid (as_table t) Linear true None [[s; b]] = IOk [Some (looked_up t s b)].
Proof. intros H. rewrite call_in_box. 2: { intros xs [<-|[]]. exact H. } cbn [map]. unfold eval_point. rewrite no_short_axis by apply grid_axes. reflexivity. Qed.
Lemma call_out t s b : ~ in_box grid [s; b] -> call grid (as_table t) Linear true None [[s; b]] = DomainError.
Proof. intros H. apply C31_out_of_range_rejected. intros xs [<-|[]]. reflexivity. exists [s; b]. split; [left; reflexivity | exact H]. Qed.
Lemma mass_in brentq spline r t r' s b : r_interp r = true -> get_table brentq spline r = (Some t, r') -> in_box grid [s; b] -> mass brentq spline r s b = (Value (looked_up t s b), r').
Proof. intros HI G B. unfold mass. rewrite HI, G, (call_in t s b B). reflexivity. Qed.
Lemma mass_out brentq spline r t r' s b : r_interp r = true -> get_table brentq spline r = (Some t, r') -> ~ in_box grid [s; b] -> mass brentq spline r s b = (compute_fresh brentq (r_cosmo r') (r_delta_halo r') s b, r').
Proof. intros HI G B. unfold mass. rewrite HI, G, (call_out t s b B). reflexivity. Qed.
Lemma lookup_value t xs s b : value_at grid (as_table t) Linear [s; b] xs -> in_box grid [s; b] -> looked_up t s b = xs.
Proof.
  intros V B. destruct (V true None [[s; b]] 0%nat) as (l & E & N). intros ys [<-|[]]; auto. reflexivity. rewrite (call_in t s b B) in E. injection E as <-. injection N as ->. reflexivity.
Qed.
Lemma lookup_node t i j : (i < 100)%nat -> (j < 70)%nat -> looked_up t (s8_node i) (b1_node j) = nth j (nth i t []) 0.
Proof.
  intros Hi Hj. apply lookup_value.
  - rewrite <- (node_spec i j Hi Hj). apply (@C31_exact_at_nodes grid (as_table t) Linear [i; j] grid_axes (valid_spec i j Hi Hj)).
  - apply box_spec. assert (INR i <= 99). { replace 99 with (INR 99) by (simpl; lra). apply le_INR; lia. } assert (INR j <= 69). { replace 69 with (INR 69) by (simpl; lra). apply le_INR; lia. }
    pose proof (pos_INR i). pose proof (pos_INR j). unfold s8_node, b1_node. lra.
Qed.
Lemma step_close p (f : nat -> R) d c i x : (forall k, (k < length p)%nat -> nth k p 0 = f k) -> (forall k, f (k + 1)%nat = f k + d) -> 0 <= d -> (c + 1 < length p)%nat -> nth c p 0 <= x <= nth (c + 1) p 0 -> i = c \/ i = (c + 1)%nat -> (i < length p)%nat /\ Rabs (x - f i) <= d.
Proof.
  intros N F Hd Hc Hx Hi. rewrite !N in Hx by lia. rewrite F in Hx. split. lia. destruct Hi as [-> | ->]; try rewrite F; unfold Rabs; destruct (Rcase_abs _); lra.
Qed.
Lemma lookup_between t s b lo hi : in_box grid [s; b] ->
  (forall i j, (i < 100)%nat -> (j < 70)%nat -> Rabs (s - s8_node i) <= 0.7 / 99 -> Rabs (b - b1_node j) <= 7.1 / 69 -> lo <= nth j (nth i t []) 0 <= hi) -> lo <= looked_up t s b <= hi.
Proof.
  intros B H. destruct (@C31_between_corner_values grid (as_table t) [s; b] lo hi grid_axes B) as (x & V & Hx).
  - intros c Hc. unfold grid in Hc. inversion Hc as [|p g x xs c0 i idx L1 X1 I1 C1]; subst. inversion C1 as [|p' g' x' xs' c1 j idx' L2 X2 I2 C2]; subst. inversion C2; subst.
    destruct (step_close grid_sigma8 s8_node (0.7/99) c0 i s) as (Hi & Di); auto. intros k Hk. apply s8_nth. rewrite s8_len in Hk; auto. intros k. unfold s8_node. rewrite plus_INR. simpl. lra. lra.
    destruct (step_close grid_b1 b1_node (7.1/69) c1 j b) as (Hj & Dj); auto. intros k Hk. apply b1_nth. rewrite b1_len in Hk; auto. intros k. unfold b1_node. rewrite plus_INR. simpl. lra. lra.
    rewrite s8_len in Hi. rewrite b1_len in Hj. cbn [as_table]. apply H; auto.
  - rewrite (lookup_value t x s b V B). exact Hx.
Qed.
Lemma e10 : / 10 ^ 10 * mass_norm = 10 ^ 3. Proof. unfold mass_norm. field_simplify. lra. Qed.
Lemma e4 : 10 ^ 4 * mass_norm = 10 ^ 17. Proof. unfold mass_norm. ring. Qed.
Lemma entry_spec tol brentq spline c s b m : finds_roots tol brentq -> hierarchical (splined spline c) -> 0 < s -> table_entry brentq spline c s b = Some m ->
  exists M', Rabs (m - M') <= tol * 10 ^ 13 /\ 10 ^ 3 <= M' <= 10 ^ 17 /\ has_bias (splined spline c) 200 s b M'.
Proof.
  intros FR HC Hs H. unfold table_entry in H. destruct (_ && _); [|discriminate H].
  assert (L : / 10 ^ 10 < 10 ^ 4). { apply Rlt_trans with 1; [|simpl; lra]. rewrite <- Rinv_1. apply Rinv_lt_contravar; simpl; lra. }
  pose proof (solve_mass tol brentq (splined spline c) 200 s b (/ 10 ^ 10) (10 ^ 4) FR HC Hs (Rinv_0_lt_compat _ (pos_ten 10)) L) as G. cbn [sigma8 Sigma rho_bar splined] in G.
  destruct (brentq _ _ _) as [x|]; [|discriminate H]. injection H as <-. destruct G as (_ & M' & T & B & HB). rewrite e10, e4 in B. exists M'. auto.
Qed.
(** ** sessions *)
Lemma get_table_spec brentq spline r : let c := r_cosmo r in
  (r_table r = None \/ r_table r = interpolation_table brentq spline c) ->
  fst (get_table brentq spline r) = interpolation_table brentq spline c /\ (snd (get_table brentq spline r) = r \/ exists t, interpolation_table brentq spline c = Some t /\ snd (get_table brentq spline r) = with_table t r).
Proof.
  intros c H. unfold get_table. fold c. destruct (r_table r) as [t|] eqn:E.
  - destruct H as [H|H]; [discriminate H|]. cbn [fst snd]. split; auto.
  - destruct (interpolation_table brentq spline c) as [t|] eqn:F; cbn [fst snd]; split; auto. right. exists t. auto.
Qed.
(** two relations with the same parameters whose tables are absent or current *)
Definition current brentq spline (z : R) c (i : bool) (r : relation) : Prop :=
  r_z r = z /\ r_cosmo r = c /\ r_interp r = i /\ r_delta_halo r = 200 /\ r_sigmav_0 r = None /\ r_M_0 r = None /\ (r_table r = None \/ r_table r = interpolation_table brentq spline c).
Lemma mass_current brentq spline z c i r r' s b : current brentq spline z c i r -> current brentq spline z c i r' ->
  fst (mass brentq spline r s b) = fst (mass brentq spline r' s b) /\ current brentq spline z c i (snd (mass brentq spline r s b)).
Proof.
  intros H H'. pose proof H as (Z & C & I & D & S0 & M0 & T). pose proof H' as (Z' & C' & I' & D' & S0' & M0' & T').
  rewrite <- C in T. rewrite <- C' in T'. pose proof (get_table_spec brentq spline r T) as (G1 & G2). pose proof (get_table_spec brentq spline r' T') as (G1' & G2').
  unfold mass. rewrite I, I'. destruct i; [|cbn [fst snd]; rewrite C, C', D, D'; auto].
  assert (K : forall q, r_cosmo q = c -> (r_cosmo q = r_cosmo r \/ True)) by auto. clear K.
  destruct (get_table brentq spline r) as [o q]. destruct (get_table brentq spline r') as [o' q']. cbn [fst snd] in *. rewrite C in G1. rewrite C' in G1'. subst o o'.
  assert (Q : current brentq spline z c true q).
  { destruct G2 as [-> | (t & Et & ->)]; auto. unfold current. cbn [with_table r_z r_cosmo r_interp r_delta_halo r_sigmav_0 r_M_0 r_table]. do 6 (split; [assumption|]). right. symmetry. rewrite <- C. exact Et. }
  assert (Q' : r_cosmo q' = c /\ r_delta_halo q' = 200). { destruct G2' as [-> | (t & Et & ->)]; cbn [with_table r_cosmo r_delta_halo]; auto. }
  destruct Q' as (Cq' & Dq'). pose proof Q as (_ & Cq & _ & Dq & _).
  destruct (interpolation_table brentq spline c) as [t|]; [|split; auto].
  destruct (call _ _ _ _ _ _) as [[|[m|] l]| |]; cbn [fst snd]; split; auto. rewrite Cq, Dq, Cq', Dq'. reflexivity.
Qed.
Lemma sigmav_current brentq spline z c i r r' s b : current brentq spline z c i r -> current brentq spline z c i r' ->
  fst (sigmav brentq spline r s b) = fst (sigmav brentq spline r' s b) /\ current brentq spline z c i (snd (sigmav brentq spline r s b)).
Proof.
  intros H H'. destruct (mass_current brentq spline z c i r r' s b H H') as (E & Q). destruct (mass_current brentq spline z c i r' r s b H' H) as (_ & Q').
  unfold sigmav. destruct (mass brentq spline r s b) as [o q]. destruct (mass brentq spline r' s b) as [o' q']. cbn [fst snd] in *. subst o'.
  destruct o as [m| |]; cbn [fst snd]; split; auto. destruct Q as (Z & C & _ & _ & S0 & M0 & _). destruct Q' as (Z' & C' & _ & _ & S0' & M0' & _).
  rewrite S0, S0'. unfold evrard_sigmav. rewrite Z, C, Z', C'. reflexivity.
Qed.
Definition gcurrent brentq spline c i (g : gal) : Prop := g_cosmo g = c /\ g_interp g = i /\ match g_rel g with Some r => current brentq spline (g_z g) c i r | None => True end.
Lemma new_current brentq spline z c i : current brentq spline z c i (new_relation z c i None None).
Proof. unfold current. cbn [new_relation r_z r_cosmo r_interp r_delta_halo r_sigmav_0 r_M_0 r_table]. do 6 (split; [reflexivity|]). left. reflexivity. Qed.
Lemma get_rel_current brentq spline c i g : gcurrent brentq spline c i g -> current brentq spline (g_z g) c i (get_rel g).
Proof. intros (C & I & K). unfold get_rel. destruct (g_rel g); auto. rewrite C, I. apply new_current. Qed.
Lemma ask_current brentq spline c i g s b : gcurrent brentq spline c i g ->
  fst (sigmav_from_bias brentq spline g s b) = fst (sigmav_from_bias brentq spline {| g_z := g_z g; g_cosmo := c; g_interp := i; g_rel := None |} s b)
  /\ gcurrent brentq spline c i (snd (sigmav_from_bias brentq spline g s b)) /\ g_z (snd (sigmav_from_bias brentq spline g s b)) = g_z g.
Proof.
  intros H. pose proof (get_rel_current brentq spline c i g H) as Q. destruct H as (C & I & _).
  set (g0 := {| g_z := g_z g; g_cosmo := c; g_interp := i; g_rel := None |}). assert (Q0 : current brentq spline (g_z g) c i (get_rel g0)) by apply new_current.
  destruct (sigmav_current brentq spline (g_z g) c i _ _ s b Q Q0) as (E & K). destruct (sigmav_current brentq spline (g_z g) c i _ _ s b Q0 Q) as (_ & K0).
  unfold sigmav_from_bias. destruct (sigmav brentq spline (get_rel g) s b) as [o r]. destruct (sigmav brentq spline (get_rel g0) s b) as [o0 r0]. cbn [fst snd] in *. subst o0.
  assert (GK : forall q, current brentq spline (g_z g) c i q -> gcurrent brentq spline c i (keep g q)) by (intros q Hq; split; [exact C|]; split; [exact I|]; exact Hq).
  assert (S : forall x, fst (sigmav brentq spline r s x) = fst (sigmav brentq spline r0 s x) /\ current brentq spline (g_z g) c i (snd (sigmav brentq spline r s x))) by (intros x; apply sigmav_current; auto).
  assert (FB : fst (if Rlt_dec b (9/10) then let (o, r') := sigmav brentq spline r s (9/10) in (o, keep g r') else if Rlt_dec 8 b then let (o, r') := sigmav brentq spline r s 8 in (o, keep g r') else (Value 0, keep g r)) =
    fst (if Rlt_dec b (9/10) then let (o, r') := sigmav brentq spline r0 s (9/10) in (o, keep g0 r') else if Rlt_dec 8 b then let (o, r') := sigmav brentq spline r0 s 8 in (o, keep g0 r') else (Value 0, keep g0 r0)) /\
    gcurrent brentq spline c i (snd (if Rlt_dec b (9/10) then let (o, r') := sigmav brentq spline r s (9/10) in (o, keep g r') else if Rlt_dec 8 b then let (o, r') := sigmav brentq spline r s 8 in (o, keep g r') else (Value 0, keep g r))) /\
    g_z (snd (if Rlt_dec b (9/10) then let (o, r') := sigmav brentq spline r s (9/10) in (o, keep g r') else if Rlt_dec 8 b then let (o, r') := sigmav brentq spline r s 8 in (o, keep g r') else (Value 0, keep g r))) = g_z g).
  { destruct (Rlt_dec b (9/10)); [|destruct (Rlt_dec 8 b)].
    - destruct (S (9/10)) as (E & K1). destruct (sigmav brentq spline r s (9/10)) as [u1 u2], (sigmav brentq spline r0 s (9/10)) as [v1 v2]. cbn [fst snd] in *. refine (conj E (conj (GK _ K1) eq_refl)).
    - destruct (S 8) as (E & K1). destruct (sigmav brentq spline r s 8) as [u1 u2], (sigmav brentq spline r0 s 8) as [v1 v2]. cbn [fst snd] in *. refine (conj E (conj (GK _ K1) eq_refl)).
    - cbn [fst snd]. refine (conj eq_refl (conj (GK _ K) eq_refl)). }
  destruct o as [v| |]; [|exact FB|exact FB]. cbn [fst snd]. refine (conj eq_refl (conj (GK _ K) eq_refl)).
Qed.
