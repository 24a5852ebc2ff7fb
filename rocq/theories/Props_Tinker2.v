(** Properties of the interpolation table for masses and of the model's velocity dispersions. *)
From Coq Require Import Reals List Arith Lia Lra Bool.
Import ListNotations.
From Verif Require Import M_Interp S_Interp Props_Interp M_Tinker S_Tinker P_Tinker P_Tinker2 Props_Tinker.
Local Open Scope R_scope.

(** * C155: with interpolation *)
(** at a node of the table the mass has the node's bias (haloes of overdensity 200, splined fluctuations) *)
Theorem C155_exact_at_the_nodes : forall tol brentq spline r t i j,
  finds_roots tol brentq -> hierarchical (splined spline (r_cosmo r)) -> r_interp r = true -> r_table r = None -> interpolation_table brentq spline (r_cosmo r) = Some t ->
  (i < 100)%nat -> (j < 70)%nat ->
  exists M M', fst (mass brentq spline r (s8_node i) (b1_node j)) = Value M /\ Rabs (M - M') <= tol * 10 ^ 13 /\ 10 ^ 3 <= M' <= 10 ^ 17 /\ has_bias (splined spline (r_cosmo r)) 200 (s8_node i) (b1_node j) M'.
Proof.
  intros tol brentq spline r t i j FR HC HI HT E Hi Hj. exists (nth j (nth i t []) 0).
  assert (B : in_box grid [s8_node i; b1_node j]).
  { apply box_spec. assert (INR i <= 99). { replace 99 with (INR 99) by (simpl; lra). apply le_INR; lia. } assert (INR j <= 69). { replace 69 with (INR 69) by (simpl; lra). apply le_INR; lia. }
    pose proof (pos_INR i). pose proof (pos_INR j). unfold s8_node, b1_node. lra. }
  pose proof (rows_nth brentq spline (r_cosmo r) grid_sigma8 grid_b1 t i j E) as N. rewrite s8_len, b1_len in N. specialize (N Hi Hj). rewrite s8_nth, b1_nth in N by auto.
  assert (Hs : 0 < s8_node i) by (unfold s8_node; pose proof (pos_INR i); lra).
  destruct (entry_spec tol brentq spline (r_cosmo r) _ _ _ FR HC Hs N) as (M' & T & Bd & HB). exists M'. split; [|auto].
  assert (G : get_table brentq spline r = (Some t, with_table t r)) by (unfold get_table; rewrite HT, E; reflexivity).
  rewrite (mass_in brentq spline r t _ _ _ HI G B). cbn [fst]. rewrite lookup_node by auto. reflexivity.
Qed.
(** between nodes, the mass lies between the masses of the surrounding nodes *)
Theorem C155_between_the_surrounding_nodes : forall brentq spline r t s b lo hi,
  r_interp r = true -> r_table r = None -> interpolation_table brentq spline (r_cosmo r) = Some t -> 0.3 <= s <= 1 -> 0.9 <= b <= 8 ->
  (forall i j m, (i < 100)%nat -> (j < 70)%nat -> Rabs (s - s8_node i) <= 0.7 / 99 -> Rabs (b - b1_node j) <= 7.1 / 69 -> fst (mass brentq spline r (s8_node i) (b1_node j)) = Value m -> lo <= m <= hi) ->
  exists M, fst (mass brentq spline r s b) = Value M /\ lo <= M <= hi.
Proof.
  intros brentq spline r t s b lo hi HI HT E Hs Hb H. assert (B : in_box grid [s; b]) by (apply box_spec; auto).
  assert (G : get_table brentq spline r = (Some t, with_table t r)) by (unfold get_table; rewrite HT, E; reflexivity).
  exists (looked_up t s b). split. rewrite (mass_in brentq spline r t _ _ _ HI G B); reflexivity. apply lookup_between; auto.
  intros i j Hi Hj Di Dj. apply (H i j); auto.
  assert (B' : in_box grid [s8_node i; b1_node j]).
  { apply box_spec. assert (INR i <= 99). { replace 99 with (INR 99) by (simpl; lra). apply le_INR; lia. } assert (INR j <= 69). { replace 69 with (INR 69) by (simpl; lra). apply le_INR; lia. }
    pose proof (pos_INR i). pose proof (pos_INR j). unfold s8_node, b1_node. lra. }
  rewrite (mass_in brentq spline r t _ _ _ HI G B'). cbn [fst]. rewrite lookup_node by auto. reflexivity.
Qed.
(** outside the table the direct solution is used *)
Theorem C155_outside_the_table_solved_directly : forall brentq spline r t s b,
  r_interp r = true -> r_table r = None -> interpolation_table brentq spline (r_cosmo r) = Some t -> ~ (0.3 <= s <= 1 /\ 0.9 <= b <= 8) ->
  fst (mass brentq spline r s b) = fst (mass brentq spline (set_interp false r) s b).
Proof.
  intros brentq spline r t s b HI HT E N. assert (B : ~ in_box grid [s; b]) by (rewrite box_spec; auto).
  assert (G : get_table brentq spline r = (Some t, with_table t r)) by (unfold get_table; rewrite HT, E; reflexivity).
  rewrite (mass_out brentq spline r t _ _ _ HI G B). reflexivity.
Qed.
(** in any session of redshift changes and queries with a fixed cosmology, every answer is that of a new model at the current redshift *)
Fixpoint answers brentq spline (g : gal) (ops : list gop) : list outcome :=
  match ops with
  | [] => []
  | SetZ z :: ops' => answers brentq spline (gal_set_z z g) ops'
  | Ask s b :: ops' => fst (sigmav_from_bias brentq spline g s b) :: answers brentq spline (snd (sigmav_from_bias brentq spline g s b)) ops'
  end.
Fixpoint fresh_answers brentq spline (c : cosmology) (i : bool) (z : R) (ops : list gop) : list outcome :=
  match ops with
  | [] => []
  | SetZ z' :: ops' => fresh_answers brentq spline c i z' ops'
  | Ask s b :: ops' => fst (sigmav_from_bias brentq spline {| g_z := z; g_cosmo := c; g_interp := i; g_rel := None |} s b) :: fresh_answers brentq spline c i z ops'
  end.
Theorem C155_dispersions_follow_the_redshift : forall brentq spline c i z ops,
  answers brentq spline {| g_z := z; g_cosmo := c; g_interp := i; g_rel := None |} ops = fresh_answers brentq spline c i z ops.
Proof.
  intros brentq spline c i z ops.
  assert (K : forall g, gcurrent brentq spline c i g -> answers brentq spline g ops = fresh_answers brentq spline c i (g_z g) ops).
  { induction ops as [|[z'|s b] ops IH]; intros g Hg; [reflexivity| |]; cbn [answers fresh_answers].
    - rewrite IH; [reflexivity|]. destruct Hg as (C & I & Hr). split; [exact C|]. split; [exact I|]. cbn [gal_set_z g_rel g_z]. destruct (g_rel g) as [r|]; cbn [option_map]; auto.
      destruct Hr as (_ & H). split; [reflexivity|]. exact H.
    - destruct (ask_current brentq spline c i g s b Hg) as (E & Q & Zq). rewrite E, IH by exact Q. rewrite Zq. reflexivity. }
  apply (K {| g_z := z; g_cosmo := c; g_interp := i; g_rel := None |}). split; [reflexivity|]. split; [reflexivity | exact I].
Qed.
(** the model's answer is the relation's; when that fails for a bias outside [0.9, 8], the relation's at the nearest end *)
Theorem C155_dispersions_are_the_relations_or_at_the_nearest_end : forall brentq spline g s b,
  let o := sigmav brentq spline (get_rel g) s b in
  ((exists v, fst o = Value v) -> fst (sigmav_from_bias brentq spline g s b) = fst o) /\
  ((forall v, fst o <> Value v) -> b < 0.9 -> fst (sigmav_from_bias brentq spline g s b) = fst (sigmav brentq spline (snd o) s 0.9)) /\
  ((forall v, fst o <> Value v) -> 8 < b -> fst (sigmav_from_bias brentq spline g s b) = fst (sigmav brentq spline (snd o) s 8)).
Proof.
  intros brentq spline g s b o. unfold o, sigmav_from_bias. destruct (sigmav brentq spline (get_rel g) s b) as [w r]. cbn [fst snd]. replace 0.9 with (9/10) by lra.
  split; [intros (v & ->); reflexivity|]. split.
  - intros N Hb. destruct w as [v| |]; [destruct (N v eq_refl)| |]; (destruct (Rlt_dec b (9/10)); [|lra]; destruct (sigmav brentq spline r s (9/10)); reflexivity).
  - intros N Hb. destruct w as [v| |]; [destruct (N v eq_refl)| |]; (destruct (Rlt_dec b (9/10)); [lra|]; destruct (Rlt_dec 8 b); [|lra]; destruct (sigmav brentq spline r s 8); reflexivity).
Qed.
Print Assumptions C155_dispersions_are_the_relations_or_at_the_nearest_end.
Print Assumptions C155_exact_at_the_nodes.
Print Assumptions C155_between_the_surrounding_nodes.
Print Assumptions C155_outside_the_table_solved_directly.
Print Assumptions C155_dispersions_follow_the_redshift.
(** a table exists: for a solver that always answers, with radii inside the spline's range *)
Lemma table_some brentq spline c : (forall f a b, exists x, brentq f a b = Some x) ->
  radius_in_spline (mass_to_radius (rho_bar c) (/ 10 ^ 10)) && radius_in_spline (mass_to_radius (rho_bar c) (10 ^ 4)) = true -> exists t, interpolation_table brentq spline c = Some t.
Proof.
  intros HB HR. assert (E : forall s b, exists m, table_entry brentq spline c s b = Some m).
  { intros s b. unfold table_entry. rewrite HR. destruct (HB (fun mass => bias_Tinker (s / sigma8 c * spline (Sigma c) (mass_to_radius (rho_bar c) mass)) delta_c 200 - b) (/ 10 ^ 10) (10 ^ 4)) as (x & ->). eauto. }
  assert (R1 : forall bs s, exists l, row_entries brentq spline c s bs = Some l).
  { induction bs as [|b bs IH]; intros s; [eexists; reflexivity|]. cbn [row_entries]. destruct (E s b) as (m & ->). destruct (IH s) as (l & ->). eauto. }
  unfold interpolation_table. generalize grid_sigma8. induction l as [|s ss IH]; [eexists; reflexivity|]. cbn [all_rows]. destruct (R1 grid_b1 s) as (l & ->). destruct IH as (t & ->). eauto.
Qed.
Lemma ex_radii : radius_in_spline (mass_to_radius (rho_bar ex_c) (/ 10 ^ 10)) && radius_in_spline (mass_to_radius (rho_bar ex_c) (10 ^ 4)) = true.
Proof.
  assert (HC : 0 < rho_bar ex_c) by apply ex_hier. pose proof PI_RGT_0.
  assert (C1 : let x := mass_to_radius (rho_bar ex_c) (/ 10 ^ 10) in x * x * x = / 10 ^ 7). { cbv zeta. rewrite radius_cube; [|exact HC|apply Rinv_0_lt_compat, pos_ten]. unfold mass_norm, ex_c, rho_bar. field_simplify; lra. }
  assert (C2 : let x := mass_to_radius (rho_bar ex_c) (10 ^ 4) in x * x * x = 10 ^ 7). { cbv zeta. rewrite radius_cube; [|exact HC|apply pos_ten]. unfold mass_norm, ex_c, rho_bar. field_simplify; lra. }
  cbv zeta in C1, C2. pose proof (radius_pos (rho_bar ex_c) (/ 10 ^ 10)) as P1. pose proof (radius_pos (rho_bar ex_c) (10 ^ 4)) as P2.
  set (x := mass_to_radius (rho_bar ex_c) (/ 10 ^ 10)) in *. set (y := mass_to_radius (rho_bar ex_c) (10 ^ 4)) in *.
  assert (/ 10 ^ 3 < x < 10 ^ 4) by (split; apply cube_lt; try lra; try (apply Rinv_0_lt_compat; lra); rewrite ?C1; field_simplify; lra).
  assert (/ 10 ^ 3 < y < 10 ^ 4) by (split; apply cube_lt; try lra; try (apply Rinv_0_lt_compat; lra); rewrite ?C2; field_simplify; lra).
  unfold radius_in_spline. destruct (Rle_dec (/ 10 ^ 3) x), (Rle_dec x (10 ^ 4)), (Rle_dec (/ 10 ^ 3) y), (Rle_dec y (10 ^ 4)); try reflexivity; lra.
Qed.
Definition ans_b : (R -> R) -> R -> R -> option R := fun f a b => Some a.
Example C155_nonvacuous : exists t, interpolation_table ans_b (fun S => S) ex_c = Some t /\ hierarchical (splined (fun S => S) ex_c).
Proof. destruct (table_some ans_b (fun S => S) ex_c) as (t & E). intros; eexists; reflexivity. exact ex_radii. exists t. split; [exact E | exact ex_hier]. Qed.

(** * C156: a mass for the halo definition and cosmology in force *)
(** inside the table the overdensity is ignored, whatever the solver returns *)
Theorem C156_the_table_ignores_the_overdensity_refuted : forall brentq spline r t d s b,
  r_interp r = true -> r_table r = None -> interpolation_table brentq spline (r_cosmo r) = Some t -> 0.3 <= s <= 1 -> 0.9 <= b <= 8 ->
  fst (mass brentq spline (set_delta_halo d r) s b) = fst (mass brentq spline r s b).
Proof.
  intros brentq spline r t d s b HI HT E Hs Hb. assert (B : in_box grid [s; b]) by (apply box_spec; auto).
  assert (G : get_table brentq spline r = (Some t, with_table t r)) by (unfold get_table; rewrite HT, E; reflexivity).
  assert (G' : get_table brentq spline (set_delta_halo d r) = (Some t, with_table t (set_delta_halo d r))) by (unfold get_table; cbn [set_delta_halo r_table r_cosmo]; rewrite HT, E; reflexivity).
  rewrite (mass_in brentq spline r t _ _ _ HI G B), (mass_in brentq spline (set_delta_halo d r) t _ _ _ HI G' B). reflexivity.
Qed.
(** after one interpolated query, a change of cosmology has no effect inside the table *)
Theorem C156_the_table_survives_a_new_cosmology_refuted : forall brentq spline r t s0 b0 c s b,
  r_interp r = true -> r_table r = None -> interpolation_table brentq spline (r_cosmo r) = Some t -> 0.3 <= s <= 1 -> 0.9 <= b <= 8 ->
  fst (mass brentq spline (set_cosmo c (snd (mass brentq spline r s0 b0))) s b) = fst (mass brentq spline r s b).
Proof.
  intros brentq spline r t s0 b0 c s b HI HT E Hs Hb. assert (B : in_box grid [s; b]) by (apply box_spec; auto).
  assert (G : get_table brentq spline r = (Some t, with_table t r)) by (unfold get_table; rewrite HT, E; reflexivity).
  assert (Sn : snd (mass brentq spline r s0 b0) = with_table t r). { unfold mass. rewrite HI, G. destruct (call _ _ _ _ _ _) as [[|[m|] l]| |]; reflexivity. }
  rewrite Sn. assert (G' : get_table brentq spline (set_cosmo c (with_table t r)) = (Some t, set_cosmo c (with_table t r))) by reflexivity.
  rewrite (mass_in brentq spline (set_cosmo c (with_table t r)) t _ s b HI G' B), (mass_in brentq spline r t _ _ _ HI G B). reflexivity.
Qed.
(** dense cosmologies: the smallest radius leaves the spline, every interpolated query raises NameError, also outside the table *)
Theorem C156_interpolation_fails_for_dense_cosmologies_refuted : forall brentq spline r s b,
  r_interp r = true -> r_table r = None -> 0 < rho_bar (r_cosmo r) -> 3 * 10 ^ 12 < 4 * PI * rho_bar (r_cosmo r) -> fst (mass brentq spline r s b) = NameErr.
Proof.
  intros brentq spline r s b HI HT HP HD. assert (X : radius_in_spline (mass_to_radius (rho_bar (r_cosmo r)) (/ 10 ^ 10)) = false).
  { unfold radius_in_spline. destruct (Rle_dec (/ 10 ^ 3) _) as [L|L]; [|reflexivity]. exfalso. pose proof (radius_cube (rho_bar (r_cosmo r)) (/ 10 ^ 10) HP ltac:(apply Rinv_0_lt_compat, pos_ten)) as C.
    set (x := mass_to_radius _ _) in *. assert (0 < / 10 ^ 3) by (apply Rinv_0_lt_compat; lra).
    assert (Q : / 10 ^ 3 * / 10 ^ 3 * / 10 ^ 3 <= x * x * x). { apply Rmult_le_compat; [nra | lra | apply Rmult_le_compat; lra | lra]. }
    rewrite C in Q. assert (Z : 3 * / 10 ^ 10 * mass_norm = 3 * 10 ^ 3) by (unfold mass_norm; field_simplify; lra). rewrite Z in Q.
    assert (3 * 10 ^ 3 / (4 * PI * rho_bar (r_cosmo r)) < / 10 ^ 3 * / 10 ^ 3 * / 10 ^ 3); [|lra].
    apply Rmult_lt_reg_r with (4 * PI * rho_bar (r_cosmo r)). lra. unfold Rdiv. rewrite Rmult_assoc, Rinv_l by lra. lra. }
  assert (TE : forall s b, table_entry brentq spline (r_cosmo r) s b = None) by (intros; unfold table_entry; rewrite X; reflexivity).
  assert (N : interpolation_table brentq spline (r_cosmo r) = None).
  { unfold interpolation_table, grid_sigma8, grid_b1, linspace. change 100%nat with (S 99). change 70%nat with (S 69). cbn [seq map all_rows row_entries]. rewrite TE. reflexivity. }
  unfold mass, get_table. rewrite HI, HT, N. reflexivity.
Qed.
(** the model's dispersions: not updated when the cosmology (or interpolate) changes; zero when nothing was found for a bias in [0.9, 8] *)
Theorem C156_dispersions_ignore_a_new_cosmology_refuted : forall brentq spline g c i s0 b0 s b,
  let g' := snd (sigmav_from_bias brentq spline g s0 b0) in
  fst (sigmav_from_bias brentq spline (gal_set_cosmo c (gal_set_interp i g')) s b) = fst (sigmav_from_bias brentq spline g' s b).
Proof.
  intros brentq spline g c i s0 b0 s b g'. assert (K : get_rel (gal_set_cosmo c (gal_set_interp i g')) = get_rel g').
  { assert (R0 : exists r, g_rel g' = Some r).
    { unfold g', sigmav_from_bias. destruct (sigmav brentq spline (get_rel g) s0 b0) as [[v| |] r]; [eexists; reflexivity| |];
      (destruct (Rlt_dec b0 (9/10)); [destruct (sigmav brentq spline r s0 (9/10)); eexists; reflexivity|]; destruct (Rlt_dec 8 b0); [destruct (sigmav brentq spline r s0 8); eexists; reflexivity | eexists; reflexivity]). }
    destruct R0 as (r & E). unfold get_rel, gal_set_cosmo, gal_set_interp. cbn [g_rel]. rewrite E. reflexivity. }
  unfold sigmav_from_bias. rewrite K. destruct (sigmav brentq spline (get_rel g') s b) as [[v| |] r]; [reflexivity| |];
  (destruct (Rlt_dec b (9/10)); [destruct (sigmav brentq spline r s (9/10)); reflexivity|]; destruct (Rlt_dec 8 b); [destruct (sigmav brentq spline r s 8); reflexivity | reflexivity]).
Qed.
Theorem C156_zero_dispersion_on_failure_refuted : forall brentq spline g s b, 0.9 <= b <= 8 -> (forall v, fst (sigmav brentq spline (get_rel g) s b) <> Value v) ->
  fst (sigmav_from_bias brentq spline g s b) = Value 0.
Proof.
  intros brentq spline g s b Hb H. unfold sigmav_from_bias. destruct (sigmav brentq spline (get_rel g) s b) as [[v| |] r]; cbn [fst] in H; [destruct (H v eq_refl)| |];
  (destruct (Rlt_dec b (9/10)); [lra|]; destruct (Rlt_dec 8 b); [lra|]; reflexivity).
Qed.
Print Assumptions C156_the_table_ignores_the_overdensity_refuted.
Print Assumptions C156_the_table_survives_a_new_cosmology_refuted.
Print Assumptions C156_interpolation_fails_for_dense_cosmologies_refuted.
Print Assumptions C156_dispersions_ignore_a_new_cosmology_refuted.
Print Assumptions C156_zero_dispersion_on_failure_refuted.
(** failures happen: a target the bracket does not contain *)
Example C156_failure_case : forall spline, exists b, fst (mass bisect spline (new_relation 0 ex_c false None None) 1 b) = ValueErr.
Proof.
  intros spline. set (m := tinker_2010 200 (1.686 * 100) + 1).
  exists m. pose proof (C153_the_returned_mass_has_the_requested_bias 0 bisect spline (new_relation 0 ex_c false None None) 1 m bisect_finds_roots ex_hier eq_refl ltac:(lra)) as H.
  destruct (mass _ _ _ _ _) as [[M| |] r']; [| reflexivity | destruct H]. exfalso.
  destruct H as (_ & _ & M' & _ & B & HB). cbn [r_cosmo r_delta_halo new_relation] in HB.
  pose proof (ex_bias 200 100 ltac:(lra)) as B6. replace (100 * 100 * 100 * 10 ^ 10) with (10 ^ 16) in B6 by ring.
  pose proof (tinker_increasing 200 2 (1.686 * 100) ltac:(lra) ltac:(lra) ltac:(lra)). pose proof ex_two.
  assert (O1 : 1 <= tinker_2010 200 (1.686 * 100) <= m) by (unfold m; lra).
  destruct (mass_increasing ex_c 200 1 1 (tinker_2010 200 (1.686 * 100)) m (10 ^ 16) M' ex_hier) as (_ & L); auto; try lra. assert (10 ^ 16 < M'); [|lra]. apply L. right. unfold m. lra.
Qed.
