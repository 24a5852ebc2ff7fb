From Coq Require Import String Reals List Arith Lia Lra Bool.
Import ListNotations.
From Verif Require Import M_Transfer S_Transfer P_Transfer.
Set Implicit Arguments.

Lemma map2_map : forall A B C D (f : B -> C -> D) (a : A -> B) (b : A -> C) l, map2 f (map a l) (map b l) = map (fun x => f (a x) (b x)) l.
Proof. induction l; simpl; auto. rewrite IHl; auto. Qed.

(** ** the power array *)
Lemma set_power_flat : forall g (F : nat -> num), grid_wf g ->
  set_power g (PFlat (map F (NP g))) = Ok (scatter (notnull g) (map F (NP g))).
Proof.
  intros. unfold set_power. rewrite map_length. unfold NP. rewrite positions_length, Nat.eqb_refl. auto.
Qed.
Lemma flat_positions : forall g (F : R -> R -> R), grid_wf g ->
  map2 (fun k mu => Some (F k mu)) (flatk g) (flatmu g) = map (fun p => Some (F (nth p (g_k g) 0%R) (nth p (g_mu g) 0%R))) (NP g).
Proof.
  intros g F wf. unfold flatk, flatmu. pose proof (notnull_length wf). destruct wf as (W1 & W2 & W3 & W4).
  rewrite (gather_positions 0%R) by congruence. rewrite (gather_positions 0%R) by congruence. rewrite map2_map. auto.
Qed.
Lemma set_power_grid : forall g l, grid_wf g -> length l = g_nk g * g_nmu g ->
  set_power g (PGrid l) = Ok (scatter (notnull g) (map (fun p => nth p l None) (NP g))).
Proof.
  intros g l wf Hl. unfold set_power. pose proof (notnull_length wf). destruct wf as (W1 & W2 & W3 & W4).
  rewrite Hl, W4, Nat.eqb_refl. rewrite (gather_positions (None : num)) by congruence. auto.
Qed.
Lemma notnull_modes : forall g p, nth p (notnull g) false = true -> exists m, nth p (g_modes g) None = Some m /\ (0 < m)%R.
Proof.
  intros g p. unfold notnull. change false with (notnull1 None). rewrite map_nth. unfold notnull1, ltb_R. destruct (nth p (g_modes g) None); try discriminate.
  destruct (Rlt_dec 0 r); try discriminate. eauto.
Qed.

Definition modeR (g : grid) (p : nat) : R := match nth p (g_modes g) None with Some m => m | None => 0%R end.
Lemma modeR_pos : forall g p, nth p (notnull g) false = true -> nth p (g_modes g) None = Some (modeR g p) /\ (0 < modeR g p)%R.
Proof. intros. destruct (notnull_modes _ _ H) as (m & E & L). unfold modeR. rewrite E. auto. Qed.
Lemma rsum_pos : forall w l, (forall p, In p l -> (0 < w p)%R) -> (0 <= rsum w l)%R /\ (l <> [] -> (0 < rsum w l)%R).
Proof.
  induction l; intros; simpl.
  - split; [lra|congruence].
  - destruct IHl as [A _]; [intros; apply H; right; auto|]. specialize (H a (or_introl eq_refl)). split; intros; lra.
Qed.

Section Avg.
Variable g : grid.
Hypothesis wf : grid_wf g.
Variable b : list (R * R).
Variable d : list num.
Variable F : nat -> R.
Hypothesis Hd : length d = g_nk g * g_nmu g.
Hypothesis HF : forall p, p < g_nk g * g_nmu g -> nth p (notnull g) false = true -> nth p d None = Some (F p).

Lemma sum_shape2 : forall d', length (sum_mu g (ravel2 b) d') = g_nk g /\ (forall i, i < g_nk g -> b <> [] -> length (nth i (sum_mu g (ravel2 b) d') []) = length b).
Proof.
  intros. destruct (sum_mu_shape g (ravel2 b) d') as [A B]. split; auto. intros i Hi Hb. rewrite B by auto.
  unfold ncols. rewrite ravel2_length. destruct b; [congruence|]. simpl length.
  replace (2 * S (length l) - 1 + 2 - 2 + 1) with (S (length l) * 2) by lia. apply Nat.div_mul. lia.
Qed.
Lemma average_shape : length (average g (ravel2 b) d (g_modes g)) = g_nk g /\
  (forall i, i < g_nk g -> b <> [] -> length (nth i (average g (ravel2 b) d (g_modes g)) []) = length b).
Proof.
  unfold average. destruct (sum_shape2 (map2 nmul d (g_modes g))) as [A1 A2]. destruct (sum_shape2 (g_modes g)) as [B1 B2].
  split.
  - rewrite map2_length, A1, B1. lia.
  - intros i Hi Hb. rewrite (nth_map2 _ _ _ [] []) by lia. rewrite map2_length, A2, B2; auto. lia.
Qed.
Lemma average_cell : forall i j, i < g_nk g -> j < length b ->
  nth j (nth i (average g (ravel2 b) d (g_modes g)) []) None =
  match cell g b i j with [] => None | _ => Some (wmean (modeR g) F (cell g b i j)) end.
Proof.
  intros i j Hi Hj. assert (Hb : b <> []) by (destruct b; simpl in *; [lia|congruence]).
  unfold average. destruct (sum_shape2 (map2 nmul d (g_modes g))) as [A1 A2]. destruct (sum_shape2 (g_modes g)) as [B1 B2].
  rewrite (nth_map2 _ _ _ [] []) by lia. rewrite (nth_map2 _ _ _ (None:num) (None:num)) by (rewrite ?A2, ?B2; auto).
  assert (W4 : length (g_modes g) = g_nk g * g_nmu g) by apply wf.
  rewrite (nth_sum_mu wf) by (auto; rewrite map2_length, Hd, W4; lia).
  rewrite (nth_sum_mu wf) by auto.
  assert (HP : forall p, In p (cell g b i j) -> p < g_nk g * g_nmu g /\ nth p (notnull g) false = true).
  { intros p Hp. unfold cell in Hp. apply filter_In in Hp. destruct Hp as [Hp _]. apply in_positions in Hp. rewrite (notnull_length wf) in Hp. auto. }
  rewrite (@nsum_rsum _ (fun p => modeR g p * F p)%R).
  2:{ intros p Hp. destruct (HP _ Hp). rewrite (nth_map2 _ _ _ (None:num) (None:num)) by lia. rewrite HF by auto.
      rewrite (proj1 (modeR_pos g p H0)). simpl. f_equal. ring. }
  rewrite (@nsum_rsum _ (modeR g)).
  2:{ intros p Hp. destruct (HP _ Hp). apply (modeR_pos g p H0). }
  simpl ndiv. destruct (@rsum_pos (modeR g) (cell g b i j)) as [_ P].
  { intros p Hp. apply modeR_pos. apply HP; auto. }
  destruct (cell g b i j) eqn:E.
  - simpl. destruct (Req_EM_T 0 0); auto; lra.
  - rewrite <- E in *. assert (cell g b i j <> []) by congruence. destruct (Req_EM_T (rsum (modeR g) (cell g b i j)) 0) as [Z|Z]; [specialize (P H); lra|]. reflexivity.
Qed.
End Avg.

(** ** the k-range mask and the final checks *)
Definition in_range (g : grid) (kmin kmax : list (option R)) (i j : nat) : bool :=
  geb (nth i (g_kcen g) 0%R) (nth j kmin None) && leb_o (nth i (g_kcen g) 0%R) (nth j kmax None).
Lemma nth_mask : forall g kmin kmax n i j, length (g_kcen g) = g_nk g -> length kmin = n -> length kmax = n -> i < g_nk g -> j < n ->
  nth j (nth i (in_k_range g kmin kmax) []) false = in_range g kmin kmax i j.
Proof.
  intros. unfold in_k_range.
  rewrite (nth_indep _ [] ((fun k => map2 (fun lo hi => geb k lo && leb_o k hi) kmin kmax) 0%R)) by (rewrite map_length; lia).
  rewrite (map_nth (fun k => map2 (fun lo hi => geb k lo && leb_o k hi) kmin kmax)). rewrite (nth_map2 _ _ _ (None:option R) (None:option R)) by lia. auto.
Qed.
Definition shaped {A} (n m : nat) (M : list (list A)) : Prop := length M = n /\ forall i, i < n -> length (nth i M []) = m.
Lemma mask_shape : forall g kmin kmax n, length (g_kcen g) = g_nk g -> length kmin = n -> length kmax = n -> shaped (g_nk g) n (in_k_range g kmin kmax).
Proof.
  intros. unfold in_k_range. split; [rewrite map_length; auto|]. intros i Hi.
  rewrite (nth_indep _ [] ((fun k => map2 (fun lo hi => geb k lo && leb_o k hi) kmin kmax) 0%R)) by (rewrite map_length; lia).
  rewrite (map_nth (fun k => map2 (fun lo hi => geb k lo && leb_o k hi) kmin kmax)), map2_length. lia.
Qed.
Lemma nth_map2_map2 : forall A B C (f : A -> B -> C) n m M M' i j a b c, shaped n m M -> shaped n m M' -> i < n -> j < m ->
  nth j (nth i (map2 (map2 f) M M') []) c = f (nth j (nth i M []) a) (nth j (nth i M' []) b).
Proof.
  intros A B C f n m M M' i j a b c [S1 S2] [T1 T2] Hi Hj. rewrite (nth_map2 _ _ _ [] []) by lia.
  rewrite (nth_map2 _ _ _ a b) by (rewrite ?S2, ?T2; auto). auto.
Qed.
Lemma map2_shape : forall A B C (f : A -> B -> C) n m M M', shaped n m M -> shaped n m M' -> shaped n m (map2 (map2 f) M M').
Proof.
  intros A B C f n m M M' [S1 S2] [T1 T2]. split; [rewrite map2_length; lia|]. intros i Hi.
  rewrite (nth_map2 _ _ _ [] []) by lia. rewrite map2_length, S2, T2; auto. lia.
Qed.
Lemma existsb_concat : forall (M : list (list bool)) n m, shaped n m M ->
  (existsb (fun x => x) (concat M) = true <-> exists i j, i < n /\ j < m /\ nth j (nth i M []) false = true).
Proof.
  intros M n m [S1 S2]. rewrite existsb_exists. split.
  - intros (x & H & E). apply in_concat in H. destruct H as (l & Hl & Hx). destruct (In_nth _ _ [] Hl) as (i & Hi & Ei).
    destruct (In_nth _ _ false Hx) as (j & Hj & Ej). exists i, j. rewrite <- Ei in Hj. rewrite S2 in Hj by lia. rewrite Ei, Ej. repeat split; auto; lia.
  - intros (i & j & Hi & Hj & E). exists true. split; auto. apply in_concat. exists (nth i M []). split; [apply nth_In; lia|].
    rewrite <- E. apply nth_In. rewrite S2; auto.
Qed.
Lemma finish_ok : forall msg mask (out : list (list num)) n m, shaped n m mask -> shaped n m out ->
  (forall i j, i < n -> j < m -> nth j (nth i mask []) false = true -> nth j (nth i out []) None <> None) ->
  exists M, finish msg mask out = Ok M /\ shaped n m M /\
   forall i j, i < n -> j < m -> nth j (nth i M []) None = if nth j (nth i mask []) false then nth j (nth i out []) None else None.
Proof.
  intros msg mask out n m Sm So H. unfold finish.
  destruct (existsb _ _) eqn:E.
  - apply (@existsb_concat _ n m) in E; [|apply map2_shape; auto]. destruct E as (i & j & Hi & Hj & E).
    rewrite (@nth_map2_map2 _ _ _ _ n m _ _ i j false (None:num)) in E by auto. apply andb_true_iff in E. destruct E as [E1 E2].
    exfalso. apply (H i j Hi Hj E1). destruct (nth j (nth i out []) None); [discriminate|auto].
  - eexists. split; [reflexivity|]. split; [apply map2_shape; auto|]. intros i j Hi Hj.
    rewrite (@nth_map2_map2 _ _ _ _ n m _ _ i j false (None:num)) by auto. auto.
Qed.
Lemma finish_err : forall msg mask (out : list (list num)) n m i j, shaped n m mask -> shaped n m out ->
  i < n -> j < m -> nth j (nth i mask []) false = true -> nth j (nth i out []) None = None -> finish msg mask out = ValueError msg.
Proof.
  intros. unfold finish.
  assert (existsb (fun x => x) (concat (map2 (map2 (fun b v => b && isnull v)) mask out)) = true) as ->; auto.
  apply (@existsb_concat _ n m); [apply map2_shape; auto|]. exists i, j. repeat split; auto.
  rewrite (@nth_map2_map2 _ _ _ _ n m _ _ i j false (None:num)) by auto. rewrite H3, H4. auto.
Qed.

Lemma forallb_isnull_scatter : forall g (F : nat -> R), grid_wf g -> NP g <> [] -> forallb isnull (scatter (notnull g) (map (fun p => Some (F p)) (NP g))) = false.
Proof.
  intros g F wf H. destruct (forallb _ _) eqn:E; auto. exfalso. destruct (NP g) as [|p l] eqn:EN; [congruence|].
  assert (Hp : In p (NP g)) by (rewrite EN; left; auto). rewrite <- EN in E.
  pose proof Hp as Hp'. apply in_positions in Hp'. destruct Hp' as [A B].
  rewrite forallb_forall in E. specialize (E (nth p (scatter (notnull g) (map (fun p => Some (F p)) (NP g))) None)).
  rewrite (nth_scatter (notnull g) (fun p => Some (F p))) in E by auto. rewrite B in E. simpl in E. discriminate E. 
  replace (Some (F p)) with (nth p (scatter (notnull g) (map (fun p => Some (F p)) (NP g))) None).
  - apply nth_In. rewrite scatter_length. auto.
  - unfold NP. rewrite (nth_scatter (notnull g) (fun p => Some (F p))) by auto. rewrite B. auto.
Qed.

(** ** wedges *)
Section Wedge.
Variables (g : grid) (b : list (R * R)) (kmin kmax : list (option R)) (F : nat -> R).
Hypothesis wf : grid_wf g.
Hypothesis Hb : b <> [].
Hypothesis Hmin : length kmin = length b.
Hypothesis Hmax : length kmax = length b.
Hypothesis Hne : NP g <> [].
Hypothesis Ho : ordered b.
Let P := scatter (notnull g) (map (fun p => Some (F p)) (NP g)).
Let mask := in_k_range g kmin kmax.
Let out := average g (ravel2 b) P (g_modes g).
Lemma wedge_unfold : wedge_call g b kmin kmax (PFlat (map (fun p => Some (F p)) (NP g))) =
  finish "NaN values in GriddedWedgeTransfer result within valid k range!" mask out.
Proof.
  unfold wedge_call. rewrite set_power_flat by auto. cbn [bind]. rewrite forallb_isnull_scatter by auto.
  unfold mu_edges. rewrite (proj2 (nondecr_ordered b) Ho). cbn [bind]. auto.
Qed.
Lemma P_length : length P = g_nk g * g_nmu g.
Proof. unfold P. rewrite scatter_length. apply (notnull_length wf). Qed.
Lemma P_nth : forall p, p < g_nk g * g_nmu g -> nth p (notnull g) false = true -> nth p P None = Some (F p).
Proof. intros p Hp E. unfold P, NP. rewrite (nth_scatter (notnull g) (fun p => Some (F p))) by (rewrite (notnull_length wf); auto). rewrite E. auto. Qed.
Lemma out_nth : forall i j, i < g_nk g -> j < length b -> nth j (nth i out []) None =
  match cell g b i j with [] => None | _ => Some (wmean (modeR g) F (cell g b i j)) end.
Proof. intros. apply average_cell; auto. apply P_length. apply P_nth. Qed.
Lemma out_shape : shaped (g_nk g) (length b) out.
Proof. destruct (average_shape g b P P_length). split; auto. Qed.
Lemma mask_shape' : shaped (g_nk g) (length b) mask.
Proof. apply mask_shape; auto. apply wf. Qed.
Lemma mask_nth : forall i j, i < g_nk g -> j < length b -> nth j (nth i mask []) false = in_range g kmin kmax i j.
Proof. intros. apply nth_mask with (n := length b); auto. apply wf. Qed.

Lemma wedge_ok : (forall i j, i < g_nk g -> j < length b -> in_range g kmin kmax i j = true -> cell g b i j <> []) ->
  exists M, wedge_call g b kmin kmax (PFlat (map (fun p => Some (F p)) (NP g))) = Ok M /\ shaped (g_nk g) (length b) M /\
  forall i j, i < g_nk g -> j < length b -> nth j (nth i M []) None = if in_range g kmin kmax i j then Some (wmean (modeR g) F (cell g b i j)) else None.
Proof.
  intros H. rewrite wedge_unfold.
  destruct (@finish_ok "NaN values in GriddedWedgeTransfer result within valid k range!" mask out (g_nk g) (length b) mask_shape' out_shape) as (M & E & S & V).
  - intros i j Hi Hj. rewrite mask_nth, out_nth by auto. intros R. specialize (H i j Hi Hj R). destruct (cell g b i j); congruence.
  - exists M. repeat split; try apply S; auto. intros i j Hi Hj. rewrite V by auto. rewrite mask_nth, out_nth by auto.
    destruct (in_range g kmin kmax i j) eqn:R; auto. specialize (H i j Hi Hj R). destruct (cell g b i j); congruence.
Qed.
Lemma wedge_err : forall i j, i < g_nk g -> j < length b -> in_range g kmin kmax i j = true -> cell g b i j = [] ->
  wedge_call g b kmin kmax (PFlat (map (fun p => Some (F p)) (NP g))) = ValueError "NaN values in GriddedWedgeTransfer result within valid k range!".
Proof.
  intros i j Hi Hj R E. rewrite wedge_unfold. apply finish_err with (n := g_nk g) (m := length b) (i := i) (j := j); auto using mask_shape', out_shape.
  - rewrite mask_nth; auto.
  - rewrite out_nth by auto. rewrite E. auto.
Qed.
End Wedge.
Lemma wedge_unordered : forall g b kmin kmax (F : nat -> R), grid_wf g -> NP g <> [] -> ~ ordered b ->
  wedge_call g b kmin kmax (PFlat (map (fun p => Some (F p)) (NP g))) = ValueError "specified `mu` bounds are not monotonically increasing".
Proof.
  intros g b kmin kmax F wf Hne Ho. unfold wedge_call. rewrite set_power_flat by auto. cbn [bind]. rewrite forallb_isnull_scatter by auto.
  unfold mu_edges. destruct (nondecr (ravel2 b)) eqn:E; auto. apply nondecr_ordered in E. tauto.
Qed.

(** ** multipoles *)
Definition polefac (g : grid) (ell : nat) (F : nat -> R) (p : nat) : R := ((2 * INR ell + 1) * legendre ell (nth p (g_mu g) 0) * F p)%R.
Lemma pole_bounds_ordered : ordered pole_bounds.
Proof.
  unfold pole_bounds, set_bounds. simpl. destruct (isclose1 1); simpl; split; auto; lra.
Qed.
Lemma isclose1_1 : isclose1 1 = true.
Proof. unfold isclose1. apply leb_R_true. replace (1 - 1)%R with 0%R by ring. rewrite Rabs_R0. lra. Qed.
Lemma pole_bounds_eq : pole_bounds = [(0, 1.0005 * 1)%R].
Proof. unfold pole_bounds, set_bounds. simpl. rewrite isclose1_1. auto. Qed.
Lemma concat_single : forall A n (M : list (list A)), shaped n 1 M -> length (concat M) = n /\ forall i d, i < n -> nth i (concat M) d = nth 0 (nth i M []) d.
Proof.
  intros A n M. revert n. induction M as [|r M]; intros n [S1 S2]; simpl in S1; subst n.
  - split; auto. intros; lia.
  - pose proof (S2 0 ltac:(simpl; lia)) as R. simpl in R. destruct r as [|x [|]]; simpl in R; try lia.
    destruct (IHM (length M)) as [A1 A2]. { split; auto. intros i Hi. apply (S2 (S i)). simpl. lia. }
    split; [simpl; auto|]. intros i d Hi. destruct i; auto. cbn [concat app nth]. apply A2. simpl in Hi. lia.
Qed.

Section Poles.
Variables (g : grid) (ells : list nat) (kmin kmax : list (option R)) (F : nat -> R).
Hypothesis wf : grid_wf g.
Hypothesis Hnk : g_nk g <> 1.
Hypothesis Hmin : length kmin = length ells.
Hypothesis Hmax : length kmax = length ells.
Hypothesis Hne : NP g <> [].
Let P := scatter (notnull g) (map (fun p => Some (F p)) (NP g)).
Let mask := in_k_range g kmin kmax.
Let cols := map (fun ell => concat (average g (ravel2 pole_bounds) (tobin g ell P) (g_modes g))) ells.
Let out := transpose_cols (g_nk g) cols.
Lemma poles_unfold : poles_call g ells kmin kmax (PFlat (map (fun p => Some (F p)) (NP g))) =
  finish "NaN values in GriddedMultipoleTransfer result within valid k range!" mask out.
Proof.
  unfold poles_call. rewrite set_power_flat by auto. cbn [bind]. rewrite forallb_isnull_scatter by auto.
  unfold mu_edges. rewrite (proj2 (nondecr_ordered _) pole_bounds_ordered). cbn [bind]. rewrite (proj2 (Nat.eqb_neq _ _) Hnk). auto.
Qed.
Lemma Pl_length : length P = g_nk g * g_nmu g.
Proof. unfold P. rewrite scatter_length. apply (notnull_length wf). Qed.
Lemma tobin_length : forall ell, length (tobin g ell P) = g_nk g * g_nmu g.
Proof. intros. unfold tobin. rewrite map2_length, Pl_length. destruct wf as (_ & _ & -> & _). lia. Qed.
Lemma tobin_nth : forall ell p, p < g_nk g * g_nmu g -> nth p (notnull g) false = true -> nth p (tobin g ell P) None = Some (polefac g ell F p).
Proof.
  intros ell p Hp E. unfold tobin. rewrite (nth_map2 _ _ _ 0%R (None:num)) by (rewrite ?Pl_length; destruct wf as (_ & _ & W & _); rewrite ?W; auto).
  unfold P, NP. rewrite (nth_scatter (notnull g) (fun p => Some (F p))) by (rewrite (notnull_length wf); auto). rewrite E. auto.
Qed.
Lemma pole_out_shape : shaped (g_nk g) (length ells) out.
Proof.
  unfold out, transpose_cols. split; [rewrite map_length, seq_length; auto|]. intros i Hi.
  rewrite (nth_indep _ [] (map (fun c => nth 0 c None) cols)) by (rewrite map_length, seq_length; auto).
  rewrite (map_nth (fun i => map (fun c => nth i c None) cols)), map_length. unfold cols. apply map_length.
Qed.
Lemma pole_out_nth : forall i j, i < g_nk g -> j < length ells -> nth j (nth i out []) None =
  match cell g pole_bounds i 0 with [] => None | _ => Some (wmean (modeR g) (polefac g (nth j ells 0) F) (cell g pole_bounds i 0)) end.
Proof.
  intros i j Hi Hj. unfold out, transpose_cols.
  rewrite (nth_indep _ [] (map (fun c => nth 0 c None) cols)) by (rewrite map_length, seq_length; auto).
  rewrite (map_nth (fun i => map (fun c => nth i c None) cols)). rewrite seq_nth by auto. simpl (0 + i). unfold cols. rewrite map_map.
  set (h := fun x => nth i (concat (average g (ravel2 pole_bounds) (tobin g x P) (g_modes g))) None).
  rewrite (nth_indep _ None (h 0)) by (rewrite map_length; auto). rewrite map_nth. unfold h.
  assert (S : shaped (g_nk g) 1 (average g (ravel2 pole_bounds) (tobin g (nth j ells 0) P) (g_modes g))).
  { destruct (average_shape g pole_bounds (tobin g (nth j ells 0) P) (tobin_length _)) as [A B]. split; auto. intros i0 Hi0. rewrite B by (auto; discriminate). reflexivity. }
  destruct (concat_single S) as [_ V]. rewrite V by auto.
  apply average_cell; auto using tobin_length. apply tobin_nth.
Qed.
Lemma poles_ok : (forall i j, i < g_nk g -> j < length ells -> in_range g kmin kmax i j = true -> cell g pole_bounds i 0 <> []) ->
  exists M, poles_call g ells kmin kmax (PFlat (map (fun p => Some (F p)) (NP g))) = Ok M /\ shaped (g_nk g) (length ells) M /\
  forall i j, i < g_nk g -> j < length ells -> nth j (nth i M []) None =
    if in_range g kmin kmax i j then Some (wmean (modeR g) (polefac g (nth j ells 0) F) (cell g pole_bounds i 0)) else None.
Proof.
  intros H. rewrite poles_unfold.
  assert (MS : shaped (g_nk g) (length ells) mask) by (apply mask_shape; auto; apply wf).
  assert (MN : forall i j, i < g_nk g -> j < length ells -> nth j (nth i mask []) false = in_range g kmin kmax i j) by (intros; apply nth_mask with (n := length ells); auto; apply wf).
  destruct (@finish_ok "NaN values in GriddedMultipoleTransfer result within valid k range!" mask out (g_nk g) (length ells) MS pole_out_shape) as (M & E & S & V).
  - intros i j Hi Hj. rewrite MN, pole_out_nth by auto. intros R. specialize (H i j Hi Hj R). destruct (cell g pole_bounds i 0); congruence.
  - exists M. repeat split; try apply S; auto. intros i j Hi Hj. rewrite V by auto. rewrite MN, pole_out_nth by auto.
    destruct (in_range g kmin kmax i j) eqn:R; auto. specialize (H i j Hi Hj R). destruct (cell g pole_bounds i 0); congruence.
Qed.
End Poles.

(** ** weighted means *)
Lemma rsum_ext : forall f h l, (forall p, In p l -> f p = h p) -> rsum f l = rsum h l.
Proof. induction l; simpl; intros; auto. rewrite H by auto. rewrite IHl; auto. Qed.
Lemma rsum_scal : forall c f l, rsum (fun p => c * f p)%R l = (c * rsum f l)%R.
Proof. induction l; simpl; [ring|]. rewrite IHl. ring. Qed.
Lemma rsum_plus : forall f h l, rsum (fun p => f p + h p)%R l = (rsum f l + rsum h l)%R.
Proof. induction l; simpl; [ring|]. rewrite IHl. ring. Qed.
Lemma wmean_const : forall w c l, (forall p, In p l -> (0 < w p)%R) -> l <> [] -> wmean w (fun _ => c) l = c.
Proof.
  intros. unfold wmean. rewrite (rsum_ext _ (fun p => c * w p)%R) by (intros; ring). rewrite rsum_scal.
  destruct (rsum_pos w l H) as [_ P]. specialize (P H0). field. lra.
Qed.
Lemma rsum_le : forall f h l, (forall p, In p l -> (f p <= h p)%R) -> (rsum f l <= rsum h l)%R.
Proof. induction l; simpl; intros; [lra|]. specialize (IHl (fun p Hp => H p (or_intror Hp))). specialize (H a (or_introl eq_refl)). lra. Qed.
Lemma wmean_bounds : forall w f l lo hi, (forall p, In p l -> (0 < w p)%R) -> l <> [] -> (forall p, In p l -> (lo <= f p <= hi)%R) ->
  (lo <= wmean w f l <= hi)%R.
Proof.
  intros w f l lo hi Hw Hl H. destruct (rsum_pos w l Hw) as [_ P]. specialize (P Hl). unfold wmean.
  assert (lo * rsum w l <= rsum (fun p => w p * f p) l <= hi * rsum w l)%R.
  { rewrite <- !rsum_scal. split; apply rsum_le; intros p Hp; specialize (H p Hp); specialize (Hw p Hp); nra. }
  split.
  - apply Rmult_le_reg_r with (rsum w l); auto. replace (rsum (fun p => w p * f p) l / rsum w l * rsum w l)%R with (rsum (fun p => w p * f p) l)%R by (field; lra). lra.
  - apply Rmult_le_reg_r with (rsum w l); auto. replace (rsum (fun p => w p * f p) l / rsum w l * rsum w l)%R with (rsum (fun p => w p * f p) l)%R by (field; lra). lra.
Qed.
Lemma wmean_linear : forall w f h a c l, wmean w (fun p => a * f p + c * h p)%R l = (a * wmean w f l + c * wmean w h l)%R.
Proof.
  intros. unfold wmean. rewrite (rsum_ext _ (fun p => a * (w p * f p) + c * (w p * h p))%R) by (intros; ring). rewrite rsum_plus, !rsum_scal.
  unfold Rdiv. ring.
Qed.

(** ** each point belongs to one wedge *)
Lemma inside_from : forall b y x d, ordered_from y b -> (exists j, j < length b /\ inside (nth j b d) x) -> (y <= x)%R.
Proof.
  induction b as [|[lo hi] b]; intros y x d H (j & Hj & I); [simpl in Hj; lia|]. simpl in H. destruct H as (A & B & C).
  destruct j; [unfold inside in I; simpl in I; lra|]. apply (IHb hi x d) in C; [lra|]. exists j. simpl in Hj, I. split; auto. lia.
Qed.
Lemma inside_unique_from : forall b y x d i j, ordered_from y b -> i < length b -> j < length b -> inside (nth i b d) x -> inside (nth j b d) x -> i = j.
Proof.
  induction b as [|[lo hi] b]; intros y x d i j H Hi Hj A B; [simpl in Hi; lia|]. simpl in H, Hi, Hj. destruct H as (L1 & L2 & L3).
  destruct i, j; auto; simpl in A, B.
  - assert (hi <= x)%R by (apply (@inside_from b hi x d L3); exists j; split; [lia|auto]). unfold inside in A; simpl in A. lra.
  - assert (hi <= x)%R by (apply (@inside_from b hi x d L3); exists i; split; [lia|auto]). unfold inside in B; simpl in B. lra.
  - f_equal. apply (IHb hi x d); auto; lia.
Qed.
Lemma inside_unique : forall b x d i j, ordered b -> i < length b -> j < length b -> inside (nth i b d) x -> inside (nth j b d) x -> i = j.
Proof. intros. destruct (ordered_ordered_from b H) as [y Hy]. eapply inside_unique_from; eauto. Qed.
Lemma contiguous_cover : forall b x y mu d, contiguous_from x b y -> (x <= mu < y)%R -> exists j, j < length b /\ inside (nth j b d) mu.
Proof.
  induction b as [|[lo hi] b]; intros x y mu d H L; simpl in H; [lra|]. destruct H as (-> & A & B).
  destruct (Rlt_le_dec mu hi).
  - exists 0. simpl. split; [lia|]. unfold inside; simpl. lra.
  - destruct (IHb hi y mu d B ltac:(lra)) as (j & Hj & I). exists (S j). simpl. split; [lia|auto].
Qed.
Lemma contiguous_ordered : forall b x y, contiguous_from x b y -> ordered_from x b.
Proof. induction b as [|[lo hi] b]; intros; simpl in *; auto. destruct H as (-> & A & B). repeat split; auto; try lra. eapply IHb; eauto. Qed.

(** summing over disjoint classes *)
Fixpoint rsumr (f : nat -> R) (n : nat) : R := match n with 0 => 0%R | S m => (rsumr f m + f m)%R end.
Lemma rsumr_ext : forall f h n, (forall i, i < n -> f i = h i) -> rsumr f n = rsumr h n.
Proof. induction n; simpl; intros; auto. rewrite IHn by auto. rewrite H; auto. Qed.
Lemma rsumr_plus : forall f h n, rsumr (fun i => f i + h i)%R n = (rsumr f n + rsumr h n)%R.
Proof. induction n; simpl; [ring|]. rewrite IHn. ring. Qed.
Lemma rsumr_zero : forall f n, (forall i, i < n -> f i = 0%R) -> rsumr f n = 0%R.
Proof. induction n; simpl; intros; auto. rewrite IHn by auto. rewrite H by auto. ring. Qed.
Lemma rsumr_single : forall f n k, k < n -> (forall i, i < n -> i <> k -> f i = 0%R) -> rsumr f n = f k.
Proof.
  induction n; simpl; intros; [lia|]. destruct (Nat.eq_dec k n).
  - subst. rewrite rsumr_zero by (intros; apply H0; lia). ring.
  - rewrite (IHn k) by (auto; lia). rewrite (H0 n) by lia. ring.
Qed.
Lemma rsum_classes : forall (c : nat -> nat) (f : nat -> R) n l, (forall p, In p l -> c p < n) ->
  rsumr (fun j => rsum f (filter (fun p => c p =? j) l)) n = rsum f l.
Proof.
  induction l; intros; simpl.
  - apply rsumr_zero; auto.
  - rewrite <- IHl by (intros; apply H; right; auto). clear IHl. assert (Hc : c a < n) by (apply H; left; auto).
    transitivity (rsumr (fun j => (if c a =? j then f a else 0) + rsum f (filter (fun p => c p =? j) l))%R n).
    { apply rsumr_ext. intros j Hj. destruct (c a =? j); simpl; ring. }
    rewrite rsumr_plus. f_equal. rewrite (@rsumr_single _ n (c a)); auto.
    + rewrite Nat.eqb_refl. auto.
    + intros i Hi Hn. destruct (c a =? i) eqn:E; auto. apply Nat.eqb_eq in E. congruence.
Qed.

(** points of row i with defined modes *)
Definition row_points (g : grid) (i : nat) : list nat := filter (fun p => p / g_nmu g =? i) (NP g).
Lemma wedges_partition_row : forall g b i (f : nat -> R) x y, grid_wf g -> contiguous_from x b y ->
  (forall p, In p (row_points g i) -> (x <= nth p (g_mu g) 0 < y)%R) ->
  rsumr (fun j => rsum f (cell g b i j)) (length b) = rsum f (row_points g i).
Proof.
  intros g b i f x y wf C H.
  set (dg := fun p => digitize (nth p (g_mu g) 0%R) (ravel2 b)).
  assert (O : ordered_from x b) by (eapply contiguous_ordered; eauto).
  assert (K : forall p, In p (row_points g i) -> exists j, j < length b /\ dg p = 2 * j + 1).
  { intros p Hp. destruct (@contiguous_cover b x y _ (0, 0)%R C (H p Hp)) as (j & Hj & I). exists j. split; auto.
    unfold dg. apply (@digitize_wedge_from b x _ j (0, 0)%R O Hj). auto. }
  rewrite <- (@rsum_classes (fun p => (dg p - 1) / 2) f (length b) (row_points g i)).
  - apply rsumr_ext. intros j Hj. f_equal. unfold cell, row_points. rewrite filter_filter. apply filter_ext_in'. intros p Hp.
    destruct (p / g_nmu g =? i) eqn:E; auto. cbn [andb]. destruct (K p) as (j' & Hj' & Ej').
    { unfold row_points. apply filter_In. auto. }
    fold (dg p). rewrite Ej'. replace (2 * j' + 1 - 1) with (j' * 2) by lia. rewrite Nat.div_mul by lia.
    destruct (j' =? j) eqn:E2; [apply Nat.eqb_eq in E2|apply Nat.eqb_neq in E2]; [apply Nat.eqb_eq|apply Nat.eqb_neq]; lia.
  - intros p Hp. destruct (K p Hp) as (j & Hj & E). rewrite E. replace (2 * j + 1 - 1) with (j * 2) by lia. rewrite Nat.div_mul by lia. auto.
Qed.
