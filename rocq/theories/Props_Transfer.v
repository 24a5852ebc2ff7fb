(** * C44, C45: transfers onto wedges and multipoles *)
From Coq Require Import String Reals List Arith Lia Lra Bool Permutation.
Import ListNotations.
From Verif Require Import M_Transfer S_Transfer P_Transfer P_Transfer2.
Set Implicit Arguments.

(** grid point p (row-major: row p / Nmu, column p mod Nmu) holds modes *)
Definition defined (g : grid) (p : nat) : Prop := exists m, nth p (g_modes g) None = Some m /\ (0 < m)%R.
Definition mu_at (g : grid) (p : nat) : R := nth p (g_mu g) 0%R.
Definition k_at (g : grid) (p : nat) : R := nth p (g_k g) 0%R.
Definition npoints (g : grid) : nat := g_nk g * g_nmu g.
Definition entry (M : list (list num)) (i j : nat) : num := nth j (nth i M []) None.
Definition sized (M : list (list num)) (n m : nat) : Prop := length M = n /\ forall i, i < n -> length (nth i M []) = m.
(** row i is within the k limits of column j *)
Definition k_in (g : grid) (kmin kmax : list (option R)) (i j : nat) : Prop :=
  (forall a, nth j kmin None = Some a -> (a <= nth i (g_kcen g) 0)%R) /\ (forall a, nth j kmax None = Some a -> (nth i (g_kcen g) 0 <= a)%R).
(** the values of a model spectrum F(k, mu) at the points where the grid asks for it *)
Definition model_values (g : grid) (F : R -> R -> R) : list num := map2 (fun k mu => Some (F k mu)) (flatk g) (flatmu g).
(** the points of wedge b in row i *)
Definition wedge_points (g : grid) (i : nat) (b : R * R) (l : list nat) : Prop :=
  selects l (npoints g) (fun p => defined g p /\ p / g_nmu g = i /\ inside b (mu_at g p)).

Lemma defined_notnull : forall g p, nth p (notnull g) false = true <-> defined g p.
Proof.
  intros. split.
  - apply notnull_modes.
  - intros (m & E & L). unfold notnull. change false with (notnull1 None). rewrite map_nth, E. unfold notnull1, ltb_R. destruct (Rlt_dec 0 m); auto. 
Qed.
Lemma k_in_range : forall g kmin kmax i j, in_range g kmin kmax i j = true <-> k_in g kmin kmax i j.
Proof.
  intros. unfold in_range, k_in. rewrite andb_true_iff. unfold geb, leb_o.
  assert (A : forall (o : option R) x, (match o with None => true | Some a => leb_R a x end = true <-> forall a, o = Some a -> (a <= x)%R)).
  { intros [r|] x; [rewrite leb_R_true|]; split; intros; auto; [congruence|discriminate]. }
  assert (B : forall (o : option R) x, (match o with None => true | Some a => leb_R x a end = true <-> forall a, o = Some a -> (x <= a)%R)).
  { intros [r|] x; [rewrite leb_R_true|]; split; intros; auto; [congruence|discriminate]. }
  rewrite A, B. tauto.
Qed.
Lemma cell_wedge_points : forall g b i j, grid_wf g -> ordered b -> j < length b -> wedge_points g i (nth j b (0, 0)%R) (cell g b i j).
Proof.
  intros. destruct (@cell_selects g H b i j (0, 0)%R H0 H1) as [A B]. split; auto. intros p. rewrite B, defined_notnull. intuition.
Qed.
Lemma NP_nonempty : forall g, grid_wf g -> (exists p, p < npoints g /\ defined g p) -> NP g <> [].
Proof.
  intros g wf (p & Hp & D) E. assert (In p (NP g)); [|rewrite E in H; auto]. apply in_positions. rewrite (notnull_length wf), defined_notnull. auto.
Qed.
Lemma wmean_ext : forall w w' f f' l, (forall p, In p l -> w p = w' p /\ f p = f' p) -> wmean w f l = wmean w' f' l.
Proof. intros. unfold wmean. rewrite (rsum_ext _ (fun p => w' p * f' p)%R) by (intros p Hp; destruct (H p Hp) as [-> ->]; auto). rewrite (rsum_ext w w') by (intros p Hp; apply H; auto). auto. Qed.

(** Flat model values land exactly on the defined grid points; the others stay NaN. *)
Theorem C44_flat_values_scattered : forall g F, grid_wf g ->
  exists P, set_power g (PFlat (model_values g F)) = Ok P /\ length P = npoints g /\
  forall p, p < npoints g -> (defined g p -> nth p P None = Some (F (k_at g p) (mu_at g p))) /\ (~ defined g p -> nth p P None = None).
Proof.
  intros g F wf. unfold model_values. rewrite flat_positions by auto. rewrite set_power_flat by auto. eexists. split; [reflexivity|].
  rewrite scatter_length, (notnull_length wf). split; auto. intros p Hp. unfold NP.
  rewrite (nth_scatter (notnull g) (fun p => Some (F (nth p (g_k g) 0%R) (nth p (g_mu g) 0%R)))) by (rewrite (notnull_length wf); auto).
  rewrite <- defined_notnull. destruct (nth p (notnull g) false); intuition; discriminate.
Qed.
(** A flat array of another length is rejected. *)
Theorem C44_wrong_length_rejected : forall g l, grid_wf g -> length l <> length (flatk g) -> exists m, set_power g (PFlat l) = ValueError m.
Proof.
  intros g l wf H. unfold set_power. assert (length (flatk g) = length (filter (fun b : bool => b) (notnull g))) as E.
  { unfold flatk. apply gather_length. rewrite (notnull_length wf). apply wf. }
  rewrite E in H. rewrite (proj2 (Nat.eqb_neq _ _) H). eauto.
Qed.
(** A full 2D array and the flat array of its defined entries have the same effect. *)
Theorem C44_flat_and_grid_agree : forall g l, grid_wf g -> length l = npoints g -> set_power g (PGrid l) = set_power g (PFlat (gather (notnull g) l)).
Proof.
  intros g l wf H. rewrite set_power_grid by auto. rewrite (gather_positions (None : num)) by (rewrite (notnull_length wf); auto). symmetry. apply set_power_flat; auto.
Qed.

(** Every output entry within the k limits is the mode-weighted mean of the model over exactly the defined points
    of its row whose mu lies in the wedge; entries outside the k limits are NaN. *)
Theorem C44_wedge_is_mode_weighted_mean : forall g bounds kmin kmax F w, grid_wf g -> bounds <> [] ->
  length kmin = length bounds -> length kmax = length bounds -> ordered bounds ->
  (exists p, p < npoints g /\ defined g p) ->
  (forall p, defined g p -> nth p (g_modes g) None = Some (w p)) ->
  (forall i j, i < g_nk g -> j < length bounds -> k_in g kmin kmax i j -> exists p, p < npoints g /\ defined g p /\ p / g_nmu g = i /\ inside (nth j bounds (0, 0)%R) (mu_at g p)) ->
  exists M, wedge_call g bounds kmin kmax (PFlat (model_values g F)) = Ok M /\ sized M (g_nk g) (length bounds) /\
  forall i j, i < g_nk g -> j < length bounds ->
   (k_in g kmin kmax i j -> exists l, wedge_points g i (nth j bounds (0, 0)%R) l /\ l <> [] /\ entry M i j = Some (wmean w (fun p => F (k_at g p) (mu_at g p)) l)) /\
   (~ k_in g kmin kmax i j -> entry M i j = None).
Proof.
  intros g b kmin kmax F w wf Hb L1 L2 Ho Hne Hw Hcov. unfold model_values. rewrite flat_positions by auto.
  destruct (@wedge_ok g b kmin kmax (fun p => F (nth p (g_k g) 0%R) (nth p (g_mu g) 0%R)) wf Hb L1 L2 (NP_nonempty wf Hne) Ho) as (M & E & S & V).
  { intros i j Hi Hj R. apply k_in_range in R. destruct (Hcov i j Hi Hj R) as (p & Hp). destruct (@cell_wedge_points g b i j wf Ho Hj) as [_ I].
    specialize (proj2 (I p)). intros I'. intro E. rewrite E in I'. apply I'. intuition. }
  exists M. split; [exact E|]. split; [exact S|]. intros i j Hi Hj. unfold entry. rewrite V by auto. rewrite <- k_in_range. split; intros R.
  - rewrite R. exists (cell g b i j). pose proof (@cell_wedge_points g b i j wf Ho Hj) as W. split; auto. split.
    + apply k_in_range in R. destruct (Hcov i j Hi Hj R) as (p & Hp). destruct W as [_ I]. specialize (proj2 (I p)). intros I' E'. rewrite E' in I'. apply I'. intuition.
    + f_equal. apply wmean_ext. intros p Hp. split; auto. apply W in Hp. destruct Hp as (_ & D & _). specialize (Hw p D). unfold modeR. rewrite Hw. auto.
  - destruct (in_range g kmin kmax i j); congruence.
Qed.

(** An in-range bin with no defined point, or unordered bounds, raise instead of returning a value. *)
Theorem C44_empty_bin_raises : forall g bounds kmin kmax F i j, grid_wf g -> bounds <> [] ->
  length kmin = length bounds -> length kmax = length bounds -> ordered bounds -> (exists p, p < npoints g /\ defined g p) ->
  i < g_nk g -> j < length bounds -> k_in g kmin kmax i j ->
  (forall p, p < npoints g -> defined g p -> p / g_nmu g = i -> ~ inside (nth j bounds (0, 0)%R) (mu_at g p)) ->
  exists m, wedge_call g bounds kmin kmax (PFlat (model_values g F)) = ValueError m.
Proof.
  intros g b kmin kmax F i j wf Hb L1 L2 Ho Hne Hi Hj R H. unfold model_values. rewrite flat_positions by auto. eexists.
  apply (@wedge_err g b kmin kmax (fun p => F (nth p (g_k g) 0%R) (nth p (g_mu g) 0%R)) wf Hb L1 L2 (NP_nonempty wf Hne) Ho i j); auto.
  - apply k_in_range; auto.
  - destruct (cell g b i j) as [|p l] eqn:E; auto. exfalso. destruct (@cell_wedge_points g b i j wf Ho Hj) as [_ I]. rewrite E in I.
    destruct (proj1 (I p) (or_introl eq_refl)) as (A & B & C & D). apply (H p); auto.
Qed.
Theorem C44_unordered_bounds_raise : forall g bounds kmin kmax F, grid_wf g -> (exists p, p < npoints g /\ defined g p) -> ~ ordered bounds ->
  exists m, wedge_call g bounds kmin kmax (PFlat (model_values g F)) = ValueError m.
Proof. intros. unfold model_values. rewrite flat_positions by auto. eexists. apply wedge_unordered; auto using NP_nonempty. Qed.

(** A constant spectrum comes back as that constant in every entry that is returned. *)
Theorem C44_constant_preserved : forall g bounds kmin kmax c M i j v, grid_wf g -> bounds <> [] ->
  length kmin = length bounds -> length kmax = length bounds -> ordered bounds ->
  (exists p, p < npoints g /\ defined g p) ->
  wedge_call g bounds kmin kmax (PFlat (model_values g (fun _ _ => c))) = Ok M -> i < g_nk g -> j < length bounds ->
  entry M i j = Some v -> v = c.
Proof.
  intros g b kmin kmax c M i j v wf Hb L1 L2 Ho Hne HM Hi Hj HE. unfold model_values in HM. rewrite flat_positions in HM by auto.
  assert (HC : forall i j, i < g_nk g -> j < length b -> in_range g kmin kmax i j = true -> cell g b i j <> []).
  { intros i' j' Hi' Hj' R E. rewrite (@wedge_err g b kmin kmax (fun _ => c) wf Hb L1 L2 (NP_nonempty wf Hne) Ho i' j' Hi' Hj' R E) in HM. discriminate. }
  destruct (@wedge_ok g b kmin kmax (fun _ => c) wf Hb L1 L2 (NP_nonempty wf Hne) Ho HC) as (M' & E & S & V).
  rewrite E in HM. injection HM. intros <-. unfold entry in HE. rewrite V in HE by auto. destruct (in_range g kmin kmax i j) eqn:R; [|discriminate].
  injection HE. intros <-. apply wmean_const; [|apply HC; auto]. intros p Hp. apply modeR_pos. apply (@cell_wedge_points g b i j wf Ho Hj) in Hp. apply defined_notnull. intuition.
Qed.
(** Every returned entry lies between the smallest and largest model value of its wedge. *)
Theorem C44_entry_between_extremes : forall g bounds kmin kmax F M i j v lo hi, grid_wf g -> bounds <> [] ->
  length kmin = length bounds -> length kmax = length bounds -> ordered bounds ->
  (exists p, p < npoints g /\ defined g p) ->
  wedge_call g bounds kmin kmax (PFlat (model_values g F)) = Ok M -> i < g_nk g -> j < length bounds -> entry M i j = Some v ->
  (forall p, p < npoints g -> defined g p -> p / g_nmu g = i -> inside (nth j bounds (0, 0)%R) (mu_at g p) -> (lo <= F (k_at g p) (mu_at g p) <= hi)%R) ->
  (lo <= v <= hi)%R.
Proof.
  intros g b kmin kmax F M i j v lo hi wf Hb L1 L2 Ho Hne HM Hi Hj HE HF. unfold model_values in HM. rewrite flat_positions in HM by auto.
  pose (f := fun p => F (nth p (g_k g) 0%R) (nth p (g_mu g) 0%R)).
  change (fun p => Some (F (nth p (g_k g) 0%R) (nth p (g_mu g) 0%R))) with (fun p => Some (f p)) in HM.
  assert (HC : forall i j, i < g_nk g -> j < length b -> in_range g kmin kmax i j = true -> cell g b i j <> []).
  { intros i' j' Hi' Hj' R E. rewrite (@wedge_err g b kmin kmax f wf Hb L1 L2 (NP_nonempty wf Hne) Ho i' j' Hi' Hj' R E) in HM. discriminate. }
  destruct (@wedge_ok g b kmin kmax f wf Hb L1 L2 (NP_nonempty wf Hne) Ho HC) as (M' & E & S & V).
  rewrite E in HM. injection HM. intros <-. unfold entry in HE. rewrite V in HE by auto. destruct (in_range g kmin kmax i j) eqn:R; [|discriminate].
  injection HE. intros <-. apply wmean_bounds; [|apply HC; auto|].
  - intros p Hp. apply modeR_pos. apply (@cell_wedge_points g b i j wf Ho Hj) in Hp. apply defined_notnull. intuition.
  - intros p Hp. apply (@cell_wedge_points g b i j wf Ho Hj) in Hp. apply HF; intuition.
Qed.

(** Each mu belongs to at most one wedge of an ordered list, and to exactly one wedge of a contiguous list covering it. *)
Theorem C44_one_wedge_per_point : forall bounds x i j, ordered bounds -> i < length bounds -> j < length bounds ->
  inside (nth i bounds (0, 0)%R) x -> inside (nth j bounds (0, 0)%R) x -> i = j.
Proof. intros. eapply inside_unique; eauto. Qed.
(** No mode is lost or counted twice: over contiguous wedges that cover the row, the summed quantities add up to
    the row total (f is any per-point quantity, e.g. the mode counts). *)
Theorem C44_no_mode_lost : forall g bounds x y i (f : nat -> R) (cells : nat -> list nat) row, grid_wf g -> contiguous_from x bounds y ->
  (forall j, j < length bounds -> wedge_points g i (nth j bounds (0, 0)%R) (cells j)) ->
  selects row (npoints g) (fun p => defined g p /\ p / g_nmu g = i) ->
  (forall p, In p row -> (x <= mu_at g p < y)%R) ->
  rsumr (fun j => rsum f (cells j)) (length bounds) = rsum f row.
Proof.
  intros g b x y i f cells row wf HC Hcells Hrow Hcov.
  assert (RP : forall l l', NoDup l -> NoDup l' -> (forall p, In p l <-> In p l') -> rsum f l = rsum f l').
  { intros l l' N1 N2 I. assert (Permutation l l') as PM by (apply NoDup_Permutation; auto).
    clear - PM. induction PM; simpl; auto; try lra. }
  assert (O : ordered b). { pose proof (contiguous_ordered b x y HC). destruct b as [|[lo hi] bb]; simpl in *; auto. intuition. }
  destruct Hrow as [N1 I1].
  assert (SR : forall p, In p row <-> In p (row_points g i)).
  { intros p. rewrite I1. unfold row_points, NP. rewrite filter_In, in_positions, (notnull_length wf), Nat.eqb_eq, <- defined_notnull. unfold npoints. intuition. }
  rewrite (RP row (row_points g i)) by (auto; apply NoDup_filter, positions_nodup).
  rewrite <- (@wedges_partition_row g b i f x y wf HC).
  - apply rsumr_ext. intros j Hj. destruct (Hcells j Hj) as [N2 I2]. destruct (@cell_wedge_points g b i j wf O Hj) as [N3 I3].
    apply RP; auto. intros p. rewrite I2, I3. reflexivity.
  - intros p Hp. apply Hcov. apply SR. auto.
Qed.

(** Multipoles: every in-range entry is the mode-weighted mean of (2l+1) L_l(mu) F over the defined points of the
    row with 0 <= mu < 1.0005.  A grid with exactly one k row is excluded (see the next theorem). *)
Theorem C44_pole_is_legendre_weighted_mean : forall g ells kmin kmax F w, grid_wf g -> g_nk g <> 1 ->
  length kmin = length ells -> length kmax = length ells ->
  (exists p, p < npoints g /\ defined g p) ->
  (forall p, defined g p -> nth p (g_modes g) None = Some (w p)) ->
  (forall i j, i < g_nk g -> j < length ells -> k_in g kmin kmax i j -> exists p, p < npoints g /\ defined g p /\ p / g_nmu g = i /\ (0 <= mu_at g p < 1.0005)%R) ->
  exists M, poles_call g ells kmin kmax (PFlat (model_values g F)) = Ok M /\ sized M (g_nk g) (length ells) /\
  forall i j, i < g_nk g -> j < length ells ->
   (k_in g kmin kmax i j -> exists l, selects l (npoints g) (fun p => defined g p /\ p / g_nmu g = i /\ (0 <= mu_at g p < 1.0005)%R) /\ l <> [] /\
      entry M i j = Some (wmean w (fun p => (2 * INR (nth j ells 0%nat) + 1) * legendre (nth j ells 0%nat) (mu_at g p) * F (k_at g p) (mu_at g p))%R l)) /\
   (~ k_in g kmin kmax i j -> entry M i j = None).
Proof.
  intros g ells kmin kmax F w wf Hnk L1 L2 Hne Hw Hcov. unfold model_values. rewrite flat_positions by auto.
  assert (Hj0 : 0 < length pole_bounds) by (rewrite pole_bounds_eq; simpl; lia).
  assert (IN : forall x, inside (nth 0 pole_bounds (0, 0)%R) x <-> (0 <= x < 1.0005)%R).
  { intros x. rewrite pole_bounds_eq. unfold inside. simpl. rewrite Rmult_1_r. tauto. }
  assert (W : forall i, selects (cell g pole_bounds i 0) (npoints g) (fun p => defined g p /\ p / g_nmu g = i /\ (0 <= mu_at g p < 1.0005)%R)).
  { intros i. destruct (@cell_wedge_points g pole_bounds i 0 wf pole_bounds_ordered Hj0) as [A B]. split; auto. intros p. rewrite B, IN. tauto. }
  assert (NE : forall i j, i < g_nk g -> j < length ells -> in_range g kmin kmax i j = true -> cell g pole_bounds i 0 <> []).
  { intros i j Hi Hj R. apply k_in_range in R. destruct (Hcov i j Hi Hj R) as (p & Hp & Hq). destruct (W i) as [_ I].
    specialize (proj2 (I p)). intros I' E. rewrite E in I'. apply I'. intuition. }
  destruct (@poles_ok g ells kmin kmax (fun p => F (nth p (g_k g) 0%R) (nth p (g_mu g) 0%R)) wf Hnk L1 L2 (NP_nonempty wf Hne) NE) as (M & E & S & V).
  exists M. split; [exact E|]. split; [exact S|]. intros i j Hi Hj. unfold entry. rewrite V by auto. rewrite <- k_in_range. split; intros R.
  - rewrite R. exists (cell g pole_bounds i 0). split; [apply W|]. split; [eapply NE; eauto|].
    f_equal. apply wmean_ext. intros p Hp. split; auto. apply W in Hp. destruct Hp as (_ & D & _). specialize (Hw p D). unfold modeR. rewrite Hw. auto.
  - destruct (in_range g kmin kmax i j); congruence.
Qed.
(** A grid with a single k row makes the multipole transfer raise, whatever the spectrum. *)
Theorem C44_single_row_poles_refuted : forall g ells kmin kmax v, g_nk g = 1 -> forall M, poles_call g ells kmin kmax v <> Ok M.
Proof.
  intros g ells kmin kmax v H M. unfold poles_call. destruct (set_power g v); cbn [bind]; try discriminate.
  destruct (forallb isnull a); try discriminate. unfold mu_edges. destruct (nondecr _); cbn [bind]; try discriminate. rewrite H. discriminate.
Qed.

(** ** the smooth (non-gridded) wedge transfer *)
Lemma smooth_wf : forall ks mus, grid_wf (smooth_grid ks mus).
Proof.
  intros. unfold grid_wf, smooth_grid; simpl. repeat split; induction ks; simpl; auto; rewrite app_length, ?map_length; f_equal; exact IHks.
Qed.
Lemma smooth_modes : forall ks mus, g_modes (smooth_grid ks mus) = repeat (Some 1%R) (length ks * length mus).
Proof.
  intros. simpl. assert (A : map (fun _ : R => Some 1%R) mus = repeat (Some 1%R) (length mus)) by (clear; induction mus; simpl; [|rewrite IHmus]; auto).
  induction ks; simpl; auto. rewrite repeat_app, A in *. f_equal. auto.
Qed.
Lemma smooth_mu : forall ks mus p, p < length ks * length mus -> nth p (g_mu (smooth_grid ks mus)) 0%R = nth (p mod length mus) mus 0%R.
Proof.
  intros ks mus. simpl. induction ks; simpl; intros p Hp; [lia|]. assert (length mus <> 0) by (intro E; rewrite E in Hp; lia).
  destruct (lt_dec p (length mus)).
  - rewrite app_nth1 by auto. rewrite Nat.mod_small by auto. auto.
  - rewrite app_nth2 by lia. rewrite IHks by lia. f_equal. replace p with (p - length mus + 1 * length mus) at 2 by lia. rewrite Nat.mod_add by auto. auto.
Qed.
(** Every entry is the plain mean of the spectrum over the sampled mu in the wedge; NaN if there is none
    (no error is raised in that case). P is the spectrum sampled on the transfer's own grid, row-major. *)
Theorem C44_smooth_wedge_is_mean : forall ks nmu bounds (P : nat -> R), ordered bounds -> bounds <> [] ->
  exists M, smooth_wedge_call ks nmu bounds (PGrid (map (fun p => Some (P p)) (seq 0 (length ks * S nmu)))) = Ok M /\ sized M (length ks) (length bounds) /\
  forall i j, i < length ks -> j < length bounds -> exists l, selects l (length ks * S nmu) (fun p => p / S nmu = i /\ inside (nth j bounds (0, 0)%R) (nth (p mod S nmu) (linspace01 nmu) 0%R)) /\
    entry M i j = match l with [] => None | _ => Some (rsum P l / INR (length l))%R end.
Proof.
  intros ks nmu b P Ho Hb. unfold smooth_wedge_call. set (mus := linspace01 nmu).
  assert (Hl : length mus = S nmu) by (unfold mus, linspace01; rewrite map_length, seq_length; auto).
  set (g := smooth_grid ks mus). assert (wf : grid_wf g) by apply smooth_wf.
  assert (Nk : g_nk g = length ks) by auto. assert (Nm : g_nmu g = S nmu) by (unfold g; simpl; auto).
  assert (Mo : g_modes g = repeat (Some 1%R) (length ks * S nmu)) by (unfold g; rewrite smooth_modes, Hl; auto).
  set (L := map (fun p => Some (P p)) (seq 0 (length ks * S nmu))).
  assert (LL : length L = g_nk g * g_nmu g) by (unfold L; rewrite map_length, seq_length, Nk, Nm; auto).
  rewrite set_power_grid by auto. cbn [bind]. unfold mu_edges. rewrite (proj2 (nondecr_ordered b) Ho). cbn [bind].
  set (Q := scatter (notnull g) (map (fun p => nth p L None) (NP g))).
  assert (LQ : length Q = g_nk g * g_nmu g) by (unfold Q; rewrite scatter_length; apply (notnull_length wf)).
  assert (NN : forall p, p < g_nk g * g_nmu g -> nth p (notnull g) false = true).
  { intros p Hp. apply defined_notnull. exists 1%R. rewrite Mo. rewrite nth_repeat_lt by (rewrite <- Nk, <- Nm; auto). split; auto. lra. }
  assert (QN : forall p, p < g_nk g * g_nmu g -> nth p Q None = Some (P p)).
  { intros p Hp. unfold Q, NP. rewrite (nth_scatter (notnull g) (fun p => nth p L None)) by (rewrite (notnull_length wf); auto). rewrite NN by auto.
    unfold L. rewrite (nth_indep _ None (Some (P 0))) by (rewrite map_length, seq_length, <- Nk, <- Nm; auto). rewrite (map_nth (fun p => Some (P p))), seq_nth by (rewrite <- Nk, <- Nm; auto). auto. }
  assert (E1 : map (fun _ => Some 1%R) (g_modes g) = g_modes g) by (rewrite Mo; generalize (length ks * S nmu); induction n; simpl; f_equal; auto).
  assert (E2 : map2 nmul Q (g_modes g) = Q).
  { apply (@nth_ext _ _ _ (None : num) (None : num)); rewrite map2_length, Mo, repeat_length; rewrite LQ, Nk, Nm.
    - lia.
    - intros n Hn. rewrite (nth_map2 _ _ _ (None : num) (None : num)) by (rewrite ?LQ, ?repeat_length, ?Nk, ?Nm; lia). rewrite QN by (rewrite Nk, Nm; lia). rewrite nth_repeat_lt by lia. simpl. f_equal. ring. }
  assert (E3 : map2 (map2 ndiv) (sum_mu g (ravel2 b) Q) (sum_mu g (ravel2 b) (g_modes g)) = average g (ravel2 b) Q (g_modes g)) by (unfold average; rewrite E2; reflexivity).
  exists (average g (ravel2 b) Q (g_modes g)). split; [rewrite E1; exact (f_equal Ok E3)|].
  destruct (average_shape g b Q LQ) as [A B]. split; [split; [rewrite A; auto|intros; apply B; auto]|].
  intros i j Hi Hj. unfold entry.
  rewrite (@average_cell g wf b Q P LQ) by (auto; intros; apply QN; auto).
  exists (cell g b i j). pose proof (@cell_wedge_points g b i j wf Ho Hj) as [W1 W2]. split.
  - split; auto. intros p. rewrite W2. unfold npoints. rewrite Nm, Nk. split.
    + intros (X & Y & Z & T). split; [auto|]. split; auto. unfold mu_at in T. unfold g in T. rewrite smooth_mu in T by (rewrite Hl; auto). rewrite Hl in T. auto.
    + intros (X & Y & Z). split; [auto|]. split; [apply defined_notnull, NN; rewrite Nk, Nm; auto|]. split; auto. unfold mu_at, g. rewrite smooth_mu by (rewrite Hl; auto). rewrite Hl. auto.
  - destruct (cell g b i j) as [|p0 l0] eqn:EC; auto. rewrite <- EC in *. f_equal. unfold wmean.
    assert (MR : forall p, In p (cell g b i j) -> modeR g p = 1%R).
    { intros p Hp. apply W2 in Hp. unfold modeR. rewrite Mo, nth_repeat_lt; auto. rewrite <- Nk, <- Nm. apply Hp. }
    rewrite (rsum_ext _ P) by (intros p Hp; rewrite MR by auto; ring). f_equal. f_equal.
    revert MR. generalize (cell g b i j). intros l. induction l; intros MR; [reflexivity|]. cbn [rsum]. rewrite IHl by (intros; apply MR; right; auto).
    rewrite MR by (left; auto). cbn [length]. rewrite S_INR. ring.
Qed.

(** The stored wedge that was given as ending at 1 contains mu = 1 (the setter's tolerance), and the other wedges are unchanged. *)
Theorem C44_wedge_ending_at_one_is_closed : forall bounds j, j < length bounds ->
  (snd (nth j bounds (0, 0)%R) = 1%R -> (fst (nth j bounds (0, 0)%R) <= 1)%R -> inside (nth j (set_bounds bounds) (0, 0)%R) 1) /\
  ((1 / 10 ^ 8 + 1 / 10 ^ 5 < Rabs (snd (nth j bounds (0, 0)%R) - 1))%R -> nth j (set_bounds bounds) (0, 0)%R = nth j bounds (0, 0)%R).
Proof.
  intros b j Hj. unfold set_bounds. set (f := fun b : R * R => _). rewrite (nth_indep (map f b) (0, 0)%R (f (0, 0)%R)) by (rewrite map_length; auto).
  rewrite map_nth. unfold f. destruct (nth j b (0, 0)%R) as [lo hi]. cbn [fst snd]. split.
  - intros -> L. rewrite isclose1_1. unfold inside. simpl. lra.
  - intros L. destruct (isclose1 hi) eqn:C; auto. apply leb_R_true in C. lra.
Qed.

(** ** C45 *)
(** A list that contains a bound ending at 1 is modified by constructing a wedge transfer from it ... *)
Theorem C45_caller_list_modified_refuted : exists (h : heap) loc, loc < length h /\ nth loc (fst (construct h (AList loc))) [] <> nth loc h [].
Proof.
  exists [[(0, 1)%R]], 0. split; [simpl; lia|]. cbn [construct fst nth upd set_bounds map snd]. rewrite isclose1_1. intros E. injection E. lra.
Qed.
(** ... exactly when some upper bound is within np.isclose of 1 (and the list is an existing object). *)
Lemma upd_same : forall A (l : list A) i d, nth i (upd l i d) d = d.
Proof. induction l; destruct i; simpl; auto. Qed.
Lemma nth_upd : forall A (l : list A) i j x d, nth j (upd l i x) d = if (i =? j) && (i <? length l) then x else nth j l d.
Proof.
  induction l; intros; simpl. { destruct (i =? j); simpl; destruct j; auto. }
  destruct i, j; simpl; auto. rewrite IHl. reflexivity.
Qed.
Theorem C45_list_unchanged_iff : forall (h : heap) loc, loc < length h ->
  (nth loc (fst (construct h (AList loc))) [] = nth loc h [] <-> forall b, In b (nth loc h []) -> ~ (Rabs (snd b - 1) <= 1 / 10 ^ 8 + 1 / 10 ^ 5)%R).
Proof.
  intros h loc H. cbn [construct fst]. rewrite nth_upd, Nat.eqb_refl. rewrite (proj2 (Nat.ltb_lt _ _) H). cbn [andb].
  generalize (nth loc h []). intros l. induction l as [|[lo hi] l]; [simpl; intuition|]. cbn [set_bounds map snd fst]. fold (set_bounds l). split.
  - intros E. injection E as E1 E2. intros b [<- | Hb].
    + cbn [snd]. destruct (isclose1 hi) eqn:C.
      * apply leb_R_true in C. injection E1. intros E3. assert (hi = 0)%R by lra. subst hi. replace (0 - 1)%R with (Ropp 1)%R in C by ring. rewrite Rabs_Ropp, Rabs_R1 in C. lra.
      * apply leb_R_false in C. lra.
    + apply IHl; auto.
  - intros Hb. f_equal.
    + specialize (Hb (lo, hi) (or_introl eq_refl)). cbn [snd] in Hb. destruct (isclose1 hi) eqn:C; auto. apply leb_R_true in C. tauto.
    + apply IHl. intros b Hin. apply Hb. right. auto.
Qed.
(** Other lists of the caller are never touched; a tuple argument touches none. *)
Theorem C45_other_lists_untouched : forall (h : heap) a loc, loc < length h -> a <> AList loc -> nth loc (fst (construct h a)) [] = nth loc h [].
Proof.
  intros h [l|b] loc H N; cbn [construct fst].
  - rewrite nth_upd. destruct (l =? loc) eqn:E; auto. apply Nat.eqb_eq in E. subst. congruence.
  - apply app_nth1; auto.
Qed.
(** Consequence: building a second transfer from the same list reports different wedge centres. *)
Theorem C45_second_construction_differs_refuted : exists (h : heap) loc, let (h1, w1) := construct h (AList loc) in let (h2, w2) := construct h1 (AList loc) in w_mu_cen w1 <> w_mu_cen w2.
Proof.
  exists [[(0.8, 1)%R]], 0. cbn [construct fst nth upd set_bounds map snd w_mu_cen]. rewrite isclose1_1. cbn [fst snd]. intros E. injection E. lra.
Qed.

(** ** the hypotheses are met by a concrete grid: 2 rows, 2 columns, one null point *)
Definition ex_grid : grid := {| g_nk := 2; g_nmu := 2; g_kcen := [0.1; 0.2]%R; g_k := [0.1; 0.11; 0.2; 0]%R; g_mu := [0.25; 0.75; 0.25; 0]%R; g_modes := [Some 3; Some 5; Some 7; None]%R |}.
Example ex_grid_ok : grid_wf ex_grid /\ (exists p, p < npoints ex_grid /\ defined ex_grid p) /\ ordered [(0, 0.5); (0.5, 1.0005)]%R /\
  (forall i j, i < g_nk ex_grid -> j < 1 -> k_in ex_grid [None] [None] i j -> exists p, p < npoints ex_grid /\ defined ex_grid p /\ p / g_nmu ex_grid = i /\ inside (nth j [(0, 0.5)]%R (0, 0)%R) (mu_at ex_grid p)).
Proof.
  split; [repeat split|]. split; [exists 0; split; [cbv; lia|]; exists 3%R; split; [reflexivity|lra]|]. split; [simpl; lra|].
  intros i j Hi Hj _. assert (j = 0) by lia. subst j. simpl in Hi. destruct i as [|[|]]; [exists 0|exists 2|lia].
  - repeat split; try (cbv; lia); try (exists 3%R; split; [reflexivity|lra]); unfold mu_at; simpl; lra.
  - repeat split; try (cbv; lia); try (exists 7%R; split; [reflexivity|lra]); unfold mu_at; simpl; lra.
Qed.

Print Assumptions C44_wedge_is_mode_weighted_mean.
Print Assumptions C44_no_mode_lost.
Print Assumptions C44_pole_is_legendre_weighted_mean.
Print Assumptions C44_smooth_wedge_is_mean.
Print Assumptions C45_list_unchanged_iff.
