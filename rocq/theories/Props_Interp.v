(** * C31: regular-grid interpolation *)
From Coq Require Import Reals List Arith Lia Lra Bool.
Import ListNotations.
From Verif Require Import M_Interp S_Interp.
Set Implicit Arguments.
Local Open Scope R_scope.

(** ** one axis *)
Lemma searchsorted_le : forall g x, (searchsorted g x <= length g)%nat.
Proof. induction g; simpl; intros; auto. specialize (IHg x). destruct (Rlt_dec a x); lia. Qed.
Lemma searchsorted_spec : forall g x, (forall i j, (i < j)%nat -> (j < length g)%nat -> nth i g 0 < nth j g 0) ->
  (forall i, (i < searchsorted g x)%nat -> nth i g 0 < x) /\ (forall i, (searchsorted g x <= i)%nat -> (i < length g)%nat -> x <= nth i g 0).
Proof.
  induction g as [|e g]; intros x H; [split; simpl; intros; lia|].
  destruct (IHg x) as [A B]. { intros i j Hi Hj. apply (H (S i) (S j)); simpl; lia. }
  cbn [searchsorted]. destruct (Rlt_dec e x).
  - split; intros i; intros; destruct i; simpl; auto; try lia.
    + apply A. lia.
    + apply B; simpl in *; lia.
  - assert (Z : searchsorted g x = 0%nat).
    { destruct (searchsorted g x) eqn:E; auto. exfalso. specialize (A 0%nat ltac:(lia)). assert (0 < length g)%nat by (pose proof (searchsorted_le g x); lia).
      specialize (H 0%nat 1%nat ltac:(lia) ltac:(simpl; lia)). simpl in H. lra. }
    rewrite Z in *. split; intros i; intros; [lia|]. destruct i; simpl; [lra|]. apply B; simpl in *; lia.
Qed.
Lemma find_index_lt : forall p x, (2 <= length p)%nat -> (find_index p x + 1 < length p)%nat.
Proof. intros. unfold find_index. lia. Qed.
Lemma find_index_brackets : forall p x, axis p -> nth 0 p 0 <= x <= nth (length p - 1) p 0 -> nth (find_index p x) p 0 <= x <= nth (find_index p x + 1) p 0.
Proof.
  intros p x [L M] [H1 H2]. destruct (@searchsorted_spec p x M) as [A B]. unfold find_index. pose proof (searchsorted_le p x) as SL.
  destruct (searchsorted p x) as [|s] eqn:E.
  - simpl. assert (x <= nth 0 p 0) by (apply B; lia). specialize (M 0%nat 1%nat ltac:(lia) ltac:(lia)). lra.
  - replace (S s - 1)%nat with s by lia. destruct (le_dec s (length p - 2)).
    + rewrite Nat.min_l by auto. split; [specialize (A s ltac:(lia)); lra|]. rewrite Nat.add_1_r. apply B; lia.
    + rewrite Nat.min_r by lia. assert (s = length p - 1)%nat by lia. specialize (A s ltac:(lia)). subst s. lra.
Qed.
Lemma norm_distance_eq : forall p x, axis p -> x = nth (find_index p x) p 0 + norm_distance p x * (nth (find_index p x + 1) p 0 - nth (find_index p x) p 0).
Proof.
  intros p x [L M]. unfold norm_distance. pose proof (find_index_lt p x L). specialize (M (find_index p x) (find_index p x + 1)%nat ltac:(lia) H). field. lra.
Qed.
Lemma norm_distance_unit : forall p x, axis p -> nth 0 p 0 <= x <= nth (length p - 1) p 0 -> 0 <= norm_distance p x <= 1.
Proof.
  intros p x Ax H. pose proof (find_index_brackets Ax H) as B. pose proof (norm_distance_eq x Ax) as E. destruct Ax as [L M].
  pose proof (find_index_lt p x L). specialize (M (find_index p x) (find_index p x + 1)%nat ltac:(lia) H0). unfold norm_distance in *.
  set (d := nth (find_index p x + 1) p 0 - nth (find_index p x) p 0) in *. assert (0 < d) by (unfold d; lra).
  split.
  - apply Rmult_le_reg_r with d; auto. unfold Rdiv. rewrite Rmult_assoc, Rinv_l by lra. lra.
  - apply Rmult_le_reg_r with d; auto. unfold Rdiv. rewrite Rmult_assoc, Rinv_l by lra. unfold d in *. lra.
Qed.

(** ** nested form of the multilinear sum *)
Fixpoint nested (v : table) (idx : list nat) (y : list R) : R :=
  match idx, y with
  | i :: idx', yi :: y' => (1 - yi) * nested (fun e => v (i :: e)) idx' y' + yi * nested (fun e => v ((i + 1)%nat :: e)) idx' y'
  | _, _ => v []
  end.
Lemma acc_app : forall v idx y a b, acc_edges v idx y (a ++ b) = acc_edges v idx y a + acc_edges v idx y b.
Proof. induction a; intros; cbn [acc_edges app]; [lra|]. rewrite IHa. lra. Qed.
Lemma acc_map : forall v i idx yi y k es, acc_edges v (i :: idx) (yi :: y) (map (cons k) es) = (if (k =? i)%nat then 1 - yi else yi) * acc_edges (fun e => v (k :: e)) idx y es.
Proof. induction es; cbn [acc_edges map]; [lra|]. rewrite IHes. cbn [weight]. lra. Qed.
Lemma evaluate_nested : forall idx y v, length y = length idx -> evaluate_linear v idx y = nested v idx y.
Proof.
  unfold evaluate_linear. induction idx; intros y v H; destruct y; simpl in H; try lia.
  - cbn. lra.
  - cbn [product_edges nested]. rewrite acc_app, !acc_map, Nat.eqb_refl. rewrite (proj2 (Nat.eqb_neq (a + 1) a)) by lia. rewrite !IHidx by lia. auto.
Qed.
Lemma lens : forall g xs, length xs = length g -> length (norm_distances g xs) = length (find_indices g xs).
Proof. induction g; destruct xs; simpl; intros; auto; try lia. Qed.
Lemma length_in_box : forall g xs, in_box g xs -> length xs = length g.
Proof. induction 1; simpl; auto. Qed.

(** ** correspondence of the boolean bounds test *)
Lemma last_nth : forall (p : list R), last p 0 = nth (length p - 1) p 0.
Proof. induction p; auto. destruct p as [|b p]; auto. change (last (a :: b :: p) 0) with (last (b :: p) 0). rewrite IHp. simpl. rewrite Nat.sub_0_r. auto. Qed.
Lemma in_bounds_box : forall g xs, length xs = length g -> (in_bounds g xs = true <-> in_box g xs).
Proof.
  induction g; destruct xs; simpl; intros; try lia.
  - split; auto. intros _. constructor.
  - rewrite andb_true_iff, IHg by lia. unfold in_bounds1. rewrite last_nth. replace (hd 0 a) with (nth 0 a 0) by (destruct a; auto).
    destruct (Rle_dec (nth 0 a 0) r), (Rle_dec r (nth (length a - 1) a 0)); simpl; split; intros H1; try (destruct H1; discriminate).
    + destruct H1. constructor; auto.
    + inversion H1; subst. auto.
    + inversion H1; subst. lra.
    + inversion H1; subst. lra.
    + inversion H1; subst. lra.
Qed.
Lemma no_short_axis : forall g, Forall axis g -> existsb (fun p : list R => (length p <=? 1)%nat) g = false.
Proof. induction 1; auto. cbn [existsb]. rewrite IHForall. destruct H as [L _]. rewrite (proj2 (Nat.leb_gt _ _)) by lia. auto. Qed.

(** ** C31 *)
(** Samples outside the box of the grid are rejected, and only those (default bounds_error=True). *)
Theorem C31_out_of_range_rejected : forall g v m fill pts, (forall xs, In xs pts -> length xs = length g) ->
  (call g v m true fill pts = DomainError <-> exists xs, In xs pts /\ ~ in_box g xs).
Proof.
  intros g v m fill pts HL. unfold call.
  assert (forallb (fun xs : list R => (length xs =? length g)%nat) pts = true) as -> by (apply forallb_forall; intros; apply Nat.eqb_eq; auto). cbn [negb andb].
  destruct (forallb (in_bounds g) pts) eqn:E; cbn [negb].
  - split; [discriminate|]. intros (xs & Hin & N). exfalso. apply N. rewrite forallb_forall in E. apply in_bounds_box; auto.
  - split; auto. intros _. clear fill m v. induction pts as [|xs pts]; [discriminate|]. cbn [forallb] in E.
    destruct (in_bounds g xs) eqn:E1.
    + destruct IHpts as (z & Hz & N). { intros; apply HL; right; auto. } { auto. } exists z. split; [right; auto|auto].
    + exists xs. split; [left; auto|]. intro B. apply in_bounds_box in B; [congruence|]. apply HL. left. auto.
Qed.
(** Wrong number of coordinates: ValueError. *)
Theorem C31_wrong_dimension_rejected : forall g v m b fill pts xs, In xs pts -> length xs <> length g -> call g v m b fill pts = IValueError.
Proof.
  intros. unfold call. destruct (forallb _ pts) eqn:E; auto. rewrite forallb_forall in E. specialize (E xs H). apply Nat.eqb_eq in E. congruence.
Qed.
Lemma call_in_box : forall g v m b fill pts, (forall xs, In xs pts -> in_box g xs) -> call g v m b fill pts = IOk (map (eval_point g v m) pts).
Proof.
  intros g v m b fill pts H. unfold call.
  assert (forallb (fun xs : list R => (length xs =? length g)%nat) pts = true) as -> by (apply forallb_forall; intros; apply Nat.eqb_eq; apply length_in_box; auto).
  assert (forallb (in_bounds g) pts = true) as -> by (apply forallb_forall; intros x Hx; apply in_bounds_box; auto using length_in_box).
  cbn [negb]. rewrite andb_false_r. f_equal. apply map_ext_in. intros xs Hx. rewrite (proj2 (in_bounds_box g xs (length_in_box (H xs Hx))) (H xs Hx)). cbn [negb]. rewrite andb_false_r.
  destruct fill; auto.
Qed.
(** the value returned for one sample inside the box, whatever other samples are in the same call *)
Definition value_at (g : gridT) (v : table) (m : method) (xs : list R) (r : R) : Prop :=
  forall b fill pts i, (forall ys, In ys pts -> in_box g ys) -> nth_error pts i = Some xs -> exists l, call g v m b fill pts = IOk l /\ nth_error l i = Some (Some r).
Lemma value_at_intro : forall g v m xs r, Forall axis g -> r = (match m with Linear => evaluate_linear | Nearest => evaluate_nearest end) v (find_indices g xs) (norm_distances g xs) -> value_at g v m xs r.
Proof.
  intros g v m xs r Ax E b fill pts i HB Hi. rewrite call_in_box by auto. eexists. split; [reflexivity|]. rewrite nth_error_map, Hi. simpl. unfold eval_point.
  rewrite no_short_axis by auto. rewrite E. destruct m; auto.
Qed.

(** At every grid node, both methods return the tabulated value. *)
Lemma node_axis : forall p k, axis p -> (k < length p)%nat -> (find_index p (nth k p 0) = k /\ norm_distance p (nth k p 0) = 0) \/ ((find_index p (nth k p 0%R) + 1)%nat = k /\ norm_distance p (nth k p 0) = 1).
Proof.
  intros p k Ax Hk. pose proof Ax as [L M]. destruct (@searchsorted_spec p (nth k p 0) M) as [A B].
  assert (HS : searchsorted p (nth k p 0) = k).
  { destruct (Nat.lt_trichotomy (searchsorted p (nth k p 0)) k) as [T|[T|T]]; auto.
    - specialize (B (searchsorted p (nth k p 0)) ltac:(lia) ltac:(lia)). specialize (M _ _ T Hk). lra.
    - specialize (A k T). lra. }
  destruct k.
  - left. assert (F : find_index p (nth 0 p 0) = 0%nat) by (unfold find_index; rewrite HS; lia). split; auto. unfold norm_distance. rewrite F. unfold Rdiv. rewrite Rminus_diag_eq, Rmult_0_l; auto.
  - right. assert (F : find_index p (nth (S k) p 0) = k) by (unfold find_index; rewrite HS; lia). split; [lia|]. unfold norm_distance. rewrite F. rewrite Nat.add_1_r.
    specialize (M k (S k) ltac:(lia) Hk). unfold Rdiv. rewrite Rinv_r; lra.
Qed.
Lemma nested_node : forall g idx v, Forall axis g -> valid_index g idx -> nested v (find_indices g (node g idx)) (norm_distances g (node g idx)) = v idx.
Proof.
  intros g idx v HF HV. revert v HF. induction HV as [|p g i idx Hi HV]; intros v HF; auto. inversion HF; subst. cbn [node find_indices norm_distances nested].
  destruct (node_axis H1 Hi) as [[E1 E2]|[E1 E2]]; rewrite E2; rewrite !IHHV by auto.
  - rewrite E1. ring.
  - rewrite E1. ring.
Qed.
Lemma nearest_node : forall g idx, Forall axis g -> valid_index g idx -> nearest_index (find_indices g (node g idx)) (norm_distances g (node g idx)) = idx.
Proof.
  intros g idx HF HV. induction HV as [|p g i idx Hi HV]; auto. inversion HF; subst. cbn [node find_indices norm_distances nearest_index]. rewrite IHHV by auto. f_equal.
  destruct (node_axis H1 Hi) as [[E1 E2]|[E1 E2]]; rewrite E2; destruct (Rle_dec _ _); auto; lra.
Qed.
Lemma node_length : forall g idx, valid_index g idx -> length (node g idx) = length g.
Proof. induction 1; simpl; auto. Qed.
Theorem C31_exact_at_nodes : forall g v m idx, Forall axis g -> valid_index g idx -> value_at g v m (node g idx) (v idx).
Proof.
  intros g v m idx HF HV. apply value_at_intro; auto. destruct m.
  - rewrite evaluate_nested by (apply lens, node_length; auto). symmetry. apply nested_node; auto.
  - unfold evaluate_nearest. rewrite nearest_node; auto.
Qed.

(** Inside the box, the linear value lies between the extremes of the corners of the cell. *)
Lemma nested_bounds : forall g xs v lo hi, Forall axis g -> in_box g xs -> (forall c, corner g xs c -> lo <= v c <= hi) -> lo <= nested v (find_indices g xs) (norm_distances g xs) <= hi.
Proof.
  intros g xs v lo hi HF HB. revert v. induction HB as [|p g x xs Hx HB]; intros v H.
  - simpl. apply H. constructor.
  - inversion HF; subst. cbn [find_indices norm_distances nested]. pose proof (norm_distance_unit H2 Hx) as U. pose proof (find_index_brackets H2 Hx) as Br. pose proof (find_index_lt p x (proj1 H2)) as Lt.
    set (y := norm_distance p x) in *.
    assert (B1 : lo <= nested (fun e => v (find_index p x :: e)) (find_indices g xs) (norm_distances g xs) <= hi) by (apply IHHB; auto; intros c Hc; apply H; apply co_cons with (c := find_index p x); auto).
    assert (B2 : lo <= nested (fun e => v ((find_index p x + 1)%nat :: e)) (find_indices g xs) (norm_distances g xs) <= hi) by (apply IHHB; auto; intros c Hc; apply H; apply co_cons with (c := find_index p x); auto).
    nra.
Qed.
Theorem C31_between_corner_values : forall g v xs lo hi, Forall axis g -> in_box g xs -> (forall c, corner g xs c -> lo <= v c <= hi) -> exists r, value_at g v Linear xs r /\ lo <= r <= hi.
Proof.
  intros g v xs lo hi HF HB H. eexists. split; [apply value_at_intro; auto|]. rewrite evaluate_nested by (apply lens, length_in_box; auto). apply nested_bounds; auto.
Qed.

(** A table sampled from a multi-affine function is reproduced exactly at every point of the box. *)
Lemma multi_affine_ext : forall n f g, (forall xs, length xs = n -> f xs = g xs) -> multi_affine n f -> multi_affine n g.
Proof.
  destruct n; simpl; auto. intros f g E (a & b & A & B & H). exists a, b. repeat split; auto. intros x xs Hx. rewrite <- E by (simpl; auto). apply H. auto.
Qed.
Lemma multi_affine_comb : forall n f g s t, multi_affine n f -> multi_affine n g -> multi_affine n (fun xs => s * f xs + t * g xs).
Proof.
  induction n; simpl; auto. intros f g s t (a & b & A & B & H) (a' & b' & A' & B' & H').
  exists (fun xs => s * a xs + t * a' xs), (fun xs => s * b xs + t * b' xs). repeat split; auto. intros x xs Hx. rewrite H, H' by auto. ring.
Qed.
Lemma nested_ext : forall (g : gridT) xs v v', Forall axis g -> length xs = length g -> (forall idx, valid_index g idx -> v idx = v' idx) -> nested v (find_indices g xs) (norm_distances g xs) = nested v' (find_indices g xs) (norm_distances g xs).
Proof.
  induction g as [|p g]; destruct xs; simpl; intros v v' HF HL H; try lia; [apply H; constructor|]. inversion HF; subst. pose proof (find_index_lt p r (proj1 H2)).
  f_equal; f_equal; apply IHg; auto; intros idx HV; apply H; constructor; auto; lia.
Qed.
Lemma nested_affine : forall g xs f, Forall axis g -> length xs = length g -> multi_affine (length g) f -> nested (fun idx => f (node g idx)) (find_indices g xs) (norm_distances g xs) = f xs.
Proof.
  induction g as [|p g]; destruct xs; simpl; intros f HF HL HA; try lia; auto. inversion HF; subst. destruct HA as (a & b & A & B & H).
  pose proof (norm_distance_eq r H1) as E. set (i := find_index p r) in *. set (y := norm_distance p r) in *.
  assert (K : forall z, nested (fun e => f (z :: node g e)) (find_indices g xs) (norm_distances g xs) = a xs + z * b xs).
  { intros z. rewrite (@nested_ext g xs _ (fun e => 1 * a (node g e) + z * b (node g e))); auto.
    - rewrite (IHg xs (fun w => 1 * a w + z * b w)); auto; [ring|apply multi_affine_comb; auto].
    - intros idx HV. rewrite H by (apply node_length; auto). ring. }
  rewrite !K. rewrite H by lia. transitivity (a xs + (nth i p 0 + y * (nth (i + 1) p 0 - nth i p 0)) * b xs); [ring|rewrite <- E; auto].
Qed.
Theorem C31_multi_affine_exact : forall g f xs, Forall axis g -> multi_affine (length g) f -> length xs = length g -> value_at g (fun idx => f (node g idx)) Linear xs (f xs).
Proof.
  intros g f xs HF HA HL. apply value_at_intro; auto. rewrite evaluate_nested by (apply lens; auto). symmetry. apply nested_affine; auto.
Qed.
(** ... and, when extrapolation is requested (bounds_error=False, fill_value=None), at every point outside too. *)
Theorem C31_extrapolation_affine : forall g f pts, Forall axis g -> multi_affine (length g) f -> (forall xs, In xs pts -> length xs = length g) ->
  call g (fun idx => f (node g idx)) Linear false None pts = IOk (map (fun xs => Some (f xs)) pts).
Proof.
  intros g f pts HF HA HL. unfold call.
  assert (forallb (fun xs : list R => (length xs =? length g)%nat) pts = true) as -> by (apply forallb_forall; intros; apply Nat.eqb_eq; auto). cbn [negb andb]. f_equal. apply map_ext_in. intros xs Hx.
  unfold eval_point. rewrite no_short_axis by auto. f_equal. rewrite evaluate_nested by (apply lens; auto). apply nested_affine; auto.
Qed.
(** With a fill value, points outside get exactly that value and points inside are unaffected. *)
Theorem C31_fill_value : forall g v m f pts, (forall xs, In xs pts -> length xs = length g) ->
  exists l, call g v m false (Some f) pts = IOk l /\ forall i xs, nth_error pts i = Some xs -> (~ in_box g xs -> nth_error l i = Some f) /\ (in_box g xs -> nth_error l i = Some (eval_point g v m xs)).
Proof.
  intros g v m f pts HL. unfold call.
  assert (forallb (fun xs : list R => (length xs =? length g)%nat) pts = true) as -> by (apply forallb_forall; intros; apply Nat.eqb_eq; auto). cbn [negb andb].
  eexists. split; [reflexivity|]. intros i xs Hi. rewrite nth_error_map, Hi. cbn [option_map]. assert (HLx : length xs = length g) by (apply HL; eapply nth_error_In; eauto).
  pose proof (in_bounds_box g xs HLx) as IB. destruct (in_bounds g xs); cbn [negb]; split; intros H; auto.
  - exfalso. apply H. apply IB. auto.
  - apply IB in H. discriminate.
Qed.
Lemma nearest_axis : forall p x k, axis p -> nth 0 p 0 <= x <= nth (length p - 1) p 0 -> (k < length p)%nat ->
  forall i, nearest_index [find_index p x] [norm_distance p x] = [i] -> Rabs (x - nth i p 0) <= Rabs (x - nth k p 0).
Proof.
  intros p x k Ax Hx Hk i E. cbn [nearest_index] in E. pose proof (find_index_brackets Ax Hx) as B. pose proof (norm_distance_eq x Ax) as Eq. pose proof (norm_distance_unit Ax Hx) as U. destruct Ax as [L M].
  pose proof (find_index_lt p x L) as Lt. set (c := find_index p x) in *. set (y := norm_distance p x) in *.
  pose proof (M c (c + 1)%nat ltac:(lia) Lt) as Mc.
  assert (K : nth k p 0 <= nth c p 0 \/ nth (c + 1) p 0 <= nth k p 0).
  { destruct (le_dec k c) as [T|T].
    - left. destruct (Nat.eq_dec k c) as [Ek|]; [rewrite Ek; lra|]. left. apply M; lia.
    - right. destruct (Nat.eq_dec k (c + 1)) as [Ek|]; [rewrite Ek; lra|]. left. apply M; lia. }
  assert (D : x - nth c p 0 = y * (nth (c + 1) p 0 - nth c p 0)) by lra.
  assert (D2 : nth (c + 1) p 0 - x = (1 - y) * (nth (c + 1) p 0 - nth c p 0)) by lra.
  destruct (Rle_dec y (1 / 2)) as [Ly|Ly]; injection E; intros Ei; rewrite <- Ei; clear Ei E.
  - rewrite (Rabs_right (x - nth c p 0)) by lra. destruct K as [K|K].
    + rewrite Rabs_right by lra. lra.
    + rewrite Rabs_left1 by lra. nra.
  - rewrite (Rabs_left1 (x - nth (c + 1) p 0)) by lra. destruct K as [K|K].
    + rewrite Rabs_right by lra. nra.
    + rewrite Rabs_left1 by lra. lra.
Qed.
(** Nearest-neighbour: the result is the tabulated value at a node which, along each axis, is at least as
    close to the sample as any other node. *)
Theorem C31_nearest_is_nearest : forall g v xs, Forall axis g -> in_box g xs -> exists idx, closest g xs idx /\ value_at g v Nearest xs (v idx).
Proof.
  intros g v xs HF HB. exists (nearest_index (find_indices g xs) (norm_distances g xs)). split; [|apply value_at_intro; auto].
  clear v. induction HB as [|p g x xs Hx HB]; [constructor|]. inversion HF; subst. cbn [find_indices norm_distances nearest_index]. constructor; auto.
  - pose proof (find_index_lt p x (proj1 H1)). destruct (Rle_dec _ _); lia.
  - intros k Hk. apply (@nearest_axis p x k H1 Hx Hk). reflexivity.
Qed.
(** The constructor accepts an axis exactly when its points are strictly increasing. *)
Theorem C31_constructor_requires_ascending : forall p n, init_ok [p] [n] = true <-> n = length p /\ forall i j, (i < j)%nat -> (j < length p)%nat -> nth i p 0 < nth j p 0.
Proof.
  intros p n. unfold init_ok. cbn [length Nat.leb shapes_match andb]. rewrite andb_true_r, andb_true_iff, Nat.eqb_eq.
  assert (K : ascendingb p = true <-> forall i j, (i < j)%nat -> (j < length p)%nat -> nth i p 0 < nth j p 0).
  { clear. induction p as [|x p]; [simpl; split; auto; intros; lia|]. destruct p as [|y p]; [simpl; split; auto; intros; lia|].
    change (ascendingb (x :: y :: p)) with ((if Rlt_dec x y then true else false) && ascendingb (y :: p)). rewrite andb_true_iff, IHp. split.
    - intros [H1 H2] i j Hi Hj. destruct (Rlt_dec x y); [|discriminate]. destruct j; [lia|]. destruct i.
      + simpl nth at 1. destruct j; [simpl; auto|]. specialize (H2 0%nat (S j) ltac:(lia)). simpl in H2 |- *. simpl in Hj. specialize (H2 ltac:(lia)). lra.
      + simpl nth. apply H2; [lia|]. simpl in Hj |- *. lia.
    - intros H. split.
      + specialize (H 0%nat 1%nat ltac:(lia) ltac:(simpl; lia)). simpl in H. destruct (Rlt_dec x y); auto.
      + intros i j Hi Hj. apply (H (S i) (S j)); simpl in *; lia. }
  rewrite K. tauto.
Qed.
(** An axis with a single point is accepted by the constructor, but every evaluation is then NaN,
    even at the only node. *)
Theorem C31_single_point_axis_refuted : exists g v xs, init_ok g [1%nat] = true /\ valid_index g [0%nat] /\ xs = node g [0%nat] /\ call g v Linear true None [xs] = IOk [None].
Proof.
  exists [[3]], (fun _ => 5), [3]. repeat split; auto.
  - repeat constructor.
  - rewrite call_in_box; [reflexivity|]. intros ys [<-|[]]. repeat constructor; simpl; lra.
Qed.

(** the hypotheses hold for a concrete 2D grid *)
Example ex_axes : Forall axis [[0; 1; 3]; [-1; 2]] /\ in_box [[0; 1; 3]; [-1; 2]] [2; 0] /\ multi_affine 2 (fun l => nth 0 l 0 * nth 1 l 0 + 3 * nth 0 l 0).
Proof.
  split; [|split].
  - repeat constructor; try (simpl; lia); intros i j Hi Hj; simpl in Hj; repeat (destruct j as [|j]; try lia); repeat (destruct i as [|i]; try lia); simpl; lra.
  - repeat constructor; simpl; lra.
  - exists (fun _ => 0), (fun l => nth 0 l 0 + 3). repeat split; try (exists (fun _ => 0), (fun _ => 0); repeat split; auto; intros; ring); try (exists (fun _ => 3), (fun _ => 1); repeat split; auto; intros; simpl; ring). intros; simpl; ring.
Qed.
Print Assumptions C31_exact_at_nodes.
Print Assumptions C31_multi_affine_exact.
