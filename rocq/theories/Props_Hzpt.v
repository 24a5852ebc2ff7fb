(** Property theorems C168 - C170: the HZPT models. *)
From Coq Require Import Reals List Lra Lia Bool.
From Coquelicot Require Import Coquelicot.
From Verif Require Import M_Zel S_Zel P_Zel M_Interp S_Interp Props_Interp M_Qso M_Hzpt S_Hzpt P_Hzpt P_HzptCF Props_Zel.
Import ListNotations.
Local Open Scope R_scope.
Opaque s8_grid k_grid zel_r.

Lemma zeldovich_standalone N c t s k : normalised N c -> sigma8z c 0 <> 0 -> zeldovich N c (kind_of t) (Some (idl N c s)) k = standalone N c t s k.
Proof.
  intros Hn H0. unfold zeldovich, standalone. rewrite new_ideal, set_ideal; [|apply Hn|exact H0]. unfold idl. destruct t; reflexivity.
Qed.
Lemma total_eq P t b1 f s k z : broadband P t b1 f s k + coef t b1 f * z = total P t b1 f s k z.
Proof. unfold total. destruct t; cbn [coef]; ring. Qed.
Lemma combine_map bb cf (g : R -> option R) : forall ks, combine_bb bb cf ks (map g ks) = map (fun k => option_map (fun x => bb k + cf * x) (g k)) ks.
Proof. induction ks as [|k ks IH]; [reflexivity|]. cbn [map combine_bb]. rewrite IH. reflexivity. Qed.
Lemma combine_nth bb cf : forall ks zs n k z, nth_error ks n = Some k -> nth_error zs n = Some z ->
  nth_error (combine_bb bb cf ks zs) n = Some (option_map (fun x => bb k + cf * x) z).
Proof.
  induction ks as [|k0 ks IH]; intros zs n k z Hk Hz; [destruct n; discriminate|]. destruct zs as [|z0 zs]; [destruct n; discriminate|].
  destruct n as [|n]; cbn [nth_error combine_bb] in *.
  - injection Hk as Hk. injection Hz as Hz. subst. reflexivity.
  - apply IH; assumption.
Qed.
(** ** the grids *)
Lemma s8_len : length s8_grid = 100%nat. Proof. Transparent s8_grid. unfold s8_grid. rewrite map_length, seq_length. reflexivity. Qed.
Lemma k_len : length k_grid = 300%nat. Proof. Transparent k_grid. unfold k_grid. cbv zeta. rewrite map_length, seq_length. reflexivity. Qed.
Lemma nth_map_seq (f : nat -> R) n i : (i < n)%nat -> nth i (map f (seq 0 n)) 0 = f i.
Proof. intros H. rewrite (nth_indep _ 0 (f 0%nat)) by (rewrite map_length, seq_length; exact H). rewrite map_nth, seq_nth by exact H. reflexivity. Qed.
Lemma s8_nth i : (i < 100)%nat -> nth i s8_grid 0 = s8_node i.
Proof. intros H. unfold s8_grid. rewrite nth_map_seq by exact H. unfold s8_node. field. Qed.
Lemma k_nth j : (j < 300)%nat -> nth j k_grid 0 = k_node j.
Proof.
  intros H. unfold k_grid. cbv zeta. rewrite nth_map_seq by exact H. unfold k_node, Rpower. f_equal.
  assert (L : ln 10 <> 0) by (assert (0 < ln 10) by (rewrite <- ln_1; apply ln_increasing; lra); lra).
  field. exact L.
Qed.
Opaque s8_grid k_grid.
Lemma s8_axis : axis s8_grid.
Proof.
  split; [rewrite s8_len; lia|]. intros i j Hij Hj. rewrite s8_len in Hj. rewrite !s8_nth by lia. unfold s8_node. apply lt_INR in Hij. lra.
Qed.
Lemma k_axis : axis k_grid.
Proof.
  split; [rewrite k_len; lia|]. intros i j Hij Hj. rewrite k_len in Hj. rewrite !k_nth by lia. unfold k_node, Rpower. apply exp_increasing.
  assert (L : ln (5/1000000) < 0) by (rewrite <- ln_1; apply ln_increasing; lra). apply lt_INR in Hij. nra.
Qed.
Lemma hz_axes : List.Forall axis hz_grid. Proof. unfold hz_grid. repeat constructor; try apply s8_axis; try apply k_axis. Qed.
Lemma k_ends : nth 0 k_grid 0 = 5/1000000 /\ nth 299 k_grid 0 = 1.
Proof.
  rewrite !k_nth by lia. unfold k_node. split.
  - replace (1 - INR 0/299) with 1 by (cbn; field). apply Rpower_1. lra.
  - replace (1 - INR 299/299) with 0 by (rewrite INR_IZR_INZ; cbn; field). apply Rpower_O. lra.
Qed.
Lemma s8_ends : nth 0 s8_grid 0 = 3/10 /\ nth 99 s8_grid 0 = 1.
Proof. rewrite !s8_nth by lia. unfold s8_node. rewrite !INR_IZR_INZ. cbn. split; field. Qed.
Definition inside (s k : R) : Prop := 3/10 <= s <= 1 /\ 5/1000000 <= k <= 1.
Lemma inside_box s k : inside s k <-> in_box hz_grid [s; k].
Proof.
  unfold inside, hz_grid. destruct k_ends as [K1 K2]. destruct s8_ends as [S1 S2]. split.
  - intros [A B]. constructor; [rewrite s8_len; change (100-1)%nat with 99%nat; rewrite S1, S2; exact A|].
    constructor; [rewrite k_len; change (300-1)%nat with 299%nat; rewrite K1, K2; exact B|constructor].
  - intros H. inversion H as [|? ? ? ? A B]; subst. inversion B as [|? ? ? ? C D]; subst. rewrite s8_len in A. rewrite k_len in C.
    change (100-1)%nat with 99%nat in A. change (300-1)%nat with 299%nat in C. rewrite S1, S2 in A. rewrite K1, K2 in C. split; assumption.
Qed.
Lemma table_entry N c t i j : normalised N c -> sigma8z c 0 <> 0 -> (i < 100)%nat -> (j < 300)%nat ->
  table_fun (irows N c (kind_of t) s8_grid) [i; j] = standalone N c t (s8_node i) (k_node j).
Proof.
  intros Hn H0 Hi Hj. cbn [table_fun]. unfold irows.
  rewrite (nth_indep _ [] (map (zeldovich N c (kind_of t) (Some (idl N c 0))) k_grid)) by (rewrite map_length, s8_len; exact Hi).
  rewrite (map_nth (fun s => map (zeldovich N c (kind_of t) (Some (idl N c s))) k_grid)). rewrite s8_nth by exact Hi.
  set (g := zeldovich N c (kind_of t) (Some (idl N c (s8_node i)))).
  rewrite (nth_indep _ 0 (g 0)) by (rewrite map_length, k_len; exact Hj). rewrite map_nth, k_nth by exact Hj. unfold g. apply zeldovich_standalone; assumption.
Qed.

(** ** C168: the container returns the spectra of its last parameters *)
Theorem C168_history_independent : forall N c P s0 f0 i0 ops t b1 ks,
  normalised N c -> sigma8z c 0 <> 0 -> 0 < s0 -> positive ops ->
  snd (hz_eval N c P (hrun N c P (hz_new N c s0 f0 i0) ops) t b1 ks) =
  snd (hz_eval N c P (hz_new N c (last_s8 t s0 ops) (last_f f0 ops) (last_int i0 ops)) t b1 ks).
Proof.
  intros N c P s0 f0 i0 ops t b1 ks Hn H0 Hs Hp. rewrite history_eval by assumption. rewrite new_eval; [reflexivity|exact Hn|exact H0|].
  apply last_pos; assumption.
Qed.
Print Assumptions C168_history_independent.
Theorem C168_without_interpolation : forall N c P s f t b1 ks, normalised N c -> sigma8z c 0 <> 0 -> 0 < s ->
  snd (hz_eval N c P (hz_new N c s f false) t b1 ks) = Some (map (fun k => Some (total P t b1 f s k (standalone N c t s k))) ks).
Proof.
  intros N c P s f t b1 ks Hn H0 Hs. rewrite new_eval by assumption. unfold closed_eval. rewrite combine_map. f_equal. apply map_ext. intros k.
  cbn [option_map]. rewrite zeldovich_standalone, total_eq by assumption. reflexivity.
Qed.
Print Assumptions C168_without_interpolation.
Lemma points_len s ks xs : In xs (map (fun k => [s; k]) ks) -> @length R xs = length hz_grid.
Proof. intros H. apply in_map_iff in H. destruct H as (k & <- & _). reflexivity. Qed.
(** Any sample outside the table: the whole array is computed directly. *)
Theorem C168_outside_is_direct : forall N c P s f t b1 ks, normalised N c -> sigma8z c 0 <> 0 -> 0 < s ->
  (exists k, In k ks /\ ~ inside s k) ->
  snd (hz_eval N c P (hz_new N c s f true) t b1 ks) = snd (hz_eval N c P (hz_new N c s f false) t b1 ks).
Proof.
  intros N c P s f t b1 ks Hn H0 Hs (k & Hk & Ho). rewrite !new_eval by assumption. unfold closed_eval. do 2 f_equal. unfold from_table. cbn [hm_s8 hm_drv].
  assert (E : call hz_grid (table_fun (irows N c (kind_of t) s8_grid)) Linear true None (map (fun k => [s; k]) ks) = DomainError).
  { apply C31_out_of_range_rejected; [intros xs; apply points_len|]. exists [s; k]. split; [apply in_map_iff; exists k; split; [reflexivity|exact Hk]|].
    intro X. apply Ho. apply inside_box. exact X. }
  rewrite E. reflexivity.
Qed.
Print Assumptions C168_outside_is_direct.
Lemma interp_value N c P s f t b1 ks n k r : normalised N c -> sigma8z c 0 <> 0 -> 0 < s ->
  (forall k', In k' ks -> inside s k') -> nth_error ks n = Some k -> value_at hz_grid (table_fun (irows N c (kind_of t) s8_grid)) Linear [s; k] r ->
  exists l, snd (hz_eval N c P (hz_new N c s f true) t b1 ks) = Some l /\ nth_error l n = Some (Some (total P t b1 f s k r)).
Proof.
  intros Hn H0 Hs Hin Hk Hv. rewrite new_eval by assumption. eexists. split; [reflexivity|]. unfold closed_eval, from_table. cbn [hm_s8].
  destruct (Hv true None (map (fun k => [s; k]) ks) n) as (l & E & F).
  { intros ys Hy. apply in_map_iff in Hy. destruct Hy as (k' & <- & Hk'). apply inside_box. apply Hin. exact Hk'. }
  { rewrite nth_error_map, Hk. reflexivity. }
  rewrite E. rewrite (combine_nth _ _ ks l n k (Some r) Hk F). cbn [option_map]. rewrite total_eq. reflexivity.
Qed.
(** At the tabulated values of sigma8 and k interpolation changes nothing. *)
Theorem C168_exact_at_tabulated_values : forall N c P f t b1 ks n i j, normalised N c -> sigma8z c 0 <> 0 ->
  (i < 100)%nat -> (j < 300)%nat -> (forall k, In k ks -> inside (s8_node i) k) -> nth_error ks n = Some (k_node j) ->
  exists l, snd (hz_eval N c P (hz_new N c (s8_node i) f true) t b1 ks) = Some l /\
    nth_error l n = Some (Some (total P t b1 f (s8_node i) (k_node j) (standalone N c t (s8_node i) (k_node j)))).
Proof.
  intros N c P f t b1 ks n i j Hn H0 Hi Hj Hin Hk.
  assert (Hs : 0 < s8_node i) by (unfold s8_node; pose proof (pos_INR i); lra).
  apply interp_value; try assumption. rewrite <- (table_entry N c t i j) by assumption.
  pose proof (@C31_exact_at_nodes hz_grid (table_fun (irows N c (kind_of t) s8_grid)) Linear [i; j] hz_axes) as X.
  unfold hz_grid in X at 3. cbn [node] in X. rewrite s8_nth, k_nth in X by assumption. apply X.
  unfold hz_grid. constructor; [rewrite s8_len; exact Hi|]. constructor; [rewrite k_len; exact Hj|constructor].
Qed.
Print Assumptions C168_exact_at_tabulated_values.
(** Inside the table the Zel'dovich term used lies between the directly computed terms at the corners of the cell. *)
Theorem C168_between_tabulated_values : forall N c P s f t b1 ks n k lo hi, normalised N c -> sigma8z c 0 <> 0 ->
  (forall k', In k' ks -> inside s k') -> nth_error ks n = Some k ->
  (forall i j a b, s8_node i <= s <= s8_node (i+1) -> k_node j <= k <= k_node (j+1) -> (i+1 < 100)%nat -> (j+1 < 300)%nat ->
     (a = i \/ a = i+1)%nat -> (b = j \/ b = j+1)%nat -> lo <= standalone N c t (s8_node a) (k_node b) <= hi) ->
  exists l z, snd (hz_eval N c P (hz_new N c s f true) t b1 ks) = Some l /\ nth_error l n = Some (Some (total P t b1 f s k z)) /\ lo <= z <= hi.
Proof.
  intros N c P s f t b1 ks n k lo hi Hn H0 Hin Hk Hc.
  assert (Hik : inside s k) by (apply Hin; eapply nth_error_In; exact Hk). assert (Hs : 0 < s) by (destruct Hik; lra).
  destruct (@C31_between_corner_values hz_grid (table_fun (irows N c (kind_of t) s8_grid)) [s; k] lo hi hz_axes (proj1 (inside_box s k) Hik)) as (r & Hr & Hb).
  { intros idx Hx. unfold hz_grid in Hx. inversion Hx as [|? ? ? ? ci i ? Lc Bc Oc Hx']; subst. inversion Hx' as [|? ? ? ? cj j ? Ld Bd Od Hx'']; subst. inversion Hx''; subst.
    rewrite s8_len in Lc. rewrite k_len in Ld. rewrite !s8_nth in Bc by lia. rewrite !k_nth in Bd by lia.
    rewrite table_entry; [|exact Hn|exact H0|lia|lia]. apply (Hc ci cj); assumption. }
  destruct (interp_value N c P s f t b1 ks n k r Hn H0 Hs Hin Hk Hr) as (l & A & B). exists l, r. auto.
Qed.
Print Assumptions C168_between_tabulated_values.
(** The Jennings formulae evaluate P00 at sigma8/D and put everything back. *)
Definition opt2 (F : R -> R -> R) (x y : option R) : option R := match x, y with Some u, Some v => Some (F u v) | _, _ => None end.
Definition jennings_spec (a0 a1 a2 a3 D p0 p : R) : R :=
  p + ((a0 * sqrt p0 + a1 * p0^2) / (a2 + a3 * p0) - p0) * ((D + D^2 + D^3) / 3)^2.
Lemma closed_len N c P t b1 ks s f : normalised N c -> length (closed_eval N c P t b1 ks s f false) = length ks.
Proof. intros Hn. unfold closed_eval. rewrite combine_map, map_length. reflexivity. Qed.
Lemma step_eval N c P st t b1 ks : hstep N c P st (HEval t b1 ks) = fst (hz_eval N c P st t b1 ks). Proof. reflexivity. Qed.
Theorem C168_jennings_restores : forall N c P s0 f0 i0 ops D s8 f ks t b1 ks', let st := hrun N c P (hz_new N c s0 f0 i0) ops in
  normalised N c -> sigma8z c 0 <> 0 -> 0 < s0 -> positive ops -> 0 < D -> s8 = last_s8 T00 s0 ops ->
  snd (hz_eval N c P (fst (Pdv_jennings N c P D s8 f st ks)) t b1 ks') = snd (hz_eval N c P st t b1 ks') /\
  snd (hz_eval N c P (fst (Pvv_jennings N c P D s8 f st ks)) t b1 ks') = snd (hz_eval N c P st t b1 ks').
Proof.
  intros N c P s0 f0 i0 ops D s8 f ks t b1 ks' st Hn H0 Hs Hp HD E8.
  assert (K : forall a, snd (hz_eval N c P (fst (jennings N c P a D s8 st ks)) t b1 ks') = snd (hz_eval N c P st t b1 ks')).
  { intros [[[a0 a1] a2] a3].
    assert (X : fst (jennings N c P (a0, a1, a2, a3) D s8 st ks) = hrun N c P (hz_new N c s0 f0 i0) (ops ++ [HModel8 T00 (s8/D); HEval T00 1 ks; HModel8 T00 s8; HEval T00 1 ks])).
    { unfold hrun. rewrite fold_left_app. fold (hrun N c P (hz_new N c s0 f0 i0) ops). fold st. cbn [fold_left]. unfold jennings.
      rewrite !step_eval.
      destruct (hz_eval N c P (hstep N c P st (HModel8 T00 (s8/D))) T00 1 ks) as [st2 r0]. cbn [fst].
      destruct (hz_eval N c P (hstep N c P st2 (HModel8 T00 s8)) T00 1 ks) as [st4 r]. reflexivity. }
    rewrite X. assert (P8 : 0 < s8) by (rewrite E8; apply last_pos; assumption).
    assert (Hp' : positive (ops ++ [HModel8 T00 (s8/D); HEval T00 1 ks; HModel8 T00 s8; HEval T00 1 ks])).
    { intros x u. split; intros I; apply in_app_or in I; destruct I as [I|I].
      - apply (proj1 (Hp x u)); exact I.
      - cbn in I. destruct I as [I|[I|[I|[I|[]]]]]; discriminate I.
      - apply (proj2 (Hp x u)); exact I.
      - cbn in I. destruct I as [I|[I|[I|[I|[]]]]]; try discriminate I; injection I as _ I; subst x; [apply Rdiv_lt_0_compat; assumption|exact P8]. }
    unfold st. rewrite !history_eval by assumption. f_equal.
    assert (L8 : forall l d, last_s8 t d (l ++ [HModel8 T00 (s8/D); HEval T00 1 ks; HModel8 T00 s8; HEval T00 1 ks]) = match t with T00 => s8 | _ => last_s8 t d l end).
    { induction l as [|o l IH]; intros d; [cbn; destruct t; reflexivity|]. cbn [app]. rewrite !last_s8_step. apply IH. }
    assert (Lf : forall l d, last_f d (l ++ [HModel8 T00 (s8/D); HEval T00 1 ks; HModel8 T00 s8; HEval T00 1 ks]) = last_f d l).
    { induction l as [|o l IH]; intros d; [reflexivity|]. cbn [app]. rewrite !last_f_step. apply IH. }
    assert (Li : forall l d, last_int d (l ++ [HModel8 T00 (s8/D); HEval T00 1 ks; HModel8 T00 s8; HEval T00 1 ks]) = last_int d l).
    { induction l as [|o l IH]; intros d; [reflexivity|]. cbn [app]. rewrite !last_int_step. apply IH. }
    rewrite L8, Lf, Li. destruct t; try reflexivity. rewrite E8. reflexivity. }
  split; [rewrite <- (K pdv_consts); unfold Pdv_jennings|rewrite <- (K pvv_consts); unfold Pvv_jennings]; destruct (jennings _ _ _ _ _ _ _ _) as [st' r]; reflexivity.
Qed.
Print Assumptions C168_jennings_restores.
(** ... and combine the two P00 evaluations as documented (here without interpolation). *)
Lemma zip_map F (g h : R -> option R) : forall ks, zip_core F (map g ks) (map h ks) = map (fun k => opt2 F (g k) (h k)) ks.
Proof. induction ks as [|k ks IH]; [reflexivity|]. cbn [map zip_core]. rewrite IH. reflexivity. Qed.
Theorem C168_jennings_value : forall N c P s0 f0 ops D s8 f ks, let st := hrun N c P (hz_new N c s0 f0 false) ops in
  let p s k := total P T00 1 f s k (standalone N c T00 s k) in
  normalised N c -> sigma8z c 0 <> 0 -> 0 < s0 -> positive ops -> last_int false ops = false -> 0 < D -> 0 < s8 ->
  snd (Pdv_jennings N c P D s8 f st ks) = Some (map (fun k => Some (- f * jennings_spec (-124838/10) (2554/1000) (138129/100) (2540/1000) D (p (s8/D) k) (p s8 k))) ks) /\
  snd (Pvv_jennings N c P D s8 f st ks) = Some (map (fun k => Some (f^2 * jennings_spec (-124805/10) (1824/1000) (216587/100) (1796/1000) D (p (s8/D) k) (p s8 k))) ks).
Proof.
  intros N c P s0 f0 ops D s8 f ks st p Hn H0 Hs Hp Hi HD H8.
  destruct (run_good N c P Hn ops _ (new_good N c Hn s0 f0 false H0 Hs) Hp) as (G & _ & _ & Gi). cbv zeta in G, Gi. fold st in G, Gi. cbn [hz_new h_int] in Gi. rewrite Hi in Gi.
  assert (K : forall a0 a1 a2 a3, snd (jennings N c P (a0, a1, a2, a3) D s8 st ks) = Some (map (fun k => Some (jennings_core a0 a1 a2 a3 D (p (s8/D) k) (p s8 k))) ks)).
  { intros a0 a1 a2 a3. unfold jennings.
    destruct (step_good N c P Hn st (HModel8 T00 (s8/D)) G) as (G1 & E1 & _ & I1); [apply Rdiv_lt_0_compat; assumption|]. cbv zeta in *.
    destruct (eval_good N c P Hn _ T00 1 ks G1) as (st2 & V1 & G2 & _ & _ & _ & I2). rewrite V1.
    destruct (step_good N c P Hn st2 (HModel8 T00 s8) G2) as (G3 & E3 & _ & I3); [exact H8|]. cbv zeta in *.
    destruct (eval_good N c P Hn _ T00 1 ks G3) as (st4 & V3 & _). rewrite V3. cbn [snd].
    rewrite E1, E3, I3, I2, I1, Gi. cbn [eff_step teqb]. unfold closed_eval. rewrite !combine_map. f_equal.
    assert (Z : forall s k, broadband P T00 1 0 s k + coef T00 1 0 * zeldovich N c (kind_of T00) (Some (idl N c s)) k = p s k).
    { intros s k. rewrite zeldovich_standalone by assumption. rewrite total_eq. reflexivity. }
    rewrite zip_map. apply map_ext. intros k. cbn [option_map opt2]. f_equal. f_equal; [exact (Z (s8/D) k)|exact (Z s8 k)]. }
  assert (J : forall a0 a1 a2 a3 x y, jennings_core a0 a1 a2 a3 D x y = jennings_spec a0 a1 a2 a3 D x y).
  { intros. unfold jennings_core, jennings_spec. cbv zeta. set (u := (a0 * sqrt x + a1 * x^2) / (a2 + a3 * x) - x). field. nra. }
  split.
  - unfold Pdv_jennings. pose proof (K (-(124838/10)) (2554/1000) (138129/100) (2540/1000)) as K1. fold pdv_consts in K1.
    destruct (jennings N c P pdv_consts D s8 st ks) as [st' r]. cbn [snd] in *. rewrite K1. cbn [option_map]. f_equal. rewrite map_map. apply map_ext. intros k. cbn [option_map].
    rewrite J. do 3 f_equal. lra.
  - unfold Pvv_jennings. pose proof (K (-(124805/10)) (1824/1000) (216587/100) (1796/1000)) as K1. fold pvv_consts in K1.
    destruct (jennings N c P pvv_consts D s8 st ks) as [st' r]. cbn [snd] in *. rewrite K1. cbn [option_map]. f_equal. rewrite map_map. apply map_ext. intros k. cbn [option_map].
    rewrite J. do 3 f_equal. lra.
Qed.
Print Assumptions C168_jennings_value.
(** The broadbands in the form of the paper: P00 and Phm are the Pade function with power laws of sigma8 (and b1), P11 the shorter
    one with power laws of sigma8 and f; the broadband of P01 is the subject of C26. *)
Definition plaw (amp al s8 : R) : R := amp * Rpower (s8 / (8/10)) al.
Theorem C168_broadbands : forall P b1 f s8 k,
  let h := hp_00 P in
  let l3 (l : law3) := plaw (l3_amp l) (l3_al l) s8 * Rpower (2*f) (l3_be l) in
  let l4 (l : law4) := plaw (l4_amp l) (l4_be l) s8 * Rpower b1 (l4_al l + l4_run l * ln b1) in
  broadband P T00 b1 f s8 k = pade_spec (plaw (A0_amp h) (A0_al h) s8) (plaw (R_amp h) (R_al h) s8) (plaw (R1_amp h) (R1_al h) s8)
                                (plaw (R1h_amp h) (R1h_al h) s8) (plaw (R2h_amp h) (R2h_al h) s8) k /\
  broadband P Thm b1 f s8 k = pade_spec (l4 (hm_A0 P)) (l4 (hm_R P)) (l4 (hm_R1 P)) (l4 (hm_R1h P)) (l4 (hm_R2h P)) k /\
  broadband P T11 b1 f s8 k = pade_spec (l3 (hp_A0 P)) (l3 (hp_R P)) 0 (l3 (hp_R1h P)) 0 k.
Proof.
  intros P b1 f s8 k h l3 l4.
  assert (F : forall x, 1 - 1/(1 + x^2) = x^2/(1 + x^2)) by (intros x; field; pose proof (pow2_ge_0 x); lra).
  assert (K : forall A0 R_ R1 R1h R2h, pade A0 R_ R1 R1h R2h k = pade_spec A0 R_ R1 R1h R2h k).
  { intros. unfold pade, pade_spec. cbv zeta. rewrite F. unfold Rdiv. ring. }
  split; [|split].
  - rewrite <- K. reflexivity.
  - cbn [broadband]. unfold Phm_broadband. rewrite K.
    assert (E : forall l, powerlaw4 l s8 b1 = l4 l) by (intros l; unfold powerlaw4, l4, plaw; ring). rewrite !E. reflexivity.
  - cbn [broadband]. unfold P11_broadband. cbv zeta. rewrite F.
    assert (E : forall l, powerlaw3 l s8 f = l3 l) by (intros l; unfold powerlaw3, l3, plaw; replace (f/(1/2)) with (2*f) by field; ring).
    rewrite !E. unfold pade_spec. replace (1 + (k*0)^2) with 1 by ring. replace (1 + (k*l3 (hp_R1h P))^2 + (k*0)^4) with (1 + (k*l3 (hp_R1h P))^2) by ring.
    unfold Rdiv. ring.
Qed.
Print Assumptions C168_broadbands.
Lemma s8_c0 : sigma8z c0 0 <> 0. Proof. rewrite c0_s8. lra. Qed.
Example C168_nonvacuous :
  let ops := [HEval T00 1 [1/10]; HSet8 (1/2); HModel8 T00 (3/4); HEval T01 1 [1/10; 2]; HSetF (4/5); HInterp false; HSet8 (7/10)] in
  normalised N0 c0 /\ sigma8z c0 0 <> 0 /\ positive ops /\ last_s8 T00 1 ops = 7/10 /\ last_s8 T00 1 (firstn 3 ops) = 3/4 /\ last_s8 T01 1 (firstn 3 ops) = 1/2 /\
  inside (s8_node 99) (k_node 299) /\ (exists k, In k [2] /\ ~ inside 1 k).
Proof.
  intros ops. split; [apply c0_norm|]. split; [apply s8_c0|]. split.
  { intros s t. split; intros I; cbn in I; repeat (destruct I as [I|I]; [try discriminate I; injection I as I; try (injection I as _ I); subst; try lra|]); try contradiction.
    all: try lra. }
  split; [reflexivity|]. split; [reflexivity|]. split; [reflexivity|]. split.
  - apply inside_box. unfold hz_grid. rewrite <- s8_nth, <- k_nth by lia. pose proof k_ends. pose proof s8_ends. constructor; [rewrite s8_len; cbn; lra|]. constructor; [rewrite k_len; cbn; lra|constructor].
  - exists 2. split; [left; reflexivity|]. unfold inside. lra.
Qed.

(** ** C169: the correlation-function broadband is the Fourier transform of the power-spectrum broadband *)
Theorem C169_broadband_is_fourier_transform : forall A0 R_ R1 R1h R2h k, 0 < R_ -> 0 < R2h -> 4*R2h^4 < R1h^4 ->
  1 - (R1h/R_)^2 + (R2h/R_)^4 <> 0 -> 0 < k ->
  (forall X, 0 <= X -> ex_RInt (fun r => 4*PI*r^2*cf_broadband A0 R_ R1 R1h R2h r * (sin (k*r)/(k*r))) 0 X) /\
  is_lim (fun X => RInt (fun r => 4*PI*r^2*cf_broadband A0 R_ R1 R1h R2h r * (sin (k*r)/(k*r))) 0 X) p_infty (pade_spec A0 R_ R1 R1h R2h k).
Proof. intros. apply cf_is_transform; assumption. Qed.
Print Assumptions C169_broadband_is_fourier_transform.
(** With the default parameters the hypotheses hold for every sigma8 of the interpolation table, so that CF00's broadband is the
    transform of P00's there. *)
Lemma Rpower_bounds_low x a : 0 < x <= 1 -> 0 <= a <= 1 -> x <= Rpower x a <= 1.
Proof.
  intros Hx Ha. assert (L : ln x <= 0) by (rewrite <- ln_1; destruct (Req_dec x 1) as [X1|X1]; [rewrite X1; lra|left; apply ln_increasing; lra]).
  assert (E : forall u v, u <= v -> exp u <= exp v) by (intros u v [H|H]; [left; apply exp_increasing; exact H|rewrite H; lra]).
  unfold Rpower. split.
  - rewrite <- (exp_ln x) at 1 by lra. apply E. nra.
  - rewrite <- exp_0. apply E. nra.
Qed.
Lemma Rpower_bounds_high x a : 1 <= x -> 0 <= a <= 1 -> 1 <= Rpower x a <= x.
Proof.
  intros Hx Ha. assert (L : 0 <= ln x) by (rewrite <- ln_1; destruct (Req_dec x 1) as [X1|X1]; [rewrite X1; lra|left; apply ln_increasing; lra]).
  assert (E : forall u v, u <= v -> exp u <= exp v) by (intros u v [H|H]; [left; apply exp_increasing; exact H|rewrite H; lra]).
  unfold Rpower. split.
  - rewrite <- exp_0 at 1. apply E. nra.
  - rewrite <- (exp_ln x) at 2 by lra. apply E. nra.
Qed.
Theorem C169_default_matter_correlation : forall s8 k b1 f, 3/10 <= s8 <= 1 -> 0 < k ->
  let h := hp_00 default_pars in
  let xi r := cf_broadband (plaw (A0_amp h) (A0_al h) s8) (plaw (R_amp h) (R_al h) s8) (plaw (R1_amp h) (R1_al h) s8)
                (plaw (R1h_amp h) (R1h_al h) s8) (plaw (R2h_amp h) (R2h_al h) s8) r in
  is_lim (fun X => RInt (fun r => 4*PI*r^2*xi r * (sin (k*r)/(k*r))) 0 X) p_infty (broadband default_pars T00 b1 f s8 k).
Proof.
  intros s8 k b1 f Hs Hk h xi. destruct (C168_broadbands default_pars b1 f s8 k) as (E & _). cbv zeta in E. fold h in E. rewrite E.
  assert (PW : forall x a, 0 < Rpower x a) by (intros; apply exp_pos).
  apply C169_broadband_is_fourier_transform; try exact Hk; unfold h, default_pars, plaw; cbn [hp_00 R_amp R_al R2h_amp R2h_al R1h_amp R1h_al].
  - pose proof (PW (s8/(8/10)) (1257/10000)). lra.
  - pose proof (PW (s8/(8/10)) (4224/10000)). lra.
  - rewrite Rpower_Ropp. set (x := s8/(8/10)). assert (Hx : 3/8 <= x <= 5/4) by (unfold x; lra).
    assert (B : 3 <= 3768/1000 * / Rpower x (1043/10000)).
    { destruct (Rle_dec x 1).
      - pose proof (Rpower_bounds_low x (1043/10000) ltac:(lra) ltac:(lra)) as [Q1 Q2]. pose proof (PW x (1043/10000)).
        assert (1 <= / Rpower x (1043/10000)) by (rewrite <- Rinv_1; apply Rinv_le_contravar; lra). lra.
      - pose proof (Rpower_bounds_high x (1043/10000) ltac:(lra) ltac:(lra)) as [Q1 Q2].
        assert (/ (5/4) <= / Rpower x (1043/10000)) by (apply Rinv_le_contravar; lra). lra. }
    assert (C : 0 < 1699/1000 * Rpower x (4224/10000) <= 2123751/1000000).
    { split; [pose proof (PW x (4224/10000)); lra|]. destruct (Rle_dec x 1).
      - pose proof (Rpower_bounds_low x (4224/10000) ltac:(lra) ltac:(lra)). lra.
      - pose proof (Rpower_bounds_high x (4224/10000) ltac:(lra) ltac:(lra)). lra. }
    assert (D : (301/100)^4 <= (3768/1000 * / Rpower x (1043/10000))^4).
    { apply pow_incr. split; [lra|]. destruct (Rle_dec x 1).
      - pose proof (Rpower_bounds_low x (1043/10000) ltac:(lra) ltac:(lra)) as [Q1 Q2]. pose proof (PW x (1043/10000)).
        assert (1 <= / Rpower x (1043/10000)) by (rewrite <- Rinv_1; apply Rinv_le_contravar; lra). lra.
      - pose proof (Rpower_bounds_high x (1043/10000) ltac:(lra) ltac:(lra)) as [Q1 Q2].
        assert (/ (5/4) <= / Rpower x (1043/10000)) by (apply Rinv_le_contravar; lra). lra. }
    assert (G : (1699/1000 * Rpower x (4224/10000))^4 <= (2123751/1000000)^4) by (apply pow_incr; lra).
    lra.
  - set (x := s8/(8/10)). assert (Hx : 3/8 <= x <= 5/4) by (unfold x; lra). rewrite Rpower_Ropp.
    set (u := 3768/1000 * / Rpower x (1043/10000)). set (v := 3176/100 * Rpower x (1257/10000)). set (w := 1699/1000 * Rpower x (4224/10000)).
    assert (Hu : 0 < u < 105/10).
    { unfold u. pose proof (PW x (1043/10000)). split; [apply Rmult_lt_0_compat; [lra|apply Rinv_0_lt_compat; assumption]|].
      destruct (Rle_dec x 1).
      - pose proof (Rpower_bounds_low x (1043/10000) ltac:(lra) ltac:(lra)) as [Q1 Q2].
        assert (/ Rpower x (1043/10000) <= / (3/8)) by (apply Rinv_le_contravar; lra). lra.
      - pose proof (Rpower_bounds_high x (1043/10000) ltac:(lra) ltac:(lra)) as [Q1 Q2].
        assert (/ Rpower x (1043/10000) <= / 1) by (apply Rinv_le_contravar; lra). lra. }
    assert (Hv : 11 < v).
    { unfold v. destruct (Rle_dec x 1).
      - pose proof (Rpower_bounds_low x (1257/10000) ltac:(lra) ltac:(lra)) as [Q1 Q2]. lra.
      - pose proof (Rpower_bounds_high x (1257/10000) ltac:(lra) ltac:(lra)) as [Q1 Q2]. lra. }
    assert (Hq : 0 < u/v < 1) by (split; [apply Rdiv_lt_0_compat; lra|apply (Rmult_lt_reg_r v); [lra|]; unfold Rdiv; rewrite Rmult_assoc, Rinv_l by lra; lra]).
    assert (0 <= (w/v)^4) by (replace ((w/v)^4) with (((w/v)^2)^2) by ring; apply pow2_ge_0). nra.
Qed.
Print Assumptions C169_default_matter_correlation.
Example C169_nonvacuous : 3/10 <= 8/10 <= 1 /\ 0 < 1699/1000 /\ 4*(1699/1000)^4 < (3768/1000)^4 /\ 1 - ((3768/1000)/(3176/100))^2 + ((1699/1000)/(3176/100))^4 <> 0.
Proof. split; [lra|]. split; [lra|]. split; [lra|]. lra. Qed.

(** ** C170: a zero sigma8 poisons the container *)
Lemma set_none st ss : h_base st = None -> (forall t, h_mod st t = None) -> (forall s, In s ss -> 0 < s) -> 0 < h_s8 st ->
  forall N c P, let st' := hrun N c P st (map HSet8 ss) in h_base st' = None /\ (forall t, h_mod st' t = None) /\ h_s8 st' = last_s8 T00 (h_s8 st) (map HSet8 ss) /\ 0 < h_s8 st' /\ h_f st' = h_f st /\ h_int st' = h_int st.
Proof.
  revert st. induction ss as [|s ss IH]; intros st Hb Hm Hs H8 N c P; cbv zeta.
  - cbn. do 4 (split; [assumption || reflexivity|]). split; reflexivity.
  - change (hrun N c P st (map HSet8 (s :: ss))) with (hrun N c P (fst (set_s8 s st)) (map HSet8 ss)).
    assert (Hs' : forall x, In x ss -> 0 < x) by (intros x Hx; apply Hs; right; exact Hx). assert (s0 : 0 < s) by (apply Hs; left; reflexivity).
    assert (E : fst (set_s8 s st) = {| h_base := None; h_s8 := s; h_f := h_f st; h_int := h_int st; h_mod := h_mod st; h_tab := h_tab st |}).
    { unfold set_s8. cbn [set_models]. rewrite !Hm. rewrite Hb. reflexivity. }
    rewrite E. specialize (IH {| h_base := None; h_s8 := s; h_f := h_f st; h_int := h_int st; h_mod := h_mod st; h_tab := h_tab st |} eq_refl Hm Hs' s0 N c P).
    cbv zeta in IH. cbn [h_f h_int h_s8] in IH. cbn [map last_s8]. exact IH.
Qed.
(** sigma8_z = 0 is accepted without an error before the first evaluation; after any later positive values the spectra are the
    broadband alone: the Zel'dovich part is gone for good. *)
Theorem C170_zero_removes_the_zeldovich_term_refuted : forall N c P s0 f ss s t b1 ks, 0 < s0 -> 0 < s -> (forall x, In x ss -> 0 < x) -> sigma8z c 0 <> 0 -> 0 < last_s8 T00 s (map HSet8 ss) ->
  let st := hrun N c P (hz_new N c s0 f false) (HSet8 0 :: HSet8 s :: map HSet8 ss) in
  snd (set_s8 0 (hz_new N c s0 f false)) = false /\
  snd (hz_eval N c P st t b1 ks) = Some (map (fun k => Some (broadband P t b1 f (last_s8 T00 s (map HSet8 ss)) k)) ks).
Proof.
  intros N c P s0 f ss s t b1 ks Hs0 Hs Hss H0 Hl st. split; [reflexivity|].
  set (st1 := fst (set_s8 s (fst (set_s8 0 (hz_new N c s0 f false))))).
  assert (E : st = hrun N c P st1 (map HSet8 ss)) by reflexivity.
  assert (B1 : h_base st1 = None).
  { unfold st1, set_s8, hz_new. cbn [set_models h_mod fst h_base]. unfold zel_set8 at 3. cbn [z_s8z zel_new].
    change (z_s8z (zel_new N c 0 false)) with (sigma8z c 0). destruct (Req_EM_T (sigma8z c 0) 0) as [X|_]; [contradiction|].
    unfold zel_set8 at 2. cbn [z_s8z]. destruct (Req_EM_T s0 0) as [X|_]; [lra|]. unfold zel_set8. cbn [z_s8z]. destruct (Req_EM_T 0 0) as [_|X]; [reflexivity|lra]. }
  destruct (set_none st1 ss B1 (fun t => eq_refl) Hss Hs N c P) as (A & B & C & D & F & G). cbv zeta in *. rewrite <- E in A, B, C, D, F, G.
  change (h_s8 st1) with s in C. change (h_f st1) with f in F. change (h_int st1) with false in G.
  unfold hz_eval, get_model. rewrite B. unfold model_new, model_set8. destruct (Rle_dec (h_s8 st) 0) as [X|_]; [lra|]. rewrite A. cbn [option_map hm_drv zel_set8 hm_s8 hm_f]. cbv zeta.
  unfold sync. cbn [hm_drv]. rewrite G. cbn [snd hm_drv hm_s8 hm_f]. rewrite combine_map. f_equal. apply map_ext. intros k. cbn [option_map]. f_equal.
  unfold zeldovich. cbn [zel_eval]. rewrite Rmult_0_r, Rplus_0_r, F, C. reflexivity.
Qed.
Print Assumptions C170_zero_removes_the_zeldovich_term_refuted.
Lemma c0_lowk_pos s : 0 < s -> 0 < standalone N0 c0 T00 s (1/1000).
Proof.
  intros Hs. unfold standalone. rewrite new_ideal, set_ideal; [|apply c0_norm|apply s8_c0].
  unfold zel_eval. change (z_k0 (ideal N0 c0 s 0 true (5/1000))) with (5/1000). destruct (Rle_dec (5/1000) (1/1000)) as [X|_]; [lra|].
  change (z_approx (ideal N0 c0 s 0 true (5/1000))) with true. cbn [negb]. unfold lowk. cbv zeta.
  change (z_lin (ideal N0 c0 s 0 true (5/1000))) with {| l_z := 0; l_s8z := s |}. set (x := z_sig2 (ideal N0 c0 s 0 true (5/1000))). clearbody x.
  unfold Q3_zel. cbn [n_int N0]. rewrite !c0_lin. pose proof PI_RGT_0 as Hp. set (L := 2*PI^2*s^2).
  assert (0 < L) by (unfold L; apply Rmult_lt_0_compat; [pose proof (pow_lt PI 2 Hp); lra|apply pow_lt; exact Hs]).
  assert (0 < 1 - (1/1000)^2*x + 1/2*(1/1000)^4*x^2) by nra.
  assert (0 <= 1/(10*PI*PI) * (1/1000)^4 * (L*L/1/1)).
  { apply Rmult_le_pos; [apply Rmult_le_pos; [|lra]|]; [left; apply Rdiv_lt_0_compat; nra|]. unfold Rdiv. rewrite Rinv_1. nra. }
  nra.
Qed.
(** ... although a fresh object with the same parameters returns something else. *)
Theorem C170_poisoned_differs_from_fresh_refuted : exists N c P s0 s f k, normalised N c /\ sigma8z c 0 <> 0 /\ 0 < s0 /\ 0 < s /\
  snd (hz_eval N c P (hrun N c P (hz_new N c s0 f false) [HSet8 0; HSet8 s]) T00 1 [k]) <> snd (hz_eval N c P (hz_new N c s f false) T00 1 [k]).
Proof.
  exists N0, c0, default_pars, 1, (1/2), (1/2), (1/1000). split; [apply c0_norm|]. split; [apply s8_c0|]. split; [lra|]. split; [lra|].
  pose proof (C170_zero_removes_the_zeldovich_term_refuted N0 c0 default_pars 1 (1/2) [] (1/2) T00 1 [1/1000] ltac:(lra) ltac:(lra) ltac:(intros x []) s8_c0 ltac:(cbn [map last_s8]; lra)) as [_ E].
  cbv zeta in E. cbn [map last_s8] in E. rewrite E. rewrite C168_without_interpolation; [|apply c0_norm|apply s8_c0|lra]. cbn [map]. unfold total.
  pose proof (c0_lowk_pos (1/2) ltac:(lra)). intros X. injection X as X. lra.
Qed.
Print Assumptions C170_poisoned_differs_from_fresh_refuted.
(** After the first evaluation the same assignment raises ValueError, but the container's own value and its base object have
    already changed: the models that exist keep the old sigma8 while the container reports 0. *)
Theorem C170_rejected_value_is_kept_refuted : forall N c P s0 f b1 ks, normalised N c -> sigma8z c 0 <> 0 -> 0 < s0 ->
  let st := hrun N c P (hz_new N c s0 f false) [HEval T00 b1 ks] in
  snd (set_s8 0 st) = true /\ h_s8 (fst (set_s8 0 st)) = 0 /\ snd (hz_eval N c P (fst (set_s8 0 st)) T00 b1 ks) = snd (hz_eval N c P st T00 b1 ks) /\
  snd (hz_eval N c P (fst (set_s8 0 st)) T01 b1 ks) = None.
Proof.
  intros N c P s0 f b1 ks Hn H0 Hs st.
  pose proof (new_good N c Hn s0 f false H0 Hs) as G0.
  assert (Hm : exists m, h_mod st T00 = Some m /\ good_model N c st T00 m /\ h_mod st T01 = None).
  { unfold st, hrun. cbn [fold_left hstep]. unfold hz_eval. destruct (get_good N c Hn _ T00 G0) as (st1 & m & A & G1 & Gm & E & M & O & S & F & I & T).
    rewrite A. cbv zeta. rewrite (sync_good N c _ _ _ Gm). cbn [hz_new h_int fst put_model h_mod]. exists m. split; [apply upd_same|]. split; [exact Gm|].
    rewrite upd_other by discriminate. rewrite O by discriminate. reflexivity. }
  destruct Hm as (m & M0 & Gm & M1).
  assert (X : model_set8 0 m = None) by (unfold model_set8; destruct (Rle_dec 0 0); [reflexivity|lra]).
  assert (Y : set_s8 0 st = ({| h_base := zel_set8 0 (h_base st); h_s8 := 0; h_f := h_f st; h_int := h_int st; h_mod := h_mod st; h_tab := h_tab st |}, true)).
  { unfold set_s8. cbn [set_models]. rewrite M0, X. reflexivity. }
  rewrite Y. cbn [fst snd]. split; [reflexivity|]. split; [reflexivity|]. split.
  - assert (hi : h_int st = false) by (unfold st, hrun; cbn [fold_left hstep]; destruct (eval_good N c P Hn _ T00 b1 ks G0) as (st' & A & _ & _ & _ & _ & I); rewrite A; exact I).
    unfold hz_eval, get_model. cbn [h_mod h_int]. rewrite M0, hi. reflexivity.
  - unfold hz_eval, get_model. cbn [h_mod]. rewrite M1. unfold model_new, model_set8. cbn [h_s8]. destruct (Rle_dec 0 0); [reflexivity|lra].
Qed.
Print Assumptions C170_rejected_value_is_kept_refuted.
