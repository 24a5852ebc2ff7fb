(** Properties C132-C138: the compiled Cosmology class and LinearPS. *)
From Coq Require Import String Reals ZArith Lra Lia Bool.
From Coq Require Import List.
From Coquelicot Require Import Coquelicot.
From Verif Require Import M_Spline S_Spline M_Gcl S_Gcl P_Gcl P_Gcl2 P_Gcl3 P_Gcl4 M_GclFit.
From Verif Require M_Disc Props_Disc M_Kaiser.
Import ListNotations.
Local Open Scope R_scope.

(** C132: whatever was done to a cosmology, a linear spectrum made from it at redshift z has, in spheres of 8 Mpc/h, exactly the variance
    Sigma8_z(z)^2 *)
Theorem C132_linear_normalised : forall E c z s, made E c -> homogeneous (v_int E) -> exact_j1 E -> sigma8 c <> 0 ->
  (forall g T, c_eng c = Some g -> transfer c = Some T -> 0 < variance E (fun k => Rpower k (e_ns g) * (T k) ^ 2)) ->
  lin_new c z = Some s -> exists P, (forall k, lin_eval c s k = Some (P k)) /\ variance E P = s ^ 2.
Proof.
  intros E c z s M HJ X S0 HV Hs. destruct (made_norm E c M) as (g & T & Hg & HT & HN). specialize (HV g T Hg HT). rewrite (variance_sigma2 E HJ T (e_ns g) X) in HV.
  exists (fun k => (c_dH c) ^ 2 * (s / c_s8 c) ^ 2 * Rpower k (e_ns g) * (T k) ^ 2). split.
  - intros k. unfold lin_eval. rewrite Hg, HT. reflexivity.
  - rewrite (variance_scale E HJ ((c_dH c) ^ 2 * (s / c_s8 c) ^ 2) (fun k => Rpower k (e_ns g) * (T k) ^ 2)) by (intros k; ring).
    rewrite (variance_sigma2 E HJ T (e_ns g) X), HN. destruct (sq_sqrt _ HV) as (A & B). unfold sigma8 in S0. rewrite <- B at 2. field. split; assumption.
Qed.
(** SetSigma8 sets sigma8 and rescales Sigma8_z, A_s; a LinearPS made before keeps its values, one made after is rescaled *)
Theorem C132_set_sigma8 : forall E c s d z, made E c -> set_sigma8 E c s = Some d -> sigma8 d = s /\
  (exists v w a b, Sigma8_z c z = Some v /\ Sigma8_z d z = Some w /\ w * sigma8 c = v * s /\ A_s c = Some a /\ A_s d = Some b /\ b * sigma8 c ^ 2 = a * s ^ 2) /\
  transfer d = transfer c /\ c_pars d = c_pars c /\ c_eng d = c_eng c.
Proof.
  intros E c s d z M H. destruct (set8_inv E c s d H) as (g & T & Hg & HT & Hd). rewrite Hd. split; [reflexivity|]. split.
  - unfold Sigma8_z, A_s, sigma8. cbn [c_eng c_s8]. rewrite Hg. exists (e_s8z g z * (c_s8 c / e_s8 g)), (e_s8z g z * (s / e_s8 g)), (e_As g * (c_s8 c / e_s8 g) ^ 2), (e_As g * (s / e_s8 g) ^ 2).
    split; [reflexivity|]. split; [reflexivity|]. split; [unfold Rdiv; ring|]. split; [reflexivity|]. split; [reflexivity|]. unfold Rdiv. ring.
  - split; [reflexivity|split; reflexivity].
Qed.
Theorem C132_linear_stable : forall E c s d z v k, made E c -> homogeneous (v_int E) -> exact_j1 E -> set_sigma8 E c s = Some d -> s <> 0 -> sigma8 c <> 0 ->
  (forall g T, c_eng c = Some g -> transfer c = Some T -> 0 < variance E (fun k => Rpower k (e_ns g) * (T k) ^ 2)) ->
  lin_new c z = Some v -> lin_eval d v k = lin_eval c v k /\
  exists w p q, lin_new d z = Some w /\ lin_eval c v k = Some p /\ lin_eval d w k = Some q /\ q * sigma8 c ^ 2 = p * s ^ 2.
Proof.
  intros E c s d z v k M HJ X H S0 S1 HV Hv. destruct (made_norm E c M) as (g & T & Hg & HT & HN). specialize (HV g T Hg HT). rewrite (variance_sigma2 E HJ T (e_ns g) X) in HV. destruct (sq_sqrt _ HV) as (A & B).
  assert (H' := H). destruct (set8_inv E c s d H) as (g' & T' & Hg' & HT' & Hd). rewrite Hg in Hg'. injection Hg' as <-. rewrite HT in HT'. injection HT' as <-.
  assert (TD : transfer d = Some T) by (rewrite Hd; exact HT). assert (ED : c_eng d = Some g) by (rewrite Hd; exact Hg). assert (DD : c_dH d = s / sqrt (sigma2 E T (e_ns g))) by (rewrite Hd; reflexivity). assert (SD : c_s8 d = s) by (rewrite Hd; reflexivity).
  unfold sigma8 in S1. split.
  - unfold lin_eval. rewrite ED, TD, Hg, HT, DD, SD, HN. f_equal. field. repeat split; assumption.
  - revert Hv. unfold lin_new, Sigma8_z. rewrite Hg, ED, SD. intros [= <-]. unfold lin_eval. rewrite ED, TD, Hg, HT, DD, SD, HN. eexists. eexists. eexists. split; [reflexivity|]. split; [reflexivity|]. split; [reflexivity|].
    unfold sigma8, Rdiv. generalize (/ e_s8 g). intros i8. field. repeat split; assumption.
Qed.
(** C133: pickling (and clone) gives an object like the original, for histories without FromArrays and with updates only under CLASS, whose
    parameters survive printing and contain the two from_dict would add *)
Theorem C133_pickle : forall E c, plain E c -> printable E (c_pars c) -> has_defaults (c_pars c) ->
  exists d, pickled E c = Some d /\ clone E c None = Some d /\ alike c d /\ c_k d = c_k c /\ c_T d = c_T c.
Proof.
  intros E c P Pr D. destruct (pickle_alike E c (plain_good E c P) Pr D) as (d & H & A). exists d. split; [exact H|]. split; [exact H|exact A].
Qed.
(** C134: choosing another transfer function, or updating parameters while the fit is CLASS, gives what a fresh object would be *)
Theorem C134_set_transfer : forall E c f d, plain E c -> f <> FromArrays -> f <> c_fit c -> set_fit E c f = Some d ->
  exists e, new E (c_pars c) f = Some e /\ alike d e.
Proof.
  intros E c f d P F N. unfold set_fit. destruct (fit_eqb f (c_fit c)) eqn:Q; [apply fit_eqb_spec in Q; contradiction|]. intros H. assert (G := plain_good E c P).
  apply (same_as_new E _ d f) in H; [exact H|reflexivity|exact F|apply G|]. right. right. split; [apply G|apply G].
Qed.
Theorem C134_update : forall E c kw d, plain E c -> c_fit c = CLASS -> keys_distinct kw -> update E c kw = Some d ->
  (exists p e, (forall k, pget p k = after_update c kw k) /\ new E p CLASS = Some e /\ alike d e) /\
  forall k, k <> "output"%string -> pget (c_pars d) k = after_update c kw k.
Proof.
  intros E c kw d P F K H. assert (G := plain_good E c P). assert (H' := H). unfold update in H. destruct kw as [|kv kw']; [discriminate H|]. set (kw := kv :: kw') in *.
  assert (A := same_as_new E _ d CLASS H F ltac:(discriminate) (pupdate_keys _ _ (g_key _ _ G)) (or_introl eq_refl)). cbn [c_pars] in A. destruct A as (e & He & Al). split.
  - exists (pupdate (c_pars c) (from_dict kw)), e. split; [intros k; apply update_params; exact K|split; [exact He|exact Al]].
  - intros k Hk. destruct Al as (Hp & _). rewrite Hp. assert (C := cti_form E (blank (pupdate (c_pars c) (from_dict kw)) CLASS [] []) e He ltac:(discriminate) (pupdate_keys _ _ (g_key _ _ G)) (or_introl eq_refl)).
    destruct C as (_ & C & _). rewrite C. cbn [blank c_pars]. rewrite verify_get by exact Hk. apply update_params. exact K.
Qed.
(** asking for the fit already chosen changes nothing; a copy is a fresh object with the same parameters and fit; so is clone(tf) *)
Theorem C134_same_fit : forall E c, set_fit E c (c_fit c) = Some c.
Proof. intros E c. unfold set_fit. destruct (c_fit c); reflexivity. Qed.
Theorem C134_copy : forall E c d, plain E c -> copy E c = Some d -> exists e, new E (c_pars c) (c_fit c) = Some e /\ alike d e.
Proof.
  intros E c d P H. assert (G := plain_good E c P). apply (same_as_new E _ d (c_fit c)) in H; [exact H|reflexivity|apply G|apply G|right; left; reflexivity].
Qed.
Theorem C134_clone : forall E c f d, plain E c -> printable E (c_pars c) -> has_defaults (c_pars c) -> f <> FromArrays -> f <> c_fit c -> clone E c (Some f) = Some d -> exists e, new E (c_pars c) f = Some e /\ alike d e.
Proof.
  intros E c f d P Pr D F N. destruct (C133_pickle E c P Pr D) as (c1 & H1 & _ & Al & _). unfold clone, bind. rewrite H1. intros H. assert (P1 : plain E c1) by exact (P_pickle E c c1 P H1).
  destruct Al as (A1 & _ & _ & _ & A5 & _). rewrite A1. apply (C134_set_transfer E c1 f d P1 F); [rewrite <- A5; exact N|exact H].
Qed.
(** C135: update while the fit is not CLASS: the parameters change, CLASS is not run, and everything computed stays what it was *)
Theorem C135_update_stale_refuted : forall E c kw d, made E c -> c_fit c <> CLASS -> keys_distinct kw -> update E c kw = Some d ->
  c_eng d = c_eng c /\ transfer d = transfer c /\ (forall g, c_eng c = Some g -> sigma8 d = e_s8 g) /\ forall k, pget (c_pars d) k = after_update c kw k.
Proof.
  intros E c kw d M F K H. destruct (made_norm E c M) as (g & T & Hg & HT & _). unfold update in H. destruct kw as [|kv kw']; [discriminate H|]. set (kw := kv :: kw') in *. revert H. unfold update_raw, class_then_init, bind. cbn [c_fit].
  assert (Q : forall x y, match c_fit c with CLASS => x | _ => y end = y :> option cosmo) by (intros x y; destruct (c_fit c); [contradiction|reflexivity..]). rewrite Q. clear Q.
  unfold initialize. cbn [c_eng c_fit c_k c_T c_tab c_pars c_s8 c_dH]. rewrite Hg. cbn [c_eng c_fit c_k c_T c_tab c_pars c_s8 c_dH].
  assert (Q : forall x, match c_fit c with CLASS => x | _ => c_tab c end = c_tab c) by (intros x; destruct (c_fit c); [contradiction|reflexivity..]). rewrite Q. clear Q.
  intros H. assert (H1 : set_sigma8 E {| c_pars := pupdate (c_pars c) (from_dict kw); c_eng := Some g; c_s8 := c_s8 c; c_dH := c_dH c; c_fit := c_fit c; c_k := c_k c; c_T := c_T c; c_tab := c_tab c |} (e_s8 g) = Some d) by (destruct (c_fit c); [contradiction|exact H..]).
  destruct (set8_inv _ _ _ _ H1) as (g' & T' & Hg' & HT' & ->). cbn [c_eng c_pars]. split; [reflexivity|]. split.
  - unfold transfer. cbn [c_eng c_fit c_tab]. rewrite Hg. reflexivity.
  - split; [|intros k; apply update_params; exact K]. intros g2 [= <-]. reflexivity.
Qed.
(** copying, changing the fit, updating: sigma8 is again the value of CLASS, whatever SetSigma8 was given *)
Lemma init_s8 E c d : initialize E c = Some d -> exists g, c_eng d = Some g /\ sigma8 d = e_s8 g.
Proof.
  unfold initialize. set (c1 := match c_eng c with None => run_class E c | Some _ => c end). destruct (c_eng c1) as [g|] eqn:Hg; [|discriminate].
  intros H. exists g. assert (X : exists e, set_sigma8 E e (e_s8 g) = Some d /\ c_eng e = Some g).
  { destruct (c_fit c1); try (eexists; split; [exact H|reflexivity]). destruct (make_table E g (c_k c1) (c_T c1)); [eexists; split; [exact H|reflexivity]|discriminate]. }
  destruct X as (e & He & Ee). destruct (set8_inv _ _ _ _ He) as (g' & T & A & B & ->). split; [exact Ee|reflexivity].
Qed.
Lemma cti_s8 E c d : class_then_init E c = Some d -> exists g, c_eng d = Some g /\ sigma8 d = e_s8 g.
Proof. unfold class_then_init, bind. destruct (match c_fit c with CLASS => compute_class E c | _ => Some c end); [apply init_s8|discriminate]. Qed.
Theorem C135_sigma8_reset_refuted : forall E c d, (copy E c = Some d \/ (exists f, f <> c_fit c /\ set_fit E c f = Some d) \/ (exists kw, update E c kw = Some d) \/ (exists f, f <> c_fit c /\ clone E c (Some f) = Some d)) ->
  exists g, c_eng d = Some g /\ sigma8 d = e_s8 g.
Proof.
  assert (SF : forall E c f d, f <> c_fit c -> set_fit E c f = Some d -> exists g, c_eng d = Some g /\ sigma8 d = e_s8 g).
  { intros E c f d N. unfold set_fit. destruct (fit_eqb f (c_fit c)) eqn:Q; [apply fit_eqb_spec in Q; contradiction|]. apply cti_s8. }
  intros E c d [H|[(f & N & H)|[(kw & H)|(f & N & H)]]].
  - exact (cti_s8 _ _ _ H).
  - exact (SF E c f d N H).
  - unfold update in H. destruct kw; [discriminate H|]. exact (cti_s8 _ _ _ H).
  - revert H. unfold clone, bind. destruct (pickled E c) as [c1|] eqn:Q; [|discriminate]. apply SF. intros F. apply N. rewrite F. unfold pickled, new5, bind in Q. destruct (initialize E _) as [c2|] eqn:I; [|discriminate Q].
    destruct (set8_inv _ _ _ _ Q) as (g' & T & _ & _ & ->). cbn [c_fit]. revert I. unfold initialize. cbn [blank c_eng run_class c_fit c_k c_T c_tab c_pars c_s8 c_dH].
    destruct (c_fit c) eqn:FC; try (intros I; destruct (set8_inv _ _ _ _ I) as (g2 & T2 & _ & _ & ->); reflexivity).
    destruct (make_table _ _ _ _); [|discriminate]. intros I. destruct (set8_inv _ _ _ _ I) as (g2 & T2 & _ & _ & ->). reflexivity.
Qed.
(** pickling sets the two parameters from_dict adds; from_file has no constructor to call; FromArrays cannot be asked for *)
Theorem C135_others_refuted : forall E, (forall c d, pickled E c = Some d -> has_defaults (c_pars d)) /\ (forall p k T, from_file p k T = None) /\ (forall p, new E p FromArrays = None).
Proof.
  intros E. split; [|split; [reflexivity|reflexivity]]. intros c d H. unfold pickled, new5, bind in H. destruct (initialize E _) as [c2|] eqn:I; [|discriminate H]. destruct (set8_inv _ _ _ _ H) as (g' & T & _ & _ & ->). cbn [c_pars]. clear H.
  set (p := from_dict (numbers E (c_pars c))) in *. assert (HP : c_pars c2 = verify p).
  { revert I. unfold initialize. cbn [blank c_eng run_class c_fit c_k c_T c_tab c_pars c_s8 c_dH]. destruct (c_fit c); try (intros I; destruct (set8_inv _ _ _ _ I) as (g2 & T2 & _ & _ & ->); reflexivity).
    destruct (make_table _ _ _ _); [|discriminate]. intros I. destruct (set8_inv _ _ _ _ I) as (g2 & T2 & _ & _ & ->). reflexivity. }
  rewrite HP. destruct (from_dict_defaults (numbers E (c_pars c))) as (A & B). fold p in A, B. split; rewrite verify_get by discriminate; assumption.
Qed.
(** C136: from_power ignores the spectrum it is given: the linear power is that of the parameters, for all tables; and the object cannot be pickled *)
Theorem C136_from_power_refuted : forall E p k P c, from_power E p k P = Some c ->
  (exists c0, new E p CLASS = Some c0 /\ transfer c = transfer c0 /\ (forall z, lin_new c z = lin_new c0 z) /\ forall s q, lin_eval c s q = lin_eval c0 s q) /\
  pickled E c = None.
Proof.
  intros E p k P c. unfold from_power, bind. destruct (new E p CLASS) as [c0|] eqn:N; [|discriminate]. destruct (c_eng c0) as [g|] eqn:Hg; [|discriminate]. destruct (Nat.ltb (length P) (length k)); [discriminate|].
  set (Tn := map (fun t => _) _). unfold initialize. cbn [c_eng c_fit c_k c_T c_tab c_pars c_s8 c_dH]. intros H. destruct (set8_inv _ _ _ _ H) as (g' & T & Hg' & HT & ->). cbn [c_eng] in Hg'. injection Hg' as <-.
  assert (F0 : c_fit c0 = CLASS /\ sigma8 c0 = e_s8 g).
  { destruct (cti_s8 E (blank p CLASS [] []) c0 N) as (g2 & A & B). rewrite Hg in A. injection A as <-. split; [|exact B].
    revert N. unfold new, class_then_init, bind, blank. cbn [c_fit]. unfold compute_class. destruct (M_Disc.p_logspace _ _ 500); [|discriminate]. unfold initialize. cbn [c_eng c_fit c_k c_T c_tab c_pars c_s8 c_dH].
    destruct (make_table _ _ _ _); [|discriminate]. intros I. destruct (set8_inv _ _ _ _ I) as (g2 & T2 & _ & _ & ->). reflexivity. }
  destruct F0 as (F0 & S0). assert (TT : transfer c0 = Some T). { rewrite <- HT. unfold transfer. cbn [c_eng c_fit c_tab]. rewrite Hg, F0. reflexivity. }
  destruct (cti_norm E (blank p CLASS [] []) c0 N) as (g2 & T2 & A & B & C). rewrite Hg in A. injection A as <-. rewrite TT in B. injection B as <-. unfold sigma8 in S0. split.
  - exists c0. split; [reflexivity|]. assert (TD : forall a b d e f h, transfer {| c_pars := a; c_eng := Some g; c_s8 := b; c_dH := d; c_fit := FromArrays; c_k := e; c_T := f; c_tab := h |} = option_map (fun t => spline_transfer g t) h) by reflexivity.
    split; [rewrite TT; exact HT|]. split.
    + intros z. unfold lin_new, Sigma8_z. cbn [c_eng c_s8]. rewrite Hg, S0. reflexivity.
    + intros s q. unfold lin_eval. rewrite TT, Hg. cbn [c_eng c_pars c_fit c_k c_T c_tab]. rewrite TD in HT |- *. rewrite HT. cbn [c_dH c_s8]. rewrite S0, C, S0. reflexivity.
  - reflexivity.
Qed.
(** C137: the CLASS transfer function: the constructor succeeds, the function takes the CLASS values at the 500 wavenumbers from k_min to k_max, is 0
    for k <= 0, follows the no-wiggle fit outside, and is continuous for k > 0 *)
Theorem C137_class_transfer : forall E p, let g := v_class E (verify p) in 0 < e_kmin g -> 0 < e_kmax g -> e_kmin g < e_kmax g -> (forall k, 0 < k -> e_nw g k <> 0) ->
  exists c T, new E p CLASS = Some c /\ c_eng c = Some g /\ sigma8 c = e_s8 g /\ transfer c = Some T /\ length (c_k c) = 500%nat /\ first_x (c_k c) = e_kmin g /\ last_x (c_k c) = e_kmax g /\ increasing (c_k c) /\
    (forall i, (i < 500)%nat -> T (nth i (c_k c) 0) = e_Tk g (nth i (c_k c) 0)) /\ (forall k, k <= 0 -> T k = 0) /\
    (forall k, 0 < k <= e_kmin g -> T k = e_Tk g (e_kmin g) * e_nw g k / e_nw g (e_kmin g)) /\
    (forall k, e_kmax g <= k -> T k = e_Tk g (e_kmax g) * e_nw g k / e_nw g (e_kmax g)) /\
    ((forall k, 0 < k -> continuous (e_nw g) k) -> forall k, 0 < k -> continuous T k).
Proof.
  intros E p g H0 H1 H2 HN. destruct (new_class E p H0 H1 H2) as (c & t & Hc & Hg & Hf & Ht & Hs & Hl & HT & Mt). fold g in Hg, Hs, Hl, HT, Mt.
  destruct (Props_Disc.C126_logspace (e_kmin g) (e_kmax g) 500 ltac:(lia) H0 H1) as (l & Hl' & Ln & F & La & Inc & _). rewrite Hl in Hl'. injection Hl' as Hl'. rewrite <- Hl' in *. specialize (Inc H2).
  assert (L2 : (2 <= length (c_k c))%nat) by (rewrite Ln; lia). assert (LT : (length (c_k c) <= length (c_T c))%nat) by (rewrite HT, map_length; lia).
  assert (P0 : 0 < first_x (c_k c)) by (rewrite F; exact H0). assert (N0 : e_nw g (first_x (c_k c)) <> 0) by (rewrite F; apply HN; exact H0). assert (N1 : e_nw g (last_x (c_k c)) <> 0) by (rewrite La; apply HN; exact H1).
  assert (T0 : nth 0 (c_T c) 0 = e_Tk g (e_kmin g)) by (rewrite HT, nth_map0 by lia; fold (first_x (c_k c)); rewrite F; reflexivity).
  assert (T1 : nth (length (c_k c) - 1) (c_T c) 0 = e_Tk g (e_kmax g)) by (rewrite HT, nth_map0 by lia; fold (last_x (c_k c)); rewrite La; reflexivity).
  exists c, (spline_transfer g t). split; [exact Hc|]. split; [exact Hg|]. split; [exact Hs|]. split; [unfold transfer; rewrite Hg, Hf, Ht; reflexivity|]. split; [exact Ln|]. split; [exact F|]. split; [exact La|]. split; [exact Inc|].
  split; [intros i Hi; rewrite (table_points E g _ _ t Mt L2 LT Inc P0 N0 N1 i) by lia; rewrite HT; apply nth_map0; lia|].
  split; [intros k Hk; apply below; exact Hk|]. split; [intros k Hk; rewrite (low_k E g _ _ t Mt L2 LT Inc) by (rewrite F; exact Hk); rewrite T0, F; reflexivity|].
  split; [intros k Hk; rewrite (high_k E g _ _ t Mt L2 LT Inc P0) by (rewrite La; exact Hk); rewrite T1, La; reflexivity|].
  intros HC k Hk. exact (transfer_cont E g _ _ t Mt L2 LT Inc P0 N0 N1 k HC Hk).
Qed.
(** C138: the no-wiggle and BBKS fits are positive and at most 1; the no-wiggle fit is 1 at k = 0 *)
Theorem C138_no_wiggle : forall h Om keq s ag, 0 < h -> 0 < Om -> 0 < keq -> 0 < ag -> no_wiggle h Om keq s ag 0 = 1 /\ forall k, 0 <= k -> 0 < no_wiggle h Om keq s ag k <= 1.
Proof. intros h Om keq s ag H1 H2 H3 H4. split; [apply no_wiggle_0|]. intros k Hk. apply no_wiggle_range; assumption. Qed.
Theorem C138_bbks : forall h Om Ob k, 0 < h -> 0 < Om -> 0 < k -> 0 < bbks h Om Ob k <= 1.
Proof. exact bbks_range. Qed.

(** ** concrete cases *)
(* CLASS: sigma8 is 1 when h is given and 2 otherwise; transfer functions constant *)
Definition g0 (s : R) : engine := {| e_s8 := s; e_s8z := fun z => s / (1 + z); e_ns := 1; e_As := 1; e_kmin := 1; e_kmax := 2; e_Tk := fun _ => 1; e_nw := fun _ => 1; e_eh := fun _ => 1; e_bbks := fun _ => 1 |}.
Definition E0 : env := {| v_class := fun p => g0 (match pget p "h" with Some _ => 1 | None => 2 end); v_int := fun f => f (PI / 8); v_j1 := fun x => sin x / x ^ 2 - cos x / x; v_w0 := Build_work (fun _ => 0) (fun _ => 0) (fun _ => 0); v_num := fun s => s |}.

Definition pd : pars := [("P_k_max_h/Mpc", "20"); ("z_max_pk", "2")]%string.
Lemma new_EH E p : exists d, new E p EH = Some d /\ c_eng d = Some (v_class E (verify p)) /\ c_fit d = EH /\ sigma8 d = e_s8 (v_class E (verify p)) /\ transfer d = Some (e_eh (v_class E (verify p))).
Proof. unfold new, class_then_init, bind, blank. cbn [c_fit]. unfold initialize. cbn [c_eng run_class c_fit]. unfold set_sigma8, normalize. cbn. eexists. split; [reflexivity|]. cbn. repeat split. Qed.
Lemma E0_homogeneous : homogeneous (v_int E0).
Proof. intros a f g H. cbn. apply H. Qed.
Lemma E0_exact : exact_j1 E0.
Proof. intros x _. reflexivity. Qed.
Lemma E0_positive p T : (forall k, T k = 1) -> 0 < variance E0 (fun k => Rpower k (e_ns (v_class E0 p)) * (T k) ^ 2).
Proof.
  intros HT. unfold variance. cbn [E0 v_int v_class g0 e_ns]. rewrite HT. assert (P := PI_RGT_0). assert (P4 := PI2_1). unfold M_Kaiser.W_cosmo. replace (8 * (PI / 8)) with PI by field. destruct (Rlt_dec PI (1/10000)); [lra|].
  rewrite sin_PI, cos_PI. rewrite Rpower_1 by lra. replace (3 * ((0 / PI ^ 2 - -1 / PI) / PI)) with (3 / (PI * PI)) by (field; lra).
  replace (PI / 8 * (PI / 8) / (2 * PI * PI) * (PI / 8 * 1 ^ 2) * (3 / (PI * PI)) ^ 2) with ((9 / 1024) / (PI * PI * PI)) by (field; lra).
  apply Rdiv_lt_0_compat; [lra|]. apply Rmult_lt_0_compat; [apply Rmult_lt_0_compat; exact P|exact P].
Qed.
Example C132_nonvacuous : exists c d s, made E0 c /\ set_sigma8 E0 c 3 = Some d /\ sigma8 c = 2 /\ sigma8 d = 3 /\ made E0 d /\ lin_new d 1 = Some s /\ s = 3 / 2 /\ homogeneous (v_int E0) /\ exact_j1 E0 /\
  (forall g T, c_eng d = Some g -> transfer d = Some T -> 0 < variance E0 (fun k => Rpower k (e_ns g) * (T k) ^ 2)).
Proof.
  destruct (new_EH E0 pd) as (c & Hc & Ec & Fc & Sc & Tc). assert (M : made E0 c) by exact (M_new _ _ _ _ Hc). assert (H := set8_some E0 c 3 _ _ Ec Tc).
  set (d := {| c_pars := c_pars c; c_eng := c_eng c; c_s8 := 3; c_dH := _; c_fit := c_fit c; c_k := c_k c; c_T := c_T c; c_tab := c_tab c |}) in H.
  assert (Ed : c_eng d = Some (v_class E0 (verify pd))) by exact Ec. assert (Td : transfer d = Some (e_eh (v_class E0 (verify pd)))) by exact Tc.
  exists c, d, (3 / 2). split; [exact M|]. split; [exact H|]. split; [rewrite Sc; reflexivity|]. split; [reflexivity|]. split; [exact (M_set8 _ _ _ _ M H)|].
  split; [unfold lin_new, Sigma8_z; rewrite Ed; cbn; refine (f_equal (@Some R) _); field|]. split; [reflexivity|]. split; [exact E0_homogeneous|]. split; [exact E0_exact|].
  intros g T Hg HT. rewrite Ed in Hg. injection Hg as <-. rewrite Td in HT. injection HT as <-. apply (E0_positive (verify pd)). reflexivity.
Qed.
Example C133_nonvacuous : exists c, plain E0 c /\ c_fit c = CLASS /\ printable E0 (c_pars c) /\ has_defaults (c_pars c).
Proof.
  destruct (new_class E0 pd) as (c & t & Hc & _ & Fc & _); [cbn; lra|cbn; lra|cbn; lra|]. exists c. assert (K : keys_distinct pd) by (repeat constructor; cbn; intuition discriminate). split; [exact (P_new E0 pd CLASS c K ltac:(discriminate) Hc)|]. split; [exact Fc|]. split; [intros k v _; reflexivity|].
  assert (C := cti_form E0 (blank pd CLASS [] []) c Hc ltac:(discriminate) K (or_introl eq_refl)). destruct C as (_ & C & _). rewrite C. split; discriminate.
Qed.
Example C134_nonvacuous : exists c d e, plain E0 c /\ c_fit c = CLASS /\ sigma8 c = 2 /\ set_fit E0 c EH = Some d /\ update E0 c [("h", "0.7")]%string = Some e /\ sigma8 e = 1.
Proof.
  destruct (new_class E0 pd) as (c & t & Hc & Ec & Fc & _ & Sc & _); [cbn; lra|cbn; lra|cbn; lra|]. assert (K : keys_distinct pd) by (repeat constructor; cbn; intuition discriminate).
  set (q := pupdate (c_pars c) (from_dict [("h", "0.7")]%string)).
  assert (C := cti_form E0 (blank pd CLASS [] []) c Hc ltac:(discriminate) K (or_introl eq_refl)). destruct C as (_ & C & _).
  destruct (new_class E0 q) as (e & t' & He & Ee & _ & _ & Se & _); [cbn; lra|cbn; lra|cbn; lra|].
  assert (U : exists d, update E0 c [("h", "0.7")]%string = Some d).
  { unfold update, update_raw. fold q. revert He. unfold new, class_then_init, blank. cbn [c_fit]. rewrite Fc. unfold compute_class. cbn [c_pars]. destruct (M_Disc.p_logspace _ _ 500); [|discriminate]. cbn [bind]. unfold initialize. cbn [c_eng c_fit c_k c_T c_tab c_pars c_s8 c_dH].
    destruct (make_table _ _ _ _) as [t2|]; [|discriminate]. intros _. eexists. unfold set_sigma8, normalize. cbn. reflexivity. }
  destruct U as (d & Hd). assert (SD : exists d', set_fit E0 c EH = Some d').
  { unfold set_fit. rewrite Fc. cbn [fit_eqb]. unfold class_then_init, bind. cbn [c_fit]. unfold initialize. cbn [c_eng]. rewrite Ec. cbn [c_eng c_fit]. unfold set_sigma8, normalize. cbn. eexists. reflexivity. }
  destruct SD as (d' & Hd'). exists c, d', d. assert (P : plain E0 c) by exact (P_new E0 pd CLASS c K ltac:(discriminate) Hc). split; [exact P|]. split; [exact Fc|]. split; [unfold sigma8; rewrite Sc; reflexivity|]. split; [exact Hd'|]. split; [exact Hd|].
  destruct (C135_sigma8_reset_refuted E0 c d) as (g & Hg & Hs); [right; right; left; eexists; exact Hd|]. rewrite Hs. assert (K2 : keys_distinct [("h", "0.7")]%string) by (repeat constructor; cbn; intuition discriminate). destruct (C134_update E0 c _ d P Fc K2 Hd) as ((p & e' & Hp & He' & Al) & _).
  destruct Al as (_ & Al & _). rewrite Hg in Al. destruct (new_class E0 p) as (e2 & _ & H2 & E2 & _); [cbn; lra|cbn; lra|cbn; lra|]. rewrite H2 in He'. injection He' as <-. rewrite E2 in Al. injection Al as ->. cbn. rewrite verify_get by discriminate. rewrite Hp. reflexivity.
Qed.
Example C135_nonvacuous : exists c d e, made E0 c /\ c_fit c = EH /\ update E0 c [("h", "0.7")]%string = Some d /\ new E0 (c_pars d) EH = Some e /\ sigma8 d = 2 /\ sigma8 e = 1.
Proof.
  destruct (new_EH E0 pd) as (c & Hc & Ec & Fc & Sc & Tc). assert (M : made E0 c) by exact (M_new _ _ _ _ Hc). assert (K : keys_distinct [("h", "0.7")]%string) by (repeat constructor; cbn; intuition discriminate).
  assert (U : exists d, update E0 c [("h", "0.7")]%string = Some d).
  { unfold update, update_raw, class_then_init, bind. cbn [c_fit]. rewrite Fc. unfold initialize. cbn [c_eng]. rewrite Ec. cbn [c_eng c_fit]. unfold set_sigma8, normalize. cbn. eexists. reflexivity. }
  destruct U as (d & Hd). destruct (C135_update_stale_refuted E0 c _ d M ltac:(congruence) K Hd) as (A & B & C & D). destruct (new_EH E0 (c_pars d)) as (e & He & Ee & _ & Se & _). exists c, d, e. split; [exact M|]. split; [exact Fc|]. split; [exact Hd|]. split; [exact He|]. split.
  - rewrite (C _ Ec). reflexivity.
  - rewrite Se. cbn [E0 v_class]. rewrite verify_get by discriminate. rewrite D. reflexivity.
Qed.
Example C136_nonvacuous : exists c, from_power E0 pd [1; 2] [3; 4] = Some c.
Proof.
  destruct (new_class E0 pd) as (c & t & Hc & Ec & Fc & Tc & Sc & _); [cbn; lra|cbn; lra|cbn; lra|]. unfold from_power, bind. rewrite Hc, Ec. cbn [length Nat.ltb Nat.leb]. unfold initialize. cbn [c_eng c_fit c_tab]. rewrite Tc. unfold set_sigma8, normalize. cbn. eexists. reflexivity.
Qed.
Example C137_nonvacuous : let g := v_class E0 (verify pd) in 0 < e_kmin g /\ 0 < e_kmax g /\ e_kmin g < e_kmax g /\ (forall k, 0 < k -> e_nw g k <> 0) /\ forall k, 0 < k -> continuous (e_nw g) k.
Proof. cbn. split; [lra|]. split; [lra|]. split; [lra|]. split; [intros; lra|]. intros k _. apply (@continuous_const R_UniformSpace R_UniformSpace). Qed.
Print Assumptions C132_linear_normalised. Print Assumptions C132_linear_stable. Print Assumptions C133_pickle. Print Assumptions C134_set_transfer. Print Assumptions C134_update. Print Assumptions C135_update_stale_refuted. Print Assumptions C135_sigma8_reset_refuted. Print Assumptions C136_from_power_refuted. Print Assumptions C137_class_transfer. Print Assumptions C138_no_wiggle. Print Assumptions C138_bbks.
