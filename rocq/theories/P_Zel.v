From Coq Require Import Reals List Lra FunctionalExtensionality.
From Coquelicot Require Import Coquelicot.
From Verif Require Import M_Zel S_Zel P_Simps.
Import ListNotations.
Local Open Scope R_scope.

Opaque zel_r logspace.
Definition ideal (N : numerics) (c : cosmology) (s lz : R) (a : bool) (k0 : R) : zel :=
  let norm := (s / c_s8 c)^2 in
  let P0 := lin_eval c (lin_new c 0) in
  let X0 := map (fun r => norm * X_zel N P0 r) zel_r in
  {| z_s8z := s; z_lin := {| l_z := lz; l_s8z := s |}; z_approx := a; z_k0 := k0; z_sig2 := norm * veldisp N P0;
     z_X0 := X0; z_XX := map (fun x => x + 2 * (norm * veldisp N P0)) X0; z_YY := map (fun r => norm * Y_zel N P0 r) zel_r |}.
Lemma new_ideal N c z a : zel_new N c z a = ideal N c (sigma8z c z) z a (5/1000).
Proof. reflexivity. Qed.
Lemma set_ideal N c s s0 lz a k0 : c_s8 c <> 0 -> s0 <> 0 -> zel_set8 s (Some (ideal N c s0 lz a k0)) = Some (ideal N c s lz a k0).
Proof.
  intros Hc H0. unfold zel_set8. unfold ideal at 1 2. cbn [z_s8z]. destruct (Req_EM_T s0 0) as [E|_]; [contradiction|].
  f_equal. unfold ideal. cbn [z_s8z z_lin z_approx z_k0 z_sig2 z_X0 z_XX z_YY lin_set l_z].
  f_equal.
  - field. auto.
  - rewrite map_map. apply map_ext. intros r. field. auto.
  - rewrite !map_map. apply map_ext. intros r. field. auto.
  - rewrite map_map. apply map_ext. intros r. field. auto.
Qed.
(* the cosmology part of a run *)
Definition same_engine (c d : cosmology) : Prop := c_eng8 c = c_eng8 d /\ c_eng8z c = c_eng8z d /\ c_ns c = c_ns d /\ c_T c = c_T d.
Lemma same_sigma2 N c d : same_engine c d -> sigma2_un N c = sigma2_un N d.
Proof. destruct c, d. unfold same_engine. cbn. intros (A & B & C & D). subst. reflexivity. Qed.
Lemma same_lin N c d l k : same_engine c d -> normalised N c -> normalised N d -> lin_eval c l k = lin_eval d l k.
Proof.
  intros E [Hc Dc] [Hd Dd]. pose proof (same_sigma2 N _ _ E) as S. destruct E as (_ & _ & E1 & E2). unfold lin_eval. rewrite Dc, Dd, S, E1, E2.
  assert (A : forall s x y : R, s <> 0 -> (s * / x)^2 * (y * / s)^2 = (/x)^2 * y^2).
  { intros s x y Hs. replace ((s * / x)^2 * (y * / s)^2) with ((s * / s)^2 * ((/x)^2 * y^2)) by ring. rewrite Rinv_r by assumption. ring. }
  unfold Rdiv. rewrite (A (c_s8 c)), (A (c_s8 d)) by assumption. reflexivity.
Qed.
Lemma set8_norm N s c : s <> 0 -> normalised N (c_set8 N s c) /\ same_engine (c_set8 N s c) c.
Proof. intros H. unfold normalised, same_engine. cbn. repeat split; auto. Qed.
Definition zero_free (ops : list zop) : Prop := forall s, In (ZSet8 s) ops \/ In (ZCosmo8 s) ops -> s <> 0.
Lemma run_ideal N c0 : c_s8 c0 <> 0 -> forall ops c s lz a k0, normalised N c -> same_engine c c0 -> s <> 0 -> zero_free ops ->
  let w := zrun N (c, Some (ideal N c0 s lz a k0)) ops in
  normalised N (fst w) /\ same_engine (fst w) c0 /\ snd w = Some (ideal N c0 (last8 s ops) lz (last_lowk a ops) (last_trans k0 ops)) /\ last8 s ops <> 0.
Proof.
  intros H0. induction ops as [|o ops IH]; intros c s lz a k0 Hn He Hs Hz; cbv zeta.
  - cbn. split; [exact Hn|]. split; [exact He|]. split; [reflexivity|exact Hs].
  - assert (Hz' : zero_free ops) by (intros x [Hx|Hx]; apply Hz; [left|right]; right; assumption).
    destruct o as [x|b|k1|x]; unfold zrun, last8, last_lowk, last_trans; cbn [fold_left zstep].
    + rewrite set_ideal by assumption. assert (Hx : x <> 0) by (apply Hz; left; left; reflexivity). apply IH; assumption.
    + cbn [option_map]. apply (IH c s lz b k0); assumption.
    + cbn [option_map]. apply (IH c s lz a k1); assumption.
    + assert (Hx : x <> 0) by (apply Hz; right; left; reflexivity).
      destruct (set8_norm N x c Hx) as [A B]. apply IH; try assumption.
Qed.
Lemma eval_ideal N c c0 q s lz lz' a k0 k : same_engine c c0 -> normalised N c -> normalised N c0 ->
  zel_eval N q c (Some (ideal N c0 s lz a k0)) k = zel_eval N q c0 (Some (ideal N c0 s lz' a k0)) k.
Proof.
  intros He Hn Hn0. unfold zel_eval. change (z_k0 (ideal N c0 s lz a k0)) with k0. change (z_k0 (ideal N c0 s lz' a k0)) with k0. change (z_approx (ideal N c0 s lz a k0)) with a. change (z_approx (ideal N c0 s lz' a k0)) with a.
  f_equal. destruct (if Rle_dec k0 k then true else negb a).
  - unfold fftlog_compute. reflexivity.
  - unfold lowk. cbv zeta. change (z_lin (ideal N c0 s lz a k0)) with {| l_z := lz; l_s8z := s |}. change (z_lin (ideal N c0 s lz' a k0)) with {| l_z := lz'; l_s8z := s |}.
    change (z_sig2 (ideal N c0 s lz' a k0)) with (z_sig2 (ideal N c0 s lz a k0)).
    assert (E : lin_eval c {| l_z := lz; l_s8z := s |} = lin_eval c0 {| l_z := lz'; l_s8z := s |}).
    { apply functional_extensionality. intros x. rewrite (same_lin N c c0 _ x He Hn Hn0). reflexivity. }
    rewrite E. reflexivity.
Qed.
Theorem history N c z z' a ops : normalised N c -> sigma8z c z <> 0 -> zero_free ops -> sigma8z c z' = last8 (sigma8z c z) ops ->
  let w := zrun N (c, Some (zel_new N c z a)) ops in
  let fresh := zel_trans (last_trans (5/1000) ops) (zel_new N c z' (last_lowk a ops)) in
  (forall q k, zel_eval N q (fst w) (snd w) k = zel_eval N q c (Some fresh) k) /\
  exists t, snd w = Some t /\ same_accessors t fresh.
Proof.
  intros Hn Hz Hf Hl w fresh. pose proof Hn as [H0 _].
  destruct (run_ideal N c H0 ops c (sigma8z c z) z a (5/1000) Hn) as (A & B & C & D); auto.
  { repeat split. }
  cbv zeta in *. rewrite <- new_ideal in A, B, C. fold w in A, B, C.
  assert (Ef : fresh = ideal N c (last8 (sigma8z c z) ops) z' (last_lowk a ops) (last_trans (5/1000) ops)).
  { unfold fresh. rewrite new_ideal, Hl. reflexivity. }
  split.
  - intros q k. rewrite C, Ef. apply eval_ideal; assumption.
  - eexists. split; [exact C|]. rewrite Ef. unfold same_accessors, ideal. cbn. repeat split.
Qed.

(** zero: NaN for ever *)
Lemma nan_forever N c ops : snd (zrun N (c, None) ops) = None.
Proof. revert c. induction ops as [|[] ops IH]; intros c; cbn; auto; apply IH. Qed.

(** Restoring *)
Lemma restore_same N c ops z a : normalised N c -> sigma8z c z <> 0 -> zero_free ops ->
  let w := zrun N (c, Some (zel_new N c z a)) ops in
  exists t, snd w = Some t /\ same_accessors (zel_setstate (fst w) (zel_getstate t)) t /\
    forall q k, zel_eval N q (fst w) (Some (zel_setstate (fst w) (zel_getstate t))) k = zel_eval N q (fst w) (snd w) k.
Proof.
  intros Hn Hz Hf w. pose proof Hn as [H0 _].
  destruct (run_ideal N c H0 ops c (sigma8z c z) z a (5/1000) Hn) as (A & B & C & D); auto.
  { repeat split. }
  cbv zeta in *. rewrite <- new_ideal in A, B, C. fold w in A, B, C. eexists. split; [exact C|].
  set (s := last8 (sigma8z c z) ops) in *. set (b := last_lowk a ops). set (k1 := last_trans (5/1000) ops).
  assert (E : zel_setstate (fst w) (zel_getstate (ideal N c s z b k1)) = ideal N c s 0 b k1) by reflexivity.
  rewrite E. split; [unfold same_accessors, ideal; cbn; repeat split|].
  intros q k. rewrite C. fold b k1. rewrite (eval_ideal N (fst w) c q s 0 0 b k1 k), (eval_ideal N (fst w) c q s z 0 b k1 k); auto.
Qed.

(** Correlation function: lazy synchronisation *)
Definition cf_last8 (d : R) (l : list cfop) : R := fold_left (fun d o => match o with CfSet8 s => s | _ => d end) l d.
Definition cf_zero_free (l : list cfop) : Prop := forall s, In (CfSet8 s) l -> s <> 0.
Lemma cf_inv N c z kmin kmax : normalised N c -> forall l x s1,
  f_P x = Some (ideal N c s1 z true (5/1000)) -> s1 <> 0 -> f_s8z x <> 0 -> f_grid x = logspace kmin kmax 1024 -> f_pk x = pk_of N c (f_P x) (f_grid x) -> cf_zero_free l ->
  let y := cfrun N c x l in
  exists s2, f_P y = Some (ideal N c s2 z true (5/1000)) /\ s2 <> 0 /\ f_s8z y <> 0 /\ f_grid y = logspace kmin kmax 1024 /\ f_pk y = pk_of N c (f_P y) (f_grid y) /\ f_s8z y = cf_last8 (f_s8z x) l.
Proof.
  intros [Hn _]. induction l as [|o l IH]; intros x s1 HP H1 Hx Hg Hk Hz; cbv zeta.
  - exists s1. repeat split; auto.
  - assert (Hz' : cf_zero_free l) by (intros u Hu; apply Hz; right; assumption).
    destruct o as [s|r sm]; unfold cfrun, cf_last8; cbn [fold_left cfstep].
    + specialize (IH (zcf_set8 s x) s1 HP H1). apply IH; auto. cbn. apply Hz. left. reflexivity.
    + unfold zcf_eval. cbn [fst].
      assert (Hs : exists s2, f_P (zcf_sync N c x) = Some (ideal N c s2 z true (5/1000)) /\ s2 <> 0 /\ f_s8z (zcf_sync N c x) = f_s8z x /\
                   f_grid (zcf_sync N c x) = logspace kmin kmax 1024 /\ f_pk (zcf_sync N c x) = pk_of N c (f_P (zcf_sync N c x)) (f_grid (zcf_sync N c x))).
      { unfold zcf_sync. rewrite HP. destruct (Req_EM_T _ _) as [E|E].
        - exists s1. repeat split; auto.
        - exists (f_s8z x). rewrite set_ideal by assumption. repeat split; auto. }
      destruct Hs as (s2 & A & B & C & D & F).
      specialize (IH (zcf_sync N c x) s2 A B). rewrite C in IH. apply IH; auto.
Qed.
Theorem cf_current N c z z' kmin kmax l r sm : normalised N c -> sigma8z c z <> 0 -> cf_zero_free l -> sigma8z c z' = cf_last8 (sigma8z c z) l ->
  snd (zcf_eval N c (cfrun N c (zcf_new N c z kmin kmax) l) r sm) = snd (zcf_eval N c (zcf_new N c z' kmin kmax) r sm).
Proof.
  intros Hn Hz Hf Hl.
  destruct (cf_inv N c z kmin kmax Hn l (zcf_new N c z kmin kmax) (sigma8z c z)) as (s2 & A & B & C & D & F & G); auto.
  set (y := cfrun N c (zcf_new N c z kmin kmax) l) in *. cbn [zcf_new f_s8z] in G. rewrite <- Hl in G.
  assert (K : forall s lz, pk_of N c (Some (ideal N c s lz true (5/1000))) (logspace kmin kmax 1024) = pk_of N c (Some (ideal N c s z' true (5/1000))) (logspace kmin kmax 1024)).
  { intros s lz. unfold pk_of. apply map_ext. intros k. apply eval_ideal; auto. repeat split. }
  unfold zcf_eval. cbn [snd].
  replace (zcf_sync N c (zcf_new N c z' kmin kmax)) with (zcf_new N c z' kmin kmax).
  2:{ unfold zcf_sync, zcf_new. cbn [f_P f_s8z]. unfold zel_new at 2. cbn [z_s8z]. destruct (Req_EM_T _ _) as [_|E]; [reflexivity|contradiction E; reflexivity]. }
  unfold zcf_new. cbn [f_grid f_pk]. rewrite new_ideal.
  assert (Y : all_some (f_pk (zcf_sync N c y)) = all_some (pk_of N c (Some (ideal N c (sigma8z c z') z' true (5/1000))) (logspace kmin kmax 1024)) /\ f_grid (zcf_sync N c y) = logspace kmin kmax 1024).
  { unfold zcf_sync. rewrite A. change (z_s8z (ideal N c s2 z true (5/1000))) with s2. destruct (Req_EM_T (f_s8z y) s2) as [E|E].
    - split; [|exact D]. rewrite F, A, D, <- E, G, K. reflexivity.
    - cbn [f_grid f_pk]. split; [|exact D]. rewrite D. destruct Hn as [Hn _]. rewrite set_ideal by assumption. rewrite G, K. reflexivity. }
  destruct Y as [Y1 Y2]. rewrite Y1, Y2. reflexivity.
Qed.
