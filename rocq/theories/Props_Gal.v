(** * Property theorems: call cache, context managers, AP, FOG, galaxy power (C10, C14-C24, C70, C71) *)
From Coq Require Import List String Bool Arith Reals Lra Lia.
From Coquelicot Require Import Coquelicot.
From Verif Require Import M_Cache M_AP M_Gal M_GalDeriv S_Gal P_Gal P_AP P_GalC P_GalDeriv P_GalCtx P_GalX P_GalX2 P_GalY
  M_Context S_Context P_Context.
Import ListNotations.
Open Scope nat_scope.
Open Scope string_scope.
Open Scope list_scope.
Open Scope nat_scope.

(** ** C10: the call cache *)

(** The block computes what the same block without a cache computes (results, the
    exception it ends with, model state), provided calls that share a key (class and
    function name, positional arguments) mean the same thing in all states of the
    block; and the cache is off afterwards. *)
Theorem C10_use_cache_transparent_partial :
  forall Obj Name Arg Kw Key St V (key_eqb : Key -> Key -> bool) (key : Name -> Arg -> Key)
         (f : Obj -> Name -> Arg -> Kw -> St -> result V),
  (forall x y, key_eqb x y = true <-> x = y) ->
  forall l g, compatible key f (calls_of l) (states_of (model g) l) ->
  use_cache key_eqb key f l g =
    (fst (fst (ublock f l (model g))), snd (fst (ublock f l (model g))), mkGS None (snd (ublock f l (model g)))).
Proof. exact (@use_cache_transparent). Qed.
Print Assumptions C10_use_cache_transparent_partial.

Theorem C10_cache_gone_after_block :
  forall Obj Name Arg Kw Key St V (key_eqb : Key -> Key -> bool) (key : Name -> Arg -> Key)
         (f : Obj -> Name -> Arg -> Kw -> St -> result V) l g,
  gcache (snd (use_cache key_eqb key f l g)) = None.
Proof. exact (@use_cache_off). Qed.
Print Assumptions C10_cache_gone_after_block.

Definition ex_f (o n a w s : nat) : result nat := if Nat.eqb a 13 then Err "boom" else Ok (o * 1000 + n * 100 + a * 10 + w + s).
Definition ex_key (n a : nat) : nat := n * 1000 + a.
Definition ex_block : list (@act nat nat nat nat nat) := [ACall 1 2 3 0; ATry 1 2 13 0; ACall 1 2 3 0; ACall 1 1 4 0; ARaise "x"].
Example C10_nonvacuous :
  compatible ex_key ex_f (calls_of ex_block) (states_of 7 ex_block) /\
  use_cache Nat.eqb ex_key ex_f ex_block (mkGS None 7) = ([Ok 1237; Err "boom"; Ok 1237; Ok 1147], Some "x"%string, mkGS None 7).
Proof.
  split; [|reflexivity]. unfold compatible. cbn.
  intros o n a w o' n' a' w' s s' H1 H2 H3 H4 E.
  repeat (destruct H1 as [H1|H1]; [injection H1 as <- <- <- <-|]); try contradiction;
  repeat (destruct H2 as [H2|H2]; [injection H2 as <- <- <- <-|]); try contradiction;
  destruct H3 as [<-|[]]; destruct H4 as [<-|[]]; first [reflexivity | (exfalso; vm_compute in E; discriminate E)].
Qed.

(** Without that proviso the claim fails although nothing is changed inside the
    block: another model of the same class, or other keywords, hit the same entry. *)
Theorem C10_two_models_collide_refuted :
  use_cache Nat.eqb ex_key ex_f [ACall 1 2 3 0; ACall 2 2 3 0] (mkGS None 0) = ([Ok 1230; Ok 1230], None, mkGS None 0) /\
  ublock ex_f [ACall 1 2 3 0; ACall 2 2 3 0] 0 = ([Ok 1230; Ok 2230], None, 0).
Proof. split; reflexivity. Qed.
Theorem C10_keywords_collide_refuted :
  use_cache Nat.eqb ex_key ex_f [ACall 1 2 3 0; ACall 1 2 3 1] (mkGS None 0) = ([Ok 1230; Ok 1230], None, mkGS None 0) /\
  ublock ex_f [ACall 1 2 3 0; ACall 1 2 3 1] 0 = ([Ok 1230; Ok 1231], None, 0).
Proof. split; reflexivity. Qed.

(** ** C14: switch blocks *)
Theorem C14_shot_noise_block_restores :
  forall A (m : M A) s r s', zero_shot_noise m s = (r, s') ->
  geta N_ s' = geta N_ s /\ r = fst (m (seta N_ 0 s)).
Proof. exact zsn_restores. Qed.
Print Assumptions C14_shot_noise_block_restores.
Theorem C14_so_block_restores :
  forall A (m : M A) s r s', so_correction m s = (r, s') ->
  geta sigma_c s' = geta sigma_c s /\ r = fst (m (if use_so s then seta sigma_c 0 s else s)).
Proof. exact so_restores. Qed.
Theorem C14_use_spt_restores :
  forall St A flags hasattr getf setf,
  (forall k b s, getf k (setf k b s) = b) -> (forall k k' b s, k <> k' -> getf k (setf k' b s) = getf k s) ->
  forall (block : St -> result A * St) s, NoDup flags -> forall k, In k flags -> hasattr k = true ->
  getf k (snd (use_spt flags hasattr getf setf block s)) = getf k s.
Proof. exact (@use_spt_restores). Qed.
Print Assumptions C14_use_spt_restores.
Theorem C14_use_spt_inside_is_off :
  forall St flags hasattr (getf : string -> St -> bool) setf,
  (forall k b s, getf k (setf k b s) = b) -> (forall k k' b s, k <> k' -> getf k (setf k' b s) = getf k s) ->
  forall s, NoDup flags -> forall k, In k flags -> hasattr k = true ->
  getf k (spt_set flags hasattr setf (fun _ => false) s) = false.
Proof. exact (@use_spt_inside). Qed.
(** An exception of the block never reaches the caller of [with model.use_spt()]. *)
Theorem C84_use_spt_error_reported_refuted :
  forall St A flags hasattr getf setf (block : St -> result A * St) s e s1,
  block (spt_set flags hasattr setf (fun _ => false) s) = (Err e, s1) ->
  fst (use_spt flags hasattr getf setf block s) = Ok None.
Proof. exact (@use_spt_swallows). Qed.
Definition exget (k : string) (s : string -> bool) := s k.
Definition exset (k : string) (b : bool) (s : string -> bool) := fun j => if String.eqb j k then b else s j.
Example C14_nonvacuous :
  (forall k b s, exget k (exset k b s) = b) /\ (forall k k' b s, k <> k' -> exget k (exset k' b s) = exget k s) /\
  let s0 := fun k => String.eqb k "use_P00_model" in
  let r := use_spt ["use_P00_model"; "use_P01_model"]%string (fun _ => true) exget exset
             (fun s => (if s "use_P00_model"%string then Ok 1 else Err "no SPT table"%string, exset "use_P01_model" true s)) s0 in
  fst r = Ok None /\ snd r "use_P00_model"%string = true /\ snd r "use_P01_model"%string = false.
Proof.
  split; [intros; unfold exget, exset; now rewrite String.eqb_refl|].
  split; [intros k k' b s H; unfold exget, exset; apply String.eqb_neq in H; now rewrite H|].
  vm_compute. auto.
Qed.

(** ** C15: one AP distortion per user call *)

(** A call of a decorated method entered with the lock free: whatever tree of
    decorated and undecorated calls the body makes, the result is the undecorated
    evaluation at the once-remapped arguments, rescaled once; the lock is free
    afterwards, also if the evaluation raised. *)
Theorem C15_distorted_exactly_once :
  forall K V (remap : K -> K) (scale : V -> V) (arg : K) (callee : K -> prog K V),
  exec remap scale (Call true arg callee (fun v => Ret (Ok v))) false =
  (match plainp (callee (remap arg)) with Ok v => Ok (scale v) | Err e => Err e end, false).
Proof. exact (@user_call). Qed.
Print Assumptions C15_distorted_exactly_once.
Theorem C15_lock_state_restored :
  forall K V (remap : K -> K) (scale : V -> V) (p : prog K V) l, snd (exec remap scale p l) = l.
Proof. exact @exec_lock_free. Qed.
Example C15_nonvacuous :
  let inner := fun x => Call true (x + 1) (fun y => Ret (Ok (y * 10))) (fun v => Call true x (fun y => Ret (Ok y)) (fun w => Ret (Ok (v + w)))) in
  exec (fun x => 2 * x) (fun v => v + 1000) (Call true 3 inner (fun v => Ret (Ok v))) false = (Ok 1076, false) /\
  plainp (inner 6) = Ok 76.
Proof. split; reflexivity. Qed.

(** ** C16: AP geometry *)
Open Scope R_scope.
Theorem C16_parallel : forall k mu aperp apar, 0 < aperp -> 0 < apar -> -1 <= mu <= 1 ->
  k_AP k mu aperp apar * mu_AP mu aperp apar = k * mu / apar.
Proof. exact ap_parallel. Qed.
Print Assumptions C16_parallel.
Theorem C16_perpendicular : forall k mu aperp apar, 0 < aperp -> 0 < apar -> -1 <= mu <= 1 -> 0 < k ->
  k_AP k mu aperp apar * sqrt (1 - mu_AP mu aperp apar ^ 2) = k * sqrt (1 - mu ^ 2) / aperp.
Proof. exact ap_perp. Qed.
Print Assumptions C16_perpendicular.
Theorem C16_range : forall k mu aperp apar, 0 < aperp -> 0 < apar -> -1 <= mu <= 1 -> 0 < k ->
  0 < k_AP k mu aperp apar /\ -1 <= mu_AP mu aperp apar <= 1.
Proof. intros k mu aperp apar Ha Hb Hm Hk. split; [now apply k_AP_pos|now apply mu_AP_range]. Qed.
Theorem C16_fixed_points : forall aperp apar, 0 < aperp -> 0 < apar ->
  mu_AP 0 aperp apar = 0 /\ mu_AP 1 aperp apar = 1 /\ mu_AP (-1) aperp apar = -1.
Proof. exact ap_fixed. Qed.
Theorem C16_identity : forall k mu, k_AP k mu 1 1 = k /\ mu_AP mu 1 1 = mu.
Proof. exact ap_identity. Qed.
Example C16_nonvacuous : 0 < 1/2 /\ 0 < 2 /\ -1 <= 1/2 <= 1 /\ 0 < 1. Proof. lra. Qed.

(** ** C17: FOG kernels *)
Theorem C17_kernel_damps : forall g k mu sigma,
  FOG g k mu 0 = 1 /\ 0 < FOG g k mu sigma <= 1 /\ FOG g k (- mu) sigma = FOG g k mu sigma.
Proof.
  intros. split; [apply FOG_0|]. split; [apply kernel_range|].
  unfold FOG. replace (k * - mu * sigma) with (- (k * mu * sigma)) by ring. apply kernel_even.
Qed.
Print Assumptions C17_kernel_damps.
Theorem C17_kernel_derivatives : forall g k mu sigma,
  is_derive (fun x => FOG g x mu sigma) k (FOG_k g k mu sigma) /\
  is_derive (fun x => FOG g k x sigma) mu (FOG_mu g k mu sigma) /\
  is_derive (fun x => FOG g k mu x) sigma (FOG_sigma g k mu sigma).
Proof. intros. split; [apply FOG_k_deriv|]. split; [apply FOG_mu_deriv|apply FOG_sigma_deriv]. Qed.
Print Assumptions C17_kernel_derivatives.

(** ** C18: decomposition *)
Section Gal.
Variable g : fog.
Variables P P_k P_mu : R -> R -> R -> R -> R.
Notation PW := (fun x y k mu => Ok (P x y k mu)).
Notation PWk := (fun x y k mu => Ok (P_k x y k mu)).
Notation PWmu := (fun x y k mu => Ok (P_mu x y k mu)).
Notation D f := (f g PW PWk PWmu).
Notation tree := (Pgal (FOG g) (FOG_k g) (FOG_mu g) PW PWk PWmu).

Theorem C18_power_is_weighted_sum : forall k mu s,
  call tree k mu s = (Ok (galaxy_power (fun sg => FOG g k mu sg) (fun x y => P x y k mu) s), s).
Proof. intros. apply pgal_value. Qed.
Theorem C18_power_with_AP : forall k mu s,
  D m_power k mu s =
  (Ok (a_drag s ^ 3 / (a_perp s ^ 2 * a_par s) *
        (galaxy_power (fun sg => FOG g (k_AP k mu (a_perp s) (a_par s)) (mu_AP mu (a_perp s) (a_par s)) sg)
                      (fun x y => P x y (k_AP k mu (a_perp s) (a_par s)) (mu_AP mu (a_perp s) (a_par s))) s)), s).
Proof.
  intros. rewrite m_power_value. apply (f_equal (fun x => (Ok x, s))).
  unfold ap_scale, Rdiv. ring.
Qed.
(** in terms of the public methods power, Pgal_cc, Pgal_cs, Pgal_ss: *)
Theorem C18_public_components : forall k mu s, exists cc cs ss,
  D Pgal_cc k mu s = (Ok cc, s) /\ D Pgal_cs k mu s = (Ok cs, s) /\ D Pgal_ss k mu s = (Ok ss, s) /\
  D m_power k mu s = (Ok ((1 - a_fs s) ^ 2 * cc + 2 * a_fs s * (1 - a_fs s) * cs + a_fs s ^ 2 * ss), s).
Proof. intros. apply top_components. Qed.
(** and of the sub-sample methods, without offset N (for cc also without SO) *)
Theorem C85_subsample_components_partial : forall k mu s, a_N s = 0 ->
  (exists aa ab ba bb,
  D Pgal_cAsA k mu s = (Ok aa, s) /\ D Pgal_cAsB k mu s = (Ok ab, s) /\ D Pgal_cBsA k mu s = (Ok ba, s) /\ D Pgal_cBsB k mu s = (Ok bb, s) /\
  D Pgal_cs k mu s = (Ok ((1 - a_fcB s) * (1 - a_fsB s) * aa + (1 - a_fcB s) * a_fsB s * ab
                          + a_fcB s * (1 - a_fsB s) * ba + a_fcB s * a_fsB s * bb), s)) /\
  (exists aa ab bb,
  D Pgal_sAsA k mu s = (Ok aa, s) /\ D Pgal_sAsB k mu s = (Ok ab, s) /\ D Pgal_sBsB k mu s = (Ok bb, s) /\
  D Pgal_ss k mu s = (Ok ((1 - a_fsB s) ^ 2 * aa + 2 * a_fsB s * (1 - a_fsB s) * ab + a_fsB s ^ 2 * bb), s)) /\
  (use_so s = false -> exists aa ab bb,
  D Pgal_cAcA k mu s = (Ok aa, s) /\ D Pgal_cAcB k mu s = (Ok ab, s) /\ D Pgal_cBcB k mu s = (Ok bb, s) /\
  D Pgal_cc k mu s = (Ok ((1 - a_fcB s) ^ 2 * aa + 2 * a_fcB s * (1 - a_fcB s) * ab + a_fcB s ^ 2 * bb), s)).
Proof. intros. split; [now apply cs_components|]. split; [now apply ss_components|]. intro. now apply cc_components. Qed.
(** what each sub-sample method returns: damping, two-halo term of its two biases, one-halo
    amplitude, offset N, and the AP volume factor (with the SO correction on, the
    central-central components are undamped: the damping is applied to their sum) *)
Theorem C18_subsample_values : forall k mu s,
  let kp := k_AP k mu (a_perp s) (a_par s) in
  let mup := mu_AP mu (a_perp s) (a_par s) in
  let vol := a_drag s ^ 3 / (a_perp s ^ 2 * a_par s) in
  let G sg := FOG g kp mup sg in
  let Gc := if use_so s then 1 else G (a_sigma_c s) in
  let value m x := m k mu s = (Ok (vol * (x + a_N s)), s) in
  value (D Pgal_cAcA) (Gc ^ 2 * P (a_b1_cA s) (a_b1_cA s) kp mup) /\
  value (D Pgal_cAcB) (Gc ^ 2 * P (a_b1_cA s) (a_b1_cB s) kp mup) /\
  value (D Pgal_cBcB) (Gc ^ 2 * P (a_b1_cB s) (a_b1_cB s) kp mup) /\
  value (D Pgal_cAsA) (G (a_sigma_c s) * G (a_sigma_sA s) * P (a_b1_cA s) (a_b1_sA s) kp mup) /\
  value (D Pgal_cAsB) (G (a_sigma_c s) * G (a_sigma_sB s) * P (a_b1_cA s) (a_b1_sB s) kp mup) /\
  value (D Pgal_cBsA) (G (a_sigma_c s) * G (a_sigma_sA s) * (P (a_b1_cB s) (a_b1_sA s) kp mup + a_NcBs s)) /\
  value (D Pgal_cBsB) (G (a_sigma_c s) * G (a_sigma_sB s) * (P (a_b1_cB s) (a_b1_sB s) kp mup + a_NcBs s)) /\
  value (D Pgal_sAsA) (G (a_sigma_sA s) ^ 2 * P (a_b1_sA s) (a_b1_sA s) kp mup) /\
  value (D Pgal_sAsB) (G (a_sigma_sA s) * G (a_sigma_sB s) * P (a_b1_sA s) (a_b1_sB s) kp mup) /\
  value (D Pgal_sBsB) (G (a_sigma_sB s) ^ 2 * (P (a_b1_sB s) (a_b1_sB s) kp mup + a_NsBsB s)).
Proof. exact (subsample_values g P P_k P_mu). Qed.
(** weights sum to one *)
Theorem C18_equal_components : forall k mu s p,
  a_sigma_c s = 0 -> a_sigma_sA s = 0 -> a_sigma_sB s = 0 -> a_sigma_so s = 0 -> a_NcBs s = 0 -> a_NsBsB s = 0 ->
  (forall x y, P x y k mu = p) ->
  galaxy_power (fun sg => FOG g k mu sg) (fun x y => P x y k mu) s = p.
Proof. exact (equal_components g P). Qed.

(** ** C19: N *)
Theorem C19_power_ignores_N_refuted : forall k mu s v,
  fst (D m_power k mu (seta N_ v s)) = fst (D m_power k mu s).
Proof. intros. apply N_ignored. Qed.

(** ** C20: k- and mu-derivative trees *)
Theorem C20_derivative_k_partial : forall k mu s, use_so s = false \/ a_N s = 0 ->
  (forall x y, is_derive (fun t => P x y t mu) k (P_k x y k mu)) ->
  is_deriv (fun t => fst (call tree t mu s)) k (fst (dk tree k mu s)).
Proof. intros. now apply pgal_dk. Qed.
Theorem C20_derivative_mu_partial : forall k mu s, use_so s = false \/ a_N s = 0 ->
  (forall x y, is_derive (fun t => P x y k t) mu (P_mu x y k mu)) ->
  is_deriv (fun t => fst (call tree k t s)) mu (fst (dmu tree k mu s)).
Proof. intros. now apply pgal_dmu. Qed.

(** ** C21-C24 *)
Notation power_ k mu := (fun s => fst (m_power g PW PWk PWmu k mu s)).
Theorem C21_fs : forall k mu s, a_perp s <> 0 -> a_par s <> 0 ->
  is_partial (power_ k mu) fs s (fst (D d_fs k mu s)).
Proof. intros. now apply d_fs_ok. Qed.
Theorem C99_fcB_partial : forall k mu s, a_perp s <> 0 -> a_par s <> 0 -> use_so s = false \/ a_drag s = 1 ->
  is_partial (power_ k mu) fcB s (fst (D d_fcB k mu s)).
Proof. intros. now apply d_fcB_ok. Qed.
Theorem C99_fsB_partial : forall k mu s, a_perp s <> 0 -> a_par s <> 0 -> a_fs s = 1 \/ a_fs s = 0 ->
  is_partial (power_ k mu) fsB s (fst (D d_fsB k mu s)).
Proof. intros. now apply d_fsB_ok. Qed.
Theorem C99_f_so_partial : forall k mu s, a_perp s <> 0 -> a_par s <> 0 ->
  use_so s = false \/ (a_N s = 0 /\ a_drag s = 1) ->
  is_partial (power_ k mu) f_so s (fst (D d_f_so k mu s)).
Proof.
  intros k mu s Ha Hb H. destruct (use_so s) eqn:E.
  - destruct H as [H|[H1 H2]]; [discriminate|]. now apply d_f_so_ok.
  - now apply d_f_so_off.
Qed.
Theorem C22_NcBs_partial : forall k mu s, a_perp s <> 0 -> a_par s <> 0 -> a_drag s = 1 ->
  is_partial (power_ k mu) NcBs s (fst (d_NcBs g k mu s)).
Proof. intros. now apply d_NcBs_ok. Qed.
Theorem C22_NsBsB_partial : forall k mu s, a_perp s <> 0 -> a_par s <> 0 -> a_drag s = 1 ->
  is_partial (power_ k mu) NsBsB s (fst (d_NsBsB g k mu s)).
Proof. intros. now apply d_NsBsB_ok. Qed.
Theorem C23_sigma_c_partial : forall k mu s, a_perp s <> 0 -> a_par s <> 0 -> use_so s = false \/ a_drag s = 1 ->
  is_partial (power_ k mu) sigma_c s (fst (D d_sigma_c k mu s)).
Proof. intros. now apply d_sigma_c_ok. Qed.
Theorem C23_sigma_so_partial : forall k mu s, a_perp s <> 0 -> a_par s <> 0 -> use_so s = false \/ a_drag s = 1 ->
  is_partial (power_ k mu) sigma_so s (fst (D d_sigma_so k mu s)).
Proof.
  intros k mu s Ha Hb H. destruct (use_so s) eqn:E.
  - destruct H as [H|H]; [discriminate|]. now apply d_sigma_so_ok.
  - now apply d_sigma_so_off.
Qed.
Theorem C98_alpha_par_partial : forall k mu s, 0 < a_perp s -> 0 < a_par s -> -1 <= mu <= 1 ->
  use_so s = false \/ a_N s = 0 ->
  (forall x y k mu, differentiable_pt_lim (P x y) k mu (P_k x y k mu) (P_mu x y k mu)) ->
  is_partial (power_ k mu) alpha_par s (fst (D d_alpha_par k mu s)).
Proof. intros. now apply d_alpha_par_ok. Qed.
Theorem C24_alpha_perp : forall k mu s, 0 < a_perp s -> 0 < a_par s -> -1 <= mu <= 1 -> k <> 0 ->
  (forall x y k mu, differentiable_pt_lim (P x y) k mu (P_k x y k mu) (P_mu x y k mu)) ->
  is_partial (power_ k mu) alpha_perp s (fst (D d_alpha_perp k mu s)).
Proof. intros. now apply d_alpha_perp_ok. Qed.
(** the analytic derivative routines leave every attribute at its value *)
Theorem C70_gradient_leaves_model_alone : forall k mu s,
  snd (D d_fs k mu s) = s /\ snd (D d_fsB k mu s) = s /\ snd (D d_fcB k mu s) = s /\ snd (D d_f_so k mu s) = s /\
  snd (d_NcBs g k mu s) = s /\ snd (d_NsBsB g k mu s) = s /\ snd (D d_sigma_c k mu s) = s /\ snd (D d_sigma_so k mu s) = s /\
  snd (D d_alpha_par k mu s) = s /\ snd (D d_alpha_perp k mu s) = s.
Proof. exact (derivatives_frame g P P_k P_mu). Qed.
End Gal.
Print Assumptions C70_gradient_leaves_model_alone.
Print Assumptions C18_subsample_values.
Print Assumptions C18_power_is_weighted_sum.
Print Assumptions C20_derivative_k_partial.
Print Assumptions C21_fs.
Print Assumptions C23_sigma_c_partial.
Print Assumptions C98_alpha_par_partial.
Print Assumptions C24_alpha_perp.

(** A concrete model meeting all those hypotheses: two-halo spectrum b b', SO correction on. *)
Example C24_nonvacuous :
  let s := xs 1 0 (1/2) true in
  0 < a_perp s /\ 0 < a_par s /\ use_so s = true /\ a_N s = 0 /\ a_drag s = 1 /\ a_fs s = 1/2 /\
  (forall b b' k mu : R, differentiable_pt_lim (fun _ _ => b * b') k mu 0 0).
Proof. cbn. repeat split; try lra. intros. apply const_differentiable. Qed.

(** Failures.  The models: two-halo spectrum b b', Lorentzian damping. *)
Theorem C85_subsample_components_refuted : exists s aa ab bb cc,
  fst (Pgal_sAsA Lorentzian xP xP0 xP0 1 0 s) = Ok aa /\ fst (Pgal_sAsB Lorentzian xP xP0 xP0 1 0 s) = Ok ab /\
  fst (Pgal_sBsB Lorentzian xP xP0 xP0 1 0 s) = Ok bb /\ fst (Pgal_ss Lorentzian xP xP0 xP0 1 0 s) = Ok cc /\
  cc <> (1 - a_fsB s) ^ 2 * aa + 2 * a_fsB s * (1 - a_fsB s) * ab + a_fsB s ^ 2 * bb.
Proof.
  exists (xs 1 1 (1/2) false). do 4 eexists.
  split; [unfd; reflexivity|]. split; [unfd; reflexivity|]. split; [unfd; reflexivity|]. split; [unfd; reflexivity|].
  rewrite ?id_k, ?id_mu. unfd. unfold FOG, kernel. intro E. apply Rminus_diag_eq in E. field_simplify in E; lra.
Qed.
Theorem C20_derivative_k_refuted :
  ~ is_deriv (fun t => fst (call (Pgal (FOG Lorentzian) (FOG_k Lorentzian) (FOG_mu Lorentzian) xP xP0 xP0) t 1 (xs 1 1 (1/2) true)))
             1 (fst (dk (Pgal (FOG Lorentzian) (FOG_k Lorentzian) (FOG_mu Lorentzian) xP xP0 xP0) 1 1 (xs 1 1 (1/2) true))).
Proof. exact x_dk. Qed.
Theorem C99_fsB_refuted : (* fs = 1/2 *)
  ~ is_partial (xpow 1 0) fsB (xs 1 0 (1/2) false) (fst (d_fsB Lorentzian xP xP0 xP0 1 0 (xs 1 0 (1/2) false))).
Proof. exact x_fsB. Qed.
Theorem C99_fcB_refuted : (* SO on, alpha_drag = 2 *)
  ~ is_partial (xpow 1 0) fcB (xs 2 0 (1/2) true) (fst (d_fcB Lorentzian xP xP0 xP0 1 0 (xs 2 0 (1/2) true))).
Proof. exact x_fcB. Qed.
Theorem C99_f_so_refuted : (* SO on, alpha_drag = 2;  SO on, N = 1 *)
  ~ is_partial (xpow 1 0) f_so (xs 2 0 (1/2) true) (fst (d_f_so Lorentzian xP xP0 xP0 1 0 (xs 2 0 (1/2) true))) /\
  ~ is_partial (xpow 1 1) f_so (seta sigma_so 2 (xs 1 1 (1/2) true)) (fst (d_f_so Lorentzian xP xP0 xP0 1 1 (seta sigma_so 2 (xs 1 1 (1/2) true)))).
Proof. split; [exact x_f_so_drag|exact x_f_so_N]. Qed.
Theorem C22_one_halo_refuted : (* alpha_drag = 2 *)
  ~ is_partial (xpow 1 0) NcBs (xs 2 0 (1/2) false) (fst (d_NcBs Lorentzian 1 0 (xs 2 0 (1/2) false))) /\
  ~ is_partial (xpow 1 0) NsBsB (xs 2 0 (1/2) false) (fst (d_NsBsB Lorentzian 1 0 (xs 2 0 (1/2) false))).
Proof. split; [exact x_NcBs|exact x_NsBsB]. Qed.
Theorem C23_sigma_refuted : (* SO on, alpha_drag = 2 *)
  ~ is_partial (xpow 1 1) sigma_c (xs 2 0 (1/2) true) (fst (d_sigma_c Lorentzian xP xP0 xP0 1 1 (xs 2 0 (1/2) true))) /\
  ~ is_partial (xpow 1 1) sigma_so (xs 2 0 (1/2) true) (fst (d_sigma_so Lorentzian xP xP0 xP0 1 1 (xs 2 0 (1/2) true))).
Proof. split; [exact x_sigma_c|exact x_sigma_so]. Qed.
Theorem C98_alpha_par_refuted : (* SO on, N = 1 *)
  ~ is_partial (xpow 1 1) alpha_par (xs 1 1 (1/2) true) (fst (d_alpha_par Lorentzian xP xP0 xP0 1 1 (xs 1 1 (1/2) true))).
Proof. exact x_alpha_par. Qed.

(** ** C70: evaluating the power leaves the parameters unchanged *)
Theorem C70_power_leaves_model_alone :
  forall FOG FOG_k FOG_mu PW PW_k PW_mu k mu s v s',
  call (Pgal FOG FOG_k FOG_mu PW PW_k PW_mu) k mu s = (Ok v, s') -> s' = s.
Proof. exact pgal_leaves_model_alone. Qed.
Print Assumptions C70_power_leaves_model_alone.
(** If it raises, at most the two working biases b1, b1_bar differ ... *)
Theorem C89_crash_state_partial :
  forall FOG FOG_k FOG_mu PW PW_k PW_mu k mu s e s',
  call (Pgal FOG FOG_k FOG_mu PW PW_k PW_mu) k mu s = (Err e, s') ->
  exists x y, s' = seta b1_bar y (seta b1 x s).
Proof. exact pgal_crash. Qed.
(** ... and they can differ: *)
Theorem C89_crash_refuted :
  let s := seta b1 5 (xs 1 0 (1/2) false) in
  exists e s', call (Pgal (FOG Lorentzian) (FOG_k Lorentzian) (FOG_mu Lorentzian) (fun _ _ _ _ => Err "k out of range") xP0 xP0) 1 0 s = (Err e, s') /\
               geta b1 s' = 1 /\ geta b1 s = 5.
Proof. do 2 eexists. split; [cbv; reflexivity|]. cbv. auto. Qed.
Example C70_nonvacuous : exists v,
  call (Pgal (FOG Lorentzian) (FOG_k Lorentzian) (FOG_mu Lorentzian) xP xP0 xP0) 1 1 (xs 1 1 (1/2) true) = (Ok v, xs 1 1 (1/2) true).
Proof. eexists. apply (pgal_value Lorentzian (fun b b' _ _ => b * b') (fun _ _ _ _ => 0) (fun _ _ _ _ => 0)). Qed.

(** ** C71: threads *)
Open Scope nat_scope.
(** Calls made one after the other are all distorted ... *)
Theorem C71_sequential_calls_distorted :
  forall n, trun (tinit n) (seq_sched n) = Some (mkThreads false (repeat (Done true) n)).
Proof. exact sequential_distorted. Qed.
(** ... no schedule of concurrent calls deadlocks, and at most one thread is inside ... *)
Theorem C71_no_deadlock :
  forall n sched st, trun (tinit n) sched = Some st ->
  (exists i p, nth_error (pcs st) i = Some p /\ forall d, p <> Done d) -> exists j st', tstep st j = Some st'.
Proof. intros n sched st H. apply progress. eapply trun_inv; [apply tinit_inv|exact H]. Qed.
Theorem C71_mutual_exclusion :
  forall n sched st, trun (tinit n) sched = Some st ->
  List.length (filter (fun p => match p with Inside => true | _ => false end) (pcs st)) = if held st then 1 else 0.
Proof. intros n sched st H. exact (trun_inv sched _ _ (tinit_inv n) H). Qed.
(** ... but a call that overlaps another is evaluated without the AP effect. *)
Theorem C90_concurrent_call_undistorted_refuted :
  trun (tinit 2) [0; 0; 1; 1; 0] = Some (mkThreads false [Done true; Done false]).
Proof. reflexivity. Qed.
