(** * Properties C63, C64, C65, C77, C78: results objects *)
From Coq Require Import String List Bool Arith Lia Permutation.
From Verif Require Import M_Results S_Results P_Results P_Results2.
Import ListNotations.
Open Scope list_scope.

(** ** C63 *)
(** The samples of the m iterations that were run are kept, and only they, if none of their numbers is zero. *)
Theorem C63_samples_kept_partial :
  forall V (zero : V) iszero, iszero zero = true ->
  forall ndim pad m run, run <> [] -> ndim <> 0 -> block m ndim run -> all_nonzero iszero run ->
  nonzero_chain V iszero (length run) ndim (map (allocated V zero ndim pad) run) = Ok run.
Proof. exact build_exact. Qed.
Theorem C63_lnprobs_kept_partial :
  forall V (zero : V) iszero, iszero zero = true ->
  forall pad m run, run <> [] -> Forall (fun w => length w = m) run -> Forall (Forall (fun v => iszero v = false)) run ->
  nonzero_lnprobs V iszero (length run) (map (fun w => w ++ repeat zero pad) run) = Ok run.
Proof. exact lnprobs_exact. Qed.
(** REFUTED: a chain with a zero in it is never stored as it is, ... *)
Theorem C63_zero_lost_refuted :
  forall V (zero : V) iszero ndim pad run, ~ all_nonzero iszero run ->
  nonzero_chain V iszero (length run) ndim (map (allocated V zero ndim pad) run) <> Ok run.
Proof. intros V zero iszero ndim pad run H E. apply build_no_zero in E. contradiction. Qed.
(** ... it is refused, or parts of different samples are silently joined into one. *)
Theorem C63_samples_mixed_refuted :
  nonzero_chain nat (Nat.eqb 0) 1 2 [[[1; 2]; [0; 3]; [4; 5]]] = ValueError /\
  nonzero_chain nat (Nat.eqb 0) 1 2 [[[1; 0]; [0; 2]]] = Ok [[[1; 2]]] /\
  nonzero_chain nat (Nat.eqb 0) 2 1 [[[1]; [0]; [2]]; [[3]; [4]; [5]]] = ValueError /\
  nonzero_chain nat (Nat.eqb 0) 2 1 [[[1]; [0]; [0]]; [[3]; [4]; [5]]] = Ok [[[1]; [3]]; [[4]; [5]]].
Proof. repeat split. Qed.
Print Assumptions C63_samples_kept_partial.
Example C63_nonvacuous :
  block 2 2 [[[1; 2]; [3; 4]]; [[5; 6]; [7; 8]]] /\ all_nonzero (Nat.eqb 0) [[[1; 2]; [3; 4]]; [[5; 6]; [7; 8]]] /\
  nonzero_chain nat (Nat.eqb 0) 2 2 [[[1; 2]; [3; 4]; [0; 0]]; [[5; 6]; [7; 8]; [0; 0]]] = Ok [[[1; 2]; [3; 4]]; [[5; 6]; [7; 8]]].
Proof. split; [|split]; [repeat constructor|repeat constructor|reflexivity]. Qed.

(** ** C77 *)
(** Every stored constrained value is the constraint at that very sample, if the parameter set's constrained values after
    an assignment depend on the assigned values only. *)
Theorem C77_constrained_values_belong_to_sample :
  forall V PS (assign : PS -> list V -> PS) (read : PS -> list V) f, (forall st th, read (assign st th) = f th) ->
  forall ch m st, Forall (fun w => length w = m) ch -> constrained_chain V PS assign read st ch = map (map f) ch.
Proof. exact constrained_chain_exact. Qed.
(** Without that (chained constraints are such a case) a stored value can be that of the sample set before. *)
Theorem C77_stale_constraints_refuted :
  let assign (st : nat * nat) (th : list nat) := (hd 0 th, fst st) in   (* the second stage lags one assignment behind *)
  constrained_chain nat (nat * nat) assign (fun st => [snd st]) (0, 0) [[[1]; [3]]; [[2]; [4]]] = [[[0]; [2]]; [[1]; [3]]].
Proof. reflexivity. Qed.
Print Assumptions C77_constrained_values_belong_to_sample.
Example C77_nonvacuous :
  constrained_chain nat (list nat) (fun _ th => th) (fun st => [hd 0 st + nth 1 st 0]) [] [[[1; 2]; [3; 4]]; [[5; 6]; [7; 8]]] = [[[3]; [7]]; [[11]; [15]]].
Proof. reflexivity. Qed.

(** ** C65 *)
(** EmceeResults: a permutation of the names is accepted and keeps the trace of every name. *)
Theorem C65_emcee_traces_kept :
  forall V (d : V) m r f c, good d m r -> Permutation (free r) f -> Permutation (con r) c ->
  exists r', verify_ordering V d r f c = Ok r' /\ good d m r' /\ free r' = f /\ con r' = c /\
    (forall k, trace_of r' k = trace_of r k) /\ lnprobs r' = lnprobs r.
Proof.
  intros V d m r f c G P1 P2. destruct (verify_good V d m r f c G P1 P2) as (r' & A & B & C & D & E & F & H & I & J). exists r'. auto 10.
Qed.
Theorem C65_emcee_refuses_other_names :
  forall V (d : V) r f c, ~ (Permutation (free r) f /\ Permutation (con r) c) -> verify_ordering V d r f c = ValueError.
Proof. exact verify_refuses. Qed.
(** LBFGSResults: the free values stay with their names. *)
Theorem C65_lbfgs_free_values_kept :
  forall V (d : V) r f c, NoDup (lfree r) -> length (lvalues r) = length (lfree r) -> Permutation (lfree r) f -> Permutation (lcon r) c ->
  exists r', lverify V d r f c = Ok r' /\ lfree r' = f /\ lcon r' = c /\ forall k, In k (lfree r) -> lget r' k = lget r k.
Proof.
  intros V d r f c N L P1 P2. unfold lverify. rewrite (proj2 (same_names_perm _ _) P1), (proj2 (same_names_perm _ _) P2). cbn [negb].
  set (vs := if list_eqb (lfree r) f then lvalues r else reorder V d (lfree r) f (lvalues r)).
  assert (Hv : vs = reorder V d (lfree r) f (lvalues r)).
  { unfold vs. destruct (list_eqb (lfree r) f) eqn:E; auto. apply list_eqb_spec in E. rewrite <- E. symmetry. apply reorder_same; auto. }
  clearbody vs. destruct (list_eqb (lfree r) f && list_eqb (lcon r) c) eqn:E.
  - apply andb_true_iff in E. destruct E as [E1 E2]. apply list_eqb_spec in E1, E2. exists r. auto.
  - eexists. split; [reflexivity|]. split; [reflexivity|]. split; [reflexivity|]. intros k Hk. unfold lget. cbn [lfree lcon lvalues lcvalues].
    assert (M : forall l, In k l -> mem k l = true). { intros l H. apply existsb_exists. exists k. split; auto. apply String.eqb_refl. }
    assert (Hk' := proj1 (perm_in _ _ k P1) Hk). rewrite (M _ Hk), (M _ Hk').
    assert (I1 := index_in _ _ Hk'). assert (I2 := index_lt _ _ Hk). subst vs. unfold reorder. rewrite (map_nth_error _ _ _ I1).
    rewrite (nth_error_nth' (lvalues r) d) by lia. reflexivity.
Qed.
(** REFUTED: its constrained values do not move with their names: the name put at position i gets the value of the name
    that was there. *)
Theorem C88_lbfgs_constrained_swapped_refuted :
  forall V (d : V) r f c r' i k k', lverify V d r f c = Ok r' -> NoDup (lcon r) -> NoDup c ->
  nth_error c i = Some k -> nth_error (lcon r) i = Some k' -> ~ In k f -> ~ In k' (lfree r) -> f <> lfree r \/ c <> lcon r ->
  lget r' k = lget r k'.
Proof.
  intros V d r f c r' i k k' H N1 N2 E1 E2 K1 K2 Hne. unfold lverify in H. destruct (negb _); [discriminate|]. destruct (negb _); [discriminate|].
  destruct (list_eqb (lfree r) f && list_eqb (lcon r) c) eqn:E.
  - exfalso. apply andb_true_iff in E. destruct E as [A B]. apply list_eqb_spec in A, B. destruct Hne; congruence.
  - injection H as <-. unfold lget. cbn [lfree lcon lvalues lcvalues].
    assert (M : forall x l, ~ In x l -> mem x l = false).
    { intros x l Hx. destruct (mem x l) eqn:Em; auto. exfalso. apply existsb_exists in Em. destruct Em as (y & Y1 & Y2). apply String.eqb_eq in Y2. now subst. }
    assert (M' : forall x l, In x l -> mem x l = true). { intros x l Hx. apply existsb_exists. exists x. split; auto. apply String.eqb_refl. }
    rewrite (M k f K1), (M k' (lfree r) K2), (M' k c), (M' k' (lcon r)) by (eapply nth_error_In; eauto).
    now rewrite (index_nth c i k), (index_nth (lcon r) i k').
Qed.
Print Assumptions C65_emcee_traces_kept.
Print Assumptions C65_lbfgs_free_values_kept.
Definition sample_results : results nat :=
  {| free := ["a"; "b"]%string; con := ["s"; "t"]%string; chain := [[[1; 2]; [3; 4]]]; cchain := Some [("s", [[10; 30]]); ("t", [[20; 40]])]%string;
     lnprobs := [[5; 6]]; burnin := 1;
     table := [("s", ([[10; 30]], 1)); ("t", ([[20; 40]], 1)); ("a", ([[1; 3]], 1)); ("b", ([[2; 4]], 1))]%string |}.
Lemma sample_good : good 0 2 sample_results.
Proof.
  constructor.
  - repeat constructor; cbn; intuition discriminate.
  - repeat constructor.
  - repeat constructor.
  - split; [discriminate|]. split; [reflexivity|repeat constructor].
  - intros k. split; [|split].
    + intros i Hi. destruct i as [|[|i]]; cbn in Hi; [injection Hi as <-; reflexivity|injection Hi as <-; reflexivity|destruct i; discriminate].
    + intros [<-|[<-|[]]]; reflexivity.
    + intros H. cbn in H. assert (K : assoc (table sample_results) k = None).
      { apply assoc_none. cbn. tauto. }
      unfold trace_of. rewrite K. reflexivity.
Qed.
Example C65_nonvacuous :
  match verify_ordering nat 0 sample_results ["b"; "a"]%string ["t"; "s"]%string with
  | Ok r => chain r = [[[2; 1]; [4; 3]]] /\ trace_of r "a" = Some [[1; 3]] /\ trace_of r "t" = Some [[20; 40]]
  | _ => False end /\
  let l := {| lfree := ["a"; "b"]%string; lcon := ["s"; "t"]%string; lvalues := [1; 2]; lcvalues := [10; 20] |} in
  match lverify nat 0 l ["b"; "a"]%string ["t"; "s"]%string with
  | Ok l' => lget l' "a" = Ok 1 /\ lget l "s" = Ok 10 /\ lget l' "s" = Ok 20
  | _ => False end.
Proof. cbn. repeat split. Qed.

(** ** C64 *)
(** Adding puts the iterations of the second after those of the first, for every parameter and the probabilities. *)
Theorem C64_concatenates_in_order :
  forall V (d : V) m n a b, good d m a -> good d n b -> walkers a = walkers b ->
  Permutation (free b) (free a) -> Permutation (con b) (con a) -> con a <> [] ->
  exists c b', add V d a b = Ok (c, b') /\ good d (m + n) c /\ free c = free a /\ con c = con a /\
    (forall k ta tb, trace_of a k = Some ta -> trace_of b k = Some tb -> exists tc, trace_of c k = Some tc /\ (length ta = length tb -> follows ta tb tc)) /\
    (forall k, trace_of a k = None -> trace_of c k = None) /\ follows (lnprobs a) (lnprobs b) (lnprobs c) /\
    walkers c = walkers a /\ (walkers a <> 0 -> iterations c = iterations a + iterations b).
Proof.
  intros V d m n a b Ga Gb W P1 P2 Hc. assert (Hca : cchain a <> None). { intros E. assert (G := g_cchain _ _ _ Ga). rewrite E in G. contradiction. }
  destruct (add_good V d m n a b Ga Gb W P1 P2 Hca) as (c & b' & A & B & C & D & E & F & G & H & I & J & K). exists c, b'.
  destruct (g_lnp _ _ _ Ga) as [La _]. destruct (g_lnp _ _ _ Gb) as [Lb _]. destruct (g_lnp _ _ _ B) as [Lc _]. unfold walkers in *.
  assert (Wc : length (chain c) = length (chain a)). { rewrite G. apply glue_length. now rewrite map_length. }
  split; [exact A|]. split; [exact B|]. split; [exact C|]. split; [exact D|]. split; [|split; [|split; [|split]]]; auto.
  - intros k ta tb Ha Hb. exists (glue ta tb). rewrite I, Ha, Hb. split; auto. apply glue_follows.
  - intros k Ha. rewrite I, Ha. auto.
  - rewrite H. apply glue_follows. congruence.
  - intros Hz. assert (X : forall m (r : results V), good d m r -> length (chain r) <> 0 -> iterations r = m).
    { intros m0 r G0 Hr. unfold iterations. assert (Hb := g_chain _ _ _ G0). destruct (chain r) as [|w l]; [contradiction|]. inversion Hb; subst. cbn. tauto. }
    rewrite (X (m + n) c), (X m a), (X n b); auto; congruence.
Qed.
Theorem C64_associative :
  forall V (d : V) m n p a b c, good d m a -> good d n b -> good d p c -> walkers a = walkers b -> walkers b = walkers c ->
  Permutation (free b) (free a) -> Permutation (free c) (free b) -> Permutation (con b) (con a) -> Permutation (con c) (con b) -> con a <> [] ->
  exists ab b1 l c1 bc c2 r bc1, add V d a b = Ok (ab, b1) /\ add V d ab c = Ok (l, c1) /\ add V d b c = Ok (bc, c2) /\ add V d a bc = Ok (r, bc1) /\
    free l = free r /\ con l = con r /\ chain l = chain r /\ lnprobs l = lnprobs r /\ burnin l = burnin r /\
    (forall k, trace_of l k = trace_of r k) /\ (forall k, flat_trace l k = flat_trace r k).
Proof.
  intros. apply (add_assoc V d m n p); auto. intros E. assert (G := g_cchain _ _ _ H). rewrite E in G. contradiction.
Qed.
Theorem C64_refuses_mismatch :
  forall V (d : V) a b, walkers a <> walkers b \/ ~ Permutation (free b) (free a) \/ ~ Permutation (con b) (con a) -> add V d a b = ValueError.
Proof. exact add_refuses. Qed.
(** REFUTED for fits without constrained parameters: adding always fails. *)
Theorem C64_no_constrained_fails_refuted :
  forall V (d : V) m n a b, good d m a -> good d n b -> con a = [] -> walkers a = walkers b -> Permutation (free b) (free a) -> con b = [] ->
  add V d a b = AttributeError.
Proof. exact add_no_constrained_always. Qed.
Print Assumptions C64_concatenates_in_order.
Print Assumptions C64_associative.
Example C64_nonvacuous :
  good 0 2 sample_results /\ con sample_results <> [] /\
  match verify_ordering nat 0 sample_results ["b"; "a"]%string ["t"; "s"]%string with
  | Ok b => match add nat 0 sample_results b with
            | Ok (c, _) => chain c = [[[1; 2]; [3; 4]; [1; 2]; [3; 4]]] /\ trace_of c "t" = Some [[20; 40; 20; 40]] /\ iterations c = 4
            | _ => False end
  | _ => False end.
Proof. split; [exact sample_good|]. split; [discriminate|]. cbn. repeat split. Qed.

(** ** C78 *)
(** Setting the burn-in leaves out exactly that many iterations of every walker, for every parameter, and 0 if there are not that many. *)
Theorem C78_burnin_excluded :
  forall V (r : results V) b k t, trace_of r k = Some t ->
  flat_trace (set_burnin r b) k = Some (concat (map (skipn (if (iterations r <? b)%nat then 0 else b)) t)) /\
  burnin (set_burnin r b) = if (iterations r <? b)%nat then 0 else b.
Proof.
  intros V r b k t H. split; [|reflexivity]. unfold flat_trace, trace_of, set_burnin in *. cbn [table].
  induction (table r) as [|[k' [t' b']] l IH]; cbn in *; [discriminate|]. destruct (String.eqb k' k).
  - cbn in *. now injection H as ->.
  - auto.
Qed.
(** After any history of reads and changes the median and the error intervals are those of the current burn-in and rescaling. *)
Theorem C78_summaries_current :
  forall V R (stat : summary -> list V -> option R -> V) t b one os s, s <> Peak ->
  let p := prun V R stat (new_param V R t b one) os in
  snd (popstep V R stat p (Get R s)) = Some (stat s (pflat V R p) (if is_sigma s then Some (presc V R p) else None)).
Proof.
  intros V R stat t b one os s Hs. cbv zeta.
  assert (I : forall os p, (forall q v, q <> Peak -> cache V R p q = Some v -> v = stat q (pflat V R p) (if is_sigma q then Some (presc V R p) else None)) ->
     forall q v, q <> Peak -> cache V R (prun V R stat p os) q = Some v ->
       v = stat q (pflat V R (prun V R stat p os)) (if is_sigma q then Some (presc V R (prun V R stat p os)) else None)).
  { clear. induction os as [|o os IH]; intros p Hp q v Hq Hv; cbn in *; auto. apply (IH (fst (popstep V R stat p o))); auto. clear q v Hq Hv. intros q v Hq Hv.
    destruct o as [s|b|r]; cbn in *.
    - destruct (cache V R p s) as [w|] eqn:E; cbn in *; auto. unfold pflat in *. cbn in *. destruct s, q; try congruence; auto; try (injection Hv as <-; reflexivity); try (now apply Hp).
    - destruct q; try discriminate; congruence.
    - unfold pflat in *. cbn in *. destruct q; cbn in *; try discriminate; try congruence. apply (Hp Median); auto. }
  set (p := prun V R stat (new_param V R t b one) os). cbn. destruct (cache V R p s) as [v|] eqn:E; cbn; auto. f_equal. apply (I os (new_param V R t b one)); auto.
  intros q v' _ H. discriminate.
Qed.
(** REFUTED for the peak: it is not recomputed when the burn-in changes. *)
Theorem C91_peak_stale_refuted :
  forall V R (stat : summary -> list V -> option R -> V) t one b0 b,
  let p := prun V R stat (new_param V R t b0 one) [Get R Peak; SetBurnin R b] in
  snd (popstep V R stat p (Get R Peak)) = Some (stat Peak (concat (map (skipn b0) t)) None) /\ pburn V R p = b.
Proof. intros. split; reflexivity. Qed.
(** REFUTED: after adding, the parameters ignore the burn-in that the sum reports. *)
Theorem C91_burnin_forgotten_refuted :
  forall V (d : V) m n a b, good d m a -> good d n b -> walkers a = walkers b -> Permutation (free b) (free a) -> Permutation (con b) (con a) -> con a <> [] ->
  exists c b', add V d a b = Ok (c, b') /\ burnin c = burnin a /\ forall k t, trace_of c k = Some t -> flat_trace c k = Some (concat t).
Proof.
  intros V d m n a b Ga Gb W P1 P2 Hc. assert (Hca : cchain a <> None). { intros E. assert (G := g_cchain _ _ _ Ga). rewrite E in G. contradiction. }
  destruct (add_good V d m n a b Ga Gb W P1 P2 Hca) as (c & b' & A & B & C & D & E & F & G & H & I & J & K). exists c, b'. split; auto. split; auto.
  intros k t Ht. rewrite flat_zero by auto. now rewrite Ht.
Qed.
Print Assumptions C78_summaries_current.
Print Assumptions C91_burnin_forgotten_refuted.
Example C78_nonvacuous :
  flat_trace (set_burnin sample_results 1) "b" = Some [4] /\ flat_trace (set_burnin sample_results 7) "b" = Some [2; 4] /\
  match add nat 0 sample_results sample_results with Ok (c, _) => burnin c = 1 /\ flat_trace c "b" = Some [2; 4; 2; 4] | _ => False end.
Proof. cbn. repeat split. Qed.
