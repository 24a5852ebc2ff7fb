(** C216: the results of a chain written to a file and read back. *)
From Coq Require Import String List Bool Arith Lia Permutation.
From Verif Require Import M_Results S_Results P_Results P_Results2 Props_Results M_Npz S_Npz.
Import ListNotations.
Open Scope list_scope.

Section Proofs.
Variables (V : Type) (d : V) (A : Type) (one : V).
Notation eres := (eresults V A).
Lemma update1_assoc k a : forall l k', assoc (update1 A k a l) k' = if String.eqb k k' then Some a else assoc l k'.
Proof.
  induction l as [|[k0 b] l IH]; intro k'; cbn.
  - reflexivity.
  - destruct (String.eqb_spec k0 k) as [-> | N]; cbn.
    + destruct (String.eqb k k'); reflexivity.
    + rewrite IH. destruct (String.eqb_spec k0 k') as [-> | N']; [|reflexivity]. destruct (String.eqb_spec k k'); [congruence|reflexivity].
Qed.
Lemma update_assoc : forall meta l k, NoDup (map fst meta) -> assoc (update A l meta) k = match assoc meta k with Some a => Some a | None => assoc l k end.
Proof.
  induction meta as [|[k0 a] meta IH]; intros l k N; cbn [update assoc]; [reflexivity|]. inversion N as [|? ? N1 N2]; subst. rewrite IH by exact N2.
  rewrite update1_assoc. destruct (String.eqb_spec k0 k) as [-> | E]; [|reflexivity].
  replace (assoc meta k) with (@None A); [reflexivity|]. symmetry. apply assoc_none. exact N1.
Qed.
Lemma same_traces m (a b : results V) : good d m a -> good d m b -> free a = free b -> con a = con b -> chain a = chain b -> cchain a = cchain b ->
  forall k, trace_of a k = trace_of b k.
Proof.
  intros Ga Gb F C H K k. destruct (g_table d m a Ga k) as (A1 & A2 & A3). destruct (g_table d m b Gb k) as (B1 & B2 & B3).
  destruct (in_dec string_dec k (free a)) as [I1|I1].
  - apply In_nth_error in I1. destruct I1 as (i & E). rewrite (A1 i E), (B1 i) by congruence. congruence.
  - destruct (in_dec string_dec k (con a)) as [I2|I2].
    + rewrite A2, B2 by congruence. now rewrite K.
    + rewrite A3, B3; [reflexivity| |]; intro X; apply in_app_or in X; destruct X; congruence.
Qed.
Lemma read_back m (r : eres) meta : good d m (base r) -> burnin (base r) <= iterations (base r) ->
  exists r', from_npz V d A one true (fst (to_npz V A r meta)) = Ok r' /\ same_results (base r) (base r') /\ attrs r' = attrs (snd (to_npz V A r meta)) /\
    (forall k, fid r' k = None) /\ resc r' = one.
Proof.
  intros G B. assert (N := g_names _ _ _ G). assert (H := g_chain _ _ _ G). destruct (g_lnp _ _ _ G) as [L1 L2]. assert (K := g_cchain _ _ _ G).
  assert (S : exists b, save_results V d {| free := free (base r); con := con (base r); chain := chain (base r); cchain := cchain (base r); lnprobs := lnprobs (base r); burnin := 0; table := [] |} = Ok b /\
     good d m b /\ free b = free (base r) /\ con b = con (base r) /\ chain b = chain (base r) /\ cchain b = cchain (base r) /\ lnprobs b = lnprobs (base r)).
  { destruct (cchain (base r)) as [cc|] eqn:E.
    - destruct K as (K1 & K2 & K3). destruct (save_good V d m (free (base r)) (con (base r)) (chain (base r)) cc (lnprobs (base r)) 0 [] N H L1 L2 K1 K2 K3) as (b & X & X1 & X2 & X3 & X4 & X5 & X6 & _).
      exists b. auto 8.
    - rewrite K in *. destruct (save_good_none V d m (free (base r)) (chain (base r)) (lnprobs (base r)) 0 [] N H L1 L2) as (b & X & X1 & X2 & X3 & X4 & X5 & X6 & _).
      exists b. auto 8. }
  destruct S as (b & S & Gb & F & C & H' & Cc & L).
  assert (R : from_npz V d A one true (fst (to_npz V A r meta)) = Ok {| base := set_burnin b (burnin (base r)); attrs := update A (attrs r) meta; fid := fun _ => None; resc := one |}).
  { unfold from_npz, to_npz. cbn [negb andb fst assoc String.eqb Ascii.eqb Bool.eqb]. destruct (cchain (base r)); cbn [pickled]; rewrite S; reflexivity. }
  rewrite R. eexists. split; [reflexivity|]. split; [|split; [reflexivity|split; reflexivity]].
  assert (IT : iterations b = iterations (base r)) by (unfold iterations; now rewrite H').
  assert (BB : (iterations b <? burnin (base r)) = false) by (rewrite IT; apply Nat.ltb_ge; exact B).
  assert (T : forall k, trace_of b k = trace_of (base r) k) by (apply (same_traces m); auto).
  assert (T' : forall k, trace_of (set_burnin b (burnin (base r))) k = trace_of b k).
  { intro k. unfold trace_of, set_burnin. cbn [table]. induction (table b) as [|[k' [t' b']] l IH]; cbn; [reflexivity|]. destruct (String.eqb k' k); [reflexivity|exact IH]. }
  unfold same_results. cbn [base]. unfold set_burnin at 1 2 3 4 5 6. cbn [free con chain cchain lnprobs burnin]. rewrite BB.
  split; [auto|]. split; [auto|]. split; [auto|]. split; [auto|]. split; [auto|]. split; [auto|]. split.
  - intro k. rewrite T', T. reflexivity.
  - intros k t Ht. rewrite <- T in Ht. unfold flat_trace, trace_of, set_burnin in *. cbn [table]. rewrite BB. clear - Ht.
    induction (table b) as [|[k' [t' b']] l IH]; cbn in *; [discriminate|]. destruct (String.eqb k' k); [|auto]. cbn in *. now injection Ht as ->.
Qed.
End Proofs.

(** ** C216 Results written to a file and read back have the same chains, burn-in, traces and attributes (numpy that unpickles by default). *)
Theorem C216_results_kept_partial : forall V (d : V) A one m (r : eresults V A) meta, good d m (base r) -> burnin (base r) <= iterations (base r) ->
  NoDup (map fst meta) ->
  exists r', from_npz V d A one true (fst (to_npz V A r meta)) = Ok r' /\ same_results (base r) (base r') /\
    (forall k, assoc (attrs r') k = match assoc meta k with Some a => Some a | None => assoc (attrs r) k end) /\
    attrs (snd (to_npz V A r meta)) = attrs r' /\ base (snd (to_npz V A r meta)) = base r.
Proof.
  intros V d A one m r meta G B N. destruct (read_back V d A one m r meta G B) as (r' & E & S & T & _). exists r'.
  split; [exact E|]. split; [exact S|]. split; [|auto]. intro k. rewrite T. cbn. now apply update_assoc.
Qed.
(** Refuted: the fiducial values and the rescaling of the errors are lost. *)
Theorem C216_fiducial_lost_refuted : forall V (d : V) A one m (r : eresults V A) meta, good d m (base r) -> burnin (base r) <= iterations (base r) ->
  exists r', from_npz V d A one true (fst (to_npz V A r meta)) = Ok r' /\ (forall k, fid r' k = None) /\ resc r' = one.
Proof. intros V d A one m r meta G B. destruct (read_back V d A one m r meta G B) as (r' & E & _ & _ & F). exists r'. auto. Qed.
(** Refuted: with a numpy that does not unpickle by default no file of results can be read. *)
Theorem C216_pickle_refuted : forall V (d : V) A one (r : eresults V A) meta, from_npz V d A one false (fst (to_npz V A r meta)) = ValueError.
Proof. intros V d A one r meta. unfold from_npz, to_npz. destruct (cchain (base r)); reflexivity. Qed.
Print Assumptions C216_results_kept_partial.
Print Assumptions C216_fiducial_lost_refuted.
Print Assumptions C216_pickle_refuted.
Example C216_nonvacuous :
  good 0 2 sample_results /\ burnin sample_results <= iterations sample_results /\
  match from_npz nat 0 nat 9 true (fst (to_npz nat nat {| base := sample_results; attrs := [("z", 1); ("n", 2)]%string; fid := fun _ => Some 7; resc := 3 |} [("n", 5)]%string)) with
  | Ok r' => attrs r' = [("z", 1); ("n", 5)]%string /\ trace_of (base r') "t" = Some [[20; 40]] /\ flat_trace (base r') "b" = Some [4] /\ resc r' = 9
  | _ => False end.
Proof. split; [exact sample_good|]. split; [cbn; lia|]. cbn. repeat split. Qed.
