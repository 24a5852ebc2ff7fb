(** C211-C212: the fiducial values of constrained parameters. *)
From Coq Require Import List Arith ZArith Bool Lia.
From Verif Require Import M_Prep S_Prep P_Prep M_ParamVal S_ParamVal P_ParamVal P_SetFree M_TheoryDefaults P_GradX M_Fiducial S_Fiducial P_Fiducial.
Import ListNotations.

Section C211.
Context {V : Type}.
Variables (names : list nat) (expr : nat -> option (list nat)) (f : nat) (ps : pst) (vary : nat -> bool) (fexp : nat -> list V -> V) (clamp : nat -> V -> V) (inf : V) (finite : V -> bool).
Hypothesis H1 : NoDup names.
Hypothesis H2 : acyclic names expr.
Hypothesis H3 : forall n l, expr n = Some l -> In n names /\ incl l names.
Hypothesis H4 : prepare names expr f = Some ps.
Hypothesis H5 : anchored expr.
Hypothesis H6 : forall n v, clamp n (clamp n v) = clamp n v.
(** a run of update_fiducial in any state in which only the parameters of the set have values *)
Variables (fuel : nat) (fid fid' : nat -> option V) (st st' : vst V).
Hypothesis Run : update_fiducial names expr vary fexp clamp (kids ps) inf finite fuel fid st = Some (fid', st').
Hypothesis Own : forall u, ~ In u names -> sym st u = None /\ vary u = false.

(** ** C211 The fiducial value of a constrained parameter is its expression at the fiducial values.
    Proved if every parameter without expression has a fiducial value within its bounds: chains of expressions of any length, whatever was assigned and read before. *)
Theorem C211_fiducials_partial : forall D,
  (forall u, In u names -> expr u = None -> fid u = Some (D u) /\ (vary u = true -> clamp u (D u) = D u)) ->
  (forall n l, expr n = Some l -> D n = clamp n (fexp n (map D l))) ->
  forall n, In n names -> fid' n = match expr n with None => fid n | Some _ => if finite (D n) then Some (D n) else None end.
Proof.
  intros D A B. destruct (update_spec names expr H1 H2 H3 f ps H4 vary fexp clamp H6 inf finite H5 fuel fid st fid' st' Run Own) as [S _].
  apply (S D); [|exact B]. intros u Hu E. destruct (A u Hu E) as [F C]. split; [unfold start_value; now rewrite F|exact C].
Qed.
(** Refuted: a parameter that depends on one without fiducial value gets one if its expression is finite at infinity. *)
Theorem C211_missing_refuted : forall D u n l,
  In u names -> expr u = None -> fid u = None -> expr n = Some l -> In u l ->
  (forall u, In u names -> expr u = None -> D u = match fid u with Some v => v | None => inf end /\ (vary u = true -> clamp u (D u) = D u)) ->
  (forall n l, expr n = Some l -> D n = clamp n (fexp n (map D l))) -> finite (D n) = true -> fid' n = Some (D n).
Proof.
  intros D u n l _ _ _ E _ A B F. destruct (update_spec names expr H1 H2 H3 f ps H4 vary fexp clamp H6 inf finite H5 fuel fid st fid' st' Run Own) as [S _].
  destruct (H3 n l E) as [Hn _]. rewrite (S D) by (assumption || exact A || exact B). now rewrite E, F.
Qed.

(** ** C212 Computing the fiducial values does not change the values.
    Afterwards each parameter without expression has the value it showed before, and reading any parameter gives what these values imply: also for chains of
    expressions for which the value was stale before (C48). *)
Theorem C212_values_kept : forall D,
  (forall u, In u names -> expr u = None -> shows vary clamp st u (D u)) ->
  (forall n l, expr n = Some l -> D n = clamp n (fexp n (map D l))) ->
  (forall u, In u names -> expr u = None -> val st' u = D u) /\
  (forall fuel' n v st'', In n names -> getval expr vary fexp clamp (kids ps) fuel' st' n = Some (v, st'') -> v = D n).
Proof.
  intros D A B. destruct (update_spec names expr H1 H2 H3 f ps H4 vary fexp clamp H6 inf finite H5 fuel fid st fid' st' Run Own) as [_ S]. exact (S D A B).
Qed.
End C211.

(** The default theories meet the conditions on the expressions. *)
Lemma anchored_dec (N : nat) (expr : nat -> option (list nat)) :
  (forall n, N <= n -> expr n = None) -> forallb (fun n => match expr n with None => true | Some l => existsb (fun u => match expr u with None => true | _ => false end) l end) (seq 0 N) = true -> anchored expr.
Proof.
  intros O B n l E. rewrite forallb_forall in B. destruct (le_lt_dec N n) as [G|G]; [rewrite O in E by exact G; discriminate|].
  specialize (B n). rewrite E in B. specialize (B ltac:(apply in_seq; lia)). apply existsb_exists in B. destruct B as (u & Hu & Eu).
  exists u. split; [exact Hu|]. destruct (expr u); [discriminate|reflexivity].
Qed.
Theorem C211_default_theories : anchored gal_expr /\ anchored galx_expr /\ anchored qso_expr.
Proof.
  split; [|split].
  - apply (anchored_dec 35); [|vm_compute; reflexivity]. intros n H. do 35 (destruct n as [|n]; [lia|]). reflexivity.
  - apply (anchored_dec 35); [|vm_compute; reflexivity]. intros n H. do 35 (destruct n as [|n]; [lia|]). reflexivity.
  - apply (anchored_dec 15); [|vm_compute; reflexivity]. intros n H. do 15 (destruct n as [|n]; [lia|]). reflexivity.
Qed.

(** Concrete cases.  The galaxy theory with sums as expressions: values of 1, fiducial values of 2, after reading b1 and assigning fs (b1 is then stale). *)
Definition ex_sum (n : nat) (l : list Z) : Z := fold_right Z.add 0%Z l.
Definition ex_vary (k : nat) : bool := mem k gal_free.
Definition ex_ps : option pst := prepare gal_names gal_expr 20.
Definition ex_run : option (option Z * option (Z * vst Z)) :=
  match ex_ps with
  | None => None
  | Some ps => match vrun gal_expr ex_vary ex_sum (fun _ v => v) (kids ps) 10 (mkV (fun _ => 1%Z) (fun _ => None)) [VGet 9; VSet 23 5%Z] with
    | None => None
    | Some st => match update_fiducial gal_names gal_expr ex_vary ex_sum (fun _ v => v) (kids ps) (-1)%Z (Z.leb 0) 10 (fun n => match gal_expr n with None => Some 2%Z | _ => None end) st with
      | None => None
      | Some (fid, st) => Some (fid 9%nat, getval gal_expr ex_vary ex_sum (fun _ v => v) (kids ps) 10 st 9)
      end end end.
Example C211_nonvacuous : exists st, ex_run = Some (Some 32%Z, Some (24%Z, st)) /\ anchored gal_expr /\ acyclic gal_names gal_expr.
Proof. eexists. split; [vm_compute; reflexivity|]. split; [apply C211_default_theories|apply (wf_acyclic gal_n gal_expr (height 9 gal_expr) gal_wf)]. Qed.
(** F_AP = alpha_par / alpha_perp without a fiducial value of alpha_perp (None is infinity): the fiducial value of F_AP becomes 0 *)
Definition ap_expr (n : nat) : option (list nat) := match n with 2 => Some [0; 1] | _ => None end.
Definition ap_ratio (n : nat) (l : list (option Z)) : option Z := match l with [Some a; Some b] => Some (a / b)%Z | [Some a; None] => Some 0%Z | _ => None end.
Example C211_missing_nonvacuous : exists ps fid' st', prepare [0; 1; 2] ap_expr 5 = Some ps /\
  update_fiducial [0; 1; 2] ap_expr (fun _ => false) ap_ratio (fun _ v => v) (kids ps) None (fun v => match v with Some _ => true | None => false end) 5
    (fun n => match n with 0 => Some (Some 6%Z) | _ => None end) (mkV (fun _ => Some 1%Z) (fun _ => None)) = Some (fid', st') /\ fid' 2 = Some (Some 0%Z) /\ anchored ap_expr.
Proof.
  eexists. eexists. eexists. split; [vm_compute; reflexivity|]. split; [vm_compute; reflexivity|]. split; [reflexivity|].
  intros n l. do 3 (destruct n as [|n]; [cbn; try discriminate|]); [|discriminate]. intros [= <-]. exists 0. split; [left|]; reflexivity.
Qed.
Print Assumptions C211_fiducials_partial.
Print Assumptions C211_missing_refuted.
Print Assumptions C211_default_theories.
Print Assumptions C212_values_kept.
