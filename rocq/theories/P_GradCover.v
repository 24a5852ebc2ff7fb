(** * C27: which default parameters have an analytic gradient *)
From Coq Require Import List Arith Bool Reals Lra Lia.
From Verif Require Import M_Prep S_Prep P_Prep M_ParamVal S_ParamVal M_Prior S_Params P_SetFree P_Grad M_TheoryDefaults P_GradX.
Import ListNotations.
Local Open Scope R_scope.

(** the routine returns unless the parameter, or a model parameter whose expression names it, is not registered *)
Definition coveredb (n : nat) (expr : nat -> option (list nat)) (model reg : list nat) (n0 : nat) : bool :=
  mem n0 reg && forallb (fun c => negb (mem c model) || mem c reg || match expr c with Some l => negb (mem n0 l) | None => true end) (seq 0 n).

Lemma covered_iff n expr model reg (rank : nat -> nat) f ps :
  wfb n expr rank = true -> prepare (seq 0 n) expr f = Some ps ->
  forall free (regv : nat -> option R) cd n0 fuel,
  (forall c, regv c <> None <-> In c reg) -> (forall k, In k free -> expr k = None) -> In n0 free -> In n0 (seq 0 n) ->
  (compute (seq 0 n) (kids ps) (fun c => mem c model || mem c free) regv cd (S (S fuel)) n0 <> None <-> coveredb n expr model reg n0 = true).
Proof.
  intros Hwf Hprep free regv cd n0 fuel Hreg Hfree Hin Hn.
  pose proof (wf_acyclic n expr rank Hwf) as Hac.
  destruct (prep_kids (seq 0 n) expr (seq_NoDup _ _) Hac f ps Hprep) as [K1 K2].
  assert (Hn0 : constrained expr n0 = false) by (apply con_None; auto).
  assert (Hval : forall c, constrained expr c = true -> (mem c model || mem c free)%bool = mem c model).
  { intros c Hcc. destruct (mem c free) eqn:E; [|apply orb_false_r]. apply mem_In in E. apply Hfree in E. unfold constrained in Hcc. rewrite E in Hcc. discriminate. }
  assert (Hv0 : (mem n0 model || mem n0 free)%bool = true) by (apply orb_true_iff; right; now apply mem_In).
  split.
  - intro C. destruct (compute _ _ _ _ _ _ _) as [r|] eqn:E; [|congruence]. clear C.
    destruct (comp_free _ _ _ K1 K2 _ (fun c => mem c model) Hval regv cd fuel n0 r Hn0 Hv0 E) as [R1 [R2 _]].
    unfold coveredb. rewrite (proj2 (mem_In n0 reg) (proj1 (Hreg n0) R1)). cbn [andb]. apply forallb_forall. intros c Hc.
    destruct (mem c model) eqn:Em; [|reflexivity]. cbn [negb orb]. destruct (expr c) as [l|] eqn:El; [|apply orb_true_r].
    destruct (mem n0 l) eqn:Ml; [|apply orb_true_r]. rewrite (proj2 (mem_In c reg)); [reflexivity|]. apply Hreg. apply (R2 c); [|exact Em].
    split; [exact Hc|]. split; [exact Hn|]. exists l. split; [exact El|now apply mem_In].
  - unfold coveredb. intro C. apply andb_true_iff in C. destruct C as [C1 C2]. rewrite forallb_forall in C2.
    assert (G : forall c, kids ps n0 c = true -> compute (seq 0 n) (kids ps) (fun c => (mem c model || mem c free)%bool) regv cd (S fuel) c <> None).
    { intros c K. apply K1 in K; [|exact Hn0]. destruct K as (Hc & _ & l & El & Hl).
      assert (Cc : constrained expr c = true) by (unfold constrained; now rewrite El).
      cbn [compute]. rewrite (Hval c Cc). destruct (mem c model) eqn:Em; [|discriminate]. cbn [negb].
      specialize (C2 c Hc). rewrite Em, El in C2. cbn [negb orb] in C2. rewrite (proj2 (mem_In n0 l) Hl) in C2. cbn [negb] in C2. rewrite orb_false_r in C2.
      destruct (regv c) as [d|] eqn:Ed; [|exfalso; apply (proj2 (Hreg c) (proj1 (mem_In _ _) C2)); exact Ed].
      assert (Ek : filter (kids ps c) (seq 0 n) = []).
      { clear - K2 Cc. induction (seq 0 n) as [|x t IH]; [reflexivity|]. cbn. rewrite (K2 c x Cc). exact IH. }
      rewrite Ek. discriminate. }
    change (compute (seq 0 n) (kids ps) (fun c => (mem c model || mem c free)%bool) regv cd (S (S fuel)) n0) with
     (if negb (mem n0 model || mem n0 free) then Some 0 else match regv n0 with None => None | Some d =>
      (fix go (cs : list nat) (acc : R) : option R := match cs with [] => Some acc | c :: cs => match compute (seq 0 n) (kids ps) (fun c => (mem c model || mem c free)%bool) regv cd (S fuel) c with None => None | Some a => if Req_EM_T a 0 then go cs acc else go cs (acc + a * cd c n0) end end) (filter (kids ps n0) (seq 0 n)) d end).
    rewrite Hv0. cbn [negb]. destruct (regv n0) as [d|] eqn:Ed; [|exfalso; apply (proj2 (Hreg n0) (proj1 (mem_In _ _) C1)); exact Ed].
    assert (H : forall c, In c (filter (kids ps n0) (seq 0 n)) -> kids ps n0 c = true) by (intros c H; apply filter_In in H; apply H).
    revert d Ed H. generalize (filter (kids ps n0) (seq 0 n)) as cs. intros cs d _. revert d. induction cs as [|c cs IH]; intros d H; [discriminate|].
    pose proof (G c (H c (or_introl eq_refl))) as Gc. destruct (compute _ _ _ _ _ (S fuel) c) as [a|]; [|congruence].
    destruct (Req_EM_T a 0); apply IH; intros; apply H; now right.
Qed.
