From Coq Require Import List Arith Bool Reals Lra Lia.
From Coquelicot Require Import Coquelicot.
From Verif Require Import M_Prep S_Prep P_Prep M_ParamVal S_ParamVal M_Prior S_Params P_SetFree P_Grad M_TheoryDefaults M_GradNum P_GradNum.
Import ListNotations.
Local Open Scope R_scope.

(** *** reachability in a concrete graph *)
Fixpoint reachb (fuel : nat) (expr : nat -> option (list nat)) (c x : nat) : bool :=
  match fuel with
  | O => false
  | S fuel => match expr c with None => false | Some l => existsb (fun d => Nat.eqb d x || reachb fuel expr d x) l end
  end.
Lemma reach_complete names expr rank : (forall n c, edge names expr n c -> (rank c < rank n)%nat) ->
  forall fuel c x, (rank c < fuel)%nat -> depends names expr c x -> reachb fuel expr c x = true.
Proof.
  intros Hr. induction fuel as [|fuel IH]; intros c x Hf Hd; [lia|]. cbn.
  inversion Hd as [n d He|n d y He Hd']; subst; destruct He as [H1 [H2 [l [El Hl]]]]; rewrite El; apply existsb_exists.
  - exists x. split; [exact Hl|]. now rewrite Nat.eqb_refl.
  - exists d. split; [exact Hl|]. rewrite (IH d x); [now rewrite orb_true_r| |exact Hd'].
    assert (rank d < rank c)%nat; [apply Hr; repeat split; eauto|lia].
Qed.
Definition direct_or_numeric (n : nat) (expr : nat -> option (list nat)) (model reg : list nat) (n0 : nat) : bool :=
  negb (mem n0 reg) ||
  existsb (fun c => mem c model && negb (mem c reg) && match expr c with Some l => mem n0 l | None => false end) (seq 0 n) ||
  forallb (fun c => negb (mem c model) || negb (reachb 9 expr c n0) || match expr c with Some l => mem n0 l | None => false end) (seq 0 n).
Lemma mem_In x l : mem x l = true <-> In x l.
Proof. unfold mem. rewrite existsb_exists. split; [intros [y [H E]]; apply Nat.eqb_eq in E; congruence|]. intro H. exists x. split; [exact H|apply Nat.eqb_refl]. Qed.

(** total derivative for every parameter that [compute] accepts *)
Lemma default_total n expr model reg (rank : nat -> nat) f ps :
  wfb n expr rank = true -> (forall i, (n <= i)%nat -> expr i = None) -> (forall i, In i (seq 0 n) -> (rank i < 9)%nat) ->
  (forall n0, In n0 (seq 0 n) -> constrained expr n0 = false -> direct_or_numeric n expr model reg n0 = true) ->
  prepare (seq 0 n) expr f = Some ps ->
  forall free (regv : nat -> option R) cd P p n0 (W : R -> nat -> R) W' t0 fexp fuel r,
  (forall c, regv c <> None -> In c reg) -> (forall c d, regv c = Some d -> d = p c) ->
  (forall k, In k free -> expr k = None) -> In n0 free -> In n0 (seq 0 n) ->
  differentiable_at (filter (fun c => mem c model) (seq 0 n)) P (W t0) p -> (mem n0 model = false -> p n0 = 0) ->
  (forall t, W t n0 = t) -> (forall t u, expr u = None -> u <> n0 -> W t u = W t0 u) ->
  (forall t k l, expr k = Some l -> W t k = fexp k (map (W t) l)) ->
  (forall c, expr c <> None -> In c model -> is_derive (fun t => W t c) t0 (W' c)) ->
  (forall c, expr c <> None -> In c model -> cd c n0 = W' c) ->
  compute (seq 0 n) (kids ps) (fun c => mem c model || mem c free) regv cd (S (S fuel)) n0 = Some r ->
  is_derive (fun t => P (W t)) t0 r.
Proof.
  intros Hwf Hout Hrk Hdir Hprep free regv cd P p n0 W W' t0 fexp fuel r Hreg Hregp Hfree Hin Hn Hdiff Hp0 HW0 HWu HWs HWc Hcd Hc.
  pose proof (wf_acyclic n expr rank Hwf) as Hac. pose proof (wf_syms n expr rank Hwf Hout) as Hsy.
  destruct (prep_kids (seq 0 n) expr (seq_NoDup _ _) Hac f ps Hprep) as [K1 K2].
  assert (Hrank : forall a c, edge (seq 0 n) expr a c -> (rank c < rank a)%nat).
  { intros a c [Ha [_ [l [El Hcl]]]]. unfold wfb in Hwf. rewrite forallb_forall in Hwf.
    assert (K : In (a, c) (edgeb n expr)). { unfold edgeb. apply in_flat_map. exists a. split; [exact Ha|]. rewrite El. apply in_map. exact Hcl. }
    specialize (Hwf _ K). cbn in Hwf. apply andb_true_iff in Hwf. destruct Hwf as [_ H]. now apply Nat.ltb_lt in H. }
  assert (Hn0 : constrained expr n0 = false) by (apply con_None; auto).
  assert (Hval : forall c, constrained expr c = true -> (mem c model || mem c free)%bool = mem c model).
  { intros c Hcc. destruct (mem c free) eqn:E; [|apply orb_false_r]. apply mem_In in E. apply Hfree in E. unfold constrained in Hcc. rewrite E in Hcc. discriminate. }
  assert (Hv0 : (mem n0 model || mem n0 free)%bool = true) by (apply orb_true_iff; right; now apply mem_In).
  assert (CC : forall c, constrained expr c = true -> expr c <> None) by (intros c Hcc E; unfold constrained in Hcc; rewrite E in Hcc; discriminate).
  destruct (comp_free _ _ _ K1 K2 _ (fun c => mem c model) Hval regv cd fuel n0 r Hn0 Hv0 Hc) as [R1 [R2 _]].
  refine (total_direct (seq 0 n) expr (kids ps) (seq_NoDup _ _) K1 K2 _ (fun c => mem c model) Hval regv cd P p n0 W W' t0 Hn Hn0 Hdiff Hp0 Hregp HW0
    (fun t u H => HWu t u (proj1 (con_None expr u) H)) (fun c H1 H2 => HWc c (CC c H1) (proj1 (mem_In _ _) H2)) (fun c H1 H2 => Hcd c (CC c H1) (proj1 (mem_In _ _) H2)) rank Hrank fexp HWs Hsy fuel r Hv0 Hc _).
  intros c Hm Hcc Hd. specialize (Hdir n0 Hn Hn0). unfold direct_or_numeric in Hdir. apply orb_true_iff in Hdir. destruct Hdir as [Hdir|Hdir].
  - apply orb_true_iff in Hdir. destruct Hdir as [Hdir|Hdir].
    + exfalso. apply negb_true_iff in Hdir. apply Hreg in R1. apply mem_In in R1. congruence.
    + exfalso. apply existsb_exists in Hdir. destruct Hdir as [x [Hx Hb]]. apply andb_true_iff in Hb. destruct Hb as [Hb1 Hb2]. apply andb_true_iff in Hb1. destruct Hb1 as [Hb0 Hb1].
      destruct (expr x) as [l|] eqn:Ex; [|discriminate]. apply negb_true_iff in Hb1.
      assert (Hxr : In x reg). { apply Hreg, (R2 x); [|exact Hb0]. split; [exact Hx|]. split; [exact Hn|]. exists l. split; [exact Ex|now apply mem_In]. }
      apply mem_In in Hxr. congruence.
  - rewrite forallb_forall in Hdir.
    assert (Hcn : In c (seq 0 n)). { inversion Hd; subst; match goal with H : edge _ _ _ _ |- _ => apply H end. }
    specialize (Hdir c Hcn). rewrite Hm in Hdir. cbn [negb orb] in Hdir.
    rewrite (reach_complete _ _ rank Hrank 9 c n0 (Hrk c Hcn) Hd) in Hdir. cbn in Hdir.
    destruct (expr c) as [l|] eqn:El; [|discriminate]. split; [exact Hcn|]. split; [exact Hn|]. exists l. split; [exact El|now apply mem_In].
Qed.
Lemma gal_direct : forall n0, In n0 (seq 0 gal_n) -> constrained gal_expr n0 = false -> direct_or_numeric gal_n gal_expr gal_model gal_registered n0 = true.
Proof.
  assert (H : forallb (fun n0 => constrained gal_expr n0 || direct_or_numeric gal_n gal_expr gal_model gal_registered n0) (seq 0 gal_n) = true) by (vm_compute; reflexivity).
  intros n0 Hn Hc. rewrite forallb_forall in H. specialize (H n0 Hn). now rewrite Hc in H.
Qed.
Lemma galx_direct : forall n0, In n0 (seq 0 gal_n) -> constrained galx_expr n0 = false -> direct_or_numeric gal_n galx_expr gal_model gal_registered n0 = true.
Proof.
  assert (H : forallb (fun n0 => constrained galx_expr n0 || direct_or_numeric gal_n galx_expr gal_model gal_registered n0) (seq 0 gal_n) = true) by (vm_compute; reflexivity).
  intros n0 Hn Hc. rewrite forallb_forall in H. specialize (H n0 Hn). now rewrite Hc in H.
Qed.
Lemma gal_rank : forall i, In i (seq 0 gal_n) -> (height 9 gal_expr i < 9)%nat.
Proof.
  assert (H : forallb (fun i => Nat.ltb (height 9 gal_expr i) 9) (seq 0 gal_n) = true) by (vm_compute; reflexivity).
  intros i Hi. rewrite forallb_forall in H. apply Nat.ltb_lt, H, Hi.
Qed.
Lemma galx_rank : forall i, In i (seq 0 gal_n) -> (height 9 galx_expr i < 9)%nat.
Proof.
  assert (H : forallb (fun i => Nat.ltb (height 9 galx_expr i) 9) (seq 0 gal_n) = true) by (vm_compute; reflexivity).
  intros i Hi. rewrite forallb_forall in H. apply Nat.ltb_lt, H, Hi.
Qed.

(** *** the chain a -> b -> c: P = c, c = b, b = a *)
Definition ch_names := [0; 1; 2]%nat.
Definition ch_expr (n : nat) : option (list nat) := match n with 1 => Some [0%nat] | 2 => Some [1%nat] | _ => None end%nat.
Lemma ch_run : exists ps, prepare ch_names ch_expr 10 = Some ps /\ (forall c, In c ch_names -> kids ps 0 c = Nat.eqb c 1) /\ deps ps 2 = [0%nat].
Proof. eexists. split; [vm_compute; reflexivity|]. split; [|reflexivity]. intros c [<-|[<-|[<-|[]]]]; reflexivity. Qed.

(** *** central differences *)
Lemma bump_len th : forall i e, length (bump th i e) = length th.
Proof. induction th as [|v th IH]; intros [|i] e; cbn; auto. Qed.
Lemma bump_nth th : forall i e v, nth_error th i = Some v -> nth_error (bump th i e) i = Some (v + e).
Proof. induction th as [|x th IH]; intros [|i] e v; cbn; try discriminate; [intros [= ->]; reflexivity|apply IH]. Qed.
Lemma bump_other th : forall i e j, j <> i -> nth_error (bump th i e) j = nth_error th j.
Proof. induction th as [|x th IH]; intros [|i] e [|j] H; cbn; auto; try lia; apply IH; lia. Qed.
