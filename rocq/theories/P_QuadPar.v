From Coq Require Import Reals List Arith Lra Lia Sorted.
From Verif Require Import M_Quad S_Quad P_QuadSort P_Quad P_Quad2 P_QuadWs M_QuadPar S_QuadPar.
Import ListNotations.
Local Open Scope R_scope.

(* the map *)
Lemma ms_in m i v : StronglySorted lt (keys m) -> forall j u, In (j, u) (map_set m i v) <-> (j = i /\ u = v) \/ (j <> i /\ In (j, u) m).
Proof.
  unfold keys. induction m as [|[k x] m IH]; intros S j u.
  - cbn. split; [intros [E|[]]; injection E as <- <-; auto|intros [[-> ->]|[_ []]]; auto].
  - cbn [map fst] in S. inversion S as [|? ? S1 S2]. subst. cbn [map_set]. rewrite Forall_forall in S2.
    assert (N : forall y, In (k, y) m -> False) by (intros y Hy; specialize (S2 k ltac:(apply in_map_iff; exists (k, y); auto)); lia).
    destruct (Nat.eqb_spec i k) as [->|D].
    + cbn [In]. split.
      * intros [E|H]; [injection E as <- <-; auto|]. right. split; [intros ->; exact (N u H)|auto].
      * intros [[-> ->]|[Q [E|H]]]; [auto| |auto]. injection E as -> _. contradiction.
    + destruct (Nat.ltb_spec i k) as [Lt|Ge].
      * cbn [In]. split.
        -- intros [E|[E|H]]; [injection E as <- <-; auto|injection E as <- <-; right; split; [lia|auto]|].
           right. split; [|auto]. intros ->. specialize (S2 i ltac:(apply in_map_iff; exists (i, u); auto)). lia.
        -- intros [[-> ->]|[Q H]]; auto.
      * cbn [In]. rewrite (IH S1). split.
        -- intros [E|[H|[Q H]]]; [injection E as <- <-; right; split; [lia|auto]|auto|auto].
        -- intros [H|[Q [E|H]]]; auto.
Qed.
Lemma ms_keys m i v : forall j, In j (keys (map_set m i v)) <-> j = i \/ In j (keys m).
Proof.
  unfold keys. induction m as [|[k x] m IH]; intros j; [cbn; split; intros [|]; auto|]. cbn [map_set]. destruct (Nat.eqb_spec i k) as [->|D].
  - cbn. split; [intros [|]; auto|intros [|[|]]; auto].
  - destruct (Nat.ltb i k); [cbn; split; [intros [|[|]]; auto|intros [|[|]]; auto]|]. cbn [map In fst]. rewrite IH. split; [intros [|[|]]; auto|intros [|[|]]; auto].
Qed.
Lemma ms_sorted m i v : StronglySorted lt (keys m) -> StronglySorted lt (keys (map_set m i v)).
Proof.
  induction m as [|[k x] m IH]; intros S; [repeat constructor|]. assert (S0 := S). unfold keys in S. cbn [map fst] in S. inversion S as [|? ? S1 S2]. subst.
  cbn [map_set]. destruct (Nat.eqb_spec i k) as [->|D]; [exact S0|]. destruct (Nat.ltb_spec i k) as [Lt|Ge].
  - unfold keys. cbn [map fst]. constructor; [exact S0|]. constructor; [exact Lt|]. eapply Forall_impl; [|exact S2]. intros a Ha; cbv beta in *; lia.
  - unfold keys. cbn [map fst]. constructor; [apply IH, S1|]. rewrite Forall_forall in *. intros j Hj. apply ms_keys in Hj. destruct Hj as [->|Hj]; [lia|apply S2, Hj].
Qed.
Lemma in_keys m j : In j (keys m) <-> exists u, In (j, u) m.
Proof. unfold keys. rewrite in_map_iff. split; [intros ([a u] & E & H); cbn in E; subst; exists u; exact H|intros (u & H); exists (j, u); auto]. Qed.
Lemma free_in m i : first_free m = Some i -> In (i, false) m.
Proof. induction m as [|[k u] m IH]; cbn; [discriminate|]. destruct u; [intros H; right; auto|intros H; injection H as ->; left; reflexivity]. Qed.
Lemma fun_map m i u v : StronglySorted lt (keys m) -> In (i, u) m -> In (i, v) m -> u = v.
Proof.
  unfold keys. induction m as [|[k x] m IH]; intros S A B; [destruct A|]. cbn [map fst] in S. inversion S as [|? ? S1 S2]. subst. rewrite Forall_forall in S2.
  destruct A as [A|A], B as [B|B]; [congruence| | |apply IH; assumption].
  - injection A as -> ->. specialize (S2 i ltac:(apply in_map_iff; exists (i, v); auto)). lia.
  - injection B as -> ->. specialize (S2 i ltac:(apply in_map_iff; exists (i, u); auto)). lia.
Qed.
Lemma release_in m i : StronglySorted lt (keys m) -> StronglySorted lt (keys (release m i)) /\
  (forall j, In j (keys (release m i)) <-> In j (keys m)) /\ forall j u, j <> i -> In (j, u) (release m i) <-> In (j, u) m.
Proof.
  intros S. unfold release. destruct (in_dec Nat.eq_dec i (keys m)) as [I|I]; [|split; [exact S|split; intros; reflexivity]].
  split; [apply ms_sorted, S|]. split.
  - intros j. rewrite ms_keys. split; [intros [->|]; auto|auto].
  - intros j u N. rewrite (ms_in _ _ _ S). split; [intros [[]|[]]; [contradiction|assumption]|auto].
Qed.

(* the value of a program run alone *)
Definition dft : answer := {| q_val := 0; q_err := None; q_neval := None; q_warn := [] |}.
Definition ansf (w : ws) (r : req) : answer := match alone w r with Some a => a | None => dft end.
Fixpoint val (w : ws) (p : prog) : R := match p with Ret v => v | Call r k => val w (k (ansf w r)) end.
Lemma alone_some w r : (2 <= limit w)%nat -> alone w r = Some (ansf w r).
Proof.
  intros HL. unfold ansf. destruct (alone w r) eqn:E; [reflexivity|]. exfalso. unfold alone, integrate in E.
  assert (DEC : refused (r_rel r) (r_abs r) \/ ~ refused (r_rel r) (r_abs r)) by (destruct (refuse_spec (r_rel r) (r_abs r)); auto).
  destruct DEC as [Q|Q].
  - unfold integrate_rule in E. destruct (refuse_spec (r_rel r) (r_abs r)); [discriminate E|contradiction].
  - destruct (integrate_ok w (gk15 (r_f r)) (r_a r) (r_b r) _ _ HL Q) as (s & _ & _ & A). rewrite A in E. discriminate E.
Qed.
Lemma val_ok w p : (2 <= limit w)%nat -> evaluates w p (val w p).
Proof. intros HL. induction p as [v|r k IH]; [constructor|]. cbn [val]. econstructor; [apply alone_some, HL|apply IH]. Qed.
Lemma evaluates_val w p v : (2 <= limit w)%nat -> evaluates w p v -> v = val w p.
Proof. intros HL H. induction H as [v|r k a v A H IH]; [reflexivity|]. cbn [val]. rewrite (alone_some w r HL) in A. injection A as A. rewrite A. exact IH. Qed.
Lemma ansf_refuse w r : refuses r = true -> ansf w r = {| q_val := 0; q_err := None; q_neval := None; q_warn := [1%nat] |}.
Proof. intros H. unfold ansf, alone, integrate, integrate_rule. unfold refuses in H. rewrite H. reflexivity. Qed.
Lemma lo_hi r : lo_of r <= hi_of r.
Proof. unfold lo_of, hi_of. destruct (rltb_spec (r_b r) (r_a r)); lra. Qed.
Lemma ansf_loop w r : refuses r = false -> (2 <= limit w)%nat -> exists sF, loop (S (limit w)) (gk15 (r_f r)) (r_rel r) (r_abs r) (first w (gk15 (r_f r)) (lo_of r) (hi_of r)) = Some sF /\ answer_of r sF = ansf w r.
Proof.
  intros H HL. unfold refuses in H. assert (S := alone_some w r HL). unfold alone, integrate, integrate_rule in S. rewrite H in S. unfold lo_of, hi_of, answer_of.
  destruct (rltb (r_b r) (r_a r)).
  - destruct (loop _ _ _ _ _) as [sF|]; [|discriminate S]. exists sF. split; [reflexivity|]. injection S as S. exact S.
  - destruct (loop _ _ _ _ _) as [sF|]; [|discriminate S]. exists sF. split; [reflexivity|]. injection S as S. exact S.
Qed.
Lemma ansf_fresh w1 w2 r : (2 <= limit w1)%nat -> limit w1 = limit w2 -> ansf w1 r = ansf w2 r.
Proof. intros HL E. unfold ansf, alone, integrate. rewrite (integrate_fresh w1 w2 (gk15 (r_f r)) (r_a r) (r_b r) (r_rel r) (r_abs r) HL E). reflexivity. Qed.
Lemma with_ws_id s : with_ws (l_ws s) s = s.
Proof. destruct s. reflexivity. Qed.

Section Inv.
Variables (L : nat) (w0 : ws) (V : nat -> R).
Hypothesis HL : (2 <= L)%nat.
Hypothesis Hw : limit w0 = L.
Definition pc_ok (heap : nat -> ws) (jobs : list (nat * prog)) (p : pc) : Prop :=
  match p with
  | POut => True
  | PHave id => exists i r k js, jobs = (i, Call r k) :: js
  | PLoop id s => exists i r k js, jobs = (i, Call r k) :: js /\ refuses r = false /\ linv (gk15 (r_f r)) (lo_of r) (hi_of r) L (with_ws (heap id) s) /\ (l_iter s < L)%nat /\
      exists n sF, loop n (gk15 (r_f r)) (r_rel r) (r_abs r) (with_ws (heap id) s) = Some sF /\ answer_of r sF = ansf w0 r
  | PRel id a => exists i r k js, jobs = (i, Call r k) :: js /\ a = ansf w0 r
  end.
Definition ids (p : pc) : option nat := match p with POut => None | PHave i | PLoop i _ | PRel i _ => Some i end.
Lemma pc_ok_heap h h' j p : pc_ok h j p -> (forall id, ids p = Some id -> h' id = h id) -> pc_ok h' j p.
Proof. intros H E. destruct p as [|id|id s|id a]; try exact H. cbn [pc_ok] in *. rewrite (E id eq_refl). exact H. Qed.
Record Inv (g : glob) : Prop := {
  iv_sorted : StronglySorted lt (keys (g_map g));
  iv_used : forall t id, ids (t_pc (g_thr g t)) = Some id -> In (id, true) (g_map g);
  iv_excl : forall t1 t2 id, ids (t_pc (g_thr g t1)) = Some id -> ids (t_pc (g_thr g t2)) = Some id -> t1 = t2;
  iv_lim : forall id, In id (keys (g_map g)) -> limit (g_heap g id) = L;
  iv_jobs : forall t i p, In (i, p) (t_jobs (g_thr g t)) -> val w0 p = V i;
  iv_pc : forall t, pc_ok (g_heap g) (t_jobs (g_thr g t)) (t_pc (g_thr g t));
  iv_out : forall i v, g_out g i = Some v -> v = V i }.
Lemma put_eq g t x : put_thr g t x t = x.
Proof. apply set_eq. Qed.
Lemma put_ne g t x t' : t' <> t -> put_thr g t x t' = g_thr g t'.
Proof. apply set_ne. Qed.
(* a step of thread t that leaves the map alone, keeps the same workspace, and writes only there *)
Lemma inv_quiet g t th th' h out : Inv g -> g_thr g t = th -> ids (t_pc th') = ids (t_pc th) ->
  (forall id, ids (t_pc th) <> Some id -> h id = g_heap g id) -> (forall id, limit (h id) = limit (g_heap g id)) ->
  (forall i p, In (i, p) (t_jobs th') -> val w0 p = V i) -> pc_ok h (t_jobs th') (t_pc th') -> (forall i v, out i = Some v -> v = V i) ->
  Inv {| g_map := g_map g; g_heap := h; g_thr := put_thr g t th'; g_out := out |}.
Proof.
  intros [A B C D E F G] T1 T2 T3 T4 T5 T6 T7. constructor; cbn [g_map g_heap g_thr g_out].
  - exact A.
  - intros t' id. destruct (Nat.eq_dec t' t) as [->|N]; [rewrite put_eq, T2; intros H; apply (B t); rewrite T1; exact H|rewrite put_ne by exact N; apply B].
  - intros t1 t2 id. destruct (Nat.eq_dec t1 t) as [->|N1]; destruct (Nat.eq_dec t2 t) as [->|N2]; rewrite ?put_eq, ?put_ne by assumption; rewrite ?T2; intros H1 H2; try reflexivity.
    + apply (C t t2 id); [rewrite T1; exact H1|exact H2].
    + apply (C t1 t id); [exact H1|rewrite T1; exact H2].
    + apply (C t1 t2 id); assumption.
  - intros id H. rewrite T4. apply D, H.
  - intros t' i p. destruct (Nat.eq_dec t' t) as [->|N]; [rewrite put_eq; apply T5|rewrite put_ne by exact N; apply E].
  - intros t'. destruct (Nat.eq_dec t' t) as [->|N]; [rewrite put_eq; exact T6|rewrite put_ne by exact N].
    apply (pc_ok_heap (g_heap g)); [apply F|]. intros id H. apply T3. intros Q. apply N. apply (C t' t id); [exact H|rewrite T1; exact Q].
  - exact T7.
Qed.
Lemma inv_step g g' : Inv g -> step L g g' -> Inv g'.
Proof.
  intros I H. assert (I0 := I). destruct I0 as [A B C D E F G]. destruct H as [g t i v js T|g t i r k js id T FF|g t i r k js id w T FF NI LW|g t i r k js id T RF|g t i r k js id T RF s|g t i r k js id s0 T s|g t i r k js id ans T].
  - apply (inv_quiet g t _ _ _ _ I T); try reflexivity.
    + intros i' p Hp. apply (E t). rewrite T. right. exact Hp.
    + intros i' v'. unfold set. destruct (Nat.eqb_spec i' i) as [->|N]; [|apply G]. intros Q. injection Q as <-. exact (E t i (Ret v) ltac:(rewrite T; left; reflexivity)).
  - apply free_in in FF. constructor; cbn [g_map g_heap g_thr g_out].
    + apply ms_sorted, A.
    + intros t' id'. rewrite (ms_in _ _ _ A). destruct (Nat.eq_dec t' t) as [->|N]; [rewrite put_eq; cbn; intros Q; injection Q as ->; auto|rewrite put_ne by exact N].
      intros Q. destruct (Nat.eq_dec id' id); [auto|]. right. split; [assumption|apply (B t'), Q].
    + intros t1 t2 id'. assert (NB : forall t', t' <> t -> ids (t_pc (g_thr g t')) <> Some id) by (intros t' N Q; apply B in Q; assert (W := fun_map _ _ _ _ A FF Q); discriminate W).
      destruct (Nat.eq_dec t1 t) as [->|N1]; destruct (Nat.eq_dec t2 t) as [->|N2]; rewrite ?put_eq, ?put_ne by assumption; cbn [t_pc ids]; intros H1 H2; try reflexivity.
      * injection H1 as <-. contradiction (NB t2 N2).
      * injection H2 as <-. contradiction (NB t1 N1).
      * apply (C t1 t2 id'); assumption.
    + intros id' Q. apply D. apply ms_keys in Q. destruct Q as [->|Q]; [apply in_keys; eauto|exact Q].
    + intros t' i' p. destruct (Nat.eq_dec t' t) as [->|N]; [rewrite put_eq; cbn [t_jobs]; intros Q; apply (E t); rewrite T; exact Q|rewrite put_ne by exact N; apply E].
    + intros t'. destruct (Nat.eq_dec t' t) as [->|N]; [rewrite put_eq; cbn; eauto|rewrite put_ne by exact N; apply F].
    + exact G.
  - assert (NM : forall u, ~ In (id, u) (g_map g)) by (intros u Q; apply NI, in_keys; eauto). constructor; cbn [g_map g_heap g_thr g_out].
    + apply ms_sorted, A.
    + intros t' id'. rewrite (ms_in _ _ _ A). destruct (Nat.eq_dec t' t) as [->|N]; [rewrite put_eq; cbn; intros Q; injection Q as ->; auto|rewrite put_ne by exact N].
      intros Q. destruct (Nat.eq_dec id' id); [auto|]. right. split; [assumption|apply (B t'), Q].
    + intros t1 t2 id'. assert (NB : forall t', t' <> t -> ids (t_pc (g_thr g t')) <> Some id) by (intros t' N Q; apply B in Q; exact (NM _ Q)).
      destruct (Nat.eq_dec t1 t) as [->|N1]; destruct (Nat.eq_dec t2 t) as [->|N2]; rewrite ?put_eq, ?put_ne by assumption; cbn [t_pc ids]; intros H1 H2; try reflexivity.
      * injection H1 as <-. contradiction (NB t2 N2).
      * injection H2 as <-. contradiction (NB t1 N1).
      * apply (C t1 t2 id'); assumption.
    + intros id' Q. apply ms_keys in Q. unfold set. destruct (Nat.eqb_spec id' id) as [->|N]; [exact LW|]. destruct Q as [->|Q]; [contradiction|apply D, Q].
    + intros t' i' p. destruct (Nat.eq_dec t' t) as [->|N]; [rewrite put_eq; cbn [t_jobs]; intros Q; apply (E t); rewrite T; exact Q|rewrite put_ne by exact N; apply E].
    + intros t'. destruct (Nat.eq_dec t' t) as [->|N]; [rewrite put_eq; cbn; eauto|rewrite put_ne by exact N].
      apply (pc_ok_heap (g_heap g)); [apply F|]. intros id' Q. apply set_ne. intros ->. apply B in Q. exact (NM _ Q).
    + exact G.
  - apply (inv_quiet g t _ _ _ _ I T); try reflexivity.
    + intros i' p Hp. apply (E t). rewrite T. exact Hp.
    + cbn [pc_ok t_pc t_jobs]. exists i, r, k, js. split; [reflexivity|]. symmetry. apply ansf_refuse, RF.
    + exact G.
  - assert (HI : In (id, true) (g_map g)) by (apply (B t); rewrite T; reflexivity). assert (LI : limit (g_heap g id) = L) by (apply D, in_keys; eauto).
    apply (inv_quiet g t _ _ _ _ I T); try reflexivity.
    + intros id' Q. apply set_ne. intros ->. apply Q. reflexivity.
    + intros id'. unfold set. destruct (Nat.eqb_spec id' id) as [->|N]; [|reflexivity]. unfold s, first. destruct (gk15 _ _ _). reflexivity.
    + intros i' p Hp. apply (E t). rewrite T. exact Hp.
    + cbn [pc_ok t_pc t_jobs]. exists i, r, k, js. split; [reflexivity|]. split; [exact RF|]. rewrite set_eq, with_ws_id. split; [|split].
      * unfold s. rewrite <- LI. apply first_inv; [apply lo_hi|lia].
      * unfold s, first. destruct (gk15 _ _ _). cbn. lia.
      * destruct (ansf_loop (g_heap g id) r RF ltac:(lia)) as (sF & X & Y). exists (S (limit (g_heap g id))), sF. split; [exact X|]. rewrite Y. apply ansf_fresh; lia.
    + exact G.
  - assert (P := F t). rewrite T in P. cbn [pc_ok t_pc t_jobs] in P. destruct P as (i' & r' & k' & js' & EQ & RF & LI & IT & n & sF & LP & AN). injection EQ as <- <- <- <-.
    assert (ITl : (l_iter (with_ws (g_heap g id) s0) < L)%nat) by exact IT.
    destruct (body_inv _ _ _ L (r_rel r) (r_abs r) _ LI ITl) as (LI' & IT' & _). fold s in LI', IT'.
    apply (inv_quiet g t _ _ _ _ I T).
    + cbn [t_pc]. destruct (continue s); reflexivity.
    + intros id' Q. apply set_ne. intros ->. apply Q. reflexivity.
    + intros id'. unfold set. destruct (Nat.eqb_spec id' id) as [->|N]; [|reflexivity]. destruct LI' as (_ & X & _). rewrite X. destruct LI as (_ & Y & _). symmetry. exact Y.
    + intros i' p Hp. apply (E t). rewrite T. exact Hp.
    + cbn [t_pc t_jobs]. destruct n as [|n]; [discriminate LP|]. cbn [loop] in LP. fold s in LP. destruct (continue s) eqn:CO; cbn [pc_ok].
      * exists i, r, k, js. split; [reflexivity|]. split; [exact RF|]. rewrite set_eq, with_ws_id. split; [exact LI'|]. split; [|exists n, sF; split; assumption].
        unfold continue in CO. apply andb_prop in CO. destruct CO as [CO _]. apply Nat.ltb_lt in CO. destruct LI' as (_ & X & _). lia.
      * exists i, r, k, js. split; [reflexivity|]. injection LP as LP. rewrite <- AN. f_equal. exact LP.
    + exact G.
  - assert (P := F t). rewrite T in P. cbn [pc_ok t_pc t_jobs] in P. destruct P as (i' & r' & k' & js' & EQ & AN). injection EQ as <- <- <- <-.
    destruct (release_in (g_map g) id A) as (R1 & R2 & R3).
    assert (NB : forall t', t' <> t -> ids (t_pc (g_thr g t')) <> Some id) by (intros t' N Q; apply N; apply (C t' t id); [exact Q|rewrite T; reflexivity]).
    constructor; cbn [g_map g_heap g_thr g_out].
    + exact R1.
    + intros t' id'. destruct (Nat.eq_dec t' t) as [->|N]; [rewrite put_eq; cbn; discriminate|rewrite put_ne by exact N]. intros Q. apply R3; [intros ->; exact (NB t' N Q)|apply (B t'), Q].
    + intros t1 t2 id'. destruct (Nat.eq_dec t1 t) as [->|N1]; destruct (Nat.eq_dec t2 t) as [->|N2]; rewrite ?put_eq, ?put_ne by assumption; cbn [t_pc ids]; intros H1 H2; try reflexivity; try discriminate.
      apply (C t1 t2 id'); assumption.
    + intros id' Q. apply D, R2, Q.
    + intros t' i' p. destruct (Nat.eq_dec t' t) as [->|N]; [rewrite put_eq; cbn [t_jobs]|rewrite put_ne by exact N; apply E].
      intros [Q|Q]; [|apply (E t); rewrite T; right; exact Q]. injection Q as <- <-. assert (X := E t i (Call r k) ltac:(rewrite T; left; reflexivity)). cbn [val] in X. rewrite AN. exact X.
    + intros t'. destruct (Nat.eq_dec t' t) as [->|N]; [rewrite put_eq; exact Logic.I|rewrite put_ne by exact N; apply F].
    + exact G.
Qed.
Lemma inv_runs n g g' : Inv g -> runs L n g g' -> Inv g'.
Proof. intros I H. induction H as [|n g g1 g2 S H IH]; [exact I|]. apply IH. eapply inv_step; eassumption. Qed.
Lemma inv_start g : starts L g -> (forall t i p, In (i, p) (t_jobs (g_thr g t)) -> val w0 p = V i) -> Inv g.
Proof.
  intros (A & B & C & D) J. constructor.
  - exact C.
  - intros t id. rewrite A. discriminate.
  - intros t1 t2 id. rewrite A. discriminate.
  - intros id H. apply in_keys in H. destruct H as (u & H). apply (D id u H).
  - exact J.
  - intros t. rewrite A. exact I.
  - intros i v. rewrite B. discriminate.
Qed.
(* nothing is lost *)
Lemma kept_step g g' : step L g g' -> forall t i, (g_out g i <> None \/ exists p, In (i, p) (t_jobs (g_thr g t))) -> (g_out g' i <> None \/ exists p, In (i, p) (t_jobs (g_thr g' t))).
Proof.
  intros H t0 i0. destruct H as [g t i v js T|g t i r k js id T FF|g t i r k js id w T FF NI LW|g t i r k js id T RF|g t i r k js id T RF s|g t i r k js id s0 T s|g t i r k js id ans T]; cbn [g_thr g_out];
    (destruct (Nat.eq_dec t0 t) as [->|N]; [rewrite put_eq, T; cbn [t_jobs]|rewrite put_ne by exact N]); try tauto.
  - intros [Q|(p & [Q|Q])]; [| |right; eauto].
    + left. unfold set. destruct (Nat.eqb i0 i); [discriminate|exact Q].
    + injection Q as -> _. left. rewrite set_eq. discriminate.
  - intros [Q|Q]; [|right; exact Q]. left. unfold set. destruct (Nat.eqb i0 i); [discriminate|exact Q].
  - intros [Q|(p & [Q|Q])]; [left; exact Q| |right; exists p; right; exact Q]. injection Q as -> _. right. eexists. left. reflexivity.
Qed.
Lemma kept_runs n g g' : runs L n g g' -> forall t i, (g_out g i <> None \/ exists p, In (i, p) (t_jobs (g_thr g t))) -> (g_out g' i <> None \/ exists p, In (i, p) (t_jobs (g_thr g' t))).
Proof. intros H. induction H as [|n g g1 g2 S H IH]; intros t i Q; [exact Q|]. apply IH, (kept_step _ _ S), Q. Qed.
(* no thread is stuck *)
Lemma can_step g t : Inv g -> t_jobs (g_thr g t) <> [] -> exists g', step L g g' /\ forall t', t' <> t -> g_thr g' t' = g_thr g t'.
Proof.
  intros I NE. destruct (g_thr g t) as [jobs p] eqn:T. cbn [t_jobs] in NE. assert (P := iv_pc g I t). rewrite T in P. cbn [t_jobs t_pc] in P.
  destruct p as [|id|id s|id a]; cbn [pc_ok] in P.
  - destruct jobs as [|[i [v|r k]] js]; [contradiction| |].
    + eexists. split; [eapply s_ret; exact T|]. intros t' N. cbn [g_thr]. apply put_ne, N.
    + destruct (first_free (g_map g)) as [id|] eqn:FF.
      * eexists. split; [eapply s_reuse; eassumption|]. intros t' N. cbn [g_thr]. apply put_ne, N.
      * assert (FR : ~ In (S (list_max (keys (g_map g)))) (keys (g_map g))).
        { intros Q. assert (M := proj1 (list_max_le (keys (g_map g)) (list_max (keys (g_map g)))) (le_n _)). rewrite Forall_forall in M. specialize (M _ Q). lia. }
        eexists. split; [eapply (s_new L g t i r k js _ w0); eassumption|]. intros t' N. cbn [g_thr]. apply put_ne, N.
  - destruct P as (i & r & k & js & ->). destruct (refuses r) eqn:RF.
    + eexists. split; [eapply s_refuse; eassumption|]. intros t' N. cbn [g_thr]. apply put_ne, N.
    + eexists. split; [eapply s_init; eassumption|]. intros t' N. cbn [g_thr]. apply put_ne, N.
  - destruct P as (i & r & k & js & -> & _). eexists. split; [eapply s_round; eassumption|]. intros t' N. cbn [g_thr]. apply put_ne, N.
  - destruct P as (i & r & k & js & -> & _). eexists. split; [eapply s_rel; eassumption|]. intros t' N. cbn [g_thr]. apply put_ne, N.
Qed.
(* every run ends *)
Fixpoint cost (p : prog) : nat := match p with Ret _ => 1 | Call r k => L + 4 + cost (k (ansf w0 r)) end.
Fixpoint costs (l : list (nat * prog)) : nat := match l with [] => 0 | (_, p) :: t => cost p + costs t end.
Definition left_ (th : thread) : nat :=
  match t_pc th, t_jobs th with
  | POut, l => costs l
  | PHave _, l => costs l - 1
  | PLoop _ s, l => costs l - (2 + l_iter s)
  | PRel _ _, (_, Call r k) :: l => 1 + cost (k (ansf w0 r)) + costs l
  | PRel _ _, _ => 0
  end.
Lemma step_cost g g' : Inv g -> step L g g' -> exists t, (left_ (g_thr g' t) < left_ (g_thr g t))%nat /\ forall t', t' <> t -> g_thr g' t' = g_thr g t'.
Proof.
  intros I H. destruct I as [A B C D E F G]. destruct H as [g t i v js T|g t i r k js id T FF|g t i r k js id w T FF NI LW|g t i r k js id T RF|g t i r k js id T RF s|g t i r k js id s0 T s|g t i r k js id ans T]; exists t;
    (split; [|intros t' N; cbn [g_thr]; apply put_ne, N]); cbn [g_thr]; rewrite put_eq, T; unfold left_; cbn [t_pc t_jobs costs cost]; try lia.
  - assert (P := F t). rewrite T in P. cbn [pc_ok t_pc t_jobs] in P. destruct P as (i' & r' & k' & js' & EQ & RF & LI & IT & _). injection EQ as <- <- <- <-.
    assert (IS : l_iter s = S (l_iter s0)) by (unfold s, body; repeat match goal with |- context [let '(_, _) := ?x in _] => destruct x end; reflexivity).
    destruct (continue s); [|]; lia.
  - assert (P := F t). rewrite T in P. cbn [pc_ok t_pc t_jobs] in P. destruct P as (i' & r' & k' & js' & EQ & AN). injection EQ as <- <- <- <-. rewrite AN. lia.
Qed.
Fixpoint total (n : nat) (thr : nat -> thread) : nat := match n with O => 0 | S m => total m thr + left_ (thr m) end.
Lemma total_step n g g' : Inv g -> step L g g' -> (forall t, (n <= t)%nat -> t_jobs (g_thr g t) = []) -> (total n (g_thr g') < total n (g_thr g))%nat.
Proof.
  intros I H HN. destruct (step_cost g g' I H) as (t & Lt & Eq).
  assert (Tn : (t < n)%nat). { destruct (le_lt_dec n t) as [Q|Q]; [|exact Q]. exfalso. specialize (HN t Q). unfold left_ in Lt at 2. rewrite HN in Lt. cbn [costs] in Lt. destruct (t_pc (g_thr g t)); lia. }
  clear - Lt Eq Tn. induction n as [|n IH]; [lia|]. cbn [total]. destruct (Nat.eq_dec t n) as [->|N].
  - assert (X : total n (g_thr g') = total n (g_thr g)). { clear - Eq. assert (K : forall m, (m <= n)%nat -> total m (g_thr g') = total m (g_thr g)); [|apply K; lia]. induction m as [|m IH]; intros Hm; [reflexivity|]. cbn [total]. rewrite IH, Eq by lia. reflexivity. }
    lia.
  - rewrite (Eq n) by lia. specialize (IH ltac:(lia)). lia.
Qed.
Lemma jobs_nil g g' t : step L g g' -> t_jobs (g_thr g t) = [] -> t_jobs (g_thr g' t) = [].
Proof.
  intros H Q. destruct H as [g t0 i v js T|g t0 i r k js id T FF|g t0 i r k js id w T FF NI LW|g t0 i r k js id T RF|g t0 i r k js id T RF s|g t0 i r k js id s0 T s|g t0 i r k js id ans T]; cbn [g_thr];
    (destruct (Nat.eq_dec t t0) as [->|N]; [rewrite T in Q; discriminate Q|rewrite put_ne by exact N; exact Q]).
Qed.
Lemma bounded N n g g' : Inv g -> (forall t, (N <= t)%nat -> t_jobs (g_thr g t) = []) -> runs L n g g' -> (n + total N (g_thr g') <= total N (g_thr g))%nat.
Proof.
  intros I HN H. induction H as [|n g g1 g2 S H IH]; [lia|]. assert (Q := total_step N g g1 I S HN).
  specialize (IH (inv_step _ _ I S) (fun t Ht => jobs_nil _ _ t S (HN t Ht))). lia.
Qed.
End Inv.

(* exclusion alone, without looking at the results *)
Lemma excl_step L g g' : (StronglySorted lt (keys (g_map g)) /\ (forall t id, ids (t_pc (g_thr g t)) = Some id -> In (id, true) (g_map g)) /\
    forall t1 t2 id, ids (t_pc (g_thr g t1)) = Some id -> ids (t_pc (g_thr g t2)) = Some id -> t1 = t2) -> step L g g' ->
  StronglySorted lt (keys (g_map g')) /\ (forall t id, ids (t_pc (g_thr g' t)) = Some id -> In (id, true) (g_map g')) /\
    forall t1 t2 id, ids (t_pc (g_thr g' t1)) = Some id -> ids (t_pc (g_thr g' t2)) = Some id -> t1 = t2.
Proof.
  intros (A & B & C) H.
  assert (QU : forall t th' , ids (t_pc th') = ids (t_pc (g_thr g t)) \/ ids (t_pc th') = None -> (forall t' id, ids (t_pc (put_thr g t th' t')) = Some id -> In (id, true) (g_map g)) /\
    forall t1 t2 id, ids (t_pc (put_thr g t th' t1)) = Some id -> ids (t_pc (put_thr g t th' t2)) = Some id -> t1 = t2).
  { intros t th' E. assert (K : forall t' id, ids (t_pc (put_thr g t th' t')) = Some id -> ids (t_pc (g_thr g t')) = Some id).
    { intros t' id. destruct (Nat.eq_dec t' t) as [->|N]; [rewrite put_eq; destruct E as [E|E]; rewrite E; [auto|discriminate]|rewrite put_ne by exact N; auto]. }
    split; [intros t' id Q; apply (B t'), K, Q|intros t1 t2 id Q1 Q2; apply (C t1 t2 id); apply K; assumption]. }
  assert (TK : forall t jobs id, (forall t', t' <> t -> ids (t_pc (g_thr g t')) <> Some id) -> StronglySorted lt (keys (map_set (g_map g) id true)) /\
    (forall t' id', ids (t_pc (put_thr g t {| t_jobs := jobs; t_pc := PHave id |} t')) = Some id' -> In (id', true) (map_set (g_map g) id true)) /\
    forall t1 t2 id', ids (t_pc (put_thr g t {| t_jobs := jobs; t_pc := PHave id |} t1)) = Some id' -> ids (t_pc (put_thr g t {| t_jobs := jobs; t_pc := PHave id |} t2)) = Some id' -> t1 = t2).
  { intros t jobs id NB. split; [apply ms_sorted, A|]. split.
    - intros t' id'. rewrite (ms_in _ _ _ A). destruct (Nat.eq_dec t' t) as [->|N]; [rewrite put_eq; cbn; intros Q; injection Q as ->; auto|rewrite put_ne by exact N].
      intros Q. destruct (Nat.eq_dec id' id); [auto|]. right. split; [assumption|apply (B t'), Q].
    - intros t1 t2 id'. destruct (Nat.eq_dec t1 t) as [->|N1]; destruct (Nat.eq_dec t2 t) as [->|N2]; rewrite ?put_eq, ?put_ne by assumption; cbn [t_pc ids]; intros H1 H2; try reflexivity.
      + injection H1 as <-. contradiction (NB t2 N2).
      + injection H2 as <-. contradiction (NB t1 N1).
      + apply (C t1 t2 id'); assumption. }
  destruct H as [g t i v js T|g t i r k js id T FF|g t i r k js id w T FF NI LW|g t i r k js id T RF|g t i r k js id T RF s|g t i r k js id s0 T s|g t i r k js id ans T]; cbn [g_map g_thr].
  - split; [exact A|]. apply QU. right. reflexivity.
  - apply TK. apply free_in in FF. intros t' N Q. apply B in Q. assert (W := fun_map _ _ _ _ A FF Q). discriminate W.
  - apply TK. intros t' N Q. apply B in Q. apply NI, in_keys. eauto.
  - split; [exact A|]. apply QU. left. rewrite T. reflexivity.
  - split; [exact A|]. apply QU. left. rewrite T. reflexivity.
  - split; [exact A|]. apply QU. left. rewrite T. cbn [t_pc]. destruct (continue s); reflexivity.
  - destruct (release_in (g_map g) id A) as (R1 & R2 & R3). split; [exact R1|]. destruct (QU t {| t_jobs := (i, k ans) :: js; t_pc := POut |} (or_intror eq_refl)) as [U1 U2]. split; [|exact U2].
    intros t' id' Q. apply R3; [|apply (U1 t'), Q]. intros ->. destruct (Nat.eq_dec t' t) as [->|N]; [rewrite put_eq in Q; discriminate Q|]. rewrite put_ne in Q by exact N. apply N. apply (C t' t id); [exact Q|rewrite T; reflexivity].
Qed.
