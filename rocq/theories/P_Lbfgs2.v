(** * Memory updates and the main loop *)
From Coq Require Import Reals List Arith ZArith Lia Lra Bool Psatz.
Import ListNotations.
From Verif Require Import M_Lbfgs S_Lbfgs P_Lbfgs.
Set Implicit Arguments.
Local Open Scope R_scope.

(** ** memory *)
Lemma set0_roll : forall (A : Type) M (L : list A) v, (M <= length L)%nat -> set0 (roll (firstn M L)) v = firstn M (v :: L).
Proof.
  intros A M L v H. destruct M; [reflexivity|]. destruct L as [|a L]; [simpl in H; lia|].
  assert (E : roll (firstn (S M) (a :: L)) = last (firstn (S M) (a :: L)) a :: removelast (firstn (S M) (a :: L))) by reflexivity.
  rewrite E. unfold set0. rewrite removelast_firstn_len, firstn_length_le by auto. simpl pred. rewrite firstn_firstn, Nat.min_l by lia. reflexivity.
Qed.
Lemma roll_len : forall (A : Type) (l : list A), length (roll l) = length l.
Proof.
  intros. destruct l; auto. assert (E : roll (a :: l) = last (a :: l) a :: removelast (a :: l)) by reflexivity. rewrite E. cbn [length]. rewrite removelast_firstn_len. cbn [length]. rewrite firstn_length_le; simpl; lia.
Qed.
Lemma set0_len : forall (A : Type) (l : list A) v, length (set0 l v) = length l.
Proof. destruct l; auto. Qed.
Lemma roll_Forall : forall (A : Type) (P : A -> Prop) l, Forall P l -> Forall P (roll l).
Proof.
  intros A P l H. destruct l as [|a l]; auto. assert (E : roll (a :: l) = last (a :: l) a :: removelast (a :: l)) by reflexivity. rewrite E.
  rewrite Forall_forall in *. intros x [<-|Hx].
  - apply H. rewrite (app_removelast_last a (l := a :: l)) at 2 by discriminate. apply in_or_app. right. left. auto.
  - apply H. rewrite (app_removelast_last a (l := a :: l)) by discriminate. apply in_or_app. auto.
Qed.
Lemma set0_Forall : forall (A : Type) (P : A -> Prop) l v, Forall P l -> P v -> Forall P (set0 l v).
Proof. intros A P l v H Hv. destruct l; auto. inversion H; constructor; auto. Qed.

(** The arrays have M rows of N entries. *)
Definition wf_mem (M N : nat) (H : memory) : Prop :=
  length (ms H) = M /\ length (my H) = M /\ length (mrho H) = M /\ Forall (fun v => length v = N) (ms H) /\ Forall (fun v => length v = N) (my H).
Lemma zeros_len : forall N, length (zeros N) = N.
Proof. intros. apply repeat_length. Qed.
Lemma wf_fresh : forall M N, wf_mem M N (fresh M N).
Proof.
  intros. unfold wf_mem, fresh; simpl. rewrite !repeat_length. repeat split; auto; apply Forall_forall; intros x Hx; apply repeat_spec in Hx; subst; apply zeros_len.
Qed.
Lemma wf_update : forall M N H s y, wf_mem M N H -> length s = N -> length y = N -> wf_mem M N (fst (mem_update H s y)).
Proof.
  intros M N H s y (A & B & C & D & E) Hs Hy. unfold mem_update, wf_mem. destruct (Req_EM_T _ 0); cbn [fst ms my mrho]; rewrite ?set0_len, ?roll_len; repeat split; auto using roll_Forall, set0_Forall.
Qed.
Lemma zip3_firstn : forall k s y r, zip3 (firstn k s) (firstn k y) (firstn k r) = firstn k (zip3 s y r).
Proof. induction k; intros; auto. destruct s, y, r; cbn [firstn zip3]; auto. rewrite IHk. auto. Qed.
Lemma wf_zip3 : forall N s y r, Forall (fun v => length v = N) s -> Forall (fun v => length v = N) y -> Forall (wf_pair N) (zip3 s y r).
Proof. intros N s y r H. revert y r. induction H; intros y r H'; destruct y, r; cbn [zip3]; try constructor; inversion H'; subst; auto. split; auto. Qed.
Lemma Forall_firstn : forall (A : Type) (P : A -> Prop) k l, Forall P l -> Forall P (firstn k l).
Proof. induction k; intros; [constructor|]. destruct l; simpl; auto. inversion H; constructor; auto. Qed.

(** the triples in memory, newest first *)
Definition stored (H : memory) : list pair := zip3 (ms H) (my H) (mrho H).
Lemma compute_step_nested : forall M N H g gn it, wf_mem M N H -> compute_step M H g gn it = nested (H0k H) (if (it =? 0)%nat then / gn else 1) (firstn (Nat.min M it) (stored H)) g.
Proof.
  intros M N H g gn it (A & B & C & _). unfold compute_step, stored. rewrite <- zip3_firstn.
  rewrite <- two_loop_nested by (rewrite ?A, ?B, ?C; lia).
  destruct (loop1 (Nat.min M it) (ms H) (my H) (mrho H) g) as [q a]. f_equal. destruct (it =? 0)%nat; auto.
  assert (O1 : forall v, v = vscale 1 v) by (unfold vscale; induction v; simpl; congruence || (f_equal; [lra|auto])). apply O1.
Qed.
Lemma compute_step_len : forall M N H g gn it, wf_mem M N H -> length g = N -> length (compute_step M H g gn it) = N.
Proof.
  intros. rewrite compute_step_nested with (N := N) by auto. apply nested_length; auto. apply Forall_firstn. destruct H0 as (_ & _ & _ & D & E). apply wf_zip3; auto.
Qed.

(** a sequence of successful updates, oldest first; None when one of them raises *)
Fixpoint updates (H : memory) (l : list (vec * vec)) : option memory :=
  match l with [] => Some H | (s, y) :: l' => match mem_update H s y with (H', true) => updates H' l' | (_, false) => None end end.
Definition h0_of (h : R) (l : list (vec * vec)) : R := match rev l with [] => h | (s, y) :: _ => 1 / (rhok s y * dot y y) end.
Lemma updates_gen : forall M l H Ls Ly Lr H', (M <= length Ls)%nat -> (M <= length Ly)%nat -> (M <= length Lr)%nat ->
  ms H = firstn M Ls -> my H = firstn M Ly -> mrho H = firstn M Lr -> updates H l = Some H' ->
  ms H' = firstn M (rev (map fst l) ++ Ls) /\ my H' = firstn M (rev (map snd l) ++ Ly) /\ mrho H' = firstn M (rev (map (fun p => rhok (fst p) (snd p)) l) ++ Lr) /\ H0k H' = h0_of (H0k H) l.
Proof.
  intros M. induction l as [|[s y] l]; intros H Ls Ly Lr H' L1 L2 L3 E1 E2 E3 U; simpl in U.
  - inversion U; subst. repeat split; auto.
  - destruct (mem_update H s y) as [H1 b] eqn:EU. destruct b; [|discriminate]. unfold mem_update in EU. destruct (Req_EM_T _ 0); inversion EU; subst.
    assert (K := fun a b c A B C => @IHl _ (s :: Ls) (y :: Ly) (rhok s y :: Lr) H' a b c A B C U). cbn [ms my mrho H0k length] in K.
    destruct K as (A & B & C & D); try lia; try (rewrite <- set0_roll by auto; congruence).
    cbn [map rev fst snd]. rewrite <- !app_assoc. repeat split; auto. rewrite D. unfold h0_of. cbn [rev]. destruct (rev l) as [|[s' y'] r]; [|reflexivity]. cbn [app]. rewrite norm_sq. auto.
Qed.

(** pairs with rho = 0 do not change the matrix *)
Lemma Hmat_ext : forall N h0 l1 l2 l, (forall i j, (i < N)%nat -> (j < N)%nat -> Hmat N h0 l1 i j = Hmat N h0 l2 i j) ->
  forall i j, (i < N)%nat -> (j < N)%nat -> Hmat N h0 (l ++ l1) i j = Hmat N h0 (l ++ l2) i j.
Proof.
  intros N h0 l1 l2 l H. induction l; intros i j Hi Hj; cbn [app]; auto. cbn [Hmat]. f_equal. apply sum_ext. intros. apply sum_ext. intros. rewrite IHl; auto.
Qed.
Lemma Hmat_null : forall N h0 p l i j, prho p = 0 -> (i < N)%nat -> (j < N)%nat -> Hmat N h0 (p :: l) i j = Hmat N h0 l i j.
Proof.
  intros. cbn [Hmat]. unfold Vmat. rewrite H.
  rewrite (@sum_ext N _ (fun a => delta i a * Hmat N h0 l a j)); [rewrite sum_delta by auto; ring|].
  intros a Ha. rewrite (@sum_ext N _ (fun b => delta j b * (delta i a * Hmat N h0 l a b))) by (intros; rewrite (delta_sym i), (delta_sym j); ring).
  apply sum_delta. auto.
Qed.
Lemma Hmat_nulls : forall N h0 l z i j, Forall (fun p => prho p = 0) z -> (i < N)%nat -> (j < N)%nat -> Hmat N h0 (l ++ z) i j = Hmat N h0 l i j.
Proof.
  intros N h0 l z i j HZ Hi Hj. rewrite <- (app_nil_r l) at 2. apply Hmat_ext; auto. clear - HZ. induction HZ; intros; auto. rewrite Hmat_null; auto.
Qed.
Lemma zip3_app : forall s1 s2 y1 y2 r1 r2, length s1 = length y1 -> length s1 = length r1 -> zip3 (s1 ++ s2) (y1 ++ y2) (r1 ++ r2) = zip3 s1 y1 r1 ++ zip3 s2 y2 r2.
Proof. induction s1; destruct y1, r1; simpl; intros; try lia; auto. f_equal. apply IHs1; lia. Qed.
Lemma zip3_repeat : forall N M, Forall (fun p => prho p = 0) (zip3 (repeat (zeros N) M) (repeat (zeros N) M) (repeat 0 M)).
Proof. induction M; cbn [repeat zip3]; constructor; auto. Qed.
Lemma zip3_map : forall (l : list (vec * vec)), zip3 (map fst l) (map snd l) (map (fun p => rhok (fst p) (snd p)) l) = map (fun p => mkPair (fst p) (snd p) (rhok (fst p) (snd p))) l.
Proof. induction l; cbn [map zip3]; [reflexivity|]. rewrite IHl. reflexivity. Qed.
Lemma updates_stored : forall M N l H, updates (fresh M N) l = Some H ->
  stored H = firstn M (map (fun p => mkPair (fst p) (snd p) (rhok (fst p) (snd p))) (rev l) ++ zip3 (repeat (zeros N) M) (repeat (zeros N) M) (repeat 0 M)).
Proof.
  intros M N l H U. apply updates_gen with (M := M) (Ls := repeat (zeros N) M) (Ly := repeat (zeros N) M) (Lr := repeat 0 M) in U; rewrite ?repeat_length; auto;
    try (simpl; rewrite firstn_all2; auto; rewrite repeat_length; auto).
  destruct U as (A & B & C & _). unfold stored. rewrite A, B, C, zip3_firstn. f_equal. rewrite zip3_app by (rewrite !rev_length, !map_length; auto). rewrite <- !map_rev, zip3_map. auto.
Qed.
Lemma updates_H0 : forall M N l H, updates (fresh M N) l = Some H -> H0k H = h0_of 1 l.
Proof.
  intros M N l H U. apply updates_gen with (M := M) (Ls := repeat (zeros N) M) (Ly := repeat (zeros N) M) (Lr := repeat 0 M) in U; rewrite ?repeat_length; auto;
    try (simpl; rewrite firstn_all2; auto; rewrite repeat_length; auto). tauto.
Qed.
Lemma updates_wf : forall M N l H H', Forall (fun p => length (fst p) = N /\ length (snd p) = N) l -> wf_mem M N H -> updates H l = Some H' -> wf_mem M N H'.
Proof.
  intros M N l H H' HF. revert H. induction HF as [|[s y] l [A B] HF]; intros H W U; simpl in U; [inversion U; subst; auto|].
  simpl in A, B. pose proof (@wf_update M N H s y W A B). destruct (mem_update H s y) as [H1 []]; [|discriminate]. eauto.
Qed.
Lemma updates_nonzero : forall l H H', updates H l = Some H' -> Forall (fun p => dot (snd p) (snd p) <> 0) l.
Proof.
  induction l as [|[s y] l]; intros H H' U; constructor.
  - simpl in U. unfold mem_update in U. destruct (Req_EM_T _ 0); [discriminate|]. rewrite norm_sq in n. auto.
  - simpl in U. destruct (mem_update H s y) as [H1 []]; [|discriminate]. eauto.
Qed.
