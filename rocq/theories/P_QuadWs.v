(** A recycled workspace behaves as a fresh one: no stale entry is ever read. *)
From Coq Require Import Reals List Arith Lra Lia.
From Verif Require Import M_Quad S_Quad P_QuadSort P_Quad P_Quad2.
Import ListNotations.
Local Open Scope R_scope.

Lemma ins_top_same : forall n j em (e1 e2 : nat -> R) (o1 o2 : nat -> nat),
  (forall i, (j <= i < j + n)%nat -> o1 i = o2 i /\ e1 (o1 i) = e2 (o1 i)) ->
  fst (ins_top n j em e1 o1) = fst (ins_top n j em e2 o2) /\ forall i, o1 i = o2 i -> snd (ins_top n j em e1 o1) i = snd (ins_top n j em e2 o2) i.
Proof.
  induction n as [|n IH]; intros j em e1 e2 o1 o2 H; [split; [reflexivity|intros i Hi; exact Hi]|]. cbn [ins_top].
  destruct (H j ltac:(lia)) as [A B]. rewrite <- A, <- B. destruct (rltb em (e1 (o1 j))); [|split; [reflexivity|intros i Hi; exact Hi]].
  destruct (IH (S j) em e1 e2 (set o1 (j - 1) (o1 j)) (set o2 (j - 1) (o1 j))) as [F G].
  { intros i Hi. rewrite !set_ne by lia. apply H. lia. }
  split; [exact F|]. intros i Hi. apply G. unfold set. destruct (Nat.eqb i (j - 1)); [reflexivity|exact Hi].
Qed.
Lemma ins_bot_same : forall n p em (e1 e2 : nat -> R) (o1 o2 : nat -> nat), (n <= p)%nat ->
  (forall i, (p - n <= i < p)%nat -> o1 i = o2 i /\ e1 (o1 i) = e2 (o1 i)) ->
  fst (ins_bot n p em e1 o1) = fst (ins_bot n p em e2 o2) /\ forall i, o1 i = o2 i -> snd (ins_bot n p em e1 o1) i = snd (ins_bot n p em e2 o2) i.
Proof.
  induction n as [|n IH]; intros p em e1 e2 o1 o2 Hn H; [split; [reflexivity|intros i Hi; exact Hi]|]. cbn [ins_bot].
  destruct (H (p - 1)%nat ltac:(lia)) as [A B]. rewrite <- A, <- B. destruct (rleb (e1 (o1 (p - 1)%nat)) em); [|split; [reflexivity|intros i Hi; exact Hi]].
  destruct (IH (p - 1)%nat em e1 e2 (set o1 p (o1 (p - 1)%nat)) (set o2 p (o1 (p - 1)%nat))) as [F G]; [lia| |].
  { intros i Hi. rewrite !set_ne by lia. apply H. lia. }
  split; [exact F|]. intros i Hi. apply G. unfold set. destruct (Nat.eqb i p); [reflexivity|exact Hi].
Qed.
Lemma ins_bot_fix : forall n p em e o i, (n <= p)%nat -> (p < i)%nat -> snd (ins_bot n p em e o) i = o i.
Proof. induction n as [|n IH]; intros p em e o i Hn Hi; cbn [ins_bot]; [reflexivity|]. destruct (rleb _ _); [|reflexivity]. rewrite IH by lia. apply set_ne. lia. Qed.
(* number of places of the order array in use *)
Definition vis (lim sz : nat) : nat := if Nat.leb sz (lim / 2 + 2) then sz else (lim - sz + 1)%nat.
Lemma sort_same lim sz e1 e2 o1 o2 : (1 <= sz < lim)%nat ->
  (forall i, (i < vis lim sz)%nat -> o1 i = o2 i /\ (o1 i < sz)%nat) -> (forall x, (x <= sz)%nat -> e1 x = e2 x) ->
  forall i, (i < vis lim (S sz))%nat -> sort_order lim (S sz) e1 o1 i = sort_order lim (S sz) e2 o2 i.
Proof.
  intros Hz HO HE. assert (D := Nat.div_mod lim 2 ltac:(lia)). assert (M := Nat.mod_upper_bound lim 2 ltac:(lia)).
  unfold sort_order. replace (S sz - 1)%nat with sz by lia. destruct (Nat.ltb_spec sz 2) as [L2|L2].
  - intros i Hi. assert (i = 0 \/ i = 1)%nat as [-> | ->]; [|reflexivity|reflexivity]. unfold vis in Hi. destruct (Nat.leb_spec (S sz) (lim / 2 + 2)); lia.
  - set (top := if Nat.ltb sz (lim / 2 + 2) then sz else (lim - sz + 1)%nat).
    assert (HT : (2 <= top <= sz)%nat) by (unfold top; destruct (Nat.ltb_spec sz (lim / 2 + 2)); lia).
    assert (HV : (top <= vis lim sz)%nat) by (unfold top, vis; destruct (Nat.ltb_spec sz (lim / 2 + 2)); destruct (Nat.leb_spec sz (lim / 2 + 2)); lia).
    assert (HV' : (vis lim (S sz) <= S top)%nat) by (unfold top, vis; destruct (Nat.ltb_spec sz (lim / 2 + 2)); destruct (Nat.leb_spec (S sz) (lim / 2 + 2)); lia).
    destruct (HO 0%nat ltac:(lia)) as [Z0 Z1]. rewrite <- Z0. rewrite <- (HE (o1 0%nat)) by lia. rewrite <- (HE sz) by lia.
    destruct (ins_top (top - 1) 1 (e1 (o1 0%nat)) e1 o1) as [j t1] eqn:E1.
    destruct (ins_top_same (top - 1) 1 (e1 (o1 0%nat)) e1 e2 o1 o2) as [F G].
    { intros i Hi. destruct (HO i ltac:(lia)) as [A B]. split; [exact A|apply HE; lia]. }
    destruct (ins_top (top - 1) 1 (e1 (o1 0%nat)) e2 o2) as [j' t2] eqn:E2. rewrite E1 in F, G. cbn [fst snd] in F, G. subst j'.
    destruct (ins_top_spec _ _ _ _ _ _ _ (le_n 1) E1) as (J1 & J2).
    (* entries after the first pass *)
    set (u1 := set t1 (j - 1) (o1 0%nat)). set (u2 := set t2 (j - 1) (o1 0%nat)).
    assert (U : forall i, (i < top)%nat -> u1 i = u2 i).
    { intros i Hi. unfold u1, u2, set. destruct (Nat.eqb i (j - 1)); [reflexivity|]. apply G. apply HO. lia. }
    assert (UB : forall i, (i < top)%nat -> (u1 i < sz)%nat).
    { intros i Hi. destruct J2 as (K1 & _). unfold u1. destruct (Nat.eq_dec i (j - 1)) as [->|N]; [rewrite set_eq; exact Z1|]. rewrite set_ne by exact N.
      rewrite K1. destruct (Nat.leb_spec (1 - 1) i), (Nat.ltb_spec i (j - 1)); cbn [andb]; apply HO; lia. }
    destruct (ins_bot (top + 1 - j) top (e1 sz) e1 u1) as [p v1] eqn:V1.
    destruct (ins_bot_same (top + 1 - j) top (e1 sz) e1 e2 u1 u2) as [F' G']; [lia| |].
    { intros i Hi. split; [apply U; lia|]. apply HE. assert (u1 i < sz)%nat by (apply UB; lia). lia. }
    destruct (ins_bot (top + 1 - j) top (e1 sz) e2 u2) as [p' v2] eqn:V2. rewrite V1 in F', G'. cbn [fst snd] in F', G'. subst p'.
    intros i Hi. unfold set. destruct (Nat.eqb_spec i p) as [_|N]; [reflexivity|]. destruct (Nat.eq_dec i top) as [->|T].
    + (* the last place is either p or filled from the one before *)
      destruct (ins_bot_spec (top + 1 - j) top (e1 sz) e1 u1 p v1 ltac:(lia) V1) as (P1 & P2 & P3 & P4).
      destruct (ins_bot_spec (top + 1 - j) top (e1 sz) e2 u2 p v2 ltac:(lia) V2) as (Q1 & Q2 & Q3 & Q4).
      rewrite P2, Q2. destruct (Nat.ltb_spec p top), (Nat.leb_spec top top); try lia. cbn [andb]. apply U. lia.
    + apply G'. apply U. lia.
Qed.
Definition same (w1 w2 : ws) : Prop := limit w1 = limit w2 /\ size w1 = size w2 /\
  (forall i, (i < size w1)%nat -> al w1 i = al w2 i /\ bl w1 i = bl w2 i /\ rl w1 i = rl w2 i /\ el w1 i = el w2 i) /\
  forall i, (i < vis (limit w1) (size w1))%nat -> order w1 i = order w2 i.
Lemma vis_bound lim sz e o i : ordered lim sz e o -> (i < vis lim sz)%nat -> (o i < sz)%nat.
Proof.
  intros HO Hi. unfold vis in Hi. destruct (Nat.leb_spec sz (lim / 2 + 2)) as [Q|Q]; destruct HO as [((A & _) & _ & L)|(L & (A & _) & _)]; try (apply A; lia); lia.
Qed.
Lemma vis_pos lim sz : (1 <= sz <= lim)%nat -> (0 < vis lim sz)%nat.
Proof. intros H. unfold vis. destruct (Nat.leb sz (lim / 2 + 2)); lia. Qed.
Lemma set_same {A} (f g : nat -> A) i v n : (forall k, (k < n)%nat -> f k = g k) -> forall k, (k < n)%nat -> set f i v k = set g i v k.
Proof. intros H k Hk. unfold set. destruct (Nat.eqb k i); [reflexivity|apply H, Hk]. Qed.
Lemma set_new {A} (f g : nat -> A) v n : (forall k, (k < n)%nat -> f k = g k) -> forall k, (k < S n)%nat -> set f n v k = set g n v k.
Proof. intros H k Hk. unfold set. destruct (Nat.eqb_spec k n); [reflexivity|apply H; lia]. Qed.
Lemma update_same w1 w2 a1 b1 r1 e1 a2 b2 r2 e2 : (1 <= size w1 < limit w1)%nat -> ordered (limit w1) (size w1) (el w1) (order w1) -> same w1 w2 ->
  same (update w1 a1 b1 r1 e1 a2 b2 r2 e2) (update w2 a1 b1 r1 e1 a2 b2 r2 e2).
Proof.
  intros Hz HO (L & S & E & O). assert (V := vis_pos (limit w1) (size w1) ltac:(lia)). assert (O0 := O 0%nat V).
  unfold update. rewrite <- L, <- S, <- O0.
  assert (HV : forall i, (i < vis (limit w1) (size w1))%nat -> order w1 i = order w2 i /\ (order w1 i < size w1)%nat) by (intros i Hi; split; [apply O, Hi|eapply vis_bound; eassumption]).
  destruct (rltb e1 e2); unfold same; cbn [limit size al bl rl el order]; (split; [reflexivity|]); (split; [reflexivity|]); split.
  - intros i Hi. split; [|split; [|split]]; apply set_new; try exact Hi; try (apply set_same); intros k Hk; apply E; exact Hk.
  - intros i Hi. apply sort_same; [lia|exact HV| |exact Hi]. intros x Hx. apply set_new; [|lia]. apply set_same. intros k Hk. apply E, Hk.
  - intros i Hi. split; [|split; [|split]]; apply set_new; try exact Hi; try (apply set_same); intros k Hk; apply E; exact Hk.
  - intros i Hi. apply sort_same; [lia|exact HV| |exact Hi]. intros x Hx. apply set_new; [|lia]. apply set_same. intros k Hk. apply E, Hk.
Qed.
Definition lsame (s1 s2 : lst) : Prop := same (l_ws s1) (l_ws s2) /\ l_area s1 = l_area s2 /\ l_errsum s1 = l_errsum s2 /\ l_iter s1 = l_iter s2 /\
  l_code s1 = l_code s2 /\ l_tol s1 = l_tol s2 /\ l_neval s1 = l_neval s2.
Lemma first_same w1 w2 rule a b : limit w1 = limit w2 -> lsame (first w1 rule a b) (first w2 rule a b).
Proof.
  intros L. unfold first. destruct (rule a b) as [r e]. unfold lsame. cbn [l_ws l_area l_errsum l_iter l_code l_tol l_neval].
  split; [|repeat (split; [reflexivity|]); reflexivity]. unfold same, ws_init. cbn [limit size al bl rl el order]. split; [exact L|]. split; [reflexivity|]. split.
  - intros i Hi. replace i with 0%nat by lia. rewrite !set_eq. auto.
  - intros i Hi. unfold vis in Hi. destruct (Nat.leb_spec 1 (limit w1 / 2 + 2)); [|lia]. replace i with 0%nat by lia. reflexivity.
Qed.
Lemma body_same rule a b L er ea s1 s2 : linv rule a b L s1 -> (l_iter s1 < L)%nat -> lsame s1 s2 -> lsame (body rule er ea s1) (body rule er ea s2).
Proof.
  intros (W & HL & Hz & Hi & _) Hlt (SW & A1 & A2 & A3 & A4 & A5 & A6). destruct W as (W1 & HO & _).
  assert (V := vis_pos (limit (l_ws s1)) (size (l_ws s1)) ltac:(lia)). assert (K := SW). destruct K as (L' & S' & E & O). assert (O0 := O 0%nat V).
  assert (B0 : (order (l_ws s1) 0 < size (l_ws s1))%nat) by (eapply vis_bound; eassumption). destruct (E _ B0) as (E1 & E2 & E3 & E4).
  unfold body. rewrite <- O0, <- E1, <- E2, <- E3, <- E4, <- A1, <- A2, <- A3, <- A4, <- A6, <- L'.
  destruct (rule _ _) as [r1 e1]. destruct (rule _ _) as [r2 e2]. unfold lsame. cbn [l_ws l_area l_errsum l_iter l_code l_tol l_neval].
  split; [apply update_same; [lia|exact HO|exact SW]|]. repeat (split; [reflexivity|]). reflexivity.
Qed.
Lemma lsame_sums s1 s2 : lsame s1 s2 -> sum_n (size (l_ws s1)) (rl (l_ws s1)) = sum_n (size (l_ws s2)) (rl (l_ws s2)) /\ sum_n (size (l_ws s1)) (el (l_ws s1)) = sum_n (size (l_ws s2)) (el (l_ws s2)).
Proof. intros ((_ & S & E & _) & _). rewrite <- S. split; apply sum_ext; intros i Hi; apply E, Hi. Qed.
Lemma continue_same s1 s2 : lsame s1 s2 -> continue s1 = continue s2.
Proof. intros ((L & _) & _ & A2 & A3 & A4 & A5 & _). unfold continue. rewrite L, A2, A3, A4, A5. reflexivity. Qed.
Lemma loop_same rule a b L er ea : forall fuel s1 s2, linv rule a b L s1 -> (l_iter s1 < L)%nat -> lsame s1 s2 ->
  match loop fuel rule er ea s1, loop fuel rule er ea s2 with Some t1, Some t2 => lsame t1 t2 | None, None => True | _, _ => False end.
Proof.
  induction fuel as [|f IH]; intros s1 s2 I Hlt HS; [exact Logic.I|]. cbn [loop]. assert (B := body_same rule a b L er ea s1 s2 I Hlt HS).
  destruct (body_inv rule a b L er ea s1 I Hlt) as (I' & _). rewrite <- (continue_same _ _ B). destruct (continue (body rule er ea s1)) eqn:C; [|exact B].
  apply IH; [exact I'| |exact B]. unfold continue in C. apply andb_prop in C. destruct C as [C _]. apply Nat.ltb_lt in C. destruct I' as (_ & HL & _). lia.
Qed.
Theorem integrate_fresh w1 w2 rule a b er ea : (2 <= limit w1)%nat -> limit w1 = limit w2 -> integrate_rule w1 rule a b er ea = integrate_rule w2 rule a b er ea.
Proof.
  intros HL E. unfold integrate_rule. destruct (refuse_spec er ea) as [_|_]; [reflexivity|].
  assert (K : forall lo hi, lo <= hi -> match loop (S (limit w1)) rule er ea (first w1 rule lo hi), loop (S (limit w1)) rule er ea (first w2 rule lo hi) with Some t1, Some t2 => lsame t1 t2 | None, None => True | _, _ => False end).
  { intros lo hi Hl. apply (loop_same rule lo hi (limit w1)); [apply first_inv; assumption| |apply first_same, E]. unfold first. destruct (rule lo hi). cbn. lia. }
  rewrite <- E. destruct (rltb_spec b a) as [Q|Q].
  - specialize (K b a ltac:(lra)). destruct (loop _ _ _ _ (first w1 rule b a)) as [t1|], (loop _ _ _ _ (first w2 rule b a)) as [t2|]; try contradiction; [|reflexivity].
    destruct (lsame_sums _ _ K) as [S1 S2]. destruct K as (_ & _ & _ & _ & A4 & A5 & A6). rewrite S1, S2, A4, A5, A6. reflexivity.
  - specialize (K a b ltac:(lra)). destruct (loop _ _ _ _ (first w1 rule a b)) as [t1|], (loop _ _ _ _ (first w2 rule a b)) as [t2|]; try contradiction; [|reflexivity].
    destruct (lsame_sums _ _ K) as [S1 S2]. destruct K as (_ & _ & _ & _ & A4 & A5 & A6). rewrite S1, S2, A4, A5, A6. reflexivity.
Qed.
