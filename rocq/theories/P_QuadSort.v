From Coq Require Import Reals List Arith Lra Lia.
From Verif Require Import M_Quad.
Import ListNotations.
Local Open Scope R_scope.

Lemma set_eq {A} (f : nat -> A) i v : set f i v i = v.
Proof. unfold set. rewrite Nat.eqb_refl. reflexivity. Qed.
Lemma set_ne {A} (f : nat -> A) i v j : j <> i -> set f i v j = f j.
Proof. unfold set. intros H. destruct (Nat.eqb_spec j i); [contradiction|reflexivity]. Qed.
Lemma rltb_spec x y : Bool.reflect (x < y) (rltb x y).
Proof. unfold rltb. destruct (Rlt_dec x y); constructor; assumption. Qed.
Lemma rleb_spec x y : Bool.reflect (x <= y) (rleb x y).
Proof. unfold rleb. destruct (Rle_dec x y); constructor; assumption. Qed.

Lemma ins_top_spec : forall n j errmax e o j' o', (1 <= j)%nat -> ins_top n j errmax e o = (j', o') ->
  (j <= j' <= j + n)%nat /\ (forall i, o' i = if andb (Nat.leb (j - 1) i) (Nat.ltb i (j' - 1)) then o (S i) else o i) /\
  (forall i, (j <= i < j')%nat -> errmax < e (o i)) /\ (j' = (j + n)%nat \/ e (o j') <= errmax).
Proof.
  induction n as [|n IH]; intros j errmax e o j' o' Hj H; cbn [ins_top] in H.
  - injection H as <- <-. split; [lia|]. split; [|split; [intros; lia|left; lia]]. intros i.
    destruct (Nat.leb_spec (j - 1) i), (Nat.ltb_spec i (j - 1)); cbn; try reflexivity; lia.
  - destruct (rltb_spec errmax (e (o j))) as [L|L].
    + apply IH in H; [|lia]. destruct H as (A & B & C & D). split; [lia|]. split; [|split].
      * intros i. rewrite B. destruct (Nat.leb_spec (S j - 1) i), (Nat.ltb_spec i (j' - 1)), (Nat.leb_spec (j - 1) i); cbn; try lia; try (rewrite set_ne by lia; reflexivity);
          replace i with (j - 1)%nat by lia; rewrite set_eq; f_equal; lia.
      * intros i Hi. destruct (Nat.eq_dec i j) as [->|]; [exact L|]. specialize (C i ltac:(lia)). rewrite set_ne in C by lia. exact C.
      * destruct D as [D|D]; [left; lia|right]. rewrite set_ne in D by lia. exact D.
    + injection H as <- <-. split; [lia|]. split; [|split; [intros; lia|right; lra]]. intros i.
      destruct (Nat.leb_spec (j - 1) i), (Nat.ltb_spec i (j - 1)); cbn; try reflexivity; lia.
Qed.
Lemma ins_bot_spec : forall n p errmin e o p' o', (n <= p)%nat -> ins_bot n p errmin e o = (p', o') ->
  (p - n <= p' <= p)%nat /\ (forall i, o' i = if andb (Nat.ltb p' i) (Nat.leb i p) then o (i - 1)%nat else o i) /\
  (forall i, (p' <= i < p)%nat -> e (o i) <= errmin) /\ (p' = (p - n)%nat \/ errmin < e (o (p' - 1)%nat)).
Proof.
  induction n as [|n IH]; intros p errmin e o p' o' Hp H; cbn [ins_bot] in H.
  - injection H as <- <-. split; [lia|]. split; [|split; [intros; lia|left; lia]]. intros i.
    destruct (Nat.ltb_spec p i), (Nat.leb_spec i p); cbn; try reflexivity; lia.
  - destruct (rleb_spec (e (o (p - 1)%nat)) errmin) as [L|L].
    + apply IH in H; [|lia]. destruct H as (A & B & C & D). split; [lia|]. split; [|split].
      * intros i. rewrite B. destruct (Nat.ltb_spec p' i), (Nat.leb_spec i (p - 1)), (Nat.leb_spec i p); cbn; try lia; try (rewrite set_ne by lia; reflexivity);
          replace i with p by lia; rewrite set_eq; reflexivity.
      * intros i Hi. destruct (Nat.eq_dec i (p - 1)) as [->|]; [exact L|]. specialize (C i ltac:(lia)). rewrite set_ne in C by lia. exact C.
      * destruct D as [D|D]; [left; lia|right]. rewrite set_ne in D by lia. exact D.
    + injection H as <- <-. split; [lia|]. split; [|split; [intros; lia|right; lra]]. intros i.
      destruct (Nat.ltb_spec p i), (Nat.leb_spec i p); cbn; try reflexivity; lia.
Qed.

(** o lists, from position 0 to p-1, distinct indices below sz in order of decreasing e, ... *)
Definition sorted (sz p : nat) (e : nat -> R) (o : nat -> nat) : Prop :=
  (forall i, (i < p)%nat -> (o i < sz)%nat) /\ (forall i i', (i < p)%nat -> (i' < p)%nat -> o i = o i' -> i = i') /\
  (forall i i', (i <= i')%nat -> (i' < p)%nat -> e (o i') <= e (o i)).
(** ... and nothing outside the list is larger than an entry of it *)
Definition covers (sz p : nat) (e : nat -> R) (o : nat -> nat) : Prop :=
  forall x, (x < sz)%nat -> (exists i, (i < p)%nat /\ o i = x) \/ (forall i, (i < p)%nat -> e x <= e (o i)).
Definition complete (sz : nat) (o : nat -> nat) : Prop := forall x, (x < sz)%nat -> exists i, (i < sz)%nat /\ o i = x.

Section Sort.
Variables (last top : nat) (e e0 : nat -> R) (o : nat -> nat).
Hypothesis Ht : (2 <= top <= last)%nat.
Hypothesis Hs : sorted last top e0 o.
Hypothesis Hc : covers last top e0 o.
Hypothesis He : forall x, (x < last)%nat -> x <> o 0%nat -> e x = e0 x.
Hypothesis Hmin : e last <= e (o 0%nat).
Variables (j p : nat) (o1 o3 : nat -> nat).
Hypothesis E1 : ins_top (top - 1) 1 (e (o 0%nat)) e o = (j, o1).
Hypothesis E2 : ins_bot (top + 1 - j) top (e last) e (set o1 (j - 1) (o 0%nat)) = (p, o3).
Let o2 := set o1 (j - 1) (o 0%nat).
Let of := set o3 p last.
Lemma F1 : (1 <= j <= top)%nat /\ (forall i, (i < j - 1)%nat -> o2 i = o (S i)) /\ o2 (j - 1)%nat = o 0%nat /\ (forall i, (j <= i)%nat -> o2 i = o i) /\
  (forall i, (1 <= i < j)%nat -> e (o 0%nat) < e (o i)) /\ (j = top \/ e (o j) <= e (o 0%nat)).
Proof.
  destruct (ins_top_spec _ _ _ _ _ _ _ (le_n 1) E1) as (A & B & C & D). split; [lia|]. split; [|split; [|split; [|split]]].
  - intros i Hi. unfold o2. rewrite set_ne by lia. rewrite B. destruct (Nat.leb_spec (1 - 1) i), (Nat.ltb_spec i (j - 1)); cbn; try lia; reflexivity.
  - unfold o2. apply set_eq.
  - intros i Hi. unfold o2. rewrite set_ne by lia. rewrite B. destruct (Nat.leb_spec (1 - 1) i), (Nat.ltb_spec i (j - 1)); cbn; try lia; reflexivity.
  - exact C.
  - destruct D as [D|D]; [left; lia|right; exact D].
Qed.
Lemma F2 : (j - 1 <= p <= top)%nat /\ (forall i, (i < p)%nat -> of i = o2 i) /\ of p = last /\ (forall i, (p < i <= top)%nat -> of i = o2 (i - 1)%nat) /\
  (forall i, (p <= i < top)%nat -> e (o2 i) <= e last) /\ (p = (j - 1)%nat \/ e last < e (o2 (p - 1)%nat)).
Proof.
  destruct F1 as (Hj & _). destruct (ins_bot_spec (top + 1 - j) top (e last) e (set o1 (j - 1) (o 0%nat)) p o3 ltac:(lia) E2) as (A & B & C & D). split; [lia|]. split; [|split; [|split; [|split]]].
  - intros i Hi. unfold of. rewrite set_ne by lia. rewrite B. destruct (Nat.ltb_spec p i); cbn; [lia|reflexivity].
  - unfold of. apply set_eq.
  - intros i Hi. unfold of. rewrite set_ne by lia. rewrite B. destruct (Nat.ltb_spec p i), (Nat.leb_spec i top); cbn; try lia. reflexivity.
  - exact C.
  - destruct D as [D|D]; [left; lia|right; exact D].
Qed.
Lemma old_e i : (1 <= i < top)%nat -> e (o i) = e0 (o i) /\ (o i < last)%nat /\ o i <> o 0%nat.
Proof.
  intros Hi. destruct Hs as (A & B & C). assert (o i <> o 0%nat) by (intros Q; apply B in Q; lia). assert (o i < last)%nat by (apply A; lia). split; [apply He; assumption|split; assumption].
Qed.
Lemma old_mono i i' : (1 <= i)%nat -> (i <= i')%nat -> (i' < top)%nat -> e (o i') <= e (o i).
Proof. intros A B C. rewrite (proj1 (old_e i ltac:(lia))), (proj1 (old_e i' ltac:(lia))). apply Hs; lia. Qed.
(* every entry of o2 comes from a position of o *)
Lemma o2_from i : (i < top)%nat -> exists k, (k < top)%nat /\ o2 i = o k /\ (k = 0%nat /\ i = (j - 1)%nat \/ k = S i /\ (i < j - 1)%nat \/ k = i /\ (j <= i)%nat).
Proof.
  intros Hi. destruct F1 as (Hj & A & B & C & _). destruct (lt_eq_lt_dec i (j - 1)) as [[L| ->]|L].
  - exists (S i). split; [lia|]. split; [apply A, L|]. auto.
  - exists 0%nat. split; [lia|]. split; [exact B|]. auto.
  - exists i. split; [lia|]. split; [apply C; lia|]. right. right. split; [reflexivity|lia].
Qed.
Lemma o2_sorted : (forall i, (i < top)%nat -> (o2 i < last)%nat) /\ (forall i i', (i < top)%nat -> (i' < top)%nat -> o2 i = o2 i' -> i = i') /\
  (forall i i', (i <= i')%nat -> (i' < top)%nat -> e (o2 i') <= e (o2 i)).
Proof.
  destruct Hs as (A & B & C). destruct F1 as (Hj & _ & _ & _ & G1 & G2). split; [|split].
  - intros i Hi. destruct (o2_from i Hi) as (k & Hk & -> & _). apply A, Hk.
  - intros i i' Hi Hi' Q. destruct (o2_from i Hi) as (k & Hk & E & K). destruct (o2_from i' Hi') as (k' & Hk' & E' & K').
    rewrite E, E' in Q. apply B in Q; [|assumption|assumption]. lia.
  - intros i i' Hii Hi'. destruct (Nat.eq_dec i i') as [->|N]; [lra|]. destruct (o2_from i ltac:(lia)) as (k & Hk & E & K). destruct (o2_from i' Hi') as (k' & Hk' & E' & K'). rewrite E, E'.
    destruct K as [[-> K]|[[-> K]|[-> K]]]; destruct K' as [[-> K']|[[-> K']|[-> K']]]; try lia.
    + destruct G2 as [G2|G2]; [lia|]. apply Rle_trans with (e (o j)); [apply old_mono; lia|exact G2].
    + left. apply G1. lia.
    + apply old_mono; lia.
    + apply old_mono; lia.
    + apply old_mono; lia.
Qed.
Lemma of_from i : (i <= top)%nat -> (i = p /\ of i = last) \/ (exists k, (k < top)%nat /\ of i = o2 k /\ (k = i /\ (i < p)%nat \/ S k = i /\ (p < i)%nat)).
Proof.
  intros Hi. destruct F2 as (Hp & A & B & C & _). destruct (lt_eq_lt_dec i p) as [[L| ->]|L].
  - right. exists i. split; [lia|]. split; [apply A, L|]. auto.
  - left. auto.
  - right. exists (i - 1)%nat. split; [lia|]. split; [apply C; lia|]. right. split; lia.
Qed.
Lemma of_sorted : sorted (S last) (S top) e of.
Proof.
  destruct o2_sorted as (A & B & C). destruct F2 as (Hp & _ & _ & _ & G1 & G2). destruct F1 as (Hj & _ & Gj & _). split; [|split].
  - intros i Hi. destruct (of_from i ltac:(lia)) as [[-> ->]|(k & Hk & -> & _)]; [lia|]. specialize (A k Hk). lia.
  - intros i i' Hi Hi' Q. destruct (of_from i ltac:(lia)) as [[E1' E]|(k & Hk & E & K)]; destruct (of_from i' ltac:(lia)) as [[E2' E']|(k' & Hk' & E' & K')]; rewrite E, E' in Q.
    + lia.
    + specialize (A k' Hk'). lia.
    + specialize (A k Hk). lia.
    + apply B in Q; [|assumption|assumption]. lia.
  - intros i i' Hii Hi'. destruct (Nat.eq_dec i i') as [->|N]; [lra|].
    destruct (of_from i ltac:(lia)) as [[E1' E]|(k & Hk & E & K)]; destruct (of_from i' ltac:(lia)) as [[E2' E']|(k' & Hk' & E' & K')]; rewrite E, E'.
    + lra.
    + apply G1. lia.
    + destruct G2 as [G2|G2].
      * (* last sits just before or at the place of the maximum *) assert (k < j - 1)%nat by lia.
        apply Rle_trans with (e (o2 (j - 1)%nat)); [rewrite Gj; exact Hmin|apply C; lia].
      * left. apply Rlt_le_trans with (e (o2 (p - 1)%nat)); [exact G2|apply C; lia].
    + apply C; lia.
Qed.
(* where the old entries went *)
Lemma of_place k : (k < top)%nat -> exists i, (i <= top)%nat /\ of i = o2 k /\ (k <= i)%nat.
Proof.
  intros Hk. destruct F2 as (Hp & A & B & C & _). destruct (le_lt_dec p k).
  - exists (S k). split; [lia|]. split; [rewrite C by lia; f_equal; lia|lia].
  - exists k. split; [lia|]. split; [apply A; lia|lia].
Qed.
Lemma o2_place i : (i < top)%nat -> exists k, (k < top)%nat /\ o2 k = o i /\ (i - 1 <= k)%nat.
Proof.
  intros Hi. destruct F1 as (Hj & A & B & C & _). destruct i as [|i].
  - exists (j - 1)%nat. split; [lia|]. split; [exact B|lia].
  - destruct (le_lt_dec j (S i)).
    + exists (S i). split; [lia|]. split; [apply C; lia|lia].
    + exists i. split; [lia|]. split; [apply A; lia|lia].
Qed.
Lemma of_covers : covers (S last) (top - 1) e of.
Proof.
  destruct of_sorted as (A & B & C). intros x Hx.
  assert (Sorted : forall i, (i <= top)%nat -> of i = x -> (exists i0, (i0 < top - 1)%nat /\ of i0 = x) \/ (forall i0, (i0 < top - 1)%nat -> e x <= e (of i0))).
  { intros i Hi E. destruct (le_lt_dec (top - 1) i); [|left; exists i; split; [lia|exact E]]. right. intros i0 H0. rewrite <- E. apply C; lia. }
  destruct (Nat.eq_dec x last) as [->|N]; [destruct F2 as (Hp & _ & E & _); apply (Sorted p); [lia|exact E]|].
  destruct (Hc x ltac:(lia)) as [(i & Hi & E)|U].
  - destruct (o2_place i Hi) as (k & Hk & Ek & _). destruct (of_place k Hk) as (i' & Hi' & Ei & _). apply (Sorted i'); [exact Hi'|congruence].
  - destruct (Nat.eq_dec x (o 0%nat)) as [->|N0].
    + destruct (o2_place 0%nat ltac:(lia)) as (k & Hk & Ek & _). destruct (of_place k Hk) as (i' & Hi' & Ei & _). apply (Sorted i'); [exact Hi'|congruence].
    + right. intros i0 H0. destruct (o2_place (top - 1) ltac:(lia)) as (k & Hk & Ek & Lk). destruct (of_place k Hk) as (i' & Hi' & Ei & Li).
      apply Rle_trans with (e (of i')); [|apply C; lia]. rewrite Ei, Ek, (proj1 (old_e (top - 1) ltac:(lia))). rewrite He by (try lia; exact N0). apply U. lia.
Qed.
Lemma of_complete : top = last -> complete last o -> complete (S last) of.
Proof.
  intros T Hcm x Hx. destruct (Nat.eq_dec x last) as [->|N]; [destruct F2 as (Hp & _ & E & _); exists p; split; [lia|exact E]|].
  destruct (Hcm x ltac:(lia)) as (i & Hi & E). destruct (o2_place i ltac:(lia)) as (k & Hk & Ek & _). destruct (of_place k Hk) as (i' & Hi' & Ei & _).
  exists i'. split; [lia|congruence].
Qed.
End Sort.

(** The invariant of a workspace: either the whole list is in order, or the first limit - size + 1 entries are, and nothing else exceeds them. *)
Definition ordered (lim sz : nat) (e : nat -> R) (o : nat -> nat) : Prop :=
  (sorted sz sz e o /\ complete sz o /\ (sz <= lim / 2 + 2)%nat) \/
  (lim / 2 + 3 <= sz)%nat /\ sorted sz (lim - sz + 1) e o /\ covers sz (lim - sz + 1) e o.
Lemma ordered_first lim sz e o : ordered lim sz e o -> (1 <= sz <= lim)%nat -> (o 0%nat < sz)%nat /\ forall x, (x < sz)%nat -> e x <= e (o 0%nat).
Proof.
  intros [((A & B & C) & D & _)|(L & (A & B & C) & D)] Hz.
  - split; [apply A; lia|]. intros x Hx. destruct (D x Hx) as (i & Hi & <-). apply C; lia.
  - split; [apply A; lia|]. intros x Hx. destruct (D x Hx) as [(i & Hi & <-)|U]; [apply C; lia|apply U; lia].
Qed.
Lemma sort_ok lim sz e e0 o : (1 <= sz < lim)%nat -> ordered lim sz e0 o ->
  (forall x, (x < sz)%nat -> x <> o 0%nat -> e x = e0 x) -> e sz <= e (o 0%nat) -> ordered lim (S sz) e (sort_order lim (S sz) e o).
Proof.
  intros Hz HO He Hm. unfold sort_order. replace (S sz - 1)%nat with sz by lia. destruct (Nat.ltb_spec sz 2) as [L2|L2].
  - assert (sz = 1)%nat by lia. subst sz. left. destruct HO as [((A & B & C) & D & _)|(Q & _)]; [|assert (0 <= lim / 2)%nat by lia; lia].
    assert (E0 : o 0%nat = 0%nat) by (specialize (A 0%nat ltac:(lia)); lia). rewrite E0 in Hm.
    split; [|split; [|lia]].
    + split; [|split].
      * intros i Hi. destruct i as [|[|i]]; [rewrite set_ne, set_eq by lia; lia|rewrite set_eq; lia|lia].
      * intros i i' Hi Hi'. destruct i as [|[|i]]; destruct i' as [|[|i']]; try lia; rewrite ?set_eq, ?set_ne, ?set_eq by lia; lia.
      * intros i i' Hi Hi'. destruct i as [|[|i]]; destruct i' as [|[|i']]; try lia; rewrite ?set_eq, ?set_ne, ?set_eq by lia; lra.
    + intros x Hx. exists x. split; [exact Hx|]. destruct x as [|[|x]]; [rewrite set_ne, set_eq by lia; reflexivity|rewrite set_eq; reflexivity|lia].
  - set (top := if Nat.ltb sz (lim / 2 + 2) then sz else (lim - sz + 1)%nat).
    destruct (ins_top (top - 1) 1 (e (o 0%nat)) e o) as [j o1] eqn:E1.
    destruct (ins_bot (top + 1 - j) top (e sz) e (set o1 (j - 1) (o 0%nat))) as [p o3] eqn:E2.
    assert (D := Nat.div_mod lim 2 ltac:(lia)). assert (M := Nat.mod_upper_bound lim 2 ltac:(lia)).
    assert (HT : (2 <= top <= sz)%nat). { unfold top. destruct (Nat.ltb_spec sz (lim / 2 + 2)); lia. }
    assert (HS : sorted sz top e0 o /\ covers sz top e0 o).
    { destruct HO as [((A & B & C) & K & Q)|(Q & (A & B & C) & K)].
      - split; [split; [|split]|].
        + intros i Hi. apply A. lia.
        + intros i i' Hi Hi'. apply B; lia.
        + intros i i' Hi Hi'. apply C; lia.
        + intros x Hx. destruct (K x Hx) as (i & Hi & E). destruct (le_lt_dec top i); [|left; exists i; split; [lia|exact E]].
          right. intros i0 Hi0. rewrite <- E. apply C; lia.
      - assert (top = (lim - sz + 1)%nat). { unfold top. destruct (Nat.ltb_spec sz (lim / 2 + 2)); lia. } subst top. rewrite H in *. split; [split; [exact A|split; [exact B|exact C]]|exact K]. }
    destruct HS as [HS HC].
    assert (RS := of_sorted sz top e e0 o HT HS He Hm j p o1 o3 E1 E2). assert (RC := of_covers sz top e e0 o HT HS HC He Hm j p o1 o3 E1 E2).
    destruct (Nat.ltb_spec sz (lim / 2 + 2)) as [L|L].
    + left. assert (T : top = sz) by reflexivity. split; [rewrite T in RS; exact RS|]. split; [|lia].
      apply (of_complete sz top e o HT j p o1 o3 E1 E2 T).
      destruct HO as [(_ & K & _)|(Q & _)]; [exact K|lia].
    + right. assert (T : top = (lim - sz + 1)%nat) by reflexivity. split; [lia|]. replace (lim - S sz + 1)%nat with (top - 1)%nat by lia. split; [|exact RC].
      destruct RS as (A & B & C). split; [|split].
      * intros i Hi. apply A. lia.
      * intros i i' Hi Hi'. apply B; lia.
      * intros i i' Hi Hi'. apply C; lia.
Qed.
