From Coq Require Import Arith List Bool Lia.
From Verif Require Import M_SplineRef.
Import ListNotations.

(* number of live handles on an object *)
Fixpoint refs (i : nat) (l : list (nat * option nat)) : nat :=
  match l with [] => 0 | (_, Some j) :: t => (if Nat.eqb j i then 1 else 0) + refs i t | (_, None) :: t => refs i t end.
Definition names (l : list (nat * option nat)) := map fst l.
Definition hinv (m : heap) (l : list (nat * option nat)) : Prop :=
  forall i, (i < next m -> rc m i = refs i l /\ (freed m i = true <-> refs i l = 0)) /\ (next m <= i -> refs i l = 0 /\ freed m i = false).
Definition inv (s : pst) : Prop := NoDup (names (handles s)) /\ hinv (hp s) (handles s).

Lemma look_none h l : look h l = None <-> ~ In h (names l).
Proof.
  induction l as [|[k o] t IH]; cbn; [tauto|]. destruct (Nat.eqb_spec k h) as [->|N]; [split; [discriminate|intros H; contradiction H; auto]|].
  rewrite IH. split; intros H; [intros [E|E]; auto|auto].
Qed.
Lemma refs_look h i l : look h l = Some (Some i) -> 0 < refs i l.
Proof.
  induction l as [|[k o] t IH]; cbn; [discriminate|]. destruct (Nat.eqb_spec k h).
  - intros [= ->]. rewrite Nat.eqb_refl. lia.
  - intros H. specialize (IH H). destruct o; lia.
Qed.
Definition one (i : nat) (o : option nat) : nat := match o with Some j => if Nat.eqb j i then 1 else 0 | None => 0 end.
Lemma refs_cons i k o t : refs i ((k, o) :: t) = one i o + refs i t.
Proof. destruct o; reflexivity. Qed.
Lemma refs_remove h o i l : look h l = Some o -> refs i l = one i o + refs i (remove1 h l).
Proof.
  induction l as [|[k p] t IH]; [discriminate|]. cbn [look remove1]. destruct (Nat.eqb_spec k h).
  - intros [= ->]. apply refs_cons.
  - intros H. rewrite !refs_cons, (IH H). lia.
Qed.
Lemma refs_redirect h o p i l : look h l = Some o -> one i o + refs i (redirect h p l) = one i p + refs i l.
Proof.
  induction l as [|[k q] t IH]; [discriminate|]. cbn [look redirect]. destruct (Nat.eqb_spec k h).
  - intros [= ->]. rewrite !refs_cons. lia.
  - intros H. specialize (IH H). rewrite !refs_cons. lia.
Qed.
Lemma names_redirect h p l : names (redirect h p l) = names l.
Proof. induction l as [|[k q] t IH]; [reflexivity|]. cbn. destruct (Nat.eqb k h); cbn; [reflexivity|]. f_equal. exact IH. Qed.
Lemma names_remove h l : NoDup (names l) -> NoDup (names (remove1 h l)) /\ (forall x, In x (names (remove1 h l)) -> In x (names l)).
Proof.
  induction l as [|[k q] t IH]; [cbn; auto|]. intros N. cbn [remove1]. inversion N as [|? ? N1 N2]; subst. destruct (Nat.eqb k h).
  - split; [exact N2|]. intros x Hx. right. exact Hx.
  - destruct (IH N2) as [A B]. split; [cbn; constructor; [intros Q; apply N1, B, Q|exact A]|]. intros x [Hx|Hx]; [left; exact Hx|right; apply B, Hx].
Qed.
Lemma updn_eq {A} (f : nat -> A) i v : updn f i v i = v.
Proof. unfold updn. rewrite Nat.eqb_refl. reflexivity. Qed.
Lemma updn_ne {A} (f : nat -> A) i v j : j <> i -> updn f i v j = f j.
Proof. unfold updn. intros H. destruct (Nat.eqb_spec j i); [contradiction|reflexivity]. Qed.
Lemma lt_next m l i : hinv m l -> 0 < refs i l -> i < next m /\ freed m i = false.
Proof.
  intros H R. destruct (H i) as [A B]. destruct (le_lt_dec (next m) i) as [L|L]; [destruct (B L); lia|]. split; [exact L|].
  destruct (A L) as [_ C]. destruct (freed m i); [assert (refs i l = 0) by (apply C; reflexivity); lia|reflexivity].
Qed.

Lemma step_ok s o : inv s -> exists s', sstep s o = Some s' /\ inv s'.
Proof.
  intros [ND HI]. destruct o as [h|h|h src|h src|h|h]; cbn [sstep].
  - destruct (look h (handles s)) eqn:L; [exists s; split; [reflexivity|split; assumption]|]. cbn [incr freed].
    destruct (HI (next (hp s))) as [_ B]. destruct (B (le_n _)) as [B1 B2]. rewrite B2. eexists. split; [reflexivity|]. split; cbn [handles hp].
    + cbn. constructor; [apply look_none, L|exact ND].
    + intros i. cbn [rc freed next]. rewrite refs_cons. destruct (HI i) as [A C]. split; intros Hi.
      * destruct (Nat.eq_dec i (next (hp s))) as [->|N].
        -- rewrite updn_eq, updn_eq. cbn [one]. rewrite Nat.eqb_refl, B1, B2. split; [lia|split; [discriminate|lia]].
        -- rewrite !updn_ne by exact N. cbn [one]. destruct (Nat.eqb_spec (next (hp s)) i); [lia|]. apply A. lia.
      * cbn [one]. destruct (Nat.eqb_spec (next (hp s)) i); [lia|]. apply C. lia.
  - destruct (look h (handles s)) eqn:L; [exists s; split; [reflexivity|split; assumption]|]. eexists. split; [reflexivity|]. split; cbn [handles hp].
    + cbn. constructor; [apply look_none, L|exact ND].
    + exact HI.
  - destruct (look h (handles s)) eqn:L; [exists s; split; [reflexivity|split; assumption]|].
    destruct (look src (handles s)) as [p|] eqn:Ls; [|exists s; split; [reflexivity|split; assumption]].
    assert (N1 : NoDup (names ((h, p) :: handles s))) by (cbn; constructor; [apply look_none, L|exact ND]).
    destruct p as [j|]; cbn [incr].
    + destruct (lt_next _ _ j HI (refs_look _ _ _ Ls)) as [Lj Fj]. rewrite Fj. eexists. split; [reflexivity|]. split; cbn [handles hp]; [exact N1|].
      intros i. cbn [rc freed next]. rewrite refs_cons. cbn [one]. destruct (HI i) as [A C]. split; intros Hi.
      * destruct (Nat.eqb_spec j i) as [->|N].
        -- rewrite updn_eq. destruct (A Hi) as [A1 A2]. rewrite A1. split; [lia|]. rewrite Fj. split; [discriminate|lia].
        -- rewrite updn_ne by auto. apply A, Hi.
      * destruct (Nat.eqb_spec j i) as [->|N]; [lia|]. apply C, Hi.
    + eexists. split; [reflexivity|]. split; cbn [handles hp]; [exact N1|exact HI].
  - destruct (look h (handles s)) as [a|] eqn:L; [|exists s; split; [reflexivity|split; assumption]].
    destruct (look src (handles s)) as [b|] eqn:Ls; [|exists s; split; [reflexivity|split; assumption]].
    destruct (eqo a b) eqn:E; [exists s; split; [reflexivity|split; assumption]|].
    assert (NE : a <> b). { intros ->. destruct b as [x|]; cbn in E; [rewrite Nat.eqb_refl in E|]; discriminate E. }
    set (l' := redirect h b (handles s)). assert (R : forall i, one i a + refs i l' = one i b + refs i (handles s)) by (intros i; apply refs_redirect, L).
    assert (N1 : NoDup (names l')) by (unfold l'; rewrite names_redirect; exact ND).
    destruct a as [x|]; destruct b as [y|]; [| | |contradiction NE; reflexivity].
    + assert (NXY : x <> y) by (intros ->; apply NE; reflexivity).
      destruct (lt_next _ _ x HI (refs_look _ _ _ L)) as [Lx Fx]. destruct (lt_next _ _ y HI (refs_look _ _ _ Ls)) as [Ly Fy].
      cbn [decr]. rewrite Fx. cbn [incr freed]. assert (G : (if Nat.leb (pred (rc (hp s) x)) 0 then updn (freed (hp s)) x true else freed (hp s)) y = false).
      { destruct (Nat.leb _ 0); [rewrite updn_ne by auto|]; exact Fy. } rewrite G. eexists. split; [reflexivity|]. split; cbn [handles hp]; [exact N1|].
      intros i. cbn [rc freed next]. specialize (R i). cbn [one] in R. destruct (HI i) as [A C]. split; intros Hi.
      * destruct (A Hi) as [A1 A2]. destruct (Nat.eq_dec i y) as [->|Ny].
        -- rewrite updn_eq, updn_ne by auto. rewrite Nat.eqb_refl in R. destruct (Nat.eqb_spec x y); [contradiction|]. rewrite A1. split; [lia|]. rewrite G. split; [discriminate|lia].
        -- rewrite updn_ne by exact Ny. destruct (Nat.eqb_spec y i); [congruence|]. destruct (Nat.eq_dec i x) as [->|Nx].
           ++ rewrite updn_eq. rewrite Nat.eqb_refl in R. rewrite A1. split; [lia|]. destruct (Nat.leb_spec (pred (refs x (handles s))) 0) as [Q|Q].
              ** rewrite updn_eq. split; [lia|reflexivity].
              ** rewrite Fx. split; [discriminate|lia].
           ++ rewrite updn_ne by exact Nx. destruct (Nat.eqb_spec x i); [congruence|]. assert (E1 : refs i l' = refs i (handles s)) by lia. rewrite E1.
              split; [exact A1|]. destruct (Nat.leb _ 0); [rewrite updn_ne by exact Nx|]; exact A2.
      * destruct (C Hi) as [C1 C2]. destruct (Nat.eqb_spec x i); [lia|]. destruct (Nat.eqb_spec y i); [lia|]. split; [lia|]. destruct (Nat.leb _ 0); [rewrite updn_ne by auto|]; exact C2.
    + destruct (lt_next _ _ x HI (refs_look _ _ _ L)) as [Lx Fx]. cbn [decr]. rewrite Fx. cbn [incr]. eexists. split; [reflexivity|]. split; cbn [handles hp]; [exact N1|].
      intros i. cbn [rc freed next]. specialize (R i). cbn [one] in R. destruct (HI i) as [A C]. split; intros Hi.
      * destruct (A Hi) as [A1 A2]. destruct (Nat.eq_dec i x) as [->|Nx].
        -- rewrite updn_eq. rewrite Nat.eqb_refl in R. rewrite A1. split; [lia|]. destruct (Nat.leb_spec (pred (refs x (handles s))) 0) as [Q|Q].
           ++ rewrite updn_eq. split; [lia|reflexivity].
           ++ rewrite Fx. split; [discriminate|lia].
        -- rewrite updn_ne by exact Nx. destruct (Nat.eqb_spec x i); [congruence|]. assert (E1 : refs i l' = refs i (handles s)) by lia. rewrite E1.
           split; [exact A1|]. destruct (Nat.leb _ 0); [rewrite updn_ne by exact Nx|]; exact A2.
      * destruct (C Hi) as [C1 C2]. destruct (Nat.eqb_spec x i); [lia|]. split; [lia|]. destruct (Nat.leb _ 0); [rewrite updn_ne by auto|]; exact C2.
    + destruct (lt_next _ _ y HI (refs_look _ _ _ Ls)) as [Ly Fy]. cbn [decr incr]. rewrite Fy. eexists. split; [reflexivity|]. split; cbn [handles hp]; [exact N1|].
      intros i. cbn [rc freed next]. specialize (R i). cbn [one] in R. destruct (HI i) as [A C]. split; intros Hi.
      * destruct (A Hi) as [A1 A2]. destruct (Nat.eq_dec i y) as [->|Ny].
        -- rewrite updn_eq. rewrite Nat.eqb_refl in R. rewrite A1. split; [lia|]. rewrite Fy. split; [discriminate|lia].
        -- rewrite updn_ne by exact Ny. destruct (Nat.eqb_spec y i); [congruence|]. assert (E1 : refs i l' = refs i (handles s)) by lia. rewrite E1. split; assumption.
      * destruct (C Hi) as [C1 C2]. destruct (Nat.eqb_spec y i); [lia|]. split; [lia|exact C2].
  - destruct (look h (handles s)) as [a|] eqn:L; [|exists s; split; [reflexivity|split; assumption]].
    assert (R : forall i, refs i (handles s) = one i a + refs i (remove1 h (handles s))) by (intros i; apply refs_remove, L).
    assert (N1 := proj1 (names_remove h _ ND)). destruct a as [x|]; cbn [decr].
    + destruct (lt_next _ _ x HI (refs_look _ _ _ L)) as [Lx Fx]. rewrite Fx. eexists. split; [reflexivity|]. split; cbn [handles hp]; [exact N1|].
      intros i. cbn [rc freed next]. specialize (R i). cbn [one] in R. destruct (HI i) as [A C]. split; intros Hi.
      * destruct (A Hi) as [A1 A2]. destruct (Nat.eq_dec i x) as [->|Nx].
        -- rewrite updn_eq. rewrite Nat.eqb_refl in R. rewrite A1. split; [lia|]. destruct (Nat.leb_spec (pred (refs x (handles s))) 0) as [Q|Q].
           ++ rewrite updn_eq. split; [lia|reflexivity].
           ++ rewrite Fx. split; [discriminate|lia].
        -- rewrite updn_ne by exact Nx. destruct (Nat.eqb_spec x i); [congruence|]. cbn in R. rewrite <- R.
           split; [exact A1|]. destruct (Nat.leb _ 0); [rewrite updn_ne by exact Nx|]; exact A2.
      * destruct (C Hi) as [C1 C2]. destruct (Nat.eqb_spec x i); [lia|]. split; [lia|]. destruct (Nat.leb _ 0); [rewrite updn_ne by auto|]; exact C2.
    + eexists. split; [reflexivity|]. split; cbn [handles hp]; [exact N1|]. intros i. specialize (R i). cbn [one] in R. cbn in R. rewrite <- R. apply HI.
  - exists s. split; [|split; assumption]. destruct (look h (handles s)) as [[i|]|] eqn:L; [|reflexivity|reflexivity].
    destruct (lt_next _ _ i HI (refs_look _ _ _ L)) as [_ F]. rewrite F. reflexivity.
Qed.
Lemma inv0 : inv pst0.
Proof. split; [constructor|]. intros i. cbn. split; [lia|auto]. Qed.
Lemma run_ok : forall l s, inv s -> exists s', srun s l = Some s' /\ inv s'.
Proof. induction l as [|op t IH]; intros s H; [exists s; split; [reflexivity|exact H]|]. cbn [srun]. destruct (step_ok s op H) as (s1 & E & I). rewrite E. apply IH, I. Qed.
Lemma refs_zero i l : NoDup (names l) -> (refs i l = 0 <-> forall h, look h l <> Some (Some i)).
Proof.
  intros ND. split.
  - intros R h H. apply refs_look in H. lia.
  - intros H. induction l as [|[k o] t IH]; [reflexivity|]. rewrite refs_cons. inversion ND as [|? ? N1 N2]; subst.
    assert (one i o = 0). { destruct o as [j|]; [|reflexivity]. cbn. destruct (Nat.eqb_spec j i) as [->|]; [|reflexivity]. exfalso. apply (H k). cbn. rewrite Nat.eqb_refl. reflexivity. }
    rewrite IH; [lia|exact N2|]. intros h Hh. apply (H h). cbn. destruct (Nat.eqb_spec k h) as [->|]; [|exact Hh].
    exfalso. assert (look h t = None) by (apply look_none; exact N1). rewrite H1 in Hh. discriminate Hh.
Qed.
Lemma look_redirect h p l g : look g (redirect h p l) = if Nat.eqb g h then match look h l with Some _ => Some p | None => None end else look g l.
Proof.
  induction l as [|[k q] t IH]; cbn; [destruct (Nat.eqb g h); reflexivity|]. destruct (Nat.eqb_spec k h) as [->|N]; cbn.
  - destruct (Nat.eqb_spec h g) as [->|M]; [rewrite Nat.eqb_refl; reflexivity|]. destruct (Nat.eqb_spec g h); [congruence|reflexivity].
  - rewrite IH. destruct (Nat.eqb_spec k g) as [->|M]; [|reflexivity]. destruct (Nat.eqb_spec g h); [contradiction|reflexivity].
Qed.
Lemma look_remove h l g : NoDup (names l) -> look g (remove1 h l) = if Nat.eqb g h then None else look g l.
Proof.
  induction l as [|[k q] t IH]; intros ND; [cbn; destruct (Nat.eqb g h); reflexivity|]. cbn [remove1 look]. inversion ND as [|? ? N1 N2]; subst.
  destruct (Nat.eqb_spec k h) as [->|N]; cbn [look].
  - destruct (Nat.eqb_spec h g) as [->|M]; [rewrite Nat.eqb_refl; apply look_none, N1|]. destruct (Nat.eqb_spec g h); [congruence|reflexivity].
  - rewrite (IH N2). destruct (Nat.eqb_spec k g) as [->|M]; [|reflexivity]. destruct (Nat.eqb_spec g h); [contradiction|reflexivity].
Qed.
