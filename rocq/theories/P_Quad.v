From Coq Require Import Reals List Arith Lra Lia.
From Verif Require Import M_Quad S_Quad P_QuadSort.
Import ListNotations.
Local Open Scope R_scope.

Lemma sum_ext n F G : (forall i, (i < n)%nat -> F i = G i) -> sum_n n F = sum_n n G.
Proof. induction n as [|n IH]; intros H; cbn; [reflexivity|]. rewrite IH by (intros; apply H; lia). rewrite H by lia. reflexivity. Qed.
Lemma sum_set n F G i : (i < n)%nat -> (forall k, (k < n)%nat -> k <> i -> G k = F k) -> sum_n n G = sum_n n F - F i + G i.
Proof.
  induction n as [|n IH]; intros Hi HG; [lia|]. cbn. destruct (Nat.eq_dec i n) as [->|N].
  - rewrite (sum_ext n G F) by (intros; apply HG; lia). ring.
  - rewrite IH by (try lia; intros; apply HG; lia). rewrite (HG n) by lia. ring.
Qed.
(* lists of the workspace *)
Definition pieces (w : ws) : list (R * R) := map (fun i => (al w i, bl w i)) (seq 0 (size w)).
Lemma lsum_app l l' : lsum (l ++ l') = lsum l + lsum l'.
Proof. induction l as [|x l IH]; cbn; [ring|]. rewrite IH. ring. Qed.
Lemma lsum_seq F : forall n, lsum (map F (seq 0 n)) = sum_n n F.
Proof. induction n as [|n IH]; [reflexivity|]. rewrite seq_S, map_app, lsum_app, IH. cbn. ring. Qed.
Lemma pieces_sum w (g : R * R -> R) : lsum (map g (pieces w)) = sum_n (size w) (fun i => g (al w i, bl w i)).
Proof. unfold pieces. rewrite map_map. apply (lsum_seq (fun i => g (al w i, bl w i))). Qed.

Definition wsinv (rule : R -> R -> R * R) (a b : R) (w : ws) : Prop :=
  (1 <= size w)%nat /\ ordered (limit w) (size w) (el w) (order w) /\
  (forall i, (i < size w)%nat -> a <= al w i <= bl w i /\ bl w i <= b /\ rule (al w i) (bl w i) = (rl w i, el w i)) /\
  (forall F, sum_n (size w) (fun i => F (bl w i) - F (al w i)) = F b - F a).

Lemma init_inv rule a b w r e : a <= b -> rule a b = (r, e) -> wsinv rule a b (ws_init w a b r e).
Proof.
  intros Hab E. split; [cbn; lia|]. split; [|split].
  - left. cbn [limit size el order ws_init]. split; [|split; [|lia]].
    + split; [|split].
      * intros i Hi. replace i with 0%nat by lia. rewrite set_eq. lia.
      * intros i i' Hi Hi' _. lia.
      * intros i i' Hi Hi'. replace i with 0%nat by lia. replace i' with 0%nat by lia. lra.
    + intros x Hx. exists 0%nat. rewrite set_eq. split; [lia|]. cbn in Hx. lia.
  - intros i Hi. cbn in Hi. replace i with 0%nat by lia. cbn [al bl rl el ws_init]. rewrite !set_eq. split; [lra|split; [lra|exact E]].
  - intros F. cbn. ring.
Qed.
Lemma update_inv rule a b w m area1 error1 area2 error2 : wsinv rule a b w -> (size w < limit w)%nat ->
  let im := order w 0%nat in let a1 := al w im in let b2 := bl w im in a1 <= m <= b2 -> rule a1 m = (area1, error1) -> rule m b2 = (area2, error2) ->
  let w' := update w a1 m area1 error1 m b2 area2 error2 in
  wsinv rule a b w' /\ limit w' = limit w /\ size w' = S (size w) /\
  sum_n (size w') (rl w') = sum_n (size w) (rl w) + (area1 + area2 - rl w im) /\ sum_n (size w') (el w') = sum_n (size w) (el w) + (error1 + error2 - el w im).
Proof.
  intros (Hs & HO & HP & HF) Hl im a1 b2 Hm R1 R2 w'. assert (OF := ordered_first _ _ _ _ HO ltac:(lia)). fold im in OF. destruct OF as [Him Hmx].
  destruct (HP im Him) as (P1 & P2 & P3). fold a1 b2 in P1, P2, P3.
  unfold w', update. fold im. destruct (rltb_spec error1 error2) as [L|L].
  - cbn [limit size al bl rl el order]. split; [|split; [reflexivity|split; [reflexivity|split]]].
    + split; [cbn; lia|]. split; [|split].
      * cbn [limit size el order]. apply (sort_ok (limit w) (size w) _ (el w)); [lia|exact HO| |].
        -- intros x Hx Nx. rewrite !set_ne by (fold im in Nx; lia). reflexivity.
        -- rewrite set_eq. rewrite set_ne by lia. fold im. rewrite set_eq. lra.
      * cbn [size al bl rl el]. intros i Hi. destruct (Nat.eq_dec i (size w)) as [->|N].
        -- rewrite !set_eq. split; [lra|split; [lra|exact R1]].
        -- rewrite !(set_ne _ (size w)) by lia. destruct (Nat.eq_dec i im) as [->|M].
           ++ rewrite !set_eq. fold b2. split; [lra|split; [lra|exact R2]].
           ++ rewrite !set_ne by exact M. apply HP. lia.
      * cbn [size al bl]. intros F. cbn [sum_n]. rewrite !set_eq.
        rewrite (sum_set (size w) (fun i => F (bl w i) - F (al w i)) _ im Him); [|intros k Hk Nk; rewrite !set_ne by lia; reflexivity].
        rewrite HF. rewrite !set_ne by lia. rewrite set_eq. fold a1 b2. ring.
    + cbn [sum_n]. rewrite set_eq. rewrite (sum_set (size w) (rl w) _ im Him); [|intros k Hk Nk; rewrite !set_ne by lia; reflexivity]. rewrite set_ne by lia. rewrite set_eq. ring.
    + cbn [sum_n]. rewrite set_eq. rewrite (sum_set (size w) (el w) _ im Him); [|intros k Hk Nk; rewrite !set_ne by lia; reflexivity]. rewrite set_ne by lia. rewrite set_eq. ring.
  - cbn [limit size al bl rl el order]. split; [|split; [reflexivity|split; [reflexivity|split]]].
    + split; [cbn; lia|]. split; [|split].
      * cbn [limit size el order]. apply (sort_ok (limit w) (size w) _ (el w)); [lia|exact HO| |].
        -- intros x Hx Nx. rewrite !set_ne by (fold im in Nx; lia). reflexivity.
        -- rewrite set_eq. rewrite set_ne by lia. fold im. rewrite set_eq. lra.
      * cbn [size al bl rl el]. intros i Hi. destruct (Nat.eq_dec i (size w)) as [->|N].
        -- rewrite !set_eq. split; [lra|split; [lra|exact R2]].
        -- rewrite !(set_ne _ (size w)) by lia. destruct (Nat.eq_dec i im) as [->|M].
           ++ rewrite !set_eq. fold a1. split; [lra|split; [lra|exact R1]].
           ++ rewrite !set_ne by exact M. apply HP. lia.
      * cbn [size al bl]. intros F. cbn [sum_n]. rewrite !set_eq.
        rewrite (sum_set (size w) (fun i => F (bl w i) - F (al w i)) _ im Him); [|intros k Hk Nk; rewrite !set_ne by lia; reflexivity].
        rewrite HF. rewrite !set_ne by lia. rewrite set_eq. rewrite ?set_ne by lia. fold a1 b2. ring.
    + cbn [sum_n]. rewrite set_eq. rewrite (sum_set (size w) (rl w) _ im Him); [|intros k Hk Nk; rewrite !set_ne by lia; reflexivity]. rewrite set_ne by lia. rewrite set_eq. ring.
    + cbn [sum_n]. rewrite set_eq. rewrite (sum_set (size w) (el w) _ im Him); [|intros k Hk Nk; rewrite !set_ne by lia; reflexivity]. rewrite set_ne by lia. rewrite set_eq. ring.
Qed.

Definition linv (rule : R -> R -> R * R) (a b : R) (L : nat) (s : lst) : Prop :=
  wsinv rule a b (l_ws s) /\ limit (l_ws s) = L /\ size (l_ws s) = l_iter s /\ (1 <= l_iter s <= L)%nat /\ (l_code s = 0 \/ l_code s = 3)%nat /\
  l_area s = sum_n (size (l_ws s)) (rl (l_ws s)) /\ l_errsum s = sum_n (size (l_ws s)) (el (l_ws s)) /\ l_neval s = (30 * l_iter s - 15)%nat.
Lemma body_inv rule a b L er ea s : linv rule a b L s -> (l_iter s < L)%nat ->
  linv rule a b L (body rule er ea s) /\ l_iter (body rule er ea s) = S (l_iter s) /\
  l_tol (body rule er ea s) = Rmax ea (er * Rabs (l_area (body rule er ea s))).
Proof.
  intros (W & HL & Hz & Hi & Hc & Ha & He & Hn) Hlt.
  assert (OF := ordered_first _ _ _ _ (proj1 (proj2 W)) ltac:(lia)). destruct OF as [Him _].
  assert (HP := proj1 (proj2 (proj2 W)) _ Him). destruct HP as (P1 & P2 & _).
  unfold body. set (im := order (l_ws s) 0%nat) in *. set (a_i := al (l_ws s) im) in *. set (b_i := bl (l_ws s) im) in *. set (m := 1/2 * (a_i + b_i)).
  destruct (rule a_i m) as [area1 error1] eqn:R1. destruct (rule m b_i) as [area2 error2] eqn:R2.
  assert (Hm : a_i <= m <= b_i) by (unfold m; lra).
  destruct (update_inv rule a b (l_ws s) m area1 error1 area2 error2 W ltac:(lia) Hm R1 R2) as (U1 & U2 & U3 & U4 & U5). fold im a_i b_i in U1, U2, U3, U4, U5.
  split; [|split; reflexivity]. unfold linv. cbn [l_ws l_area l_errsum l_iter l_code l_tol l_neval].
  split; [exact U1|]. split; [lia|]. split; [lia|]. split; [lia|]. split.
  { destruct (rltb _ _); [|exact Hc]. destruct (Nat.eqb_spec (l_iter s) (limit (l_ws s))) as [Q|Q]; [lia|]. destruct (andb _ _); [right; reflexivity|exact Hc]. }
  split; [rewrite U4, Ha; reflexivity|]. split; [rewrite U5, He; reflexivity|]. lia.
Qed.
Definition final (rule : R -> R -> R * R) (a b er ea : R) (L : nat) (s : lst) : Prop :=
  linv rule a b L s /\ (2 <= l_iter s)%nat /\ continue s = false /\ l_tol s = Rmax ea (er * Rabs (l_area s)).
Lemma loop_ok rule a b L er ea : forall fuel s, linv rule a b L s -> (l_iter s < L)%nat -> (L <= l_iter s + fuel)%nat ->
  exists s', loop fuel rule er ea s = Some s' /\ final rule a b er ea L s'.
Proof.
  induction fuel as [|f IH]; intros s I Hlt Hf; [lia|]. cbn [loop]. destruct (body_inv rule a b L er ea s I Hlt) as (I' & Hi & Ht).
  destruct (continue (body rule er ea s)) eqn:C.
  - apply IH; [exact I'| |lia]. unfold continue in C. apply andb_prop in C. destruct C as [C _]. apply Nat.ltb_lt in C. destruct I' as (_ & HL & _). lia.
  - eexists. split; [reflexivity|]. split; [exact I'|]. split; [rewrite Hi; destruct I as (_ & _ & _ & Q & _); lia|]. split; assumption.
Qed.
Lemma first_inv rule a b w : a <= b -> (2 <= limit w)%nat -> linv rule a b (limit w) (first w rule a b).
Proof.
  intros Hab HL. unfold first. destruct (rule a b) as [r e] eqn:E. unfold linv. cbn [l_ws l_area l_errsum l_iter l_code l_tol l_neval].
  split; [apply init_inv; assumption|]. split; [reflexivity|]. split; [reflexivity|]. split; [lia|]. split; [left; reflexivity|].
  split; [cbn; ring|]. split; [cbn; ring|reflexivity].
Qed.
Definition refused (epsrel epsabs : R) : Prop := epsabs <= 0 /\ (epsrel < 50 * DBL_EPSILON \/ epsrel < 5 / 10 ^ 29).
Lemma refuse_spec er ea : Bool.reflect (refused er ea) (andb (rleb ea 0) (orb (rltb er (50 * DBL_EPSILON)) (rltb er (5 / 10 ^ 29)))).
Proof.
  unfold refused. destruct (rleb_spec ea 0); cbn [andb]; [|constructor; tauto]. destruct (rltb_spec er (50 * DBL_EPSILON)); cbn [orb]; [constructor; auto|].
  destruct (rltb_spec er (5 / 10 ^ 29)); constructor; [auto|]. intros [_ [Q|Q]]; auto.
Qed.
(** the whole call *)
Theorem integrate_ok w rule a b er ea : (2 <= limit w)%nat -> ~ refused er ea ->
  let lo := Rmin a b in let hi := Rmax a b in
  exists s, loop (S (limit w)) rule er ea (first w rule lo hi) = Some s /\ final rule lo hi er ea (limit w) s /\
  integrate_rule w rule a b er ea = Some {| q_val := (if rltb b a then -1 else 1) * sum_n (size (l_ws s)) (rl (l_ws s)); q_err := Some (sum_n (size (l_ws s)) (el (l_ws s)));
     q_neval := Some (l_neval s); q_warn := if rltb (l_tol s) (sum_n (size (l_ws s)) (el (l_ws s))) then report (l_code s) else [] |}.
Proof.
  intros HL HR lo hi. assert (Hlh : lo <= hi) by (unfold lo, hi; apply Rle_trans with a; [apply Rmin_l|apply Rmax_l]).
  destruct (loop_ok rule lo hi (limit w) er ea (S (limit w)) (first w rule lo hi) (first_inv rule lo hi w Hlh HL)) as (s & E & F).
  - unfold first. destruct (rule lo hi). cbn. lia.
  - lia.
  - exists s. split; [exact E|]. split; [exact F|]. unfold integrate_rule. destruct (refuse_spec er ea); [contradiction|].
    destruct (rltb_spec b a) as [L|L].
    + replace b with lo by (unfold lo; apply Rmin_right; lra). replace a with hi by (unfold hi; apply Rmax_left; lra). rewrite E. reflexivity.
    + replace a with lo by (unfold lo; apply Rmin_left; lra). replace b with hi by (unfold hi; apply Rmax_right; lra). rewrite E. reflexivity.
Qed.
Lemma pieces_cut rule a b w : wsinv rule a b w -> cuts a b (pieces w).
Proof.
  intros (Hs & HO & HP & HF). split.
  - intros c d H. unfold pieces in H. apply in_map_iff in H. destruct H as (i & E & Hi). injection E as <- <-. apply in_seq in Hi. destruct (HP i ltac:(lia)) as (A & B & _). lra.
  - intros F. rewrite pieces_sum. apply HF.
Qed.
Lemma pieces_rule rule a b w : wsinv rule a b w -> sum_n (size w) (rl w) = lsum (map (fun I => fst (rule (fst I) (snd I))) (pieces w)) /\
  sum_n (size w) (el w) = lsum (map (fun I => snd (rule (fst I) (snd I))) (pieces w)).
Proof.
  intros (Hs & HO & HP & HF). rewrite !pieces_sum. split; apply sum_ext; intros i Hi; cbn [fst snd]; destruct (HP i Hi) as (_ & _ & E); rewrite E; reflexivity.
Qed.
