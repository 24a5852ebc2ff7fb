(** * Proofs about rank splitting and output names *)
From Coq Require Import String Ascii ZArith List Bool Arith Lia Decimal DecimalString DecimalNat.
From Verif Require Import M_Ranks.
Import ListNotations.
Open Scope list_scope.

(** ** ranks *)
Lemma skipn_seq : forall k s n, skipn k (seq s n) = seq (s + k) (n - k).
Proof.
  induction k; intros s n; cbn [skipn].
  - now rewrite Nat.add_0_r, Nat.sub_0_r.
  - destruct n; cbn [seq]; auto. rewrite IHk. f_equal; lia.
Qed.
Lemma firstn_seq : forall k s n, k <= n -> firstn k (seq s n) = seq s k.
Proof. induction k; intros s n H; auto. destruct n; [lia|]. cbn. f_equal. apply IHk. lia. Qed.
Lemma ranks_seq : forall N a b, a <= b -> b <= N -> ranks N a b = seq a (b - a).
Proof. intros. unfold ranks. rewrite skipn_seq, firstn_seq by lia. auto. Qed.

Lemma loop_cover : forall N avg k i start rem, rem <= k -> start + k * avg + rem <= N ->
  concat (map snd (split_loop N avg k i start (start + avg) rem)) = seq start (k * avg + rem).
Proof.
  induction k as [|k IH]; intros i start rem H1 H2.
  - cbn. replace rem with 0 by lia. auto.
  - cbn [split_loop]. destruct (Nat.eqb_spec rem 0) as [->|E]; cbn [map concat snd].
    + rewrite IH by (cbn in *; lia). rewrite ranks_seq by (cbn in *; lia). replace (start + avg - start) with avg by lia. rewrite <- seq_app. f_equal. cbn. lia.
    + rewrite IH by (cbn in *; lia). rewrite ranks_seq by (cbn in *; lia). replace (start + avg + 1 - start) with (avg + 1) by lia.
      replace (start + avg + 1) with (start + (avg + 1)) by lia. rewrite <- seq_app. f_equal. cbn. lia.
Qed.
Lemma loop_sizes : forall N avg k i start rem, rem <= k -> start + k * avg + rem <= N ->
  Forall (fun g => length (snd g) = avg \/ length (snd g) = avg + 1) (split_loop N avg k i start (start + avg) rem).
Proof.
  induction k as [|k IH]; intros i start rem H1 H2; cbn [split_loop]; [constructor|].
  destruct (Nat.eqb_spec rem 0) as [->|E]; constructor; cbn [snd].
  - rewrite ranks_seq by (cbn in *; lia). rewrite seq_length. lia.
  - apply IH; cbn in *; lia.
  - rewrite ranks_seq by (cbn in *; lia). rewrite seq_length. lia.
  - apply IH; cbn in *; lia.
Qed.
Lemma loop_fst : forall N avg k i start stop rem, map fst (split_loop N avg k i start stop rem) = seq i k.
Proof.
  induction k as [|k IH]; intros; cbn [split_loop map seq]; auto. destruct (rem =? 0)%nat; cbn [map fst]; f_equal; rewrite IH; f_equal; lia.
Qed.
Theorem split_spec : forall N n, 0 < n -> exists l, split_ranks N n = Some l /\ map fst l = seq 0 n /\ concat (map snd l) = seq 0 N /\
  Forall (fun g => length (snd g) = N / n \/ length (snd g) = N / n + 1) l.
Proof.
  intros N n H. unfold split_ranks. destruct (Nat.eqb_spec n 0); [lia|]. eexists. split; [reflexivity|].
  assert (E := Nat.div_mod N n n0). assert (B := Nat.mod_upper_bound N n n0). split; [apply loop_fst|]. split.
  - assert (C := loop_cover N (N / n) n 0 0 (N mod n)). cbn [plus] in C. rewrite C by lia. f_equal. lia.
  - apply (loop_sizes N (N / n) n 0 0 (N mod n)); cbn; lia.
Qed.
(** every group is non-empty exactly when there are enough ranks *)
Lemma in_groups : forall l x, In x (concat (map snd l)) -> exists g : nat * list nat, In g l /\ In x (snd g).
Proof. intros l x H. apply in_concat in H. destruct H as (g & H1 & H2). apply in_map_iff in H1. destruct H1 as (p & <- & H1). eauto. Qed.
Fixpoint colour_of (rank : nat) (l : list (nat * list nat)) (color : option nat) : option nat :=
  match l with [] => color | (i, rs) :: l => colour_of rank l (if existsb (Nat.eqb rank) rs then Some i else color) end.
Lemma enter_loop_ok : forall l rank roots color, Forall (fun g : nat * list nat => snd g <> []) l ->
  enter_loop rank l roots color = Entered (roots ++ map (fun g => hd 0 (snd g)) l) (colour_of rank l color).
Proof.
  induction l as [|[i g] l IH]; intros rank roots color H; cbn [enter_loop colour_of map].
  - now rewrite app_nil_r.
  - inversion H as [|? ? Hg Hl]; subst. cbn in Hg. destruct g as [|r0 g]; [congruence|]. rewrite IH by auto. cbn [hd snd]. now rewrite <- app_assoc.
Qed.
Lemma enter_loop_bad : forall l rank roots color, (exists g, In g l /\ snd g = []) -> enter_loop rank l roots color = IndexError.
Proof.
  induction l as [|[i g] l IH]; intros rank roots color (x & Hx & E); [destruct Hx|]. cbn. destruct g as [|r0 g]; auto. apply IH. destruct Hx as [<-|Hx]; [discriminate|eauto].
Qed.
Lemma existsb_in : forall r l, existsb (Nat.eqb r) l = true <-> In r l.
Proof. intros. rewrite existsb_exists. split; [intros (x & H & E); apply Nat.eqb_eq in E; now subst|intros H; exists r; split; auto; apply Nat.eqb_refl]. Qed.
Lemma colour_none : forall l rank color, ~ In rank (concat (map snd l)) -> colour_of rank l color = color.
Proof.
  induction l as [|[i g] l IH]; intros rank color H; cbn in *; auto. rewrite IH by (intros K; apply H; apply in_or_app; auto).
  destruct (existsb (Nat.eqb rank) g) eqn:E; auto. exfalso. apply H. apply in_or_app. left. now apply existsb_in.
Qed.
Lemma colour_unique : forall l rank color i g, In (i, g) l -> In rank g -> NoDup (concat (map snd l)) -> colour_of rank l color = Some i.
Proof.
  induction l as [|[j h] l IH]; intros rank color i g H Hr Hn; [destruct H|]. cbn [colour_of]. cbn [map concat snd] in Hn. destruct H as [E|H].
  - injection E as -> ->. rewrite (proj2 (existsb_in rank g) Hr). apply colour_none. intros K. clear -Hn Hr K.
    induction g; [destruct Hr|]. inversion Hn; subst. destruct Hr as [->|Hr]; auto. apply H1. apply in_or_app. auto.
  - eapply IH; eauto. clear -Hn. induction h; cbn in *; auto. inversion Hn; auto.
Qed.

(** ** decimal numbers and names *)
Open Scope string_scope.
Lemma dec_inj : forall a b, dec a = dec b -> a = b.
Proof.
  intros a b H. unfold dec in H. assert (E : Some (Nat.to_uint a) = Some (Nat.to_uint b)). { now rewrite <- !NilEmpty.usu, H. }
  injection E as E. now apply Unsigned.to_uint_inj in E.
Qed.
Lemma append_inj_l : forall a b c : string, a ++ b = a ++ c -> b = c.
Proof. induction a; cbn; intros b c H; auto. injection H. auto. Qed.
Lemma append_assoc : forall a b c : string, (a ++ b) ++ c = a ++ b ++ c.
Proof. induction a; cbn; intros; auto. now f_equal. Qed.
Lemma append_length : forall a b : string, String.length (a ++ b) = String.length a + String.length b.
Proof. induction a; cbn; auto. Qed.
Lemma append_inj_r : forall a b c : string, a ++ c = b ++ c -> a = b.
Proof.
  intros a. induction a as [|x a IH]; intros b c H; destruct b as [|y b]; auto.
  - apply (f_equal String.length) in H. cbn in H. rewrite append_length in H. lia.
  - apply (f_equal String.length) in H. cbn in H. rewrite append_length in H. lia.
  - cbn in H. injection H as -> H. f_equal. eauto.
Qed.
Lemma fname_inj : forall base s t, fname base s = fname base t -> s = t.
Proof. intros base s t H. unfold fname in H. apply append_inj_l in H. apply append_inj_r in H. now apply dec_inj. Qed.

(** a run of digits followed by something that does not start with a digit can be read off *)
Definition is_digit (c : ascii) : bool := let n := nat_of_ascii c in ((48 <=? n) && (n <=? 57))%nat.
Fixpoint all_digits (s : string) : bool := match s with EmptyString => true | String c s => is_digit c && all_digits s end.
Definition no_digit_head (s : string) : Prop := match s with EmptyString => True | String c _ => is_digit c = false end.
Lemma dec_digits : forall n, all_digits (dec n) = true.
Proof. intros n. unfold dec. induction (Nat.to_uint n); cbn; auto. Qed.
Lemma digits_split : forall a b r t, all_digits a = true -> all_digits b = true -> no_digit_head r -> no_digit_head t -> a ++ r = b ++ t -> a = b /\ r = t.
Proof.
  induction a as [|x a IH]; intros b r t Ha Hb Hr Ht H; destruct b as [|y b]; cbn in *; auto.
  - subst r. apply andb_true_iff in Hb. cbn in Hr. destruct Hb. congruence.
  - subst t. apply andb_true_iff in Ha. cbn in Ht. destruct Ha. congruence.
  - injection H as -> H. apply andb_true_iff in Ha, Hb. destruct (IH b r t) as [-> ->]; tauto.
Qed.
Lemma different_chains : forall date tag c c' s s', fname (outname_base date tag c None) s = fname (outname_base date tag c' None) s' -> c = c' /\ s = s'.
Proof.
  intros date tag c c' s s' H. unfold fname, outname_base in H. rewrite !append_assoc in H. apply append_inj_l in H. apply append_inj_l in H. apply append_inj_l in H. apply append_inj_l in H.
  apply digits_split in H; auto using dec_digits; try reflexivity. destruct H as [H1 H2]. split; [now apply dec_inj|]. cbn in H2. injection H2 as H2.
  apply append_inj_r in H2. now apply dec_inj.
Qed.

(** ** the search for a free name *)
Open Scope list_scope.
Lemma exists_in_spec : forall dir f, exists_in dir f = true <-> In f dir.
Proof. intros. unfold exists_in. rewrite existsb_exists. split; [intros (x & H & E); apply String.eqb_eq in E; now subst|intros H; exists f; split; auto; apply String.eqb_refl]. Qed.
Lemma probe_some : forall fuel base dir s r, probe fuel base dir s = Some r -> ~ In (fname base r) dir /\ s <= r /\ forall q, s <= q < r -> In (fname base q) dir.
Proof.
  induction fuel; intros base dir s r H; cbn in H; [discriminate|]. destruct (exists_in dir (fname base s)) eqn:E.
  - apply IHfuel in H. destruct H as (A & B & C). split; auto. split; [lia|]. intros q Hq. destruct (Nat.eq_dec q s) as [->|]; [now apply exists_in_spec|]. apply C. lia.
  - injection H as <-. split; [intros K; apply exists_in_spec in K; congruence|]. split; [lia|]. intros q Hq; lia.
Qed.
Lemma probe_none : forall fuel base dir s, probe fuel base dir s = None -> forall q, s <= q < s + fuel -> In (fname base q) dir.
Proof.
  induction fuel; intros base dir s H q Hq; [lia|]. cbn in H. destruct (exists_in dir (fname base s)) eqn:E; [|discriminate].
  destruct (Nat.eq_dec q s) as [->|]; [now apply exists_in_spec|]. apply (IHfuel base dir (S s)); auto. lia.
Qed.
Lemma NoDup_map_inj : forall A B (f : A -> B) l, (forall x y, f x = f y -> x = y) -> NoDup l -> NoDup (map f l).
Proof.
  intros A B f l H N. induction N; cbn; constructor; auto. intros K. apply in_map_iff in K. destruct K as (y & K1 & K2). apply H in K1. now subst.
Qed.
Lemma probe_enough : forall base dir s, probe (S (List.length dir)) base dir s <> None.
Proof.
  intros base dir s H. assert (A := probe_none _ _ _ _ H).
  assert (N : NoDup (map (fname base) (seq s (S (List.length dir))))). { apply NoDup_map_inj. - intros x y. apply fname_inj. - apply seq_NoDup. }
  assert (L := NoDup_incl_length N (l' := dir)). rewrite map_length, seq_length in L. assert (S (List.length dir) <= List.length dir); [|lia]. apply L.
  intros x Hx. apply in_map_iff in Hx. destruct Hx as (q & <- & Hq). apply in_seq in Hq. apply A. lia.
Qed.
Section S.
Variable suffix_of : string -> option Z.
Lemma scan_bound : forall base dir s0 s, scan suffix_of base dir s0 = Some s -> s0 <= s /\ forall f z i, In f dir -> String.index 0 base f = Some i -> suffix_of f = Some z -> (z <= Z.of_nat s)%Z.
Proof.
  induction dir as [|g dir IH]; intros s0 s H; cbn [scan] in H.
  - injection H as <-. split; auto. intros f z i [].
  - destruct (String.index 0 base g) as [i0|] eqn:Ei.
    + destruct (suffix_of g) as [z0|] eqn:Ez; [|discriminate]. apply IH in H. destruct H as [H1 H2]. destruct (Z.gtb_spec z0 (Z.of_nat s0)); split; try lia.
      * intros f z i [<-|Hf] Hi Hz; [|eauto]. assert (z = z0) by congruence. subst. lia.
      * intros f z i [<-|Hf] Hi Hz; [|eauto]. assert (z = z0) by congruence. subst. lia.
    + apply IH in H. destruct H as [H1 H2]. split; auto. intros f z i [<-|Hf] Hi Hz; [congruence|eauto].
Qed.
Lemma scan_none : forall base dir s0, scan suffix_of base dir s0 = None <-> exists f i, In f dir /\ String.index 0 base f = Some i /\ suffix_of f = None.
Proof.
  induction dir as [|g dir IH]; intros s0; cbn [scan].
  - split; [discriminate|]. intros (f & i & [] & _).
  - destruct (String.index 0 base g) as [i0|] eqn:Ei; [destruct (suffix_of g) as [z0|] eqn:Ez|].
    + rewrite IH. split; intros (f & i & A & B & C); [exists f, i; cbn; auto|]. destruct A as [<-|A]; [congruence|]. exists f, i. auto.
    + split; auto. intros _. exists g, i0. cbn. auto.
    + rewrite IH. split; intros (f & i & A & B & C); [exists f, i; cbn; auto|]. destruct A as [<-|A]; [congruence|]. exists f, i. auto.
Qed.
Theorem create_spec : forall base dir,
  (exists n, create_output_file suffix_of base dir = Created (fname base n) (fname base n :: dir) /\ ~ In (fname base n) dir /\
     forall f z i, In f dir -> String.index 0 base f = Some i -> suffix_of f = Some z -> (z < Z.of_nat n)%Z) \/
  (create_output_file suffix_of base dir = BadSuffix /\ exists f i, In f dir /\ String.index 0 base f = Some i /\ suffix_of f = None).
Proof.
  intros base dir. unfold create_output_file, choose. destruct (scan suffix_of base dir 0) as [s|] eqn:E.
  - destruct (probe (S (List.length dir)) base dir (S s)) as [n|] eqn:P; [|now apply probe_enough in P]. left. exists n. split; auto.
    apply probe_some in P. destruct P as (A & B & _). split; auto. intros f z i H1 H2 H3. apply scan_bound in E. destruct E as [_ E]. specialize (E f z i H1 H2 H3). lia.
  - right. split; auto. now apply scan_none in E.
Qed.
Theorem create_all_spec : forall bases dir ns dir', create_all suffix_of bases dir = Some (ns, dir') -> NoDup ns /\ (forall n, In n ns -> ~ In n dir) /\ (forall f, In f dir' <-> In f ns \/ In f dir).
Proof.
  induction bases as [|b bases IH]; intros dir ns dir' H; cbn in H.
  - injection H as <- <-. split; [constructor|]. split; [intros n []|]. intros f. cbn. tauto.
  - destruct (create_spec b dir) as [(n & E & F & _)|[E _]]; rewrite E in H; [|discriminate].
    destruct (create_all suffix_of bases (fname b n :: dir)) as [[ns0 d0]|] eqn:K; [|discriminate]. injection H as <- <-. apply IH in K. destruct K as (A & B & C).
    split; [constructor; auto; intros K; apply (B _ K); now left|]. split.
    + intros m [<-|Hm]; auto. intros K. apply (B m Hm). now right.
    + intros f. rewrite C. cbn. intuition.
Qed.
End S.
