From Coq Require Import Reals ZArith List Arith Lra Lia.
From Verif Require Import M_Disc M_Poles.
Import ListNotations.
Local Open Scope R_scope.

Definition tab {A} (n : nat) (f : nat -> A) : list A := map f (seq 0 n).
Lemma tab_len {A} n (f : nat -> A) : length (tab n f) = n.
Proof. unfold tab. rewrite map_length, seq_length. reflexivity. Qed.
Lemma tab_ext {A} n (f g : nat -> A) : (forall i, (i < n)%nat -> f i = g i) -> tab n f = tab n g.
Proof. intros H. apply map_ext_in. intros i Hi. apply in_seq in Hi. apply H. lia. Qed.
Lemma tab_nth {A} n (f : nat -> A) i d : (i < n)%nat -> nth i (tab n f) d = f i.
Proof. intros H. unfold tab. rewrite (nth_indep _ d (f 0%nat)) by (rewrite map_length, seq_length; exact H). rewrite map_nth, seq_nth by exact H. reflexivity. Qed.
Lemma list_tab (v : list R) : v = tab (length v) (fun i => nth i v 0).
Proof. apply (nth_ext _ _ 0 0); [rewrite tab_len; reflexivity|]. intros i Hi. rewrite tab_nth by exact Hi. reflexivity. Qed.
Lemma all_some_tab {A} n (f : nat -> option A) g : (forall i, (i < n)%nat -> f i = Some (g i)) -> all_some (map f (seq 0 n)) = Some (tab n g).
Proof.
  unfold tab. assert (K : forall s, (forall i, (s <= i < s + n)%nat -> f i = Some (g i)) -> all_some (map f (seq s n)) = Some (map g (seq s n))).
  { induction n as [|n IH]; intros s H; [reflexivity|]. cbn [seq map all_some]. rewrite (H s) by lia. rewrite IH by (intros; apply H; lia). reflexivity. }
  intros H. apply K. intros i Hi. apply H. lia.
Qed.
Lemma pget_in v i : (i < length v)%nat -> pget v (Z.of_nat i) = Some (nth i v 0).
Proof.
  intros H. unfold pget. destruct (Z.ltb_spec (Z.of_nat i) 0); [lia|]. destruct (Z.leb_spec 0 (Z.of_nat i)); [|lia]. destruct (Z.ltb_spec (Z.of_nat i) (Z.of_nat (length v))); [|lia].
  cbn [andb]. rewrite Nat2Z.id. reflexivity.
Qed.
Lemma pget_end v k : (1 <= k <= length v)%nat -> pget v (- Z.of_nat k) = Some (nth (length v - k) v 0).
Proof.
  intros H. unfold pget. destruct (Z.ltb_spec (- Z.of_nat k) 0); [|lia]. destruct (Z.leb_spec 0 (- Z.of_nat k + Z.of_nat (length v))); [|lia].
  destruct (Z.ltb_spec (- Z.of_nat k + Z.of_nat (length v)) (Z.of_nat (length v))); [|lia]. cbn [andb]. do 2 f_equal. lia.
Qed.
(* a slice inside the array: m elements, step s *)
Lemma slice_tab v a b s m : (1 <= s)%nat -> (b <= length v)%nat -> (a + s * (m - 1) < b)%nat -> (b <= a + s * m)%nat -> (1 <= m)%nat ->
  slice v (Z.of_nat a) (Z.of_nat b) (Z.of_nat s) = Some (tab m (fun i => nth (a + s * i) v 0)).
Proof.
  intros Hs Hb H1 H2 Hm. unfold slice. destruct (Z.eqb_spec (Z.of_nat (length v)) 0); [lia|]. destruct (Z.ltb_spec (Z.of_nat a) 0); [lia|]. destruct (Z.ltb_spec (Z.of_nat b) 0); [lia|].
  destruct (Z.ltb_spec (Z.of_nat (length v)) (Z.of_nat b)); [lia|].
  assert (Q : Z.quot (Z.of_nat b - Z.of_nat a - 1) (Z.of_nat s) = Z.of_nat (m - 1)).
  { rewrite Z.quot_div_nonneg by lia. symmetry. apply Z.div_unique with (r := (Z.of_nat b - Z.of_nat a - 1 - Z.of_nat s * Z.of_nat (m - 1))%Z); [left; nia|ring]. }
  rewrite Q. destruct (Z.ltb_spec (1 + Z.of_nat (m - 1)) 0); [lia|]. replace (Z.to_nat (1 + Z.of_nat (m - 1))) with m by lia.
  apply all_some_tab. intros i Hi. replace (Z.of_nat a + Z.of_nat s * Z.of_nat i)%Z with (Z.of_nat (a + s * i)) by nia. apply pget_in. nia.
Qed.
Lemma slice_tab2 v a b m : (b <= length v)%nat -> (a + 2 * (m - 1) < b)%nat -> (b <= a + 2 * m)%nat -> (1 <= m)%nat ->
  slice v (Z.of_nat a) (Z.of_nat b) 2 = Some (tab m (fun i => nth (a + 2 * i) v 0)).
Proof. intros. change 2%Z with (Z.of_nat 2). apply slice_tab; lia. Qed.
Lemma slice_tab1 v b : (2 <= b)%nat -> (b <= length v)%nat ->
  slice v 1 (Z.of_nat b) 1 = Some (tab (b - 1) (fun i => nth (S i) v 0)).
Proof. intros. change 1%Z with (Z.of_nat 1). rewrite (slice_tab v 1 b 1 (b - 1)) by lia. f_equal. apply tab_ext. intros. f_equal. lia. Qed.
Lemma slice_last v : (2 <= length v)%nat -> slice v 0 (-1) 1 = Some (tab (length v - 1) (fun i => nth i v 0)).
Proof.
  intros H. assert (S := slice_tab v 0 (length v - 1) 1 (length v - 1) ltac:(lia) ltac:(lia) ltac:(lia) ltac:(lia) ltac:(lia)).
  change (Z.of_nat 0) with 0%Z in S. change (Z.of_nat 1) with 1%Z in S.
  assert (E : slice v 0 (-1) 1 = slice v 0 (Z.of_nat (length v - 1)) 1).
  { unfold slice. destruct (Z.ltb_spec (-1) 0); [|lia]. destruct (Z.ltb_spec (Z.of_nat (length v - 1)) 0); [lia|]. replace (-1 + Z.of_nat (length v))%Z with (Z.of_nat (length v - 1)) by lia. reflexivity. }
  rewrite E, S. f_equal. apply tab_ext. intros i _. f_equal. lia.
Qed.
Lemma zip_tab f n g k : zip f (Some (tab n g)) (Some (tab n k)) = Some (tab n (fun i => f (g i) (k i))).
Proof.
  unfold zip. rewrite !tab_len, Nat.eqb_refl. f_equal. unfold tab. generalize (seq 0 n). induction l as [|a l IH]; [reflexivity|]. cbn. f_equal. exact IH.
Qed.
Lemma mapo_tab f n g : mapo f (Some (tab n g)) = Some (tab n (fun i => f (g i))).
Proof. unfold mapo, tab. cbn. rewrite map_map. reflexivity. Qed.
Definition pt (x y : list R) (i : nat) : R * R := (nth i x 0, nth i y 0).
Lemma c_basic x y s m : length x = length y -> (1 <= m)%nat -> (s + 2 * m < length y)%nat ->
  c_basic_simps y (Z.of_nat s) (Z.of_nat (s + 2 * m - 1)) x = Some (total (tab m (fun i => seg (pt x y (s + 2 * i)) (pt x y (s + 2 * i + 1)) (pt x y (s + 2 * i + 2))))).
Proof.
  intros HL Hm Hs. unfold c_basic_simps.
  replace (Z.of_nat s + 1)%Z with (Z.of_nat (s + 1)) by lia. replace (Z.of_nat s + 2)%Z with (Z.of_nat (s + 2)) by lia.
  replace (Z.of_nat (s + 2 * m - 1) + 1)%Z with (Z.of_nat (s + 2 * m)) by lia. replace (Z.of_nat (s + 2 * m - 1) + 2)%Z with (Z.of_nat (s + 2 * m + 1)) by lia.
  rewrite (slice_tab2 y s (s + 2 * m - 1) m) by lia.
  rewrite (slice_tab2 y (s + 1) (s + 2 * m) m) by lia. rewrite (slice_tab2 y (s + 2) (s + 2 * m + 1) m) by lia.
  rewrite (slice_tab1 x (length y)) by lia. rewrite slice_last by lia. rewrite HL, zip_tab.
  set (H := tab (length y - 1) _). assert (LH : length H = (length y - 1)%nat) by apply tab_len.
  rewrite (slice_tab2 H s (s + 2 * m - 1) m) by lia. rewrite (slice_tab2 H (s + 1) (s + 2 * m) m) by lia.
  rewrite ?zip_tab, ?mapo_tab, ?zip_tab, ?mapo_tab, ?zip_tab. cbn [option_map]. do 2 f_equal. apply tab_ext. intros i Hi. unfold H. rewrite !tab_nth by lia. unfold seg, pt. cbn [fst snd].
  replace (S (s + 2 * i))%nat with (s + 2 * i + 1)%nat by lia. replace (S (s + 1 + 2 * i))%nat with (s + 2 * i + 2)%nat by lia.
  replace (s + 1 + 2 * i)%nat with (s + 2 * i + 1)%nat by lia. replace (s + 2 + 2 * i)%nat with (s + 2 * i + 2)%nat by lia.
  reflexivity.
Qed.
(* the model of scipy / the multipole code *)
Lemma basic_tab n : forall (g : nat -> R * R), basic_simps (map g (seq 0 (S (2 * n)))) = total (tab n (fun i => seg (g (2 * i)%nat) (g (2 * i + 1)%nat) (g (2 * i + 2)%nat))).
Proof.
  assert (K : forall m s (g : nat -> R * R), basic_simps (map g (seq s (S (2 * m)))) = total (map (fun i => seg (g (s + 2 * i)%nat) (g (s + 2 * i + 1)%nat) (g (s + 2 * i + 2)%nat)) (seq 0 m))).
  { induction m as [|m IH]; intros s g; [reflexivity|]. replace (S (2 * S m)) with (S (S (S (2 * m)))) by lia.
    change (map g (seq s (S (S (S (2 * m)))))) with (g s :: g (S s) :: map g (seq (S (S s)) (S (2 * m)))).
    change (basic_simps (g s :: g (S s) :: map g (seq (S (S s)) (S (2 * m))))) with (seg (g s) (g (S s)) (g (S (S s))) + basic_simps (map g (seq (S (S s)) (S (2 * m))))).
    rewrite IH. cbn [seq map total]. f_equal.
    - f_equal; f_equal; lia.
    - f_equal. rewrite <- seq_shift, map_map. apply map_ext. intros i. f_equal; f_equal; lia. }
  intros g. exact (K n 0%nat g).
Qed.
Lemma combine_tab n (f g : nat -> R) : combine (tab n f) (tab n g) = map (fun i => (f i, g i)) (seq 0 n).
Proof. unfold tab. generalize (seq 0 n). induction l as [|a l IH]; [reflexivity|]. cbn. f_equal. exact IH. Qed.
Lemma combine_pt x y : length x = length y -> combine x y = map (pt x y) (seq 0 (length y)).
Proof.
  intros HL. transitivity (combine (tab (length y) (fun i => nth i x 0)) (tab (length y) (fun i => nth i y 0))); [|apply combine_tab].
  f_equal; [rewrite <- HL|]; apply list_tab.
Qed.
Lemma firstn_map_seq {A} (g : nat -> A) k n s : (k <= n)%nat -> firstn k (map g (seq s n)) = map g (seq s k).
Proof. revert n s. induction k as [|k IH]; intros n s H; [reflexivity|]. destruct n as [|n]; [lia|]. cbn. f_equal. apply IH. lia. Qed.
Lemma nth_map_seq {A} (g : nat -> A) i n d : (i < n)%nat -> nth i (map g (seq 0 n)) d = g i.
Proof. apply tab_nth. Qed.
Lemma c_simps_ok x y : length x = length y -> (3 <= length y)%nat -> c_simps x y = Some (simps (combine x y)).
Proof.
  intros HL H3. rewrite combine_pt by exact HL. unfold c_simps, simps. rewrite map_length, seq_length.
  destruct (Nat.Even_or_Odd (length y)) as [[m Hm]|[m Hm]].
  - assert (HE : Nat.even (length y) = true) by (apply Nat.even_spec; exists m; exact Hm). rewrite HE.
    assert (HR : Z.rem (Z.of_nat (length y)) 2 = 0%Z). { rewrite Hm, Nat2Z.inj_mul. rewrite Z.mul_comm. apply Z.rem_mul. lia. }
    rewrite HR. change ((0 =? 0)%Z) with true. cbn [obind].
    change (-1)%Z with (- Z.of_nat 1)%Z. change (-2)%Z with (- Z.of_nat 2)%Z. rewrite !pget_end by lia. cbn [obind].
    assert (B1 := c_basic x y 0 (m - 1) HL ltac:(lia) ltac:(lia)). change (Z.of_nat 0) with 0%Z in B1. replace (Z.of_nat (0 + 2 * (m - 1) - 1)) with (Z.of_nat (length y) - 3)%Z in B1 by lia. rewrite B1. cbn [obind].
    assert (P0 := pget_in x 0 ltac:(lia)). assert (P1 := pget_in x 1 ltac:(lia)). assert (Q0 := pget_in y 0 ltac:(lia)). assert (Q1 := pget_in y 1 ltac:(lia)).
    change (Z.of_nat 0) with 0%Z in P0, Q0. change (Z.of_nat 1) with 1%Z in P1, Q1. rewrite P0, P1, Q0, Q1. cbn [obind].
    assert (B2 := c_basic x y 1 (m - 1) HL ltac:(lia) ltac:(lia)). change (Z.of_nat 1) with 1%Z in B2. replace (Z.of_nat (1 + 2 * (m - 1) - 1)) with (Z.of_nat (length y) - 2)%Z in B2 by lia. rewrite B2. cbn [obind].
    rewrite firstn_map_seq by lia. replace (length y - 1)%nat with (S (2 * (m - 1))) at 2 by lia. rewrite basic_tab.
    assert (T : tl (map (pt x y) (seq 0 (length y))) = map (fun i => pt x y (S i)) (seq 0 (S (2 * (m - 1))))).
    { replace (length y) with (S (S (2 * (m - 1)))) by lia. cbn [seq map tl]. rewrite <- seq_shift, map_map. reflexivity. }
    rewrite T, basic_tab. rewrite !nth_map_seq by lia. unfold trap. cbn [pt fst snd]. rewrite HL.
    reflexivity.
  - assert (HE : Nat.even (length y) = false). { rewrite <- Nat.negb_odd. replace (Nat.odd (length y)) with true; [reflexivity|]. symmetry. apply Nat.odd_spec. exists m. exact Hm. }
    rewrite HE. assert (HR : (Z.rem (Z.of_nat (length y)) 2 =? 0)%Z = false).
    { apply Z.eqb_neq. rewrite Z.rem_mod_nonneg by lia. rewrite Hm. replace (Z.of_nat (2 * m + 1)) with (1 + Z.of_nat m * 2)%Z by lia. rewrite Z.mod_add by lia. discriminate. }
    rewrite HR. assert (B1 := c_basic x y 0 m HL ltac:(lia) ltac:(lia)). change (Z.of_nat 0) with 0%Z in B1. replace (Z.of_nat (0 + 2 * m - 1)) with (Z.of_nat (length y) - 2)%Z in B1 by lia. rewrite B1.
    replace (length y) with (S (2 * m)) by lia. rewrite basic_tab. reflexivity.
Qed.
