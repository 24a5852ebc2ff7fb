(** Proofs about (k, mu) evaluation and multipole integration *)
From Coq Require Import Reals List Arith Bool Lia Lra.
From Coquelicot Require Import Coquelicot.
From Verif Require Import M_Transfer M_Poles P_Simps S_Poles.
Import ListNotations.
Local Open Scope R_scope.

(** ** broadcasting *)
Lemma map_nth_seq : forall (A : Type) (d : A) l, map (fun i => nth i l d) (seq 0 (length l)) = l.
Proof.
  intros A d. induction l; auto. cbn [length seq map nth]. f_equal. rewrite <- seq_shift, map_map. apply IHl.
Qed.
Lemma call_grid : forall f k mu, length k <> 1%nat -> length mu <> 1%nat -> length k <> length mu ->
  exists v, call f false (Vec k) (Vec mu) = L2 k mu v /\ forall i j, (i < length k)%nat -> (j < length mu)%nat -> v i j = f (nth i k 0) (nth j mu 0).
Proof.
  intros f k mu N1 N2 N3. unfold call. cbn [to_arr align]. replace (length mu =? length k)%nat with false by (symmetry; apply Nat.eqb_neq; auto).
  unfold column, row. cbn [broadcast]. unfold bdim.
  assert (E1 : (length k =? 1)%nat = false) by (apply Nat.eqb_neq; auto). assert (E2 : (length mu =? 1)%nat = false) by (apply Nat.eqb_neq; auto).
  rewrite (Nat.eqb_sym 1 (length mu)), E1, E2, Nat.eqb_refl, E1, E2. cbn [orb].
  exists (fun i j => f (stretch (length k) 1 (fun i _ => nth i k 0) i j) (stretch 1 (length mu) (fun _ j => nth j mu 0) i j)). split.
  - unfold stretch, pick. rewrite E1, E2. rewrite !map_nth_seq. reflexivity.
  - intros i j Hi Hj. unfold stretch, pick. rewrite E1, E2. reflexivity.
Qed.
Lemma call_pairs : forall f fl k mu, length k = length mu -> call f fl (Vec k) (Vec mu) = L1 (map (fun p => (fst p, snd p, f (fst p) (snd p))) (combine k mu)).
Proof. intros. unfold call. cbn [to_arr align]. rewrite H, Nat.eqb_refl. cbn [broadcast]. rewrite H, Nat.eqb_refl. reflexivity. Qed.
Lemma ravelF_length : forall A nr nc (a : nat -> nat -> A), length (ravelF nr nc a) = (nc * nr)%nat.
Proof. intros. unfold ravelF. enough (H : forall s, length (flat_map (fun j => map (fun i => a i j) (seq 0 nr)) (seq s nc)) = (nc * nr)%nat) by apply H. induction nc; intros s; auto. cbn [seq flat_map]. rewrite app_length, map_length, seq_length, IHnc. lia. Qed.
Lemma nth_map_seq : forall A (g : nat -> A) n i, (i < n)%nat -> nth_error (map g (seq 0 n)) i = Some (g i).
Proof. intros. rewrite nth_error_map. rewrite (nth_error_nth' (seq 0 n) 0%nat) by (rewrite seq_length; auto). rewrite seq_nth by auto. reflexivity. Qed.
Lemma ravelF_nth : forall A nr nc (a : nat -> nat -> A) i j, (i < nr)%nat -> (j < nc)%nat -> nth_error (ravelF nr nc a) (j * nr + i) = Some (a i j).
Proof.
  intros A nr nc a i j Hi. unfold ravelF.
  enough (H : forall s j, (j < nc)%nat -> nth_error (flat_map (fun j => map (fun i => a i j) (seq 0 nr)) (seq s nc)) (j * nr + i) = Some (a i (s + j)%nat)) by (intros; rewrite H by auto; reflexivity).
  induction nc; intros s j' Hj; [lia|]. cbn [seq flat_map]. destruct j'.
  - rewrite nth_error_app1 by (rewrite map_length, seq_length; lia). cbn [Nat.mul Nat.add]. rewrite nth_map_seq by auto. rewrite Nat.add_0_r. reflexivity.
  - rewrite nth_error_app2 by (rewrite map_length, seq_length; cbn; lia). rewrite map_length, seq_length. replace (S j' * nr + i - nr)%nat with (j' * nr + i)%nat by (cbn; lia).
    rewrite IHnc by lia. f_equal. f_equal. lia.
Qed.
Lemma nth_error_combine : forall A B (l : list A) (l' : list B) i a b, nth_error l i = Some a -> nth_error l' i = Some b -> nth_error (combine l l') i = Some (a, b).
Proof. induction l; destruct l', i; cbn; intros; try discriminate; [congruence|auto]. Qed.
Lemma pick_in : forall n i, (i < n)%nat -> pick n i = i.
Proof. intros. unfold pick. destruct (Nat.eqb_spec n 1); auto. lia. Qed.
Lemma call_flat : forall f k mu, length k <> length mu ->
  exists l, call f true (Vec k) (Vec mu) = L1 l /\ length l = (length mu * length k)%nat /\
  forall i j x m, nth_error k i = Some x -> nth_error mu j = Some m -> nth_error l (j * length k + i) = Some (x, m, f x m).
Proof.
  intros f k mu N. unfold call. cbn [to_arr align]. replace (length mu =? length k)%nat with false by (symmetry; apply Nat.eqb_neq; auto).
  unfold column, row. cbn [broadcast].
  assert (B1 : bdim (length k) 1 = Some (length k)) by (unfold bdim; destruct (length k =? 1)%nat eqn:E; rewrite ?Nat.eqb_refl; auto).
  assert (B2 : bdim 1 (length mu) = Some (length mu)) by (unfold bdim; rewrite Nat.eqb_refl; destruct (Nat.eqb_spec 1 (length mu)); congruence).
  rewrite B1, B2. eexists. split; [reflexivity|]. split.
  - rewrite map_length, combine_length, !ravelF_length. lia.
  - intros i j x m Hx Hm. assert (Hi : (i < length k)%nat) by (apply nth_error_Some; congruence). assert (Hj : (j < length mu)%nat) by (apply nth_error_Some; congruence).
    rewrite nth_error_map. rewrite (nth_error_combine _ _ _ _ _ x m).
    + reflexivity.
    + rewrite ravelF_nth by auto. unfold stretch. rewrite pick_in by auto. f_equal. apply nth_error_nth. auto.
    + rewrite ravelF_nth by auto. unfold stretch. rewrite (pick_in (length mu)) by auto. f_equal. apply nth_error_nth. auto.
Qed.
Lemma call_one : forall f k mu, length k <> length mu -> length k = 1%nat \/ length mu = 1%nat -> call f false (Vec k) (Vec mu) = ValueError.
Proof.
  intros f k mu N O. unfold call. cbn [to_arr align]. replace (length mu =? length k)%nat with false by (symmetry; apply Nat.eqb_neq; auto).
  unfold column, row. cbn [broadcast].
  assert (B1 : bdim (length k) 1 = Some (length k)) by (unfold bdim; destruct (length k =? 1)%nat eqn:E; rewrite ?Nat.eqb_refl; auto).
  assert (B2 : bdim 1 (length mu) = Some (length mu)) by (unfold bdim; rewrite Nat.eqb_refl; destruct (Nat.eqb_spec 1 (length mu)); congruence).
  rewrite B1, B2. destruct O as [O|O]; rewrite O, Nat.eqb_refl; [|rewrite orb_true_r]; reflexivity.
Qed.
Lemma call_mesh : forall f k mu, length k <> 1%nat -> length mu <> 1%nat ->
  forall a b, (forall i j, (i < length k)%nat -> (j < length mu)%nat -> a i j = nth i k 0 /\ b i j = nth j mu 0) -> (0 < length k)%nat -> (0 < length mu)%nat ->
  exists v, call f false (Mat (length k) (length mu) a) (Mat (length k) (length mu) b) = L2 k mu v /\
  forall i j, (i < length k)%nat -> (j < length mu)%nat -> v i j = f (nth i k 0) (nth j mu 0).
Proof.
  intros f k mu N1 N2 a b H Pk Pm. unfold call. cbn [to_arr align broadcast]. unfold bdim. rewrite !Nat.eqb_refl.
  assert (E1 : (length k =? 1)%nat = false) by (apply Nat.eqb_neq; auto). assert (E2 : (length mu =? 1)%nat = false) by (apply Nat.eqb_neq; auto).
  rewrite E1, E2. cbn [orb]. unfold stretch, pick. rewrite E1, E2. exists (fun i j => f (a i j) (b i j)). split.
  - assert (Ek : map (fun i => a i 0%nat) (seq 0 (length k)) = k).
    { transitivity (map (fun i => nth i k 0) (seq 0 (length k))); [|apply map_nth_seq]. apply map_ext_in. intros i Hi. apply in_seq in Hi. apply H; lia. }
    assert (Em : map (fun j => b 0%nat j) (seq 0 (length mu)) = mu).
    { transitivity (map (fun i => nth i mu 0) (seq 0 (length mu))); [|apply map_nth_seq]. apply map_ext_in. intros i Hi. apply in_seq in Hi. apply H; lia. }
    rewrite Ek, Em. reflexivity.
  - intros i j Hi Hj. destruct (H i j Hi Hj) as [-> ->]. reflexivity.
Qed.

(** ** Simpson's rule on linspace *)
Lemma simps_linspace : forall (g : R -> R) M n, (0 < n)%nat -> smooth4 g M ->
  Rabs (simps (map (fun x => (x, g x)) (linspace01 (S (2 * n)))) - RInt g 0 1) <= M / (180 * INR (2 * n) ^ 4).
Proof.
  intros g M n Hn (g1 & g2 & g3 & g4 & S4).
  destruct (antider g g1) as (F & DF & EF); [intros; apply S4; auto|].
  assert (Pn : 0 < INR (2 * n)) by (apply lt_0_INR; lia).
  assert (B := simps_bound F g g1 g2 g3 g4 0 1 M DF (fun x H => proj1 (S4 x H)) (fun x H => proj1 (proj2 (S4 x H))) (fun x H => proj1 (proj2 (proj2 (S4 x H))))
     (fun x H => proj1 (proj2 (proj2 (proj2 (S4 x H))))) (fun x H => proj2 (proj2 (proj2 (proj2 (S4 x H))))) n 0 (/ INR (2 * n))).
  assert (E1 : 0 + INR (2 * n) * / INR (2 * n) = 1) by (field; lra). rewrite E1 in B.
  specialize (B (Rinv_0_lt_compat _ Pn) (Rle_refl 0) (Rle_refl 1)). rewrite <- EF.
  unfold simps. rewrite map_length. unfold linspace01 at 1. rewrite map_length, seq_length.
  replace (Nat.even (S (2 * n))) with false by (symmetry; apply not_true_is_false; rewrite Nat.even_spec; intros [m Hm]; lia).
  assert (E2 : map (fun x => (x, g x)) (linspace01 (S (2 * n))) = map (fun i => (0 + INR i * / INR (2 * n), g (0 + INR i * / INR (2 * n)))) (seq 0 (S (2 * n)))).
  { unfold linspace01. rewrite map_map. replace (S (2 * n) - 1)%nat with (2 * n)%nat by lia. apply map_ext. intros i. unfold Rdiv. rewrite Rplus_0_l. reflexivity. }
  rewrite E2. eapply Rle_trans; [exact B|]. apply Req_le. rewrite (mult_INR 2 n). assert (INR n <> 0) by (apply not_0_INR; lia). change (INR 2) with 2. field. auto.
Qed.
Lemma linspace_length : forall n, length (linspace01 n) = n.
Proof. intros. unfold linspace01. rewrite map_length, seq_length. reflexivity. Qed.
Lemma combine_map_nth : forall (l : list R) (g : R -> R) (h : nat -> R), (forall j, (j < length l)%nat -> h j = g (nth j l 0)) ->
  combine l (map h (seq 0 (length l))) = map (fun x => (x, g x)) l.
Proof.
  induction l; intros g h H; auto. cbn [length seq map combine]. f_equal; [f_equal; apply H; cbn; lia|].
  rewrite <- seq_shift, map_map. apply IHl. intros j Hj. apply (H (S j)). cbn; lia.
Qed.
Lemma kern_legendre : forall ell p, legendre_of ell p -> forall mu, kern ell mu = (2 * INR ell + 1) * p mu.
Proof.
  intros ell p H mu. destruct H; unfold kern, P0, P2, P4, P6; cbn [Nat.eqb]; cbn [INR]; field.
Qed.
Lemma legendre_explicit : forall ell p, legendre_of ell p -> forall mu, legendre ell mu = p mu.
Proof.
  intros ell p H mu. destruct H; unfold legendre, P0, P2, P4, P6; cbn [legendre2 fst INR]; field.
Qed.
Lemma pole_value : forall ell f ks, length ks <> 1%nat -> length ks <> 41%nat ->
  pole ell f ks = Some (map (fun k => simps (map (fun mu => (mu, kern ell mu * f k mu)) (linspace01 41))) ks).
Proof.
  intros ell f ks N1 N2. unfold pole, deco_nmu. rewrite (proj2 (Nat.eqb_neq (length ks) 41) N2).
  destruct (call_grid f ks (linspace01 41)) as (v & -> & V); [auto|rewrite linspace_length; lia|rewrite linspace_length; auto|].
  f_equal. transitivity (map (fun k => simps (map (fun mu => (mu, kern ell mu * f k mu)) (linspace01 41))) (map (fun i => nth i ks 0) (seq 0 (length ks)))); [|rewrite map_nth_seq; reflexivity]. rewrite map_map. apply map_ext_in. intros i Hi. apply in_seq in Hi. f_equal.
  apply (combine_map_nth (linspace01 41) (fun mu => kern ell mu * f (nth i ks 0) mu)). intros j Hj. rewrite V; auto. lia.
Qed.
Lemma pole_value41 : forall ell f ks, length ks = 41%nat ->
  pole ell f ks = Some (map (fun k => simps (map (fun mu => (mu, kern ell mu * f k mu)) (linspace01 42))) ks).
Proof.
  intros ell f ks N. unfold pole, deco_nmu. rewrite (proj2 (Nat.eqb_eq (length ks) 41) N).
  destruct (call_grid f ks (linspace01 42)) as (v & -> & V); [rewrite N; lia|rewrite linspace_length; lia|rewrite linspace_length, N; lia|].
  f_equal. transitivity (map (fun k => simps (map (fun mu => (mu, kern ell mu * f k mu)) (linspace01 42))) (map (fun i => nth i ks 0) (seq 0 (length ks)))); [|rewrite map_nth_seq; reflexivity]. rewrite map_map. apply map_ext_in. intros i Hi. apply in_seq in Hi. f_equal.
  apply (combine_map_nth (linspace01 42) (fun mu => kern ell mu * f (nth i ks 0) mu)). intros j Hj. rewrite V; auto. lia.
Qed.
Lemma flat_nth : forall (ks mus : list R) i j, (i < length ks)%nat -> (j < length mus)%nat -> nth_error (flat_grid ks mus) (i * length mus + j) = Some (nth i ks 0, nth j mus 0).
Proof.
  unfold flat_grid. induction ks; intros mus i j Hi Hj; [cbn in Hi; lia|]. cbn [list_prod]. destruct i.
  - rewrite nth_error_app1 by (rewrite map_length; lia). cbn [Nat.mul Nat.add nth]. rewrite nth_error_map, (nth_error_nth' mus 0) by auto. reflexivity.
  - rewrite nth_error_app2 by (rewrite map_length; cbn; lia). rewrite map_length. replace (S i * length mus + j - length mus)%nat with (i * length mus + j)%nat by (cbn; lia).
    rewrite IHks; [reflexivity| cbn in Hi; lia|auto].
Qed.
Lemma combine_fst_snd : forall A B (l : list (A * B)), combine (map fst l) (map snd l) = l.
Proof. induction l as [|[a b] l IH]; auto. cbn. f_equal. auto. Qed.
Lemma poles_value : forall f nmu ells ks,
  poles f nmu ells ks = Some (map (fun k => map (fun ell => simps (map (fun mu => (mu, (2 * INR ell + 1) * legendre ell mu * f k mu)) (linspace01 (odd_nmu nmu)))) ells) ks).
Proof.
  intros. unfold poles. rewrite call_pairs by (rewrite !map_length; auto). rewrite combine_fst_snd, map_map. cbn [fst snd].
  f_equal. unfold mtransfer. transitivity (map (fun k => map (fun ell => simps (map (fun mu => (mu, (2 * INR ell + 1) * legendre ell mu * f k mu)) (linspace01 (odd_nmu nmu)))) ells) (map (fun i => nth i ks 0) (seq 0 (length ks)))); [|rewrite map_nth_seq; reflexivity]. rewrite (map_map (fun i => nth i ks 0)). apply map_ext_in. intros i Hi. apply in_seq in Hi. apply map_ext. intros ell. f_equal.
  apply (combine_map_nth (linspace01 (odd_nmu nmu)) (fun mu => (2 * INR ell + 1) * legendre ell mu * f (nth i ks 0) mu)). intros j Hj. f_equal.
  apply nth_error_nth. rewrite nth_error_map. rewrite flat_nth by (auto; lia). reflexivity.
Qed.
Lemma odd_nmu_odd : forall n, (2 <= n)%nat -> exists m, odd_nmu n = S (2 * m) /\ (0 < m)%nat /\ (odd_nmu n = n \/ odd_nmu n = S n).
Proof.
  intros n Hn. unfold odd_nmu. destruct (Nat.even n) eqn:E.
  - apply Nat.even_spec in E. destruct E as [m ->]. exists m. repeat split; auto; lia.
  - assert (O : Nat.odd n = true) by (unfold Nat.odd; rewrite E; auto). apply Nat.odd_spec in O. destruct O as [m ->]. exists m. repeat split; auto; lia.
Qed.

(** ** an even number of points *)
Lemma incr_map_seq : forall (g : nat -> R) n s, (forall i, g i < g (S i)) -> incr (map g (seq s n)).
Proof. induction n; intros s H; [exact I|]. cbn [seq map]. destruct n; [exact I|]. split; [apply H|]. apply (IHn (S s)). auto. Qed.
Lemma simps_42 : forall a b c, simps (map (fun x => (x, quad a b c x)) (linspace01 42)) = a + b / 2 + c / 3 + c / (6 * 41 ^ 3).
Proof.
  intros a b c. set (q := fun x => (x, quad a b c x)). set (g := fun i => INR i / INR 41).
  assert (Eg : linspace01 42 = map g (seq 0 42)) by reflexivity.
  unfold simps. rewrite map_length, linspace_length. cbn [Nat.even Nat.sub]. 
  assert (P41 : 0 < INR 41) by (apply lt_0_INR; lia).
  assert (Ig : forall i, g i < g (S i)). { intros i. unfold g, Rdiv. apply Rmult_lt_compat_r; [apply Rinv_0_lt_compat; auto|]. apply lt_INR; lia. }
  assert (E1 : firstn 41 (map q (linspace01 42)) = map q (map g (seq 0 41))) by (rewrite Eg; reflexivity).
  assert (E2 : tl (map q (linspace01 42)) = map q (map g (seq 1 41))) by (rewrite Eg; reflexivity).
  rewrite E1, E2. unfold q at 1 2. rewrite (simps_quad a b c 20) by (try (rewrite map_length, seq_length; reflexivity); apply incr_map_seq; auto).
  rewrite (simps_quad a b c 20) by (try (rewrite map_length, seq_length; reflexivity); apply incr_map_seq; auto).
  replace (last (map g (seq 0 41)) 0) with (40 / 41) by (unfold g; cbn [seq map last]; rewrite !INR_IZR_INZ; reflexivity).
  replace (last (map g (seq 1 41)) 0) with (41 / 41) by (unfold g; cbn [seq map last]; rewrite !INR_IZR_INZ; reflexivity).
  replace (hd 0 (map g (seq 0 41))) with (0 / 41) by (unfold g; cbn [seq map hd]; rewrite !INR_IZR_INZ; reflexivity).
  replace (hd 0 (map g (seq 1 41))) with (1 / 41) by (unfold g; cbn [seq map hd]; rewrite !INR_IZR_INZ; reflexivity).
  rewrite Eg. cbn [map seq nth]. replace (q (g 40%nat)) with (q (40 / 41)) by (unfold g; rewrite !INR_IZR_INZ; reflexivity).
  replace (q (g 41%nat)) with (q (41 / 41)) by (unfold g; rewrite !INR_IZR_INZ; reflexivity). replace (q (g 0%nat)) with (q (0 / 41)) by (unfold g; rewrite !INR_IZR_INZ; reflexivity).
  replace (q (g 1%nat)) with (q (1 / 41)) by (unfold g; rewrite !INR_IZR_INZ; reflexivity).
  unfold trap, q, Quad, quad. cbn [fst snd]. field.
Qed.
