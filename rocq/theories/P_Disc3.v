From Coq Require Import Reals ZArith List Arith Lra Lia.
From Coquelicot Require Import Coquelicot.
From Verif Require Import M_Disc M_Transfer M_Poles S_Poles S_Spline S_Disc P_Simps P_Disc P_Disc2.
Import ListNotations.
Local Open Scope R_scope.

Lemma seg_lin a b x0 x1 x2 y0 y1 y2 z0 z1 z2 :
  seg (x0, a * y0 + b * z0) (x1, a * y1 + b * z1) (x2, a * y2 + b * z2) = a * seg (x0, y0) (x1, y1) (x2, y2) + b * seg (x0, z0) (x1, z1) (x2, z2).
Proof. unfold seg. cbn [fst snd]. unfold Rdiv. ring. Qed.
Lemma basic_lin a b (f g h : nat -> R) : forall n l, (length l <= n)%nat ->
  basic_simps (map (fun i => (f i, a * g i + b * h i)) l) = a * basic_simps (map (fun i => (f i, g i)) l) + b * basic_simps (map (fun i => (f i, h i)) l).
Proof.
  induction n as [|n IH]; intros l H; [destruct l; [cbn; ring|cbn in H; lia]|].
  destruct l as [|i [|j [|k l]]]; try (cbn; ring).
  change (basic_simps (map (fun i => (f i, a * g i + b * h i)) (i :: j :: k :: l))) with (seg (f i, a * g i + b * h i) (f j, a * g j + b * h j) (f k, a * g k + b * h k) + basic_simps (map (fun i => (f i, a * g i + b * h i)) (k :: l))).
  change (basic_simps (map (fun i => (f i, g i)) (i :: j :: k :: l))) with (seg (f i, g i) (f j, g j) (f k, g k) + basic_simps (map (fun i => (f i, g i)) (k :: l))).
  change (basic_simps (map (fun i => (f i, h i)) (i :: j :: k :: l))) with (seg (f i, h i) (f j, h j) (f k, h k) + basic_simps (map (fun i => (f i, h i)) (k :: l))).
  rewrite seg_lin, IH by (cbn in H |- *; lia). ring.
Qed.
Lemma lin_comb_tab a b y z : length y = length z -> lin_comb a b y z = tab (length y) (fun i => a * nth i y 0 + b * nth i z 0).
Proof.
  intros H. unfold lin_comb. transitivity (map (fun p => a * fst p + b * snd p) (combine (tab (length y) (fun i => nth i y 0)) (tab (length y) (fun i => nth i z 0)))).
  - do 2 f_equal; [|rewrite H]; apply list_tab.
  - rewrite combine_tab, map_map. reflexivity.
Qed.
Lemma combine_tabs (x : list R) n (f : nat -> R) : length x = n -> combine x (tab n f) = map (fun i => (nth i x 0, f i)) (seq 0 n).
Proof. intros <-. transitivity (combine (tab (length x) (fun i => nth i x 0)) (tab (length x) f)); [f_equal; apply list_tab|apply combine_tab]. Qed.
Lemma simps_lin a b x y z : length x = length y -> length y = length z -> (3 <= length y)%nat ->
  exists u v, c_simps x y = Some u /\ c_simps x z = Some v /\ c_simps x (lin_comb a b y z) = Some (a * u + b * v).
Proof.
  intros H1 H2 H3. exists (simps (combine x y)), (simps (combine x z)).
  split; [apply c_simps_ok; assumption|]. split; [apply c_simps_ok; lia|].
  assert (LL : length (lin_comb a b y z) = length y) by (rewrite lin_comb_tab by exact H2; apply tab_len).
  rewrite c_simps_ok by lia. f_equal. rewrite lin_comb_tab by exact H2. rewrite combine_tabs by exact H1.
  rewrite (combine_pt x y) by exact H1. rewrite (combine_pt x z) by lia. rewrite <- H2. unfold simps. rewrite !map_length, !seq_length.
  destruct (Nat.even (length y)) eqn:E.
  - rewrite !firstn_map_seq by lia. rewrite !tl_map. rewrite !nth_map_seq by lia. unfold pt.
    rewrite (basic_lin a b (fun i => nth i x 0) (fun i => nth i y 0) (fun i => nth i z 0) (length y) (seq 0 (length y - 1))) by (rewrite seq_length; lia).
    rewrite (basic_lin a b (fun i => nth i x 0) (fun i => nth i y 0) (fun i => nth i z 0) (length y) (tl (seq 0 (length y)))).
    + unfold trap. cbn [fst snd]. unfold Rdiv. ring.
    + destruct (length y) as [|m]; [lia|]. cbn [seq tl]. rewrite seq_length. lia.
  - unfold pt. apply (basic_lin a b (fun i => nth i x 0) (fun i => nth i y 0) (fun i => nth i z 0) (length y)). rewrite seq_length. lia.
Qed.
Lemma total_lin a b n f g : total (tab n (fun i => a * f i + b * g i)) = a * total (tab n f) + b * total (tab n g).
Proof. induction n as [|n IH]; [cbn; ring|]. rewrite !total_tab_S, IH. ring. Qed.
Lemma trapz_lin a b x y z : length x = length y -> length y = length z -> y <> [] ->
  exists u v, c_trapz x y = Some u /\ c_trapz x z = Some v /\ c_trapz x (lin_comb a b y z) = Some (a * u + b * v).
Proof.
  intros H1 H2 H3. assert (LL : length (lin_comb a b y z) = length y) by (rewrite lin_comb_tab by exact H2; apply tab_len).
  assert (Hz : z <> []) by (destruct z; [destruct y; [contradiction|discriminate]|discriminate]).
  assert (Hw : lin_comb a b y z <> []) by (intros E; rewrite E in LL; destruct y; [contradiction|discriminate]).
  eexists _, _. split; [apply c_trapz_ok; assumption|]. split; [apply c_trapz_ok; [lia|exact Hz]|]. rewrite c_trapz_ok by (lia || exact Hw). f_equal.
  rewrite LL, <- H2, <- total_lin. f_equal. apply tab_ext. intros i Hi. rewrite lin_comb_tab by exact H2. rewrite !tab_nth by lia. ring.
Qed.

(** ** grids *)
Lemma ends_len mn mx l : length (ends mn mx l) = length l.
Proof. unfold ends. rewrite map_length, seq_length. reflexivity. Qed.
Lemma ends_nth mn mx l i : (i < length l)%nat -> nth i (ends mn mx l) 0 = if Nat.eqb i (length l - 1) then mx else if Nat.eqb i 0 then mn else nth i l 0.
Proof. intros H. unfold ends. exact (tab_nth (length l) (fun i => if Nat.eqb i (length l - 1) then mx else if Nat.eqb i 0 then mn else nth i l 0) i 0 H). Qed.
(* the end points are what the formula gives anyway *)
Lemma ends_same mn mx n f : (2 <= n)%nat -> f 0%nat = mn -> f (n - 1)%nat = mx -> ends mn mx (map f (seq 0 n)) = tab n f.
Proof.
  intros H H0 H1. unfold ends. rewrite map_length, seq_length. apply tab_ext. intros i Hi. destruct (Nat.eqb_spec i (n - 1)) as [->|]; [auto|]. destruct (Nat.eqb_spec i 0) as [->|]; [auto|].
  apply nth_map_seq. exact Hi.
Qed.
Lemma INR_pos_pred n : (2 <= n)%nat -> 0 < INR (n - 1).
Proof. intros. apply lt_0_INR. lia. Qed.
Lemma linspace_tab mn mx n : (2 <= n)%nat -> p_linspace mn mx n = Some (tab n (fun i => mn + INR i * ((mx - mn) / INR (n - 1)))).
Proof.
  intros H. unfold p_linspace. destruct (Nat.leb_spec 2 n); [|lia]. f_equal. assert (P := INR_pos_pred n H). rewrite (ends_same mn mx n).
  - apply tab_ext. intros i _. unfold Rdiv. ring.
  - exact H.
  - cbn [INR]. field. lra.
  - field. lra.
Qed.
Lemma logspace_tab mn mx n : (2 <= n)%nat -> 0 < mn -> 0 < mx -> p_logspace mn mx n = Some (tab n (fun i => exp (ln mn + INR i * ((ln mx - ln mn) / INR (n - 1))))).
Proof.
  intros H Hmn Hmx. unfold p_logspace. destruct (Nat.leb_spec 2 n); [|lia]. destruct (Rlt_dec 0 mn); [|contradiction]. destruct (Rlt_dec 0 mx); [|contradiction]. cbn [andb]. f_equal.
  assert (P := INR_pos_pred n H). rewrite (ends_same mn mx n).
  - apply tab_ext. intros i _. f_equal. unfold Rdiv. ring.
  - exact H.
  - replace (ln mn + INR 0 * (ln mx - ln mn) / INR (n - 1)) with (ln mn) by (cbn [INR]; field; lra). apply exp_ln. exact Hmn.
  - replace (ln mn + INR (n - 1) * (ln mx - ln mn) / INR (n - 1)) with (ln mx) by (field; lra). apply exp_ln. exact Hmx.
Qed.
