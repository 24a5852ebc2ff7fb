(** * Property theorems: marginalised errors (C221) *)
From Coq Require Import List Arith Bool Reals Lra Lia.
From Verif Require Import M_Marg.
Import ListNotations.

Lemma isin_in x l : isin x l = true <-> In x l.
Proof. unfold isin. rewrite existsb_exists. split; [intros (y & H & E); apply Nat.eqb_eq in E; now subst|intro H; exists x; split; [exact H|apply Nat.eqb_refl]]. Qed.
Lemma index_nth : forall l x, In x l -> nth_error l (index_of x l) = Some x.
Proof. induction l as [|y l IH]; intros x H; [destruct H|]. cbn. destruct (Nat.eqb_spec x y) as [->|N]; [reflexivity|]. apply IH. destruct H; [congruence|assumption]. Qed.
Lemma delete_gen {A} (f : nat -> A) g h : forall l k, (forall i n, nth_error l i = Some n -> g (k + i)%nat = h n) ->
  map snd (filter (fun p : nat * A => g (fst p)) (combine (seq k (length (map f l))) (map f l))) = map f (filter h l).
Proof.
  induction l as [|n l IH]; intros k H; [reflexivity|]. cbn. rewrite <- (H 0%nat n eq_refl), Nat.add_0_r.
  assert (E : map snd (filter (fun p : nat * A => g (fst p)) (combine (seq (S k) (length (map f l))) (map f l))) = map f (filter h l)).
  { apply IH. intros i m M. replace (S k + i)%nat with (k + S i)%nat by lia. now apply H. }
  destruct (g k); cbn; [f_equal|]; exact E.
Qed.
Lemma delete_rows {A} (f : nat -> A) free fixed : NoDup free -> incl fixed free ->
  delete (map (fun n => index_of n free) fixed) (map f free) = map f (filter (fun n => negb (isin n fixed)) free).
Proof.
  intros N I. unfold delete. apply (delete_gen f (fun i => negb (isin i (map (fun n => index_of n free) fixed)))). intros i n Hi. f_equal. cbn.
  destruct (isin n fixed) eqn:E.
  - apply isin_in in E. apply isin_in. apply in_map_iff. exists n. split; [|exact E].
    pose proof (index_nth free n (I n E)) as Q. apply (proj1 (NoDup_nth_error free) N); [apply nth_error_Some; congruence|congruence].
  - destruct (isin i (map (fun n => index_of n free) fixed)) eqn:G; [|reflexivity]. exfalso. apply isin_in in G. apply in_map_iff in G. destruct G as (m & M & Fm).
    pose proof (index_nth free m (I m Fm)) as Q. rewrite M in Q. assert (m = n) by congruence. subst. apply isin_in in Fm. congruence.
Qed.
Definition ind (p a : nat) : R := if Nat.eqb a p then 1%R else 0%R.
Lemma pick0 p : forall kept (vals : list R), ~ In p kept -> sum (map (fun cb : R * nat => (fst cb * ind p (snd cb))%R) (combine vals kept)) = 0%R.
Proof.
  induction kept as [|a kept IH]; intros [|v vals] H; try reflexivity. cbn. rewrite IH by (intro; apply H; now right).
  unfold ind. destruct (Nat.eqb_spec a p) as [->|]; [exfalso; apply H; now left|]. cbn. ring.
Qed.
Lemma pick p : forall kept (vals : list R), NoDup kept -> In p kept -> length vals = length kept ->
  sum (map (fun cb : R * nat => (fst cb * ind p (snd cb))%R) (combine vals kept)) = nth (index_of p kept) vals 0%R.
Proof.
  induction kept as [|a kept IH]; intros [|v vals] N I L; try discriminate L; [destruct I|]. cbn. inversion N; subst. unfold ind at 1. rewrite (Nat.eqb_sym p a).
  destruct (Nat.eqb_spec a p) as [->|D]; cbn.
  - fold (sum (map (fun cb : R * nat => (fst cb * ind p (snd cb))%R) (combine vals kept))). rewrite pick0 by assumption. ring.
  - fold (sum (map (fun cb : R * nat => (fst cb * ind p (snd cb))%R) (combine vals kept))). rewrite IH; [ring|assumption|destruct I; [congruence|assumption]|now injection L].
Qed.
Lemma combine_map_r {A B C} (f : B -> C) : forall (l : list A) m, combine l (map f m) = map (fun p => (fst p, f (snd p))) (combine l m).
Proof. induction l as [|x l IH]; intros [|y m]; cbn; try reflexivity. now rewrite IH. Qed.
Lemma combine_map_l {A B C} (f : A -> C) : forall (l : list A) (m : list B), combine (map f l) m = map (fun p => (f (fst p), snd p)) (combine l m).
Proof. induction l as [|x l IH]; intros [|y m]; cbn; try reflexivity. now rewrite IH. Qed.
Lemma swap_sum (f : nat -> R) (g : list R -> R) : forall kept C, sum (map (fun rc : nat * list R => (f (fst rc) * g (snd rc))%R) (combine kept C))
  = sum (map (fun cb : R * nat => (fst cb * f (snd cb))%R) (combine (map g C) kept)).
Proof. induction kept as [|a kept IH]; intros [|c C]; cbn; try reflexivity. unfold sum in IH. rewrite IH. ring. Qed.
(** the sum picked by two columns of the Jacobian that belong to free parameters *)
Lemma transformed_free (row : nat -> list R) kept C i j p q : (forall a, In a kept -> nth i (row a) 0%R = ind p a /\ nth j (row a) 0%R = ind q a) ->
  transformed C (map row kept) i j = sum (map (fun cb : R * nat => (fst cb * ind p (snd cb))%R) (combine (map (fun c => sum (map (fun cb : R * nat => (fst cb * ind q (snd cb))%R) (combine c kept))) C) kept)).
Proof.
  intros H. unfold transformed. rewrite combine_map_l, map_map. cbn [fst snd]. rewrite <- (swap_sum (ind p)).
  f_equal. apply map_ext_in. intros [a c] I. cbn [fst snd]. apply in_combine_l in I. rewrite (proj1 (H a I)). f_equal.
  rewrite combine_map_r, map_map. cbn [fst snd]. f_equal. apply map_ext_in. intros [x b] Ib. cbn [fst snd]. apply in_combine_r in Ib. now rewrite (proj2 (H b Ib)).
Qed.
Lemma traverse_map {A B} (f : A -> option B) d : forall l ys, traverse f l = Some ys -> ys = map (fun x => match f x with Some y => y | None => d end) l /\ forall x, In x l -> f x <> None.
Proof.
  induction l as [|x l IH]; intros ys; cbn; [intros [= <-]; split; [reflexivity|intros ? []]|]. destruct (f x) as [y|] eqn:E; [|discriminate].
  destruct (traverse f l) as [zs|] eqn:T; [|discriminate]. intros [= <-]. destruct (IH zs eq_refl) as [A1 A2]. split; [now rewrite A1|]. intros z [<-|Z]; [congruence|auto].
Qed.
Lemma traverse_nth {A B} (f : A -> option B) : forall l ys i x, traverse f l = Some ys -> nth_error l i = Some x -> nth_error ys i = f x.
Proof.
  induction l as [|a l IH]; intros ys [|i] x; cbn; try discriminate; destruct (f a) as [y|] eqn:E; try discriminate; destruct (traverse f l) as [zs|] eqn:T; try discriminate; intros [= <-].
  - intros [= <-]. cbn. congruence.
  - cbn. now apply IH.
Qed.
Lemma jacobian_ok free deriv params J : jacobian free deriv params = Some J ->
  exists row, J = map row free /\ forall a i p, In a free -> In p free -> nth_error params i = Some p -> nth i (row a) 0%R = ind p a.
Proof.
  intros H. unfold jacobian in H. destruct (traverse_map _ [] free J H) as [E N].
  exists (fun fr => match traverse (jac_entry free deriv fr) params with Some y => y | None => [] end). split; [exact E|].
  intros a i p Ia Ip Hi. specialize (N a Ia). destruct (traverse (jac_entry free deriv a) params) as [ys|] eqn:T; [|contradiction].
  pose proof (traverse_nth _ params ys i p T Hi) as Q. unfold jac_entry in Q. rewrite (proj2 (isin_in a free) Ia), (proj2 (isin_in p free) Ip) in Q. cbn in Q.
  apply nth_error_nth with (d := 0%R) in Q. exact Q.
Qed.

(** [F a b]: the Fisher matrix by names.  The entry of two free parameters p and q that are not fixed is the square root of the entry of the inverse of
    the Fisher matrix of the parameters that are not fixed, NaN if that entry is negative. *)
Theorem C221_free_parameters :
  forall inv (F : nat -> nat -> R) free deriv params fixed e kept C i j p q r s, NoDup free ->
  kept = filter (fun n => negb (if in_dec Nat.eq_dec n fixed then true else false)) free ->
  marginalized inv (map (fun a => map (F a) free) free) free deriv params fixed = Errors e ->
  inv (map (fun a => map (F a) kept) kept) = Some C -> length C = length kept -> List.Forall (fun c => length c = length kept) C ->
  nth_error (match params with Some l => l | None => free end) i = Some p -> nth_error (match params with Some l => l | None => free end) j = Some q ->
  nth_error kept r = Some p -> nth_error kept s = Some q ->
  let c := nth s (nth r C []) 0%R in
  ((0 <= c)%R -> e i j = Some (sqrt c)) /\ ((c < 0)%R -> e i j = None).
Proof.
  intros inv F free deriv params fixed e kept C i j p q r s N Hk H HC LC RC Hi Hj Rp Sq c0.
  pose proof (nth_error_In kept r Rp) as Ip. pose proof (nth_error_In kept s Sq) as Iq. set (c := nth (index_of q kept) (nth (index_of p kept) C []) 0%R).
  assert (Ek : kept = filter (fun n => negb (isin n fixed)) free).
  { rewrite Hk. apply filter_ext. intro n. f_equal. destruct (in_dec Nat.eq_dec n fixed) as [I|I]; [symmetry; now apply isin_in|].
    destruct (isin n fixed) eqn:G; [|reflexivity]. apply isin_in in G. contradiction. }
  assert (Nk : NoDup kept) by (rewrite Ek; now apply NoDup_filter).
  assert (Er : index_of p kept = r) by (pose proof (index_nth kept p Ip); apply (proj1 (NoDup_nth_error kept) Nk); [apply nth_error_Some; congruence|congruence]).
  assert (Es : index_of q kept = s) by (pose proof (index_nth kept q Iq); apply (proj1 (NoDup_nth_error kept) Nk); [apply nth_error_Some; congruence|congruence]).
  assert (Ec : c0 = c) by (unfold c0, c; now rewrite Er, Es). rewrite Ec. clear c0 Ec.
  assert (Sub : forall a, In a kept -> In a free) by (intros a; rewrite Ek; intro X; apply filter_In in X; tauto).
  assert (G : exists J', e = (fun i j => root (transformed C (map J' kept) i j)) /\ forall a i p, In a free -> In p free -> nth_error (match params with Some l => l | None => free end) i = Some p -> nth i (J' a) 0%R = ind p a).
  { unfold marginalized in H. set (ps := match params with Some l => l | None => free end) in *. cbv zeta in H.
    destruct (jacobian free deriv ps) as [J|] eqn:EJ; [|discriminate]. destruct (jacobian_ok free deriv ps J EJ) as (row & -> & HJ). exists row. split; [|exact HJ].
    destruct (Nat.eqb_spec (length fixed) 0) as [Z|Z].
    - apply length_zero_iff_nil in Z. subst fixed. assert (K : kept = free). { rewrite Ek. cbn. clear. induction free as [|a l IH]; cbn; [reflexivity|now rewrite IH]. }
      rewrite K in *. rewrite HC in H. now injection H as <-.
    - destruct (forallb (fun n => isin n free) fixed) eqn:Ff; cbn [negb] in H; [|discriminate].
      assert (I : incl fixed free). { intros n X. rewrite forallb_forall in Ff. apply isin_in. now apply Ff. }
      rewrite !delete_rows in H by assumption. rewrite <- Ek in H. rewrite map_map in H.
      rewrite (map_ext (fun x => delete (map (fun n => index_of n free) fixed) (map (F x) free)) (fun x => map (F x) kept)) in H by (intro x; rewrite delete_rows by assumption; now rewrite <- Ek).
      rewrite HC in H. now injection H as <-. }
  destruct G as (row & -> & HJ).
  assert (T : transformed C (map row kept) i j = c).
  { rewrite (transformed_free row kept C i j p q) by (intros a Ia; split; apply HJ; auto).
    rewrite pick; [|exact Nk|exact Ip|rewrite map_length; exact LC]. unfold c.
    assert (X : (index_of p kept < length C)%nat). { rewrite LC. apply nth_error_Some. rewrite (index_nth kept p Ip). discriminate. }
    rewrite (nth_indep _ 0%R ((fun c0 => sum (map (fun cb : R * nat => (fst cb * ind q (snd cb))%R) (combine c0 kept))) [])) by (now rewrite map_length).
    rewrite (map_nth (fun c0 => sum (map (fun cb : R * nat => (fst cb * ind q (snd cb))%R) (combine c0 kept))) C []). apply pick; [exact Nk|exact Iq|].
    rewrite Forall_forall in RC. apply RC. now apply nth_In. }
  unfold root. rewrite T. split; intro S; destruct (Rlt_dec c 0); try lra; reflexivity.
Qed.
Print Assumptions C221_free_parameters.
(** Fixing a name that is not free is refused. *)
Theorem C221_fixed_must_be_free :
  forall inv F free deriv params fixed J, jacobian free deriv (match params with Some l => l | None => free end) = Some J ->
  (marginalized inv F free deriv params fixed = ValueError <-> exists n, In n fixed /\ ~ In n free).
Proof.
  intros inv F free deriv params fixed J HJ. unfold marginalized. rewrite HJ. destruct (Nat.eqb_spec (length fixed) 0) as [Z|Z].
  - apply length_zero_iff_nil in Z. subst. split; [destruct (inv F); discriminate|]. intros (n & [] & _).
  - destruct (forallb (fun n => isin n free) fixed) eqn:Ff; cbn [negb].
    + split; [cbv zeta; destruct (inv _); discriminate|]. intros (n & I & X). exfalso. apply X. apply isin_in. rewrite forallb_forall in Ff. auto.
    + split; [intros _|reflexivity]. assert (E : existsb (fun n => negb (isin n free)) fixed = true).
      { clear - Ff. induction fixed as [|n l IH]; cbn in *; [discriminate|]. destruct (isin n free); cbn in *; auto. }
      apply existsb_exists in E. destruct E as (n & I & X). exists n. split; [exact I|]. intro Y. apply isin_in in Y. rewrite Y in X. discriminate.
Qed.
Print Assumptions C221_fixed_must_be_free.
(** Three free parameters 4, 7, 9, of which 7 is fixed; the kept Fisher matrix [[2,1],[1,1]] has the inverse [[1,-1],[-1,2]]. *)
Definition ex_F (a b : nat) : R := (match a, b with 4%nat, 4%nat => 2 | 4%nat, 9%nat | 9%nat, 4%nat => 1 | 9%nat, 9%nat => 1 | _, _ => 5 end)%R.
Definition ex_inv (m : list (list R)) : option (list (list R)) :=
  match m with [[a; b]; [c; d]] => if Req_EM_T (a * d - b * c)%R 0 then None else Some [[d / (a * d - b * c); - b / (a * d - b * c)]; [- c / (a * d - b * c); a / (a * d - b * c)]]%R | _ => None end.
Example C221_nonvacuous : exists e C, marginalized ex_inv (map (fun a => map (ex_F a) [4; 7; 9]%nat) [4; 7; 9]%nat) [4; 7; 9]%nat (fun _ _ => None) None [7%nat] = Errors e /\
  ex_inv (map (fun a => map (ex_F a) [4; 9]%nat) [4; 9]%nat) = Some C /\ length C = 2%nat /\ List.Forall (fun c => length c = 2%nat) C /\
  e 0%nat 0%nat = Some 1%R /\ e 2%nat 2%nat = Some (sqrt 2) /\ e 0%nat 2%nat = None.
Proof.
  assert (D : (2 * 1 - 1 * 1 <> 0)%R) by lra.
  assert (HC : ex_inv (map (fun a => map (ex_F a) [4; 9]%nat) [4; 9]%nat) = Some [[1 / (2 * 1 - 1 * 1); - 1 / (2 * 1 - 1 * 1)]; [- 1 / (2 * 1 - 1 * 1); 2 / (2 * 1 - 1 * 1)]]%R).
  { cbn. destruct (Req_EM_T (2 * 1 - 1 * 1)%R 0) as [E|_]; [contradiction|reflexivity]. }
  assert (HM : exists e, marginalized ex_inv (map (fun a => map (ex_F a) [4; 7; 9]%nat) [4; 7; 9]%nat) [4; 7; 9]%nat (fun _ _ => None) None [7%nat] = Errors e).
  { unfold marginalized. cbn. destruct (Req_EM_T (2 * 1 - 1 * 1)%R 0) as [E|_]; [contradiction|eauto]. }
  destruct HM as [e HM]. exists e. eexists. split; [exact HM|]. split; [exact HC|]. split; [reflexivity|]. split; [repeat constructor|].
  assert (N : NoDup [4; 7; 9]%nat) by (repeat constructor; cbn; intuition discriminate).
  assert (RC : List.Forall (fun c : list R => length c = 2%nat) [[1 / (2 * 1 - 1 * 1); - 1 / (2 * 1 - 1 * 1)]; [- 1 / (2 * 1 - 1 * 1); 2 / (2 * 1 - 1 * 1)]]%R) by (repeat constructor).
  pose proof (fun i j p q r s => C221_free_parameters ex_inv ex_F [4; 7; 9]%nat (fun _ _ => None) None [7%nat] e [4; 9]%nat _ i j p q r s N eq_refl HM HC eq_refl RC) as T.
  pose proof (T 0%nat 0%nat 4%nat 4%nat 0%nat 0%nat eq_refl eq_refl eq_refl eq_refl) as T1.
  pose proof (T 2%nat 2%nat 9%nat 9%nat 1%nat 1%nat eq_refl eq_refl eq_refl eq_refl) as T2.
  pose proof (T 0%nat 2%nat 4%nat 9%nat 0%nat 1%nat eq_refl eq_refl eq_refl eq_refl) as T3. cbn [nth] in T1, T2, T3. split; [|split].
  - rewrite (proj1 T1) by lra. f_equal. replace (1 / (2 * 1 - 1 * 1))%R with 1%R by lra. apply sqrt_1.
  - rewrite (proj1 T2) by lra. f_equal. f_equal. lra.
  - apply T3. lra.
Qed.
