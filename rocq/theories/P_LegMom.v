(** Moments of the Legendre polynomials *)
From Coq Require Import Reals List Arith Lra Lia.
From Coquelicot Require Import Coquelicot.
From Verif Require Import S_Kaiser.
Local Open Scope R_scope.

Section Mom.
Variable m : nat -> nat -> R.
Hypothesis A0 : forall n, (INR n + 1) * m 0 n = 1 + (-1) ^ n.
Hypothesis A1 : forall n, m 1 n = m 0%nat (S n).
Hypothesis B : forall l n, (INR l + 2) * m (S (S l)) n = (2 * INR l + 3) * m (S l) (S n) - (INR l + 1) * m l n.
Lemma pi (n : nat) : 0 <= INR n. Proof. apply pos_INR. Qed.
Definition C1 (l : nat) := forall n, (INR n + INR l + 3) * m (S l) (S n) = (INR n + 1) * m l n.
Definition C2 (l : nat) := forall n, (INR n + 2 - INR l) * (INR n + INR l + 3) * m l (S (S n)) = (INR n + 1) * (INR n + 2) * m l n.
Lemma c2_0 : C2 0.
Proof.
  intros n. assert (H := A0 n). assert (H' := A0 (S (S n))). rewrite !S_INR in H'. cbn [pow] in H'. cbn [INR]. assert (P := pi n).
  replace (-1 * (-1 * (-1) ^ n)) with ((-1) ^ n) in H' by ring. rewrite <- H in H'. nra.
Qed.
Lemma c1_0 : C1 0.
Proof. intros n. rewrite A1. assert (H := c2_0 n). cbn [INR] in *. assert (P := pi n). apply (Rmult_eq_reg_l (INR n + 2)); [|lra]. nra. Qed.
Lemma all : forall l, C1 l /\ C2 l /\ m (S l) 0 = 0 /\ C2 (S l).
Proof.
  assert (E00 : m 0%nat 1%nat = 0). { assert (H := A0 1). cbn [INR pow] in H. lra. }
  assert (K : forall l, C1 l -> C2 l -> (l = 0%nat \/ m l 0 = 0) -> (l = 0%nat \/ l = 1%nat \/ m l 1%nat = 0) -> m (S l) 0 = 0 -> C2 (S l)).
  { intros l c1 c2 H0 H1 Hz n. rewrite S_INR. assert (Pl := pi l). destruct n as [|n].
    - rewrite Hz. assert (c := c1 1%nat). cbn [INR] in c |- *. 
      assert (c' : (INR l + 4) * m (S l) 2%nat = 2 * m l 1%nat) by (lra). 
      assert (Z : (1 - INR l) * m l 1%nat = 0). { destruct H1 as [->|[->|H1]]; [rewrite E00; ring|cbn [INR]; ring|rewrite H1; ring]. }
      replace ((0 + 2 - (INR l + 1)) * (0 + (INR l + 1) + 3) * m (S l) 2%nat) with ((1 - INR l) * ((INR l + 4) * m (S l) 2%nat)) by ring. rewrite c'. nra.
    - assert (a := c1 (S (S n))). assert (b := c1 n). assert (c := c2 n). rewrite !S_INR in *. assert (Pn := pi n).
      apply (Rmult_eq_reg_l (INR n + INR l + 3)); [|lra].
      transitivity ((INR n + 2 - INR l) * (INR n + INR l + 3) * ((INR n + 1 + 1 + INR l + 3) * m (S l) (S (S (S n))))); [ring|]. rewrite a.
      transitivity ((INR n + 3) * ((INR n + 2 - INR l) * (INR n + INR l + 3) * m l (S (S n)))); [ring|]. rewrite c.
      transitivity ((INR n + 3) * (INR n + 2) * ((INR n + 1) * m l n)); [ring|]. rewrite <- b. ring. }
  assert (L : forall l, C1 l /\ C2 l /\ C2 (S l) /\ m (S l) 0 = 0 /\ (l = 0%nat \/ m (S l) 1%nat = 0)).
  { induction l as [|l (c1 & c2 & c2' & z & z1)].
    - assert (z : m 1%nat 0%nat = 0) by (rewrite A1; exact E00). split; [exact c1_0|]. split; [exact c2_0|]. split; [|split; [exact z|left; reflexivity]].
      apply K; [exact c1_0|exact c2_0|left; reflexivity|left; reflexivity|exact z].
    - assert (Pl := pi l).
      assert (c1' : C1 (S l)).
      { intros n. assert (Pn := pi n). assert (b := B l (S n)). assert (i := c1 (S n)). assert (j := c2' n). rewrite !S_INR in *.
        apply (Rmult_eq_reg_l (INR l + 2)); [|lra]. apply (Rmult_eq_reg_l (INR n + 2)); [|lra].
        transitivity ((INR n + 2) * (INR n + INR l + 4) * ((INR l + 2) * m (S (S l)) (S n))); [ring|]. rewrite b.
        transitivity ((INR n + INR l + 4) * ((INR n + 2) * (2 * INR l + 3) * m (S l) (S (S n)) - (INR l + 1) * ((INR n + 1 + 1) * m l (S n)))); [ring|]. rewrite <- i.
        transitivity ((INR l + 2) * ((INR n + 2 - (INR l + 1)) * (INR n + (INR l + 1) + 3) * m (S l) (S (S n)))); [ring|]. rewrite j. ring. }
      assert (z' : m (S (S l)) 0 = 0).
      { assert (b := B l 0%nat). assert (i := c1 0%nat). cbn [INR] in i. destruct l as [|l].
        - cbn [INR] in *. lra.
        - assert (l0 : m (S l) 0%nat = 0). { destruct z1 as [z1|z1]; [discriminate|]. rewrite z1 in i. rewrite Rmult_0_r in i. lra. }
          rewrite l0 in *. assert (m (S (S l)) 1%nat = 0) by (apply (Rmult_eq_reg_l (0 + INR (S l) + 3)); [rewrite i; ring|lra]). rewrite H in b. nra. }
      assert (o : m (S (S l)) 1%nat = 0). { assert (i := c1' 0%nat). rewrite z in i. rewrite S_INR in i. cbn [INR] in i. apply (Rmult_eq_reg_l (0 + (INR l + 1) + 3)); [rewrite i; ring|lra]. }
      split; [exact c1'|]. split; [exact c2'|]. split; [|split; [exact z'|right; exact o]].
      apply K; [exact c1'|exact c2'|right; exact z| |exact z'].
      destruct z1 as [->|z1]; [right; left; reflexivity|right; right; exact z1]. }
  intros l. destruct (L l) as (a & b & c & d & _). split; [exact a|]. split; [exact b|]. split; [exact d|exact c].
Qed.
(* the moments below the order vanish *)
Lemma low : forall l n, (n < l)%nat -> m l n = 0.
Proof.
  induction l as [|l IH]; intros n H; [lia|]. destruct n as [|n]; [apply all|]. destruct (all l) as (c1 & _). assert (c := c1 n). rewrite (IH n) in c by lia. assert (Pl := pi l). assert (Pn := pi n).
  apply (Rmult_eq_reg_l (INR n + INR l + 3)); [rewrite c; ring|lra].
Qed.
Lemma parity : forall l n, Nat.odd (l + n) = true -> m l n = 0.
Proof.
  induction l as [|l IH]; intros n H.
  - assert (a := A0 n). assert (P := pi n). assert (E : (-1) ^ n = -1). { cbn [Nat.add] in H. apply Nat.odd_spec in H. destruct H as [k ->]. rewrite pow_add, pow_mult. replace ((-1) ^ 2) with 1 by ring. rewrite pow1. ring. }
    rewrite E in a. apply (Rmult_eq_reg_l (INR n + 1)); [rewrite a; ring|lra].
  - destruct n as [|n]; [apply all|]. destruct (all l) as (c1 & _). assert (c := c1 n). rewrite (IH n) in c.
    + assert (Pl := pi l). assert (Pn := pi n). apply (Rmult_eq_reg_l (INR n + INR l + 3)); [rewrite c; ring|lra].
    + replace (S l + S n)%nat with (S (S (l + n))) in H by lia. rewrite Nat.odd_succ, Nat.even_succ in H. exact H.
Qed.
End Mom.

Section Leg.
Variable p : nat -> R -> R.
Hypothesis LP : legendre_polynomials p.
Lemma p0 x : p 0%nat x = 1. Proof. apply LP. Qed.
Lemma p1 x : p 1%nat x = x. Proof. apply LP. Qed.
Lemma pS n x : p (S (S n)) x = ((2 * INR n + 3) * x * p (S n) x - (INR n + 1) * p n x) / (INR n + 2).
Proof. destruct (LP x) as (_ & _ & H). specialize (H n). assert (P := pos_INR n). field_simplify_eq; [|lra]. lra. Qed.
Lemma pcont n : (forall x, continuous (p n) x) /\ (forall x, continuous (p (S n)) x).
Proof.
  induction n as [|n [IH1 IH2]].
  - split; intros x.
    + apply (continuous_ext (fun _ => 1)); [intros; symmetry; apply p0|apply continuous_const].
    + apply (continuous_ext (fun x : R => x)); [intros; symmetry; apply p1|apply continuous_id].
  - split; [exact IH2|]. intros x. apply (continuous_ext (fun x => ((2 * INR n + 3) * x * p (S n) x - (INR n + 1) * p n x) * / (INR n + 2))); [intros; symmetry; apply pS|].
    apply (continuous_mult (fun x => (2 * INR n + 3) * x * p (S n) x - (INR n + 1) * p n x) (fun _ => / (INR n + 2))); [|apply continuous_const].
    apply (continuous_minus (fun x => (2 * INR n + 3) * x * p (S n) x) (fun x => (INR n + 1) * p n x)).
    + apply (continuous_mult (fun x => (2 * INR n + 3) * x) (p (S n))); [|apply IH2]. apply (continuous_mult (fun _ => 2 * INR n + 3) (fun x : R => x)); [apply continuous_const|apply continuous_id].
    + apply (continuous_mult (fun _ => INR n + 1) (p n)); [apply continuous_const|apply IH1].
Qed.
Lemma powc n : forall x : R, continuous (fun x : R => x ^ n) x.
Proof. intros x. apply (ex_derive_continuous (fun x : R => x ^ n)). auto_derive. exact I. Qed.
Lemma prodc l n : forall x, continuous (fun x => p l x * x ^ n) x.
Proof. intros x. apply (continuous_mult (p l) (fun x : R => x ^ n)); [apply pcont|apply powc]. Qed.
Definition mom l n := RInt (fun x => p l x * x ^ n) (-1) 1.
Lemma exI l n : ex_RInt (fun x => p l x * x ^ n) (-1) 1.
Proof. apply (ex_RInt_continuous (V := R_CompleteNormedModule)). intros; apply prodc. Qed.
Lemma isI l n : is_RInt (fun x => p l x * x ^ n) (-1) 1 (mom l n).
Proof. apply (RInt_correct (V := R_CompleteNormedModule)). apply exI. Qed.
Lemma mom0 n : (INR n + 1) * mom 0 n = 1 + (-1) ^ n.
Proof.
  assert (P := pos_INR n). assert (H : is_RInt (fun x => p 0 x * x ^ n) (-1) 1 ((fun x => x ^ S n / (INR n + 1)) 1 - (fun x => x ^ S n / (INR n + 1)) (-1))).
  { apply (is_RInt_ext (fun x => x ^ n)); [intros; rewrite p0; match goal with |- ?a = ?b => change (@eq R a b) end; ring|].
    apply (is_RInt_derive (fun x => x ^ S n / (INR n + 1)) (fun x => x ^ n)); [|intros; apply powc]. intros x _. 
    assert (D : is_derive (fun x => x ^ S n) x (INR (S n) * x ^ n)) by (apply is_derive_Reals; exact (derivable_pt_lim_pow x (S n))).
    assert (D2 := is_derive_scal _ x (/ (INR n + 1)) _ D). apply (is_derive_ext (fun x => / (INR n + 1) * x ^ S n)); [intros; unfold Rdiv; apply Rmult_comm|].
    rewrite S_INR in D2. replace (x ^ n) with (/ (INR n + 1) * ((INR n + 1) * x ^ n)) by (field; lra). exact D2. }
  unfold mom. rewrite (is_RInt_unique _ _ _ _ H). cbn [pow]. rewrite pow1. field. lra.
Qed.
Lemma mom1 n : mom 1 n = mom 0 (S n).
Proof. unfold mom. apply RInt_ext. intros x _. rewrite p0, p1. cbn [pow]. match goal with |- ?a = ?b => change (@eq R a b) end. ring. Qed.
Lemma momS l n : (INR l + 2) * mom (S (S l)) n = (2 * INR l + 3) * mom (S l) (S n) - (INR l + 1) * mom l n.
Proof.
  assert (P := pos_INR l). assert (H := isI (S (S l)) n).
  assert (SC : forall c f v, is_RInt f (-1) 1 v -> is_RInt (fun x : R => c * f x) (-1) 1 (c * v)) by (intros c f v K; exact (is_RInt_scal (V := R_NormedModule) f (-1) 1 c v K)).
  assert (H1 := SC (INR l + 2) _ _ H).
  assert (H2 : is_RInt (fun x => (2 * INR l + 3) * (p (S l) x * x ^ S n) - (INR l + 1) * (p l x * x ^ n)) (-1) 1 ((2 * INR l + 3) * mom (S l) (S n) - (INR l + 1) * mom l n))
    by exact (is_RInt_minus (V := R_NormedModule) _ _ _ _ _ _ (SC (2 * INR l + 3) _ _ (isI (S l) (S n))) (SC (INR l + 1) _ _ (isI l n))).
  assert (E1 := is_RInt_unique (V := R_CompleteNormedModule) _ _ _ _ H1). assert (E2 := is_RInt_unique (V := R_CompleteNormedModule) _ _ _ _ H2).
  rewrite <- E1. etransitivity; [|exact E2]. apply RInt_ext. intros x _. destruct (LP x) as (_ & _ & E). specialize (E l).
  match goal with |- ?a = ?b => change (@eq R a b) end. rewrite <- Rmult_assoc, E. cbn [pow]. ring.
Qed.
Lemma mom_c1 l n : (INR n + INR l + 3) * mom (S l) (S n) = (INR n + 1) * mom l n.
Proof. destruct (all mom mom0 mom1 momS l) as (c & _). apply c. Qed.
Lemma mom_low l n : (n < l)%nat -> mom l n = 0.
Proof. apply low; [exact mom0|exact mom1|exact momS]. Qed.
Lemma mom_odd l n : Nat.odd (l + n) = true -> mom l n = 0.
Proof. apply parity; [exact mom0|exact mom1|exact momS]. Qed.
End Leg.
