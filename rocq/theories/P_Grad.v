From Coq Require Import List Arith Bool Reals Lra Lia.
From Coquelicot Require Import Coquelicot.
From Verif Require Import M_Prep S_Prep P_Prep M_ParamVal S_ParamVal.
Import ListNotations.
Open Scope R_scope.

Fixpoint sumf (l : list nat) (f : nat -> R) : R := match l with [] => 0 | n :: l => f n + sumf l f end.
Lemma sumf_fold l f : fold_right (fun n s => f n + s) 0 l = sumf l f.
Proof. induction l as [|x l IH]; cbn; [reflexivity|]. now rewrite IH. Qed.
Lemma sumf_ext l f g : (forall x, In x l -> f x = g x) -> sumf l f = sumf l g.
Proof. induction l as [|x l IH]; cbn; intro H; [reflexivity|]. rewrite (H x), IH; auto. Qed.
Lemma sumf_filter l b f : sumf (filter b l) f = sumf l (fun x => if b x then f x else 0).
Proof. induction l as [|x l IH]; cbn; [reflexivity|]. destruct (b x); cbn; rewrite IH; ring. Qed.
Lemma sumf_plus l f g : sumf l (fun x => f x + g x) = sumf l f + sumf l g.
Proof. induction l as [|x l IH]; cbn; [ring|]. rewrite IH. ring. Qed.
Lemma sumf_point l a v : NoDup l -> In a l -> sumf l (fun x => if Nat.eqb x a then v else 0) = v.
Proof.
  induction l as [|x l IH]; cbn; [tauto|]. intros Hn. apply NoDup_cons_iff in Hn. destruct Hn as [H1 H2]. intros [->|H].
  - rewrite Nat.eqb_refl. rewrite (sumf_ext l _ (fun _ => 0)).
    + assert (E : sumf l (fun _ => 0) = 0) by (clear; induction l as [|y l IH]; cbn; [reflexivity|]; rewrite IH; ring). rewrite E. ring.
    + intros y Hy. destruct (Nat.eqb_spec y a); [subst; tauto|reflexivity].
  - rewrite IH by assumption. destruct (Nat.eqb_spec x a); [subst; tauto|ring].
Qed.
Lemma sumf_0 l : sumf l (fun _ => 0) = 0.
Proof. induction l; cbn; [reflexivity|]. rewrite IHl. ring. Qed.

Section Grad.
Variable names : list nat.
Variable expr : nat -> option (list nat).
Notation con := (constrained expr).
Variable kids : nat -> nat -> bool.
Hypothesis nodup : NoDup names.
Hypothesis Hkids1 : forall c n, con c = false -> kids c n = true <-> edge names expr n c.
Hypothesis Hkids2 : forall c n, con c = true -> kids c n = false.
Variables valid mp : nat -> bool.
Hypothesis Hvalid : forall c, con c = true -> valid c = mp c.
Variable reg : nat -> option R.
Variable cd : nat -> nat -> R.
Notation comp := (compute names kids valid reg cd).

Lemma comp_con f c : con c = true -> comp (S f) c = if mp c then reg c else Some 0.
Proof.
  intro H. cbn. rewrite (Hvalid c H). destruct (mp c); cbn; [|reflexivity]. destruct (reg c) as [d|]; [|reflexivity].
  assert (E : filter (kids c) names = []).
  { clear -H Hkids2. induction names as [|x l IH]; cbn; [reflexivity|]. rewrite (Hkids2 c x H). exact IH. }
  rewrite E. reflexivity.
Qed.
Definition pv (c : nat) : R := match reg c with Some d => d | None => 0 end.
Lemma comp_free f n r : con n = false -> valid n = true -> comp (S (S f)) n = Some r ->
  reg n <> None /\ (forall c, edge names expr c n -> mp c = true -> reg c <> None) /\
  r = pv n + sumf names (fun c => if kids n c then (if mp c then pv c else 0) * cd c n else 0).
Proof.
  intros Hc Hv. change (comp (S (S f)) n) with
    (if negb (valid n) then Some 0 else match reg n with None => None | Some d =>
      (fix go (cs : list nat) (acc : R) : option R := match cs with [] => Some acc | c :: cs => match comp (S f) c with None => None | Some a => if Req_EM_T a 0 then go cs acc else go cs (acc + a * cd c n) end end) (filter (kids n) names) d end).
  rewrite Hv. cbn [negb]. destruct (reg n) as [d|] eqn:En; [|discriminate].
  rewrite <- (sumf_filter names (kids n) (fun c => (if mp c then pv c else 0) * cd c n)).
  assert (HA : forall c, In c (filter (kids n) names) -> con c = true).
  { intros c H. apply filter_In in H. destruct H as [_ H]. apply Hkids1 in H; [|exact Hc]. destruct H as [_ [_ [l [E _]]]]. unfold constrained. now rewrite E. }
  assert (HB : forall c, edge names expr c n -> In c (filter (kids n) names)).
  { intros c H. apply filter_In. split; [apply H|]. apply Hkids1; assumption. }
  unfold pv at 1. rewrite En. clear En. intro H. split; [discriminate|].
  assert (G : (forall c, In c (filter (kids n) names) -> mp c = true -> reg c <> None) /\ r = d + sumf (filter (kids n) names) (fun c => (if mp c then pv c else 0) * cd c n)).
  { clear HB. revert HA d H. generalize (filter (kids n) names) as cs. induction cs as [|c cs IH]; intros HA d H.
    - injection H as <-. split; [intros c []|cbn; ring].
    - rewrite comp_con in H by (apply HA; left; reflexivity).
      destruct (if mp c then reg c else Some 0) as [a|] eqn:Ea; [|discriminate].
      assert (Eac : a = (if mp c then pv c else 0)).
      { unfold pv. destruct (mp c); [rewrite Ea; reflexivity|congruence]. }
      assert (Em : mp c = true -> reg c <> None) by (intro E; rewrite E in Ea; congruence).
      assert (HA' : forall c, In c cs -> con c = true) by (intros; apply HA; right; assumption).
      destruct (Req_EM_T a 0) as [E0|E0].
      + destruct (IH HA' d H) as [K1 K2]. split.
        * intros c' [<-|Hc']; auto.
        * rewrite K2. cbn [sumf]. rewrite <- Eac, E0. ring.
      + destruct (IH HA' _ H) as [K1 K2]. split.
        * intros c' [<-|Hc']; auto.
        * rewrite K2. cbn [sumf]. rewrite <- Eac. ring. }
  destruct G as [G1 G2]. split; [intros c He; apply G1, HB, He|exact G2].
Qed.

(** ** total derivative *)
Variable P : (nat -> R) -> R.
Variable p : nat -> R.
Variable n0 : nat.
Variable W : R -> nat -> R.     (* all parameter values as a function of parameter n0 *)
Variable W' : nat -> R.
Variable t0 : R.
Hypothesis n0_in : In n0 names.
Hypothesis n0_unc : con n0 = false.
Hypothesis Hdiff : differentiable_at (filter mp names) P (W t0) p.
Hypothesis Hp0 : mp n0 = false -> p n0 = 0.
Hypothesis Hreg : forall c d, reg c = Some d -> d = p c.
Hypothesis W_n0 : forall t, W t n0 = t.
Hypothesis W_unc : forall t u, con u = false -> u <> n0 -> W t u = W t0 u.
Hypothesis W_con : forall c, con c = true -> mp c = true -> is_derive (fun t => W t c) t0 (W' c).
Hypothesis Hcd : forall c, con c = true -> mp c = true -> cd c n0 = W' c.

Lemma total_exact f r : valid n0 = true -> comp (S (S f)) n0 = Some r ->
  is_derive (fun t => P (W t)) t0
    (r + sumf names (fun c => if mp c && con c && negb (kids n0 c) then p c * W' c else 0)).
Proof.
  intros Hv Hr. destruct (comp_free f n0 r n0_unc Hv Hr) as [R1 [R2 ->]].
  set (c' := fun c => if Nat.eqb c n0 then 1 else if con c then W' c else 0).
  assert (HP := Hdiff W c' t0 (fun _ _ => eq_refl)).
  evar_last; [apply HP|].
  - intros c Hc. apply filter_In in Hc. destruct Hc as [_ Hm]. unfold c'. destruct (Nat.eqb_spec c n0) as [->|N].
    + apply is_derive_ext with (fun s : R => s); [intro; symmetry; apply W_n0|]. apply (is_derive_id (K := R_AbsRing)).
    + destruct (con c) eqn:Ec; [apply W_con; assumption|].
      apply is_derive_ext with (fun _ : R => W t0 c); [intro t; symmetry; apply W_unc; assumption|].
      apply (is_derive_const (K := R_AbsRing) (V := R_NormedModule)).
  - rewrite (sumf_fold _ (fun n => p n * c' n)), sumf_filter.
    assert (E0 : pv n0 = sumf names (fun x => if Nat.eqb x n0 then pv n0 else 0)) by (symmetry; apply sumf_point; assumption).
    rewrite E0, <- !sumf_plus. apply sumf_ext. intros c Hc. unfold c'.
    assert (Epv : forall c, reg c <> None -> pv c = p c).
    { intros a Ha. unfold pv. destruct (reg a) as [d|] eqn:E; [apply Hreg; exact E|congruence]. }
    destruct (Nat.eqb_spec c n0) as [->|N].
    + rewrite n0_unc, andb_false_r. cbn. rewrite Epv by exact R1.
      assert (kids n0 n0 = false) as ->.
      { destruct (kids n0 n0) eqn:E; [|reflexivity]. apply Hkids1 in E; [|exact n0_unc]. destruct E as [_ [_ [l [E _]]]]. unfold constrained in n0_unc. rewrite E in n0_unc. discriminate. }
      destruct (mp n0) eqn:Em; [ring|]. rewrite (Hp0 eq_refl). ring.
    + destruct (con c) eqn:Ec.
      * destruct (kids n0 c) eqn:Ek; cbn.
        -- rewrite andb_false_r. destruct (mp c) eqn:Em; [|ring]. rewrite Hcd by assumption. rewrite Epv; [ring|].
           apply R2; [apply Hkids1; assumption|exact Em].
        -- destruct (mp c); cbn; ring.
      * rewrite andb_false_r. cbn. assert (kids n0 c = false) as ->.
        { destruct (kids n0 c) eqn:E; [|reflexivity]. apply Hkids1 in E; [|exact n0_unc]. destruct E as [_ [_ [l [E _]]]]. unfold constrained in Ec. rewrite E in Ec. discriminate. }
        destruct (mp c); ring.
Qed.

(** If the values solve the constraints, a parameter that does not depend on n0 is constant. *)
Variable rank : nat -> nat.
Hypothesis acyc : forall n c, edge names expr n c -> (rank c < rank n)%nat.
Variable fexp : nat -> list R -> R.
Hypothesis W_solves : forall t n l, expr n = Some l -> W t n = fexp n (map (W t) l).
Hypothesis syms_in : forall n l, expr n = Some l -> In n names /\ incl l names.
Lemma const_indep : forall k n, (rank n < k)%nat -> n <> n0 -> ~ depends names expr n n0 -> forall t, W t n = W t0 n.
Proof.
  induction k as [|k IH]; intros n Hk Hn Hd t; [lia|].
  destruct (expr n) as [l|] eqn:E.
  - rewrite !(W_solves _ _ _ E). f_equal. apply map_ext_in. intros d Hdl.
    assert (He : edge names expr n d).
    { destruct (syms_in _ _ E) as [A B]. split; [exact A|split; [apply B, Hdl|exists l; auto]]. }
    apply IH.
    + pose proof (acyc _ _ He). lia.
    + intros ->. apply Hd, dep_direct, He.
    + intro K. apply Hd. eapply dep_via; eassumption.
  - apply W_unc; [unfold constrained; now rewrite E|exact Hn].
Qed.
Lemma total_direct f r : valid n0 = true -> comp (S (S f)) n0 = Some r ->
  (forall c, mp c = true -> con c = true -> depends names expr c n0 -> edge names expr c n0) ->
  is_derive (fun t => P (W t)) t0 r.
Proof.
  intros Hv Hr Hdir. pose proof (total_exact f r Hv Hr) as H.
  evar_last; [exact H|]. rewrite (sumf_ext names _ (fun _ => 0)).
  - rewrite sumf_0. ring.
  - intros c Hc. destruct (mp c) eqn:Em, (con c) eqn:Ec, (kids n0 c) eqn:Ek; cbn; auto.
    assert (Hnd : ~ depends names expr c n0).
    { intro K. apply Hdir in K; auto. apply Hkids1 in K; [congruence|exact n0_unc]. }
    assert (HW : W' c = 0).
    { pose proof (W_con c Ec Em) as HD. apply is_derive_unique in HD. rewrite <- HD.
      apply is_derive_unique. apply is_derive_ext with (fun _ : R => W t0 c).
      - intro t. symmetry. apply (const_indep (S (rank c))); [lia|congruence|exact Hnd].
      - apply (is_derive_const (K := R_AbsRing) (V := R_NormedModule)). }
    rewrite HW. ring.
Qed.
End Grad.
