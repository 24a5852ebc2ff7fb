From Coq Require Import Reals List Arith Lia Lra Bool.
From Coquelicot Require Import Coquelicot.
Import ListNotations.
From Verif Require Import M_Transfer M_Window P_Window P_Legendre.
Set Implicit Arguments.
Local Open Scope R_scope.

(** sum over the (q, coefficient) list *)
Fixpoint csum (f : nat -> R -> R) (cs : list (nat * R)) : R := match cs with [] => 0 | (q, co) :: cs' => f q co + csum f cs' end.
Lemma csum_ext : forall f g cs, (forall q co, In (q, co) cs -> f q co = g q co) -> csum f cs = csum g cs.
Proof. induction cs as [|[q co] cs]; intros; auto. cbn [csum]. rewrite IHcs by (intros; apply H; right; auto). rewrite H by (left; auto). auto. Qed.
Lemma coeffs_upto_sum : forall f l m p, csum f (coeffs_upto l m p) = sum_f_R0 (fun i => f (l + m - 2 * i)%nat (coefficient l m i)) p.
Proof. induction p; cbn [coeffs_upto csum sum_f_R0]; [simpl; lra|]. rewrite IHp. cbn [csum sum_f_R0]. lra. Qed.
Lemma in_coeffs_upto : forall l m p q co, In (q, co) (coeffs_upto l m p) <-> exists i, (i <= p)%nat /\ q = (l + m - 2 * i)%nat /\ co = coefficient l m i.
Proof.
  induction p; intros; cbn [coeffs_upto In].
  - split.
    + intros [E|[]]. injection E. intros <- <-. exists 0%nat. auto.
    + intros (i & H & -> & ->). left. replace i with 0%nat by lia. auto.
  - rewrite IHp. split.
    + intros [E|(i & H & H1)].
      * injection E. intros <- <-. exists (S p). auto.
      * exists i. split; [lia|auto].
    + intros (i & H & -> & ->). destruct (Nat.eq_dec i (S p)); [left; subst; auto|right]. exists i. split; [lia|auto].
Qed.
Lemma product_expansion : forall ell ellp x,
  csum (fun q co => co * (2 * INR q + 1) / (2 * INR ell + 1) * L q x) (get_coefficients ell ellp) = L ell x * L ellp x.
Proof.
  intros. unfold get_coefficients. rewrite coeffs_upto_sum, adams. apply sum_eq. intros p Hp. rewrite coefficient_c by lia.
  pose proof (pos_INR (ell + ellp - 2 * p)). pose proof (pos_INR ell). field. lra.
Qed.
Lemma projection : forall ell ellp q,
  (2 * INR ell + 1) / 2 * RInt (fun t => L ell t * L ellp t * L q t) (-1) 1 = csum (fun q' co => if (q' =? q)%nat then co else 0) (get_coefficients ell ellp).
Proof.
  intros. unfold get_coefficients. rewrite coeffs_upto_sum, triple, scal_sum. apply sum_eq. intros p Hp. destruct (ell + ellp - 2 * p =? q)%nat eqn:E; [|ring].
  apply Nat.eqb_eq in E. rewrite coefficient_c, E by lia. pose proof (pos_INR q). field. lra.
Qed.
Lemma coeffs_NoDup : forall l m p, (p <= Nat.min l m)%nat -> NoDup (map fst (coeffs_upto l m p)).
Proof.
  induction p; intros; cbn [coeffs_upto map fst].
  - constructor; [intros []|constructor].
  - constructor; [|apply IHp; lia]. intro I. apply in_map_iff in I. destruct I as ([q co] & E & I). cbn [fst] in E. apply in_coeffs_upto in I.
    destruct I as (i & H1 & H2 & _). lia.
Qed.
Lemma csum_pick : forall cs q co, NoDup (map fst cs) -> In (q, co) cs -> csum (fun q' co' => if (q' =? q)%nat then co' else 0) cs = co.
Proof.
  assert (Z : forall cs q, ~ In q (map fst cs) -> csum (fun q' co' => if (q' =? q)%nat then co' else 0) cs = 0).
  { induction cs as [|[q' co'] cs]; intros; auto. cbn [csum]. simpl in H. rewrite IHcs by tauto. destruct (q' =? q)%nat eqn:E; [apply Nat.eqb_eq in E; tauto|lra]. }
  induction cs as [|[q' co'] cs]; intros q co N I; [destruct I|]. cbn [csum]. simpl in N. inversion N as [|? ? N1 N2]. subst. destruct I as [E|I].
  - injection E. intros -> ->. rewrite Nat.eqb_refl, Z by auto. lra.
  - destruct (q' =? q)%nat eqn:E; [|rewrite (IHcs q co); auto; lra]. apply Nat.eqb_eq in E. subst. exfalso. apply N1. apply in_map_iff. exists (q, co). auto.
Qed.
Lemma csum_none : forall cs q, ~ In q (map fst cs) -> csum (fun q' co' => if (q' =? q)%nat then co' else 0) cs = 0.
Proof. induction cs as [|[q' co'] cs]; intros; auto. cbn [csum]. simpl in H. rewrite IHcs by tauto. destruct (q' =? q)%nat eqn:E; [apply Nat.eqb_eq in E; tauto|lra]. Qed.

(** even series: Σ_j l_j L_{2(j0+j)} *)
Fixpoint series (j0 : nat) (l : list R) (t : R) : R := match l with [] => 0 | a :: l' => a * L (2 * j0) t + series (S j0) l' t end.
Lemma continuous_series : forall l j0 x, continuous (series j0 l) x.
Proof.
  induction l; intros; cbn [series].
  - apply continuous_const.
  - apply (continuous_plus (fun t => a * L (2 * j0) t) (series (S j0) l)); auto. apply (continuous_mult (fun _ => a) (L (2 * j0))); [apply continuous_const|apply continuous_L].
Qed.
Notation RI f := (RInt f (-1) 1).
Lemma RI_lin : forall (f g h : R -> R) a, (forall t, f t = a * g t + h t) -> (forall x, continuous g x) -> (forall x, continuous h x) -> RI f = a * RI g + RI h.
Proof.
  intros f g h a E Cg Ch.
  assert (Eg : ex_RInt g (-1) 1) by (apply (@ex_RInt_continuous R_CompleteNormedModule); intros; auto).
  assert (Eh : ex_RInt h (-1) 1) by (apply (@ex_RInt_continuous R_CompleteNormedModule); intros; auto).
  rewrite (RInt_ext _ (fun t => a * g t + h t)) by (intros; apply E).
  replace (a * RI g) with (RI (fun t => a * g t)) by (apply (@RInt_scal R_CompleteNormedModule g); auto).
  apply (@RInt_plus R_CompleteNormedModule (fun t => a * g t) h); auto. apply (@ex_RInt_scal R_NormedModule); auto.
Qed.
Lemma RI_zero : RI (fun _ => 0) = 0.
Proof. rewrite RInt_const. unfold scal; simpl; unfold mult; simpl. ring. Qed.
(** projection against the window series *)
Lemma window_series : forall ell ellp W j0,
  (2 * INR ell + 1) / 2 * RI (fun t => (L ell t * L ellp t) * series j0 W t) =
  csum (fun q co => (if Nat.even q && (j0 <=? q / 2)%nat then nth (q / 2 - j0) W 0 else 0) * co) (get_coefficients ell ellp).
Proof.
  induction W; intros j0.
  - cbn [series]. rewrite (RInt_ext _ (fun _ => 0)) by (intros; apply Rmult_0_r). rewrite RI_zero.
    rewrite (csum_ext _ (fun _ _ => 0)). 2:{ intros. destruct (Nat.even q && (j0 <=? q / 2)%nat); [destruct (q / 2 - j0)%nat|]; simpl; ring. }
    rewrite Rmult_0_r. induction (get_coefficients ell ellp) as [|[q co] cs]; simpl; lra.
  - cbn [series]. rewrite (@RI_lin _ (fun t => L ell t * L ellp t * L (2 * j0) t) (fun t => L ell t * L ellp t * series (S j0) W t) a).
    + rewrite Rmult_plus_distr_l, IHW. replace ((2 * INR ell + 1) / 2 * (a * RI (fun t => L ell t * L ellp t * L (2 * j0) t))) with (a * ((2 * INR ell + 1) / 2 * RI (fun t => L ell t * L ellp t * L (2 * j0) t))) by ring.
      rewrite projection. clear. induction (get_coefficients ell ellp) as [|[q co] cs]; [simpl; lra|]. cbn [csum].
      rewrite Rmult_plus_distr_l. rewrite <- IHcs. clear IHcs.
      assert (E : a * (if (q =? 2 * j0)%nat then co else 0) + (if Nat.even q && (S j0 <=? q / 2)%nat then nth (q / 2 - S j0) W 0 else 0) * co =
                  (if Nat.even q && (j0 <=? q / 2)%nat then nth (q / 2 - j0) (a :: W) 0 else 0) * co); [|lra].
      destruct (Nat.even q) eqn:Ev; cbn [andb].
      * apply Nat.even_spec in Ev. destruct Ev as [h Eh]. subst q. replace (2 * h / 2)%nat with h by (rewrite Nat.mul_comm, Nat.div_mul; lia).
        destruct (Nat.lt_trichotomy h j0) as [T|[T|T]].
        -- rewrite (proj2 (Nat.eqb_neq (2 * h) (2 * j0))) by lia. rewrite (proj2 (Nat.leb_gt (S j0) h)) by lia. rewrite (proj2 (Nat.leb_gt j0 h)) by lia. ring.
        -- subst. rewrite Nat.eqb_refl. rewrite (proj2 (Nat.leb_gt (S j0) j0)) by lia. rewrite Nat.leb_refl, Nat.sub_diag. simpl. ring.
        -- rewrite (proj2 (Nat.eqb_neq (2 * h) (2 * j0))) by lia. rewrite (proj2 (Nat.leb_le (S j0) h)) by lia. rewrite (proj2 (Nat.leb_le j0 h)) by lia.
           replace (h - j0)%nat with (S (h - S j0)) by lia. simpl. ring.
      * destruct (q =? 2 * j0)%nat eqn:E2; [|ring]. apply Nat.eqb_eq in E2. subst. rewrite Nat.even_mul in Ev. discriminate.
    + intros. ring.
    + apply continuous_LLL.
    + intros. apply (continuous_mult (fun t => L ell t * L ellp t) (series (S j0) W)); [apply continuous_LL|apply continuous_series].
Qed.
Lemma kern_row_csum : forall cs W, kern_row cs W = csum (fun q co => nth (q / 2) W 0 * co) cs.
Proof. induction cs as [|[q co] cs]; intros; cbn [kern_row csum]; [|rewrite IHcs]; auto. Qed.
Lemma q_even : forall ell ellp q co, Nat.even ell = true -> Nat.even ellp = true -> In (q, co) (get_coefficients ell ellp) -> Nat.even q = true.
Proof.
  intros ell ellp q co H1 H2 I. apply in_coeffs_upto in I. destruct I as (i & Hi & -> & _). rewrite Nat.even_sub by lia. rewrite Nat.even_add, H1, H2, Nat.even_mul. reflexivity.
Qed.
Lemma kern_row_projection : forall ell j W, Nat.even ell = true ->
  kern_row (get_coefficients ell (2 * j)) W = (2 * INR ell + 1) / 2 * RI (fun t => (L ell t * L (2 * j) t) * series 0 W t).
Proof.
  intros. rewrite window_series, kern_row_csum. apply csum_ext. intros q co I. rewrite (@q_even ell (2 * j) q co) by (auto; rewrite Nat.even_mul; auto).
  rewrite Nat.sub_0_r. reflexivity.
Qed.
(** the whole linear combination *)
Fixpoint kdot (ell j0 : nat) (W xi : list R) : R := match xi with [] => 0 | a :: xi' => a * kern_row (get_coefficients ell (2 * j0)) W + kdot ell (S j0) W xi' end.
Lemma kdot_product : forall ell W xi j0, Nat.even ell = true ->
  kdot ell j0 W xi = (2 * INR ell + 1) / 2 * RI (fun t => L ell t * (series 0 W t * series j0 xi t)).
Proof.
  induction xi; intros j0 H; cbn [kdot series].
  - rewrite (RInt_ext _ (fun _ => 0)) by (intros; rewrite Rmult_0_r; apply Rmult_0_r). rewrite RI_zero. ring.
  - rewrite (@RI_lin _ (fun t => L ell t * L (2 * j0) t * series 0 W t) (fun t => L ell t * (series 0 W t * series (S j0) xi t)) a).
    + rewrite IHxi, kern_row_projection by auto. ring.
    + intros. ring.
    + intros. apply (continuous_mult (fun t => L ell t * L (2 * j0) t) (series 0 W)); [apply continuous_LL|apply continuous_series].
    + intros. apply (continuous_mult (L ell) (fun t => series 0 W t * series (S j0) xi t)); [apply continuous_L|].
      apply (continuous_mult (series 0 W) (series (S j0) xi)); apply continuous_series.
Qed.

(** ** the call *)
Lemma dot_kernel_gen : forall (f : nat -> R) xi n j0, length xi = n -> dot xi (map f (seq j0 n)) = (fix go j l := match l with [] => 0 | a :: l' => a * f j + go (S j) l' end) j0 xi.
Proof. induction xi; intros; destruct n; simpl in *; try lia; auto. rewrite IHxi by lia. auto. Qed.
Fixpoint gdot (f : nat -> R) (j : nat) (l : list R) : R := match l with [] => 0 | a :: l' => a * f j + gdot f (S j) l' end.
Lemma dot_map_seq : forall (f : nat -> R) xi n j0, length xi = n -> dot xi (map f (seq j0 n)) = gdot f j0 xi.
Proof. induction xi; intros; destruct n; simpl in *; try lia; auto. rewrite IHxi by lia. auto. Qed.
Lemma gdot_ext : forall f g l j, (forall i, f i = g i) -> gdot f j l = gdot g j l.
Proof. induction l; intros; cbn [gdot]; auto. rewrite H, IHl; auto. Qed.
Lemma gdot_delta : forall k l j, gdot (fun i => if (i =? k)%nat then 1 else 0) j l = if (j <=? k)%nat then nth (k - j) l 0 else 0.
Proof.
  induction l; intros; cbn [gdot].
  - destruct (j <=? k)%nat; auto. destruct (k - j)%nat; auto.
  - rewrite IHl. destruct (Nat.lt_trichotomy j k) as [T|[T|T]].
    + rewrite (proj2 (Nat.eqb_neq j k)) by lia. rewrite (proj2 (Nat.leb_le (S j) k)) by lia. rewrite (proj2 (Nat.leb_le j k)) by lia. replace (k - j)%nat with (S (k - S j)) by lia. simpl. ring.
    + subst. rewrite Nat.eqb_refl. rewrite (proj2 (Nat.leb_gt (S k) k)) by lia. rewrite Nat.leb_refl, Nat.sub_diag. simpl. ring.
    + rewrite (proj2 (Nat.eqb_neq j k)) by lia. rewrite (proj2 (Nat.leb_gt (S j) k)) by lia. rewrite (proj2 (Nat.leb_gt j k)) by lia. ring.
Qed.
Lemma kdot_gdot : forall ell W xi j, kdot ell j W xi = gdot (fun i => kern_row (get_coefficients ell (2 * i)) W) j xi.
Proof. induction xi; intros; cbn [kdot gdot]; auto. rewrite IHxi. auto. Qed.

Lemma combine_firstn_id : forall A n (r : list A) (xi : list (list R)), List.Forall (fun x => length x = n) xi -> map (firstn n) xi = xi.
Proof. induction xi; simpl; intros; auto. inversion H; subst. rewrite firstn_all, IHxi; auto. Qed.
Lemma call_loop_ok : forall I w ells r xi nc, forallb (has_spline w) ells = true -> (npoles w <= nc)%nat -> List.Forall (fun x => length x = nc) xi ->
  call_loop I w ells r xi nc = WOk (map (fun ell => map (fun p => dot (snd p) (kernel I w ell (fst p))) (combine r (map (firstn (npoles w)) xi))) ells).
Proof.
  induction ells; intros r xi nc H Hn Hx; auto. cbn [forallb] in H. apply andb_true_iff in H. destruct H as [H1 H2].
  cbn [call_loop map]. rewrite H1. cbn [negb]. destruct (nc =? npoles w)%nat eqn:E.
  - apply Nat.eqb_eq in E. rewrite IHells by auto. rewrite <- E. rewrite (@combine_firstn_id R nc r xi Hx). auto.
  - apply Nat.eqb_neq in E. rewrite (proj2 (Nat.ltb_lt _ _)) by lia.
    assert (F : List.Forall (fun x : list R => length x = npoles w) (map (firstn (npoles w)) xi)).
    { clear - Hx Hn. induction Hx; simpl; constructor; auto. rewrite firstn_length. lia. }
    rewrite IHells by auto. rewrite (@combine_firstn_id R (npoles w) r _ F). auto.
Qed.
