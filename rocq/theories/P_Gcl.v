From Coq Require Import String Reals ZArith Lra Lia Bool.
From Coq Require Import List.
From Verif Require Import M_Spline M_Gcl S_Gcl.
From Verif Require M_Disc.
Import ListNotations.
Local Open Scope R_scope.

(** ** parameters *)
Lemma pget_pset_eq p k v : pget (pset p k v) k = Some v.
Proof. induction p as [|[a w] p IH]; cbn; [rewrite String.eqb_refl; reflexivity|]. destruct (String.eqb_spec a k) as [->|N]; cbn; [rewrite String.eqb_refl; reflexivity|]. destruct (String.eqb_spec a k); [contradiction|exact IH]. Qed.
Lemma pget_pset_neq p k v k' : k <> k' -> pget (pset p k v) k' = pget p k'.
Proof.
  intros H. induction p as [|[a w] p IH]; cbn.
  - destruct (String.eqb_spec k k'); [contradiction|reflexivity].
  - destruct (String.eqb_spec a k) as [->|N]; cbn; [destruct (String.eqb_spec k k'); [contradiction|reflexivity]|]. destruct (String.eqb_spec a k'); [reflexivity|exact IH].
Qed.
Lemma pset_same p k v : pget p k = Some v -> pset p k v = p.
Proof. induction p as [|[a w] p IH]; cbn; [discriminate|]. destruct (String.eqb_spec a k) as [->|N]; [intros [= ->]; reflexivity|]. intros H. rewrite IH by exact H. reflexivity. Qed.
Lemma pget_None_notin p k : pget p k = None <-> ~ In k (map fst p).
Proof.
  induction p as [|[a w] p IH]; cbn; [tauto|]. destruct (String.eqb_spec a k) as [->|N].
  - split; [discriminate|]. intros H. exfalso. apply H. left. reflexivity.
  - rewrite IH. split; intros H; [intros [->|H1]; [congruence|tauto]|intros H1; apply H; right; exact H1].
Qed.
Lemma pset_new p k v : pget p k = None -> pset p k v = p ++ [(k, v)].
Proof. induction p as [|[a w] p IH]; cbn; [reflexivity|]. destruct (String.eqb_spec a k); [discriminate|]. intros H. rewrite IH by exact H. reflexivity. Qed.
Lemma pset_fst p k v w : pget p k = Some w -> map fst (pset p k v) = map fst p.
Proof. induction p as [|[a u] p IH]; cbn; [discriminate|]. destruct (String.eqb_spec a k) as [->|N]; intros H; [reflexivity|]. cbn. rewrite IH by exact H. reflexivity. Qed.
Lemma pset_keys p k v : keys_distinct p -> keys_distinct (pset p k v).
Proof.
  unfold keys_distinct. intros H. destruct (pget p k) as [w|] eqn:G; [rewrite (pset_fst p k v w G); exact H|].
  rewrite pset_new by exact G. rewrite map_app. cbn. apply pget_None_notin in G. apply NoDup_rev in H. rewrite <- (rev_involutive (map fst p ++ [k])). apply NoDup_rev. rewrite rev_app_distr. cbn. constructor; [|exact H]. rewrite <- in_rev. exact G.
Qed.
Lemma pupdate_keys q p : keys_distinct p -> keys_distinct (pupdate p q).
Proof. revert p. induction q as [|[k v] q IH]; intros p H; [exact H|]. cbn. apply IH, pset_keys, H. Qed.
Lemma nil_keys : keys_distinct []. Proof. constructor. Qed.
Lemma pupdate_app q p : NoDup (map fst (p ++ q)) -> pupdate p q = p ++ q.
Proof.
  revert p. induction q as [|[k v] q IH]; intros p H; [rewrite app_nil_r; reflexivity|]. cbn. rewrite pset_new.
  - rewrite IH; [rewrite <- app_assoc; reflexivity|]. rewrite <- app_assoc. exact H.
  - apply pget_None_notin. rewrite map_app in H. cbn in H. apply NoDup_remove_2 in H. intros K. apply H. apply in_or_app. left. exact K.
Qed.
Lemma from_dict_same d : keys_distinct d -> has_defaults d -> from_dict d = d.
Proof.
  intros K (A & B). unfold from_dict, setdefault. destruct (pget d "P_k_max_h/Mpc") eqn:G; [|congruence]. destruct (pget d "z_max_pk") eqn:G'; [|congruence]. apply (pupdate_app d []). exact K.
Qed.
Lemma from_dict_keys d : keys_distinct (from_dict d).
Proof. apply pupdate_keys, nil_keys. Qed.
Lemma pupdate_get q p k : pget p k <> None -> pget (pupdate p q) k <> None.
Proof.
  revert p. induction q as [|[a v] q IH]; intros p H; [exact H|]. cbn. apply IH. destruct (String.string_dec a k) as [->|N]; [rewrite pget_pset_eq; discriminate|]. rewrite pget_pset_neq by exact N. exact H.
Qed.
Lemma setdefault_has d k v k' : pget d k' <> None -> pget (setdefault d k v) k' <> None.
Proof. intros H. unfold setdefault. destruct (pget d k) eqn:G; [exact H|]. destruct (String.string_dec k k') as [->|N]; [rewrite pget_pset_eq; discriminate|]. rewrite pget_pset_neq by exact N. exact H. Qed.
Lemma setdefault_has' d k v : pget (setdefault d k v) k <> None.
Proof. unfold setdefault. destruct (pget d k) eqn:G; [rewrite G; discriminate|]. rewrite pget_pset_eq. discriminate. Qed.
Lemma pupdate_in q : forall p k, pget q k <> None -> pget (pupdate p q) k <> None.
Proof.
  induction q as [|[a v] q IH]; intros p k H; [cbn in H; congruence|]. cbn in *. destruct (String.eqb_spec a k) as [->|N]; [|apply IH; exact H].
  apply pupdate_get. rewrite pget_pset_eq. discriminate.
Qed.
Lemma from_dict_defaults d : has_defaults (from_dict d).
Proof. unfold from_dict. split; apply pupdate_in; [apply setdefault_has, setdefault_has'|apply setdefault_has']. Qed.

(** ** VerifyCLASSOutput is idempotent *)
Lemma prefix_app a : forall s t, String.prefix a s = true -> String.prefix a (s ++ t) = true.
Proof. induction a as [|x a IH]; intros s t H; [destruct (s ++ t)%string; reflexivity|]. destruct s as [|y s]; [discriminate|]. cbn in *. destruct (Ascii.ascii_dec x y); [apply IH; exact H|discriminate]. Qed.
Lemma has_app_l n s t : has n s = true -> has n (s ++ t) = true.
Proof.
  induction s as [|y s IH]; cbn [has].
  - intros H. rewrite orb_false_r in H. assert (N : n = EmptyString) by (destruct n; [reflexivity|discriminate]). rewrite N. destruct (EmptyString ++ t)%string; reflexivity.
  - intros H. apply orb_true_iff in H. destruct H as [H|H].
    + apply (prefix_app n (String y s) t) in H. change (String y s ++ t)%string with (String y (s ++ t)) in *. cbn [has]. rewrite H. reflexivity.
    + change (String y s ++ t)%string with (String y (s ++ t)). cbn [has]. rewrite (IH H). apply orb_true_r.
Qed.
Lemma has_app_r n s t : has n t = true -> has n (s ++ t) = true.
Proof. intros H. induction s as [|y s IH]; [exact H|]. change (String y s ++ t)%string with (String y (s ++ t)). cbn [has]. rewrite IH. apply orb_true_r. Qed.
Lemma verify_idem p : verify (verify p) = verify p.
Proof.
  unfold verify at 2 3. destruct (pget p "output") as [o|] eqn:G.
  - set (o1 := if has "dTk" o then o else (o ++ ", dTk")%string). set (o2 := if has "mPk" o1 then o1 else (o1 ++ ", mPk")%string).
    assert (H1 : has "dTk" o1 = true). { unfold o1. destruct (has "dTk" o) eqn:K; [exact K|]. apply has_app_r. reflexivity. }
    assert (H2 : has "dTk" o2 = true). { unfold o2. destruct (has "mPk" o1); [exact H1|]. apply has_app_l. exact H1. }
    assert (H3 : has "mPk" o2 = true). { unfold o2. destruct (has "mPk" o1) eqn:K; [exact K|]. apply has_app_r. reflexivity. }
    unfold verify. rewrite pget_pset_eq. rewrite H2, H3. apply pset_same, pget_pset_eq.
  - unfold verify. rewrite pget_pset_eq. change (has "dTk" "dTk, mPk") with true. change (has "mPk" "dTk, mPk") with true. cbv iota. apply pset_same, pget_pset_eq.
Qed.
Lemma verify_keys p : keys_distinct p -> keys_distinct (verify p).
Proof. intros H. unfold verify. destruct (pget p "output"); apply pset_keys, H. Qed.
