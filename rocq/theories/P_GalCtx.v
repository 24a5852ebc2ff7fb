From Coq Require Import List String Bool Reals Lra.
From Verif Require Import M_Cache M_Gal.
Import ListNotations.
Open Scope R_scope.

(** Same object except possibly for b1, b1_bar. *)
Definition same_but_biases (s s' : gst) : Prop := exists x y, s' = seta b1_bar y (seta b1 x s).

Definition clean {A} (m : M A) : Prop := forall s,
  match m s with
  | (Ok _, s') => s' = s
  | (Err _, s') => same_but_biases s s'
  end.

Lemma sbb_refl s : same_but_biases s s.
Proof. exists (geta b1 s), (geta b1_bar s). destruct s; reflexivity. Qed.

Lemma clean_ret A (x : A) : clean (ret x).
Proof. intro s. reflexivity. Qed.
Lemma clean_get a : clean (get_ a).
Proof. intro s. reflexivity. Qed.
Lemma clean_so : clean get_so.
Proof. intro s. reflexivity. Qed.
Lemma clean_bind A B (m : M A) (f : A -> M B) : clean m -> (forall x, clean (f x)) -> clean (bind m f).
Proof.
  intros Hm Hf s. unfold bind. specialize (Hm s). destruct (m s) as [[x|e] s1]; [subst s1; apply Hf|exact Hm].
Qed.

Lemma zsn_restores A (m : M A) s r s' : zero_shot_noise m s = (r, s') ->
  geta N_ s' = geta N_ s /\ r = fst (m (seta N_ 0 s)).
Proof.
  unfold zero_shot_noise. destruct (m (seta N_ 0 s)) as [r1 s1]. injection 1 as <- <-.
  split; [destruct s1; reflexivity|reflexivity].
Qed.
Lemma so_restores A (m : M A) s r s' : so_correction m s = (r, s') ->
  geta sigma_c s' = geta sigma_c s /\ r = fst (m (if use_so s then seta sigma_c 0 s else s)).
Proof.
  unfold so_correction. destruct (m _) as [r1 s1]. injection 1 as <- <-.
  split; [destruct s1; reflexivity|reflexivity].
Qed.

Lemma clean_zsn A (m : M A) : clean m -> clean (zero_shot_noise m).
Proof.
  intros Hm s. unfold zero_shot_noise. specialize (Hm (seta N_ 0 s)).
  destruct (m (seta N_ 0 s)) as [[x|e] s1].
  - subst s1. destruct s; reflexivity.
  - destruct Hm as (x & y & ->). exists x, y. destruct s; reflexivity.
Qed.
Lemma clean_soc A (m : M A) : clean m -> clean (so_correction m).
Proof.
  intros Hm s. unfold so_correction. specialize (Hm (if use_so s then seta sigma_c 0 s else s)).
  destruct (m _) as [[x|e] s1].
  - subst s1. destruct s as [? ? ? ? ? ? ? ? ? ? ? ? ? ? ? ? ? ? ? ? []]; reflexivity.
  - destruct Hm as (x & y & ->). exists x, y. destruct s as [? ? ? ? ? ? ? ? ? ? ? ? ? ? ? ? ? ? ? ? []]; reflexivity.
Qed.
Lemma clean_sb A x y (m : M A) : clean m -> clean (set_biases x y m).
Proof.
  intros Hm s. unfold set_biases. specialize (Hm (seta b1_bar (geta y s) (seta b1 (geta x s) s))).
  destruct (m _) as [[v|e] s1].
  - subst s1. destruct s; reflexivity.
  - destruct Hm as (p & q & ->). exists p, q. destruct s; reflexivity.
Qed.

Ltac split3 := split; [|split].
Section Tree.
Variables FOG FOG_k FOG_mu : R -> R -> R -> R.
Variables PW PW_k PW_mu : R -> R -> R -> R -> result R.

Definition clean_term (t : term) : Prop :=
  clean (coef t) /\ forall k mu, clean (call t k mu) /\ clean (dk t k mu) /\ clean (dmu t k mu).

Lemma clean_leaf p k mu : clean (run_leaf p k mu).
Proof.
  apply clean_bind; [apply clean_get|intro x]. apply clean_bind; [apply clean_get|intro y].
  intro s. destruct (p x y k mu); [reflexivity|apply sbb_refl].
Qed.
Lemma clean_wsum f l : (forall t, In t l -> clean (coef t) /\ clean (f t)) -> forall acc, clean (wsum f acc l).
Proof.
  induction l as [|t l IH]; intros H acc; cbn [wsum]; [apply clean_ret|].
  destruct (H t (or_introl eq_refl)) as [Hc Hv].
  apply clean_bind; [exact Hc|intro c]. apply clean_bind; [exact Hv|intro v].
  apply IH. intros u Hu. apply H. now right.
Qed.
Lemma clean_power_term cf l : clean cf -> Forall clean_term l -> clean_term (power_term cf l).
Proof.
  intros Hc Hl. rewrite Forall_forall in Hl. split; [exact Hc|]. intros k mu. cbn [call dk dmu power_term].
  split3; apply clean_wsum; intros t Ht; destruct (Hl t Ht) as [H1 H2]; (split; [exact H1|apply H2]).
Qed.
Lemma clean_one a : clean_term (one_halo a).
Proof. split; [apply clean_ret|]. intros; split; [apply clean_get|split; apply clean_ret]. Qed.
Lemma clean_two x y : clean_term (two_halo PW PW_k PW_mu x y).
Proof. split; [apply clean_ret|]. intros; split3; apply clean_sb, clean_leaf. Qed.

Ltac cl := repeat first
  [ assumption | apply clean_ret | apply clean_get | apply clean_so | apply clean_zsn | apply clean_soc
  | apply clean_bind; [|intro] ].

Lemma clean_damped cf l s1 s2 : clean cf -> Forall clean_term l -> clean_term (damped FOG FOG_k FOG_mu cf l s1 s2).
Proof.
  intros Hc Hl. destruct (clean_power_term cf l Hc Hl) as [_ Hi]. split; [exact Hc|]. intros k mu.
  destruct (Hi k mu) as (H1 & H2 & H3). cbn [call dk dmu power_term] in *.
  split3; cbn [call dk dmu damped].
  - apply clean_bind; [apply clean_get|intro a]. apply clean_bind; [destruct s2; cl|intro b]. cl.
  - apply clean_bind; [apply clean_get|intro a]. apply clean_bind; [destruct s2; cl|intros [b c]]. cl.
  - apply clean_bind; [apply clean_get|intro a]. apply clean_bind; [destruct s2; cl|intros [b c]]. cl.
Qed.
Lemma clean_so_wrap t : clean_term t -> clean_term (so_wrap t).
Proof. intros [H1 H2]. split; [exact H1|]. intros k mu. destruct (H2 k mu) as (?&?&?). split3; apply clean_soc; assumption. Qed.

Notation T f := (f FOG FOG_k FOG_mu PW PW_k PW_mu).
Ltac leaf := repeat first [apply Forall_nil | apply Forall_cons | apply clean_two | apply clean_one].

Lemma clean_cc : clean_term (Pcc_base FOG FOG_k FOG_mu PW PW_k PW_mu).
Proof.
  apply clean_power_term; [cl|]. repeat apply Forall_cons; try apply Forall_nil;
    (apply clean_so_wrap, clean_damped; [cl|leaf]).
Qed.
Lemma clean_Pcc : clean_term (T Pcc).
Proof.
  destruct clean_cc as [_ H]. split; [unfold Pcc; cbn [coef]; unfold Pcc_coef; cl|]. intros k mu. destruct (H k mu) as (H1 & H2 & H3).
  unfold Pcc; cbn [call dk dmu]. split3.
  - apply clean_bind; [apply clean_zsn; exact H1|intro p]. apply clean_bind; [apply clean_so|intros []]; cbn [negb]; cl.
  - unfold Pcc_deriv. apply clean_bind; [exact H2|intro p]. apply clean_bind; [apply clean_so|intros []]; cbn [negb]; cl.
  - unfold Pcc_deriv. apply clean_bind; [exact H3|intro p]. apply clean_bind; [apply clean_so|intros []]; cbn [negb]; cl.
Qed.
Lemma clean_zsn_term t : clean_term t -> clean_term (mkT (coef t) (fun k mu => zero_shot_noise (call t k mu)) (dk t) (dmu t)).
Proof. intros [H1 H2]. split; [exact H1|]. intros k mu. destruct (H2 k mu) as (?&?&?). cbn [call dk dmu]. split3; cl. Qed.
Lemma clean_Pcs : clean_term (T Pcs).
Proof. apply clean_zsn_term. apply clean_power_term; [cl|]. repeat apply Forall_cons; try apply Forall_nil; (apply clean_damped; [cl|leaf]). Qed.
Lemma clean_Pss : clean_term (T Pss).
Proof. apply clean_zsn_term. apply clean_power_term; [cl|]. repeat apply Forall_cons; try apply Forall_nil; (apply clean_damped; [cl|leaf]). Qed.
Lemma clean_Pgal : clean_term (T Pgal).
Proof.
  apply (clean_zsn_term (T Pgal_base)). apply clean_power_term; [cl|].
  repeat apply Forall_cons; try apply Forall_nil; [apply clean_Pcc|apply clean_Pcs|apply clean_Pss].
Qed.

Lemma pgal_leaves_model_alone k mu s v s' : call (T Pgal) k mu s = (Ok v, s') -> s' = s.
Proof. destruct clean_Pgal as [_ H]. destruct (H k mu) as [H1 _]. specialize (H1 s). intro E. now rewrite E in H1. Qed.
Lemma pgal_crash k mu s e s' : call (T Pgal) k mu s = (Err e, s') -> same_but_biases s s'.
Proof. destruct clean_Pgal as [_ H]. destruct (H k mu) as [H1 _]. specialize (H1 s). intro E. now rewrite E in H1. Qed.
End Tree.
