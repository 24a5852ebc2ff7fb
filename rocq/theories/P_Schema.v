(** * Soundness of the declaration check *)
From Coq Require Import List String Bool Arith Lia.
From Verif Require Import M_Cache S_Cache P_Cache M_Schema S_Schema.
Import ListNotations.
Open Scope string_scope.

Lemma In_lookup t a e : lookup a t = Some e -> In a (map fst t).
Proof.
  induction t as [|[b e'] t' IH]; cbn; [discriminate|].
  destruct (String.eqb a b) eqn:E; [apply String.eqb_eq in E; auto|]. auto.
Qed.

Section Sound.
Context {V : Type}.
Variable t : table.
Variable sch : schema V.
Variable body : string -> comp V.
Hypothesis Hconf : conforms t sch body.

Definition skel {W} (k : kind W) : option (option (list string)) :=
  match k with KParam _ => Some None | KProp _ ps => Some (Some ps) | KOther => None end.

Lemma skel_eq a : skel (sch a) = skel (sch_of t a).
Proof.
  specialize (Hconf a). unfold sch_of. destruct (lookup a t) as [[[b|]|i ps rs]|].
  - now rewrite Hconf.
  - destruct Hconf as [d [E _]]. now rewrite E.
  - destruct Hconf as [E _]. now rewrite E.
  - now rewrite Hconf.
Qed.

Lemma invert_eq n : forall l, invert n sch l = invert n (sch_of t) l.
Proof.
  induction n as [|n IH]; intros l; auto.
  cbn [invert]. induction l as [|p l IHl]; auto.
  pose proof (skel_eq p) as E.
  destruct (sch p), (sch_of t p); cbn in E; try discriminate; auto.
  - now rewrite IHl.
  - injection E as ->. now rewrite IH, IHl.
Qed.

Lemma ancestors_eq n a : ancestors n sch a = ancestors n (sch_of t) a.
Proof.
  unfold ancestors. pose proof (skel_eq a) as E.
  destruct (sch a), (sch_of t a); cbn in E; try discriminate; auto.
  injection E as ->. apply invert_eq.
Qed.

Lemma subsetb_In a b : subsetb a b = true -> incl a b.
Proof.
  unfold subsetb. rewrite forallb_forall. intros H x Hx. apply mem_In. auto.
Qed.

Lemma depends_edge a b : depends sch body a b -> forall C,
  (forall x y, In x C -> In y (edges t x) -> In y C) ->
  (forall y, In y (edges t a) -> In y C) -> In b C.
Proof.
  induction 1 as [a it ps b E M|a b E|a b c H1 IH1 H2 IH2]; intros C HC Ha.
  - apply Ha. specialize (Hconf a). unfold edges. destruct (lookup a t) as [[[x|]|i qs rs]|].
    + congruence.
    + destruct Hconf as [d [E' _]]. congruence.
    + destruct Hconf as [_ HR]. auto.
    + congruence.
  - apply Ha. specialize (Hconf a). unfold edges. destruct (lookup a t) as [[[x|]|i qs rs]|].
    + rewrite Hconf in E. injection E as <-. now left.
    + destruct Hconf as [d [E' HN]]. rewrite E' in E. injection E as ->. exfalso. eapply HN; eauto.
    + destruct Hconf as [E' _]. congruence.
    + congruence.
  - apply IH2; auto. intros y Hy. eapply HC; [|exact Hy]. apply IH1; auto.
Qed.

Theorem table_ok_sound gaps : table_ok t gaps = true -> disciplined sch body gaps depth.
Proof.
  intros Hok a it ps Ea. unfold table_ok in Hok. rewrite forallb_forall in Hok.
  pose proof (Hconf a) as Hc. destruct (lookup a t) as [[[x|]|i qs rs]|] eqn:El.
  - congruence.
  - destruct Hc as [d [E _]]. congruence.
  - destruct Hc as [E HR].
    assert (Hin : In a (map fst t)) by (eapply In_lookup; eauto).
    apply in_map_iff in Hin as [[a' e'] [Ea' Hin]]. cbn in Ea'. subst a'.
    specialize (Hok _ Hin). cbn [fst] in Hok. unfold attr_ok in Hok. rewrite El in Hok.
    rewrite <- ancestors_eq in Hok. destruct (ancestors depth sch a) as [l|] eqn:EA; [|discriminate].
    apply andb_true_iff in Hok as [H12 H3]. apply andb_true_iff in H12 as [H1 H2].
    apply subsetb_In in H1. apply subsetb_In in H2. rewrite forallb_forall in H3.
    split; [unfold creatable; congruence|]. intros p d Hd Ep.
    set (c := closure 2000 t rs []) in *.
    assert (Hpc : In p c).
    { eapply depends_edge with (a := a); eauto.
      - intros x y Hx Hy. apply H2. apply in_flat_map. eauto.
      - intros y Hy. apply H1. unfold edges in Hy. rewrite El in Hy. auto. }
    specialize (H3 p Hpc).
    assert (Hp : is_param t p = true).
    { unfold is_param. pose proof (Hconf p) as Hcp. destruct (lookup p t) as [[?|? ? ?]|]; auto.
      - destruct Hcp as [E' _]. congruence.
      - congruence. }
    rewrite Hp in H3. cbn in H3. apply orb_true_iff in H3 as [H3|H3]; apply mem_In in H3; auto. left. now apply (ancestors_declared sch depth a l p EA).
  - congruence.
Qed.
End Sound.

Lemma all_tables_ok : forallb (fun c => table_ok (fst (snd c)) (snd (snd c))) class_tables = true.
Proof. vm_compute. reflexivity. Qed.

Theorem real_schemas_disciplined V name t gaps (sch : schema V) body :
  In (name, (t, gaps)) class_tables -> conforms t sch body -> disciplined sch body gaps depth.
Proof.
  intros Hin Hc. apply table_ok_sound with t; auto.
  pose proof all_tables_ok as H. rewrite forallb_forall in H. apply (H _ Hin).
Qed.
