From Coq Require Import List Arith QArith Bool Lia.
From Verif Require Import M_Prep S_Prep P_Prep M_TheoryFile S_TheoryFile.
Import ListNotations.
Local Open Scope nat_scope.

Lemma mem_iff x l : mem x l = true <-> In x l.
Proof. unfold mem. rewrite existsb_exists. split; [intros (y & A & B); apply Nat.eqb_eq in B; now subst|intro H; exists x; split; [exact H|apply Nat.eqb_refl]]. Qed.
Lemma upd_eq {A} (f : nat -> A) n v : upd f n v n = v.
Proof. unfold upd. now rewrite Nat.eqb_refl. Qed.
Lemma upd_ne {A} (f : nat -> A) n v m : m <> n -> upd f n v m = f m.
Proof. unfold upd. intro H. now rewrite (proj2 (Nat.eqb_neq m n) H). Qed.

Definition laid (t : table) (n : nat) (l : line) : param := match t n with Some d => update_param d (make l) | None => make l end.
Lemma add_eq t n l : add t n (make l) n = Some (laid t n l).
Proof. unfold add. rewrite upd_eq. unfold laid. now destruct (t n). Qed.
Lemma add_ne t n l m : m <> n -> add t n (make l) m = t m.
Proof. intro H. unfold add. now apply upd_ne. Qed.

Section Lines.
Variables valid deprecated : nat -> bool.
Lemma lines_unknown n l : ~ valid n = true -> deprecated n = false -> forall file names t, ~ In n names -> In (n, l) file -> add_lines valid deprecated names t file = None.
Proof.
  intros V D. induction file as [|[m k] file IH]; intros names t N I; [destruct I|]. cbn [add_lines].
  destruct I as [E|I].
  - injection E as -> ->. rewrite D. destruct (mem n names) eqn:M; [apply mem_iff in M; tauto|]. destruct (valid n); [congruence|reflexivity].
  - destruct (deprecated m); [now apply IH|]. destruct (mem m names); [now apply IH|]. destruct (valid m) eqn:VM; [|reflexivity].
    apply IH; auto. intro H. apply in_app_or in H. destruct H as [H|[->|[]]]; [tauto|congruence].
Qed.
Lemma lines_spec : forall file names t names' t', add_lines valid deprecated names t file = Some (names', t') -> NoDup (map fst file) -> NoDup names ->
  NoDup names' /\ (forall n, In n names -> In n names') /\ (forall n l, In (n, l) file -> deprecated n = false -> In n names' /\ t' n = Some (laid t n l))
  /\ (forall n, (In n (map fst file) -> deprecated n = true) -> t' n = t n)
  /\ (forall n, In n names' -> In n names \/ exists l, In (n, l) file /\ deprecated n = false).
Proof.
  induction file as [|[m k] file IH]; intros names t names' t' H ND NN; cbn [add_lines] in H.
  { injection H as <- <-. repeat split; auto; [destruct H|destruct H]. }
  cbn [map] in ND. inversion_clear ND as [|? ? NI ND']. 
  assert (step : forall names0 t0, add_lines valid deprecated names0 t0 file = Some (names', t') -> NoDup names0 ->
     deprecated m = false -> In m names0 -> (forall n, In n names -> In n names0) -> (forall n, In n names0 -> In n names \/ n = m) -> t0 = add t m (make k) ->
     NoDup names' /\ (forall n, In n names -> In n names') /\ (forall n l, In (n, l) ((m, k) :: file) -> deprecated n = false -> In n names' /\ t' n = Some (laid t n l))
  /\ (forall n, (In n (map fst ((m, k) :: file)) -> deprecated n = true) -> t' n = t n)
  /\ (forall n, In n names' -> In n names \/ exists l, In (n, l) ((m, k) :: file) /\ deprecated n = false)).
  { intros names0 t0 E N0 D0 I0 S0 B0 ->. destruct (IH _ _ _ _ E ND' N0) as (A1 & A2 & A3 & A4 & A5). repeat split; auto.
    - destruct H0 as [X|X]; [injection X as <- <-; auto|]. now apply (A3 n l).
    - destruct H0 as [X|X].
      + injection X as <- <-. rewrite A4 by (intro Y; contradiction). apply add_eq.
      + destruct (A3 n l X H1) as [_ ->]. unfold laid. rewrite add_ne; [reflexivity|]. intros ->. apply NI. apply (in_map fst) in X. exact X.
    - intros n Hn. rewrite A4 by (intro Y; apply Hn; now right). apply add_ne. intros ->. specialize (Hn (or_introl eq_refl)). congruence.
    - intros n Hn. destruct (A5 n Hn) as [X|(l & X & Y)].
      + destruct (B0 n X) as [Z| ->]; [now left|]. right. exists k. split; [now left|exact D0].
      + right. exists l. split; [now right|exact Y]. }
  destruct (deprecated m) eqn:D.
  - destruct (IH _ _ _ _ H ND' NN) as (A1 & A2 & A3 & A4 & A5). repeat split; auto.
    + destruct H0 as [X|X]; [injection X as <- <-; congruence|]. now apply (A3 n l).
    + destruct H0 as [X|X]; [injection X as <- <-; congruence|]. now apply (A3 n l).
    + intros n Hn. apply A4. intro X. apply Hn. now right.
    + intros n Hn. destruct (A5 n Hn) as [X|(l & X & Y)]; [now left|]. right; exists l; split; [now right|exact Y].
  - destruct (mem m names) eqn:M.
    + apply mem_iff in M. apply (step names (add t m (make k))); auto.
    + destruct (valid m); [|discriminate]. apply (step (names ++ [m]) (add t m (make k))); auto.
      * assert (~ In m names) as X by (intro Y; apply mem_iff in Y; congruence). clear - NN X.
        induction names as [|a names IHn]; cbn; [repeat constructor; auto|]. inversion_clear NN. constructor.
        { intro Y. apply in_app_or in Y. destruct Y as [Y|[->|[]]]; [tauto|]. apply X; now left. }
        apply IHn; auto. intro; apply X; now right.
      * apply in_or_app. right; now left.
      * intros n Hn. apply in_or_app. now left.
      * intros n Hn. apply in_app_or in Hn. destruct Hn as [X|[->|[]]]; auto.
Qed.
End Lines.

(** Settling. *)
Lemma settle_expr t d n p : expr (settle t d n p) = expr p.
Proof. unfold settle. now destruct (is_constrained p && _). Qed.
Lemma settle_free_id t d n p : expr p = None -> settle t d n p = p.
Proof. intro H. unfold settle, is_constrained. rewrite H. now destruct (fixed_constraint p). Qed.
Lemma settle_same t t' d n p : (forall u, In u (d n) -> varies t' u = varies t u) -> settle t' d n p = settle t d n p.
Proof.
  intro H. unfold settle. assert (existsb (varies t') (d n) = existsb (varies t) (d n)) as ->; [|reflexivity].
  induction (d n) as [|u l IH]; cbn; [reflexivity|]. rewrite H by now left. rewrite IH; [reflexivity|]. intros; apply H; now right.
Qed.
Lemma settle_all_spec d : forall names t, NoDup names -> (forall n u, In u (d n) -> expr_of t u = None) ->
  forall n, settle_all d names t n = if mem n names then option_map (settle t d n) (t n) else t n.
Proof.
  induction names as [|m names IH]; intros t ND H n; cbn [settle_all]; [reflexivity|]. inversion_clear ND as [|? ? NI ND'].
  destruct (t m) as [p|] eqn:P.
  - set (t1 := upd t m (Some (settle t d m p))).
    assert (E1 : forall u, expr_of t1 u = expr_of t u).
    { intro u. unfold expr_of, t1. destruct (Nat.eq_dec u m) as [->|N]; [rewrite upd_eq, P; apply settle_expr|now rewrite upd_ne]. }
    assert (V1 : forall u, expr_of t u = None -> varies t1 u = varies t u).
    { intros u U. unfold varies, t1. destruct (Nat.eq_dec u m) as [->|N]; [|now rewrite upd_ne]. rewrite upd_eq, P.
      unfold expr_of in U. rewrite P in U. now rewrite settle_free_id. }
    rewrite IH; auto. 2:{ intros n0 u U. rewrite E1. eauto. }
    unfold mem at 2. cbn [existsb]. fold (mem n names). destruct (Nat.eqb_spec n m) as [->|N]; cbn [orb].
    + destruct (mem m names) eqn:M; [apply mem_iff in M; tauto|]. unfold t1. rewrite upd_eq, P. reflexivity.
    + destruct (mem n names); [|unfold t1; now rewrite upd_ne]. unfold t1 at 2. rewrite upd_ne by exact N.
      destruct (t n); cbn; [|reflexivity]. f_equal. apply settle_same. intros u U. apply V1. eauto.
  - rewrite IH; auto. unfold mem at 2. cbn [existsb]. fold (mem n names). destruct (Nat.eqb_spec n m) as [->|N]; cbn [orb]; [|reflexivity].
    rewrite P. now destruct (mem m names).
Qed.

(** What loading gives. *)
Section Load.
Variables (fuel : nat) (valid deprecated : nat -> bool) (default_names : list nat) (defaults : table) (file : list (nat * line)) (names : list nat) (t : table).
Hypothesis HL : from_file fuel valid deprecated default_names defaults file = Some (names, t).
Hypothesis NF : NoDup (map fst file).
Hypothesis ND : NoDup default_names.

(** the table before prepare_params *)
Definition raw (n : nat) (p : param) : Prop := exists t1, add_lines valid deprecated default_names defaults file = Some (names, t1) /\ t1 n = Some p.
Lemma load_inv : exists t1 ps, add_lines valid deprecated default_names defaults file = Some (names, t1) /\
  prepare names (expr_of (fun n => option_map prepared (t1 n))) fuel = Some ps /\ t = settle_all (deps ps) names (fun n => option_map prepared (t1 n)).
Proof.
  unfold from_file in HL. destruct (add_lines _ _ _ _ _) as [[names1 t1]|] eqn:A; [|discriminate].
  destruct (prepare _ _ _) as [ps|] eqn:P; [|discriminate]. injection HL as -> <-. exists t1, ps. auto.
Qed.
End Load.

Lemma prepared_expr p : expr (prepared p) = expr p.
Proof. unfold prepared. destruct (expr p) eqn:E; [reflexivity|exact E]. Qed.
Lemma expr_of_prepared t1 n : expr_of (fun n => option_map prepared (t1 n)) n = expr_of t1 n.
Proof. unfold expr_of. destruct (t1 n); cbn; [apply prepared_expr|reflexivity]. Qed.

Lemma con_None e n : constrained e n = false <-> e n = None.
Proof. unfold constrained. destruct (e n); split; congruence. Qed.
Lemma depends_ext names e e' : (forall n, e n = e' n) -> forall n u, depends names e n u -> depends names e' n u.
Proof.
  intros H n u D. induction D as [a c (H1 & H2 & l & H3 & H4)|a c x (H1 & H2 & l & H3 & H4) H5 IH].
  - apply dep_direct. repeat split; auto. exists l. now rewrite <- H.
  - eapply dep_via; [|exact IH]. repeat split; auto. exists l. now rewrite <- H.
Qed.
Section Loaded.
Variables (fuel : nat) (valid deprecated : nat -> bool) (default_names : list nat) (defaults : table) (file : list (nat * line)) (names : list nat) (t : table).
Hypothesis HL : from_file fuel valid deprecated default_names defaults file = Some (names, t).
Hypothesis NF : NoDup (map fst file).
Hypothesis ND : NoDup default_names.
Hypothesis HA : acyclic names (expr_of t).
Hypothesis Fresh : forall n d, defaults n = Some d -> fixed_constraint d = false.

(** every parameter afterwards: what the lines give, prepared and settled *)
Lemma loaded : exists t1 d, add_lines valid deprecated default_names defaults file = Some (names, t1) /\
  (forall n, t n = if mem n names then option_map (settle (fun n => option_map prepared (t1 n)) d n) (option_map prepared (t1 n)) else option_map prepared (t1 n)) /\
  (forall n u, In u (d n) <-> depends names (expr_of t) n u /\ expr_of t u = None) /\ (forall n, expr_of t n = expr_of t1 n).
Proof.
  destruct (load_inv fuel valid deprecated default_names defaults file names t HL) as (t1 & ps & A & P & E).
  set (t2 := fun n => option_map prepared (t1 n)) in *.
  destruct (lines_spec valid deprecated file default_names defaults names t1 A NF ND) as (NN & _).
  (* the expressions do not change in settle_all *)
  assert (X : forall d ns t0 n, expr_of (settle_all d ns t0) n = expr_of t0 n).
  { intros d ns. induction ns as [|m ns IH]; intros t0 n; cbn [settle_all]; [reflexivity|]. rewrite IH.
    destruct (t0 m) as [p|] eqn:M; [|reflexivity]. unfold expr_of. destruct (Nat.eq_dec n m) as [->|N]; [rewrite upd_eq, M; apply settle_expr|now rewrite upd_ne]. }
  assert (X2 : forall n, expr_of t n = expr_of t2 n) by (intro n; rewrite E; apply X).
  destruct HA as [rank Hr].
  assert (Hr2 : forall n c, edge names (expr_of t2) n c -> rank c < rank n).
  { intros n c (H1 & H2 & l & H3 & H4). apply Hr. repeat split; auto. exists l. rewrite X2. auto. }
  destruct (prepare_any names (expr_of t2) NN rank Hr2 fuel ps P) as [B _].
  assert (DD : forall n u, depends names (expr_of t2) n u <-> depends names (expr_of t) n u).
  { intros n u. split; apply depends_ext; intro; now rewrite X2. }
  assert (B' : forall n u, In u (deps ps n) <-> depends names (expr_of t) n u /\ expr_of t u = None).
  { intros n u. rewrite B, DD, con_None. now rewrite X2. }
  exists t1, (deps ps). split; [exact A|]. split; [|split; [exact B'|intro n; rewrite X2; apply expr_of_prepared]].
  intro n. rewrite E. rewrite settle_all_spec; [reflexivity|exact NN|]. intros m u U. apply B' in U. destruct U as [_ U]. now rewrite <- X2.
Qed.
End Loaded.

Definition loads fuel valid deprecated default_names (defaults : table) file names t : Prop :=
  from_file fuel valid deprecated default_names defaults file = Some (names, t) /\ NoDup (map fst file) /\ NoDup default_names /\
  acyclic names (expr_of t) /\ (forall n d, defaults n = Some d -> fixed_constraint d = false).

Lemma prepared_id p : expr p = None -> prepared p = p.
Proof. intro H. unfold prepared. now rewrite H. Qed.
Record same_but_vary (p q : param) : Prop := { sb_value : value q = value p; sb_min : min q = min p; sb_max : max q = max p; sb_expr : expr q = expr p;
  sb_prior : prior q = prior p; sb_num : num q = num p; sb_analytic : analytic q = analytic p }.
Lemma settle_prepared t d n p : same_but_vary p (settle t d n (prepared p)) /\ (expr p <> None -> vary (settle t d n (prepared p)) = false).
Proof.
  unfold settle. destruct (is_constrained (prepared p) && _); unfold prepared; destruct (expr p) eqn:E; (split; [constructor; cbn; auto; now rewrite E|cbn; intro; congruence || reflexivity]).
Qed.

Section After.
Variables (fuel : nat) (valid deprecated : nat -> bool) (default_names : list nat) (defaults : table) (file : list (nat * line)) (names : list nat) (t : table).
Hypothesis L : loads fuel valid deprecated default_names defaults file names t.

Lemma after_line n l : In (n, l) file -> deprecated n = false -> In n names /\ exists p, t n = Some p /\ same_but_vary (laid defaults n l) p /\
  (expr p = None -> vary p = vary (laid defaults n l)) /\ (expr p <> None -> vary p = false).
Proof.
  intros I D. destruct L as (H & NF & ND & A & F). destruct (loaded _ _ _ _ _ _ _ _ H NF ND A) as (t1 & d & E & T & _ & X).
  destruct (lines_spec valid deprecated file default_names defaults names t1 E NF ND) as (_ & _ & S & _). destruct (S n l I D) as [IN TN].
  split; [exact IN|]. rewrite (T n), TN. cbn [option_map]. set (p1 := laid defaults n l) in *.
  assert (exists p, (if mem n names then Some (settle (fun n0 => option_map prepared (t1 n0)) d n (prepared p1)) else Some (prepared p1)) = Some p /\
    p = settle (fun n0 => option_map prepared (t1 n0)) d n (prepared p1)) as (p & -> & EP).
  { eexists; split; [|reflexivity]. now rewrite (proj2 (mem_iff n names) IN). }
  exists p. split; [reflexivity|]. rewrite EP. destruct (settle_prepared (fun n0 => option_map prepared (t1 n0)) d n p1) as [SB V].
  split; [exact SB|]. rewrite (sb_expr _ _ SB). split; [|exact V]. intro N. rewrite (prepared_id p1 N). now rewrite settle_free_id.
Qed.
Lemma after_default n d : ~ In n (map fst file) \/ deprecated n = true -> In n default_names -> defaults n = Some d ->
  In n names /\ exists p, t n = Some p /\ same_but_vary d p /\ (expr p = None -> vary p = vary d) /\ (expr p <> None -> vary p = false).
Proof.
  intros I DN DF. destruct L as (H & NF & ND & A & F). destruct (loaded _ _ _ _ _ _ _ _ H NF ND A) as (t1 & dd & E & T & _ & X).
  destruct (lines_spec valid deprecated file default_names defaults names t1 E NF ND) as (_ & S1 & _ & S2 & _). pose proof (S1 n DN) as IN.
  assert (t1 n = Some d) as TN by (rewrite S2; [exact DF|intro Y; tauto]).
  split; [exact IN|]. rewrite (T n), TN, (proj2 (mem_iff n names) IN). cbn [option_map].
  eexists. split; [reflexivity|]. destruct (settle_prepared (fun n0 => option_map prepared (t1 n0)) dd n d) as [SB V].
  split; [exact SB|]. rewrite (sb_expr _ _ SB). split; [|exact V]. intro N. rewrite (prepared_id d N). now rewrite settle_free_id.
Qed.
Lemma free_iff n p : t n = Some p -> (In n (free_names names t) <-> In n names /\ vary p = true).
Proof.
  intro TN. unfold free_names. rewrite filter_In, TN. unfold is_free. rewrite andb_true_iff, negb_true_iff.
  split; [tauto|]. intros [A B]. repeat split; auto. unfold is_constrained. destruct (fixed_constraint p); [reflexivity|]. destruct (expr p) eqn:E; [|reflexivity].
  exfalso. destruct L as (H & NF & ND & AC & F). destruct (loaded _ _ _ _ _ _ _ _ H NF ND AC) as (t1 & dd & _ & T & _ & X).
  rewrite (T n) in TN. rewrite (proj2 (mem_iff n names) A) in TN. destruct (t1 n) as [p1|]; cbn in TN; [|discriminate]. injection TN as TN.
  destruct (settle_prepared (fun n0 => option_map prepared (t1 n0)) dd n p1) as [SB V]. rewrite TN in *. rewrite V in B; [discriminate|].
  rewrite <- (sb_expr _ _ SB), E. discriminate.
Qed.
Lemma free_expr u : In u (free_names names t) -> expr_of t u = None.
Proof.
  intro H. unfold free_names in H. apply filter_In in H. destruct H as [A B]. destruct (t u) as [p|] eqn:E; [|discriminate].
  assert (In u (free_names names t)) as K by (unfold free_names; apply filter_In; rewrite E; auto).
  destruct (expr p) eqn:EX; [|unfold expr_of; now rewrite E]. exfalso.
  apply (free_iff u p E) in K. destruct K as [_ V]. destruct L as (H & NF & ND & AC & F). destruct (loaded _ _ _ _ _ _ _ _ H NF ND AC) as (t1 & dd & _ & T & _ & X).
  rewrite (T u) in E. rewrite (proj2 (mem_iff u names) A) in E. destruct (t1 u) as [p1|]; cbn in E; [|discriminate]. injection E as E.
  destruct (settle_prepared (fun n0 => option_map prepared (t1 n0)) dd u p1) as [SB V']. rewrite E in *. rewrite V' in V; [discriminate|]. rewrite <- (sb_expr _ _ SB), EX. discriminate.
Qed.
Lemma fixed_false n p t1 : add_lines valid deprecated default_names defaults file = Some (names, t1) -> t1 n = Some p -> fixed_constraint p = false.
Proof.
  destruct L as (H & NF & ND & AC & F). intros E TN. destruct (lines_spec valid deprecated file default_names defaults names t1 E NF ND) as (_ & _ & S & S2 & _).
  destruct (in_dec Nat.eq_dec n (map fst file)) as [I|I].
  - apply in_map_iff in I. destruct I as ((m & l) & M & I). cbn in M. subst m. destruct (deprecated n) eqn:D.
    + rewrite S2 in TN by auto. eauto.
    + destruct (S n l I D) as [_ S3]. rewrite S3 in TN. injection TN as <-. unfold laid. destruct (defaults n) as [d|] eqn:DN; [cbn; eauto|reflexivity].
  - rewrite S2 in TN by tauto. eauto.
Qed.
Lemma constrained_iff n : In n (constrained_names names t) <-> In n names /\ expr_of t n <> None /\ exists u, depends names (expr_of t) n u /\ In u (free_names names t).
Proof.
  destruct L as (H & NF & ND & AC & F). destruct (loaded _ _ _ _ _ _ _ _ H NF ND AC) as (t1 & d & E & T & B & X).
  set (t2 := fun n => option_map prepared (t1 n)) in *.
  assert (VF : forall u, expr_of t u = None -> (In u (free_names names t) <-> In u names /\ varies t2 u = true)).
  { intros u U. destruct (t u) as [p|] eqn:TU.
    - rewrite (free_iff u p TU). rewrite (T u) in TU. unfold varies, t2. destruct (t1 u) as [p1|] eqn:T1; cbn in TU |- *.
      2:{ destruct (mem u names); discriminate. }
      destruct (mem u names) eqn:M; [|split; intros [Y _]; apply mem_iff in Y; congruence].
      injection TU as <-. rewrite X in U. unfold expr_of in U. rewrite T1 in U. rewrite (prepared_id p1 U), settle_free_id by exact U. tauto.
    - unfold free_names. rewrite filter_In, TU. unfold varies, t2. rewrite (T u) in TU. fold t2 in TU. destruct (t1 u) as [p1|] eqn:T1; cbn in *.
      + destruct (mem u names); discriminate.
      + split; intros [_ Y]; discriminate. }
  assert (NX : In n names -> forall p1, t1 n = Some p1 -> t n = Some (settle t2 d n (prepared p1))).
  { intros A p1 P1. rewrite (T n), (proj2 (mem_iff n names) A). rewrite P1. reflexivity. }
  unfold constrained_names. rewrite filter_In. split.
  - intros [A C]. destruct (t1 n) as [p1|] eqn:P1.
    2:{ rewrite (T n), (proj2 (mem_iff n names) A), P1 in C. discriminate. }
    rewrite (NX A p1 eq_refl) in C. split; [exact A|]. rewrite X. unfold expr_of. rewrite P1.
    assert (CP : is_constrained (prepared p1) = true) by (unfold settle in C; destruct (is_constrained (prepared p1)) eqn:Q; [reflexivity|]; cbn [andb] in C; congruence).
    split. { unfold is_constrained in CP. rewrite prepared_expr in CP. destruct (fixed_constraint (prepared p1)), (expr p1); discriminate. }
    unfold settle in C. rewrite CP in C. cbn [andb] in C. destruct (existsb (varies t2) (d n)) eqn:EX; cbn [negb] in C; [|discriminate C].
    apply existsb_exists in EX. destruct EX as (u & U & V). apply B in U. destruct U as [DU EU]. exists u. split; [exact DU|].
    apply (VF u EU). split; [|exact V]. clear - DU. induction DU as [a c (_ & I & _)|a c x _ _ IH]; auto.
  - intros (A & EN & u & DU & FU). split; [exact A|]. rewrite X in EN. unfold expr_of in EN. destruct (t1 n) as [p1|] eqn:P1; [|congruence].
    rewrite (NX A p1 eq_refl). unfold settle.
    assert (CP : is_constrained (prepared p1) = true).
    { unfold is_constrained. rewrite prepared_expr. assert (fixed_constraint (prepared p1) = false) as ->.
      { pose proof (fixed_false n p1 t1 E P1) as Y. unfold prepared. destruct (expr p1); exact Y. }
      destruct (expr p1); congruence. }
    rewrite CP. cbn [andb]. pose proof (free_expr u FU) as EU.
    assert (existsb (varies t2) (d n) = true) as ->; [|cbn [negb]; exact CP].
    apply existsb_exists. exists u. split; [apply B; auto|]. apply (VF u EU), FU.
Qed.
End After.

Lemma clip_between lo hi v : between lo hi v -> clip lo hi v = v.
Proof.
  intros [A B]. unfold clip. destruct hi as [m|]; [rewrite (proj2 (Qle_bool_iff v m)) by auto|]; (destruct lo as [k|]; [rewrite (proj2 (Qle_bool_iff k v)) by auto|]); reflexivity.
Qed.
Lemma between_given lo hi lo' hi' v : (forall m, lo = Some m -> lo' = Some m) -> (forall m, hi = Some m -> hi' = Some m) -> between lo' hi' v -> between lo hi v.
Proof. intros A B [C D]. split; auto. Qed.
