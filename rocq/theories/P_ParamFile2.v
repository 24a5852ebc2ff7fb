From Coq Require Import List Bool Ascii Arith Lia.
From Verif Require Import M_ParamFile S_ParamFile P_ParamFile.
Import ListNotations.
Open Scope char_scope.

Definition blank (s : str) : Prop := Forall (fun x => is_space x = true) s.
(** ** lstrip, strip *)
Lemma lstrip_app_blank p b s : Forall (fun x => p x = true) b -> lstrip p (b ++ s) = lstrip p s.
Proof. unfold lstrip. induction 1 as [|x b H Hb IH]; cbn; auto. rewrite H. destruct (span p (b ++ s)); auto. Qed.
Lemma lstrip_stop p x s : p x = false -> lstrip p (x :: s) = x :: s.
Proof. unfold lstrip. cbn. intros ->. reflexivity. Qed.
Lemma lstrip_split p s : exists b, s = b ++ lstrip p s /\ Forall (fun x => p x = true) b /\ (forall x r, lstrip p s = x :: r -> p x = false).
Proof. unfold lstrip. destruct (span_split p s) as (H1 & H2 & H3). exists (fst (span p s)). auto. Qed.
Lemma lstrip_app p s r : lstrip p s <> [] -> lstrip p (s ++ r) = lstrip p s ++ r.
Proof.
  intros H. destruct (lstrip_split p s) as (b & E & Hb & Hx). destruct (lstrip p s) as [|x l] eqn:El; [congruence|].
  rewrite E at 1. rewrite <- app_assoc. rewrite lstrip_app_blank by auto. cbn. apply lstrip_stop. eauto.
Qed.
Lemma lstrip_nil p s : lstrip p s = [] <-> Forall (fun x => p x = true) s.
Proof.
  split.
  - intros H. destruct (lstrip_split p s) as (b & E & Hb & _). rewrite H, app_nil_r in E. now subst.
  - intros H. rewrite <- (app_nil_r s). now rewrite lstrip_app_blank.
Qed.
Lemma lstrip_in p s x : In x (lstrip p s) -> In x s.
Proof. destruct (lstrip_split p s) as (b & E & _). rewrite E at 2. rewrite in_app_iff. auto. Qed.
Definition rstrip (s : str) : str := rev (lstrip is_space (rev s)).
Lemma strip_eq s : strip s = rstrip (lstrip is_space s). Proof. reflexivity. Qed.
Lemma rstrip_split s : exists b, s = rstrip s ++ b /\ blank b.
Proof.
  unfold rstrip. destruct (lstrip_split is_space (rev s)) as (b & E & Hb & _). exists (rev b). split.
  - rewrite <- rev_app_distr, <- E. now rewrite rev_involutive.
  - apply Forall_rev. auto.
Qed.
Lemma rstrip_app_blank s b : blank b -> rstrip (s ++ b) = rstrip s.
Proof. intros H. unfold rstrip. rewrite rev_app_distr, lstrip_app_blank; auto. apply Forall_rev. auto. Qed.
Lemma rstrip_stop s x : is_space x = false -> rstrip (s ++ [x]) = s ++ [x].
Proof. intros H. unfold rstrip. rewrite rev_app_distr. cbn. rewrite lstrip_stop by auto. cbn. now rewrite rev_involutive. Qed.
Lemma rstrip_app s r : rstrip r <> [] -> rstrip (s ++ r) = s ++ rstrip r.
Proof.
  intros H. unfold rstrip in *. rewrite rev_app_distr. rewrite lstrip_app. - rewrite rev_app_distr, rev_involutive. auto.
  - intros K. apply H. rewrite K. reflexivity.
Qed.
Lemma rstrip_nonspace s x r : is_space x = false -> rstrip (s ++ x :: r) = s ++ x :: rstrip r.
Proof.
  intros H. destruct (rstrip r) as [|y q] eqn:E.
  - change (s ++ x :: r) with (s ++ [x] ++ r). rewrite app_assoc. destruct (rstrip_split r) as (b & Er & Hb). rewrite E in Er. cbn in Er. subst.
    rewrite rstrip_app_blank by auto. now apply rstrip_stop.
  - change (s ++ x :: r) with (s ++ [x] ++ r). rewrite app_assoc. rewrite rstrip_app by congruence. rewrite E. now rewrite <- app_assoc.
Qed.
Lemma rstrip_idem s : rstrip (rstrip s) = rstrip s.
Proof.
  destruct (rstrip_split s) as (b & E & Hb). transitivity (rstrip (rstrip s ++ b)); [symmetry; now apply rstrip_app_blank|now rewrite <- E].
Qed.
Lemma strip_first s x r : strip s = x :: r -> is_space x = false.
Proof.
  rewrite strip_eq. intros H. destruct (lstrip_split is_space s) as (b & E & Hb & Hx). destruct (lstrip is_space s) as [|y l] eqn:El; [discriminate|].
  specialize (Hx y l eq_refl). assert (K := rstrip_nonspace [] y l Hx). cbn in K. rewrite K in H. injection H as <- _. auto.
Qed.
Lemma strip_nil s : strip s = [] <-> blank s.
Proof.
  rewrite strip_eq. split.
  - intros H. destruct (lstrip is_space s) as [|y l] eqn:El; [now apply lstrip_nil|]. exfalso.
    destruct (lstrip_split is_space s) as (b & E & Hb & Hx). specialize (Hx y l El). assert (K := rstrip_nonspace [] y l Hx). cbn in K. congruence.
  - intros H. apply lstrip_nil in H. rewrite H. reflexivity.
Qed.
Lemma strip_blank_ext s b c : blank b -> blank c -> strip (b ++ s ++ c) = strip s.
Proof.
  intros Hb Hc. rewrite !strip_eq. rewrite lstrip_app_blank by auto. destruct (lstrip is_space s) as [|y l] eqn:E.
  - apply lstrip_nil in E. assert (K : blank (s ++ c)) by (apply Forall_app; auto). apply lstrip_nil in K. rewrite K. reflexivity.
  - rewrite lstrip_app by congruence. rewrite E. now apply rstrip_app_blank.
Qed.
Lemma strip_idem s : strip (strip s) = strip s.
Proof.
  destruct (strip s) as [|x r] eqn:E; [reflexivity|]. assert (Hx := strip_first s x r E). rewrite strip_eq. rewrite lstrip_stop by auto.
  rewrite <- E, strip_eq. apply rstrip_idem.
Qed.
Lemma strip_in s x : In x (strip s) -> In x s.
Proof.
  rewrite strip_eq. intros H. apply (lstrip_in is_space). destruct (rstrip_split (lstrip is_space s)) as (b & E & _). rewrite E. apply in_or_app. auto.
Qed.

(** ** split *)
Lemma split_none c s : ~ In c s -> split c s = [s].
Proof.
  induction s as [|x s IH]; cbn; auto. intros H. destruct (Ascii.eqb_spec x c) as [->|N]; [exfalso; auto|]. rewrite IH by auto. reflexivity.
Qed.
Lemma split_nonempty c s : split c s <> [].
Proof. destruct s as [|x s]; cbn; [discriminate|]. destruct (Ascii.eqb x c); [discriminate|]. destruct (split c s); discriminate. Qed.
Lemma split_cut c s a b : ~ In c a -> s = a ++ c :: b -> split c s = a :: split c b.
Proof.
  intros H ->. induction a as [|x a IH]; cbn.
  - destruct (Ascii.eqb_spec c c); congruence.
  - destruct (Ascii.eqb_spec x c) as [->|N]; [exfalso; apply H; left; auto|]. rewrite IH by (intros K; apply H; right; auto). reflexivity.
Qed.
Lemma split_app c a s p ps : ~ In c a -> split c s = p :: ps -> split c (a ++ s) = (a ++ p) :: ps.
Proof.
  intros H E. induction a as [|x a IH]; cbn; auto. destruct (Ascii.eqb_spec x c) as [->|N]; [exfalso; apply H; left; auto|].
  rewrite IH by (intros K; apply H; right; auto). reflexivity.
Qed.
Lemma hd_split_in c s x : In x (hd [] (split c s)) -> In x s.
Proof.
  induction s as [|y s IH]; cbn; auto. destruct (Ascii.eqb y c); cbn; [intros []|]. destruct (split c s) as [|p ps]; cbn in *; [tauto|]. intros [E|E]; auto.
Qed.
Lemma split_strip_trail c s b : blank b -> is_space c = false -> map strip (split c (s ++ b)) = map strip (split c s).
Proof.
  intros Hb Hc. assert (Nc : ~ In c b). { intros K. unfold blank in Hb. rewrite Forall_forall in Hb. apply Hb in K. congruence. }
  induction s as [|x s IH]; cbn.
  - rewrite split_none by auto. cbn. rewrite (proj2 (strip_nil b) Hb). reflexivity.
  - destruct (Ascii.eqb x c); cbn; [now rewrite IH|]. destruct (split c (s ++ b)) as [|p ps] eqn:E1; [exfalso; eapply split_nonempty; eauto|].
    destruct (split c s) as [|q qs] eqn:E2; [exfalso; eapply split_nonempty; eauto|]. cbn in *. injection IH as H1 H2. rewrite H2. f_equal.
    (* the first pieces differ by trailing blanks only *)
    assert (K : p = q \/ p = q ++ b).
    { clear -E1 E2 Nc. revert p ps q qs E1 E2. induction s as [|y s IHs]; intros p ps q qs E1 E2; cbn in *.
      - rewrite split_none in E1 by auto. inversion E1; inversion E2; subst. auto.
      - destruct (Ascii.eqb y c); [inversion E1; inversion E2; subst; auto|].
        destruct (split c (s ++ b)) as [|p' ps'] eqn:E3; [exfalso; eapply split_nonempty; eauto|].
        destruct (split c s) as [|q' qs'] eqn:E4; [exfalso; eapply split_nonempty; eauto|]. inversion E1; inversion E2; subst.
        destruct (IHs p' ps q' qs eq_refl eq_refl) as [->| ->]; auto. }
    destruct K as [->| ->]; auto. change (x :: q ++ b) with ([] ++ (x :: q) ++ b). apply strip_blank_ext; auto. constructor.
Qed.

(** ** lines *)
Lemma ignorable_line old l : ignorable l -> read_line old l = Ok (old, None).
Proof. unfold read_line. intros [->|(r & ->)]; reflexivity. Qed.
Lemma read_lines_cons old l l' rest : read_line old l = read_line old l' -> read_lines old (l :: rest) = read_lines old (l' :: rest).
Proof. intros H. cbn. now rewrite H. Qed.
Lemma read_lines_app : forall l1 old r r', (forall o, read_lines o r = read_lines o r') -> read_lines old (l1 ++ r) = read_lines old (l1 ++ r').
Proof.
  induction l1 as [|l l1 IH]; intros old r r' H; cbn; auto. destruct (read_line old l) as [[o it]| | |]; auto. now rewrite (IH o r r' H).
Qed.
Lemma lstrip_sp_nonblank l : Exists (fun x => is_space x = false) l -> lstrip is_sp l <> [].
Proof.
  intros H K. apply lstrip_nil in K. apply Exists_exists in H. destruct H as (x & Hx & E). rewrite Forall_forall in K. apply K in Hx.
  unfold is_sp in Hx. apply Ascii.eqb_eq in Hx. subst. discriminate.
Qed.
Lemma hash_ns : is_space "#" = false. Proof. reflexivity. Qed.
Lemma bs_ns : is_space "\" = false. Proof. reflexivity. Qed.
Lemma trailing_comment old t c : ~ In "#" t -> ~ In "\" t -> read_line old (t ++ "#" :: c) = read_line old t.
Proof.
  intros H1 H2. unfold read_line. rewrite !strip_eq.
  destruct (lstrip is_space t) as [|x l] eqn:E.
  - apply lstrip_nil in E. rewrite lstrip_app_blank by auto. rewrite lstrip_stop by reflexivity.
    assert (K := rstrip_nonspace [] "#" c hash_ns). cbn in K. rewrite K. reflexivity.
  - assert (Nx : is_space x = false). { destruct (lstrip_split is_space t) as (b & _ & _ & Hx). eapply Hx; eauto. }
    assert (Hin : forall y, In y (x :: l) -> In y t) by (intros y Hy; apply (lstrip_in is_space); now rewrite E).
    rewrite lstrip_app by congruence. rewrite E. rewrite (rstrip_nonspace (x :: l) "#" c hash_ns).
    assert (Kx := rstrip_nonspace [] x l Nx). cbn in Kx. rewrite Kx. cbn [app].
    destruct (Ascii.eqb_spec x "#") as [->|Nh]; [exfalso; apply H1; apply Hin; left; auto|].
    assert (Hl : ~ In "#" (x :: l)) by auto.
    change (x :: l ++ "#" :: rstrip c) with ((x :: l) ++ "#" :: rstrip c).
    rewrite (split_cut "#" _ (x :: l) (rstrip c) Hl eq_refl). cbn [hd].
    destruct (rstrip_split l) as (b & El & Hb).
    assert (Hin2 : forall y, In y (x :: rstrip l) -> In y (x :: l)). { intros y [Hy|Hy]; [left; auto|right]. rewrite El. apply in_or_app; auto. }
    rewrite (split_none "#" (x :: rstrip l)) by (intros K; apply Hl; auto). cbn [hd].
    rewrite (split_none "\" (x :: l)) by auto. rewrite (split_none "\" (x :: rstrip l)) by auto. cbn [hd].
    assert (A : old ++ " " :: x :: l = (old ++ " " :: x :: rstrip l) ++ b). { rewrite <- app_assoc. cbn. now rewrite <- El. }
    rewrite A. assert (Hne : lstrip is_sp (old ++ " " :: x :: rstrip l) <> []).
    { apply lstrip_sp_nonblank. apply Exists_exists. exists x. split; auto. apply in_or_app. right. right. left. auto. }
    rewrite lstrip_app by auto. destruct (lstrip is_sp (old ++ " " :: x :: rstrip l)) as [|y m] eqn:Em; [congruence|].
    cbn [app].
    change (y :: m ++ b) with ((y :: m) ++ b). rewrite (split_strip_trail "=" (y :: m) b Hb eq_refl). reflexivity.
Qed.
Lemma continuation_line old x j : ~ In "#" x -> ~ In "\" x -> read_line old (x ++ "\" :: j) = Ok (old ++ " " :: lstrip is_space x, None).
Proof.
  intros H1 H2. unfold read_line. rewrite strip_eq.
  assert (E : rstrip (lstrip is_space (x ++ "\" :: j)) = lstrip is_space x ++ "\" :: rstrip j).
  { destruct (lstrip is_space x) as [|y l] eqn:E.
    - apply lstrip_nil in E. rewrite lstrip_app_blank by auto. rewrite lstrip_stop by reflexivity. apply (rstrip_nonspace [] "\" j bs_ns).
    - rewrite lstrip_app by congruence. rewrite E. apply (rstrip_nonspace (y :: l) "\" j bs_ns). }
  rewrite E. assert (Hin : forall y, In y (lstrip is_space x) -> In y x) by apply lstrip_in.
  set (x' := lstrip is_space x) in *. 
  assert (Hs : exists p ps, split "#" (rstrip j) = p :: ps) by (destruct (split "#" (rstrip j)) eqn:K; [exfalso; eapply split_nonempty; eauto|eauto]).
  destruct Hs as (p & ps & Hs).
  assert (E2 : split "#" (x' ++ "\" :: rstrip j) = (x' ++ "\" :: p) :: ps).
  { change (x' ++ "\" :: rstrip j) with (x' ++ ["\"] ++ rstrip j). change (x' ++ "\" :: p) with (x' ++ ["\"] ++ p). rewrite !app_assoc.
    apply split_app; auto. rewrite in_app_iff. intros [K|[K|[]]]; [auto|discriminate]. }
  rewrite E2. cbn [hd]. rewrite (split_cut "\" _ x' p) by auto.
  destruct (split "\" p) as [|q qs] eqn:Eq; [exfalso; eapply split_nonempty; eauto|].
  destruct (x' ++ "\" :: rstrip j) as [|z zs] eqn:Ez; [destruct x'; discriminate|].
  destruct (Ascii.eqb_spec z "#") as [->|]; auto. exfalso. destruct x' as [|w x'']; cbn in Ez; [discriminate|]. injection Ez as -> _. apply H1, Hin. left. auto.
Qed.
Lemma joined_line old x y : ~ In "#" x -> ~ In "\" x -> ~ blank x -> ~ ignorable y ->
  read_line (old ++ " " :: lstrip is_space x) y = read_line old (x ++ " " :: strip y).
Proof.
  intros H1 H2 H3 H4. unfold read_line.
  assert (Ey : exists c r, strip y = c :: r /\ c <> "#"). { destruct (strip y) as [|c r] eqn:E; [exfalso; apply H4; left; auto|]. exists c, r. split; auto. intros ->. apply H4. right. eauto. }
  destruct Ey as (c & r & Ey & Nc).
  destruct (lstrip is_space x) as [|z l] eqn:Ex; [exfalso; apply H3; now apply lstrip_nil|].
  assert (E : strip (x ++ " " :: strip y) = (z :: l) ++ " " :: strip y).
  { rewrite strip_eq. rewrite lstrip_app by congruence. rewrite Ex. change ((z :: l) ++ " " :: strip y) with ((z :: l) ++ [" "] ++ strip y). rewrite app_assoc.
    assert (K : rstrip (strip y) = strip y) by (rewrite !strip_eq; apply rstrip_idem).
    rewrite rstrip_app by (rewrite K, Ey; discriminate). now rewrite K. }
  rewrite E. clear E. assert (Hin : forall w, In w (z :: l) -> In w x) by (intros w Hw; apply (lstrip_in is_space); now rewrite Ex).
  rewrite Ey. destruct (Ascii.eqb_spec c "#") as [|_]; [congruence|]. cbn [app].
  destruct (Ascii.eqb_spec z "#") as [->|_]; [exfalso; apply H1, Hin; left; auto|]. rewrite <- Ey.
  change (z :: l ++ " " :: strip y) with ((z :: l) ++ [" "] ++ strip y). rewrite app_assoc.
  destruct (split "#" (strip y)) as [|p ps] eqn:Ep; [exfalso; eapply split_nonempty; eauto|].
  rewrite (split_app "#" ((z :: l) ++ [" "]) (strip y) p ps); auto.
  2: { rewrite in_app_iff. intros [K|[K|[]]]; [apply H1; auto|discriminate]. }
  cbn [hd]. destruct (split "\" p) as [|q qs] eqn:Eq; [exfalso; eapply split_nonempty; eauto|].
  rewrite (split_app "\" ((z :: l) ++ [" "]) p q qs); auto.
  2: { rewrite in_app_iff. intros [K|[K|[]]]; [apply H2; auto|discriminate]. }
  assert (A : forall t, (old ++ " " :: z :: l) ++ " " :: t = old ++ " " :: ((z :: l) ++ [" "]) ++ t). { intros t. rewrite <- !app_assoc. reflexivity. }
  destruct qs as [|q' qs]; cbn [hd]; rewrite A; reflexivity.
Qed.
(** a well-formed line *)
Lemma clean_line k v b1 b2 b3 b4 : blank b1 -> blank b2 -> blank b3 -> blank b4 ->
  strip k = k -> strip v = v -> k <> [] -> ~ In "=" (k ++ v) -> ~ In "#" (k ++ v) -> ~ In "\" (k ++ v) ->
  read_line [] (b1 ++ k ++ b2 ++ "=" :: b3 ++ v ++ b4) = Ok ([], Some (k, v)).
Proof.
  intros B1 B2 B3 B4 Hk Hv Nk He Hh Hb.
  assert (Hbs : forall c b, blank b -> is_space c = false -> ~ In c b). { intros c b Hbl Hc K. unfold blank in Hbl. rewrite Forall_forall in Hbl. apply Hbl in K. congruence. }
  destruct k as [|x k]; [congruence|]. assert (Nx : is_space x = false) by (eapply strip_first; eauto).
  unfold read_line. rewrite strip_eq, lstrip_app_blank by auto. cbn [app]. rewrite lstrip_stop by auto.
  set (tail := k ++ b2 ++ "=" :: b3 ++ v ++ b4).
  assert (Kx := rstrip_nonspace [] x tail Nx). cbn in Kx. rewrite Kx.
  destruct (rstrip_split tail) as (b & Et & Hbl).
  assert (Nin : forall c, is_space c = false -> c <> "=" -> ~ In c ((x :: k) ++ v) -> ~ In c (x :: tail)).
  { intros c Hc Nc Hn. unfold tail. intros [K|K]; [apply Hn; left; auto|]. rewrite !in_app_iff in K. cbn in K. rewrite !in_app_iff in K.
    apply Hn. cbn. rewrite in_app_iff. destruct K as [K|[K|[K|[K|[K|K]]]]]; auto; exfalso; [apply (Hbs c b2); auto|apply Nc; auto|apply (Hbs c b3); auto|apply (Hbs c b4); auto]. }
  assert (Nin2 : forall c, ~ In c (x :: tail) -> ~ In c (x :: rstrip tail)). { intros c Hc [K|K]; apply Hc; [left; auto|right]. rewrite Et. apply in_or_app. auto. }
  destruct (Ascii.eqb_spec x "#") as [->|_]; [exfalso; apply Hh; left; auto|].
  rewrite (split_none "#") by (apply Nin2, Nin; auto; discriminate). cbn [hd].
  rewrite (split_none "\") by (apply Nin2, Nin; auto; discriminate). cbn [hd].
  assert (El : lstrip is_sp ([] ++ " " :: x :: rstrip tail) = x :: rstrip tail).
  { change ([] ++ " " :: x :: rstrip tail) with ([" "] ++ x :: rstrip tail). rewrite lstrip_app_blank by (repeat constructor). apply lstrip_stop.
    unfold is_sp. apply Ascii.eqb_neq. intros ->. discriminate. }
  cbn [app] in El |- *. rewrite El. rewrite <- (split_strip_trail "=" (x :: rstrip tail) b Hbl eq_refl). cbn [app]. rewrite <- Et.
  unfold tail. change (x :: k ++ b2 ++ "=" :: b3 ++ v ++ b4) with ((x :: k) ++ b2 ++ "=" :: b3 ++ v ++ b4). rewrite app_assoc.
  rewrite (split_cut "=" _ ((x :: k) ++ b2) (b3 ++ v ++ b4)); auto.
  2: { rewrite in_app_iff. intros [K|K]; [apply He; apply in_or_app; auto|apply (Hbs "=" b2); auto]. }
  rewrite (split_none "=" (b3 ++ v ++ b4)). 2: { rewrite !in_app_iff. intros [K|[K|K]]; [eapply (Hbs "=" b3); eauto|apply He; apply in_or_app; auto|eapply (Hbs "=" b4); eauto]. }
  cbn [map]. rewrite (strip_blank_ext v b3 b4) by auto. assert (K := strip_blank_ext (x :: k) [] b2 ltac:(constructor) B2). cbn [app] in K. cbn [app]. rewrite K, Hk, Hv. reflexivity.
Qed.

Lemma bad_line k b1 b2 : blank b1 -> blank b2 -> strip k = k -> k <> [] -> ~ In "=" k -> ~ In "#" k -> ~ In "\" k ->
  read_line [] (b1 ++ k ++ b2) = ValueError.
Proof.
  intros B1 B2 Hk Nk He Hh Hb.
  assert (Hbs : forall c b, blank b -> is_space c = false -> ~ In c b). { intros c b Hbl Hc K. unfold blank in Hbl. rewrite Forall_forall in Hbl. apply Hbl in K. congruence. }
  destruct k as [|x k]; [congruence|]. assert (Nx : is_space x = false) by (eapply strip_first; eauto).
  unfold read_line. rewrite strip_eq, lstrip_app_blank by auto. cbn [app]. rewrite lstrip_stop by auto.
  set (tail := k ++ b2).
  assert (Kx := rstrip_nonspace [] x tail Nx). cbn in Kx. rewrite Kx.
  destruct (rstrip_split tail) as (b & Et & Hbl).
  assert (Nin : forall c, is_space c = false -> ~ In c (x :: k) -> ~ In c (x :: tail)).
  { intros c Hc Hn. unfold tail. intros [K|K]; [apply Hn; left; auto|]. rewrite in_app_iff in K. destruct K as [K|K]; [apply Hn; right; auto|apply (Hbs c b2); auto]. }
  assert (Nin2 : forall c, ~ In c (x :: tail) -> ~ In c (x :: rstrip tail)). { intros c Hc [K|K]; apply Hc; [left; auto|right]. rewrite Et. apply in_or_app. auto. }
  destruct (Ascii.eqb_spec x "#") as [->|_]; [exfalso; apply Hh; left; auto|].
  rewrite (split_none "#") by (apply Nin2, Nin; auto). cbn [hd].
  rewrite (split_none "\") by (apply Nin2, Nin; auto). cbn [hd].
  assert (El : lstrip is_sp ([] ++ " " :: x :: rstrip tail) = x :: rstrip tail).
  { change ([] ++ " " :: x :: rstrip tail) with ([" "] ++ x :: rstrip tail). rewrite lstrip_app_blank by (repeat constructor). apply lstrip_stop.
    unfold is_sp. apply Ascii.eqb_neq. intros ->. discriminate. }
  cbn [app] in El |- *. rewrite El. rewrite <- (split_strip_trail "=" (x :: rstrip tail) b Hbl eq_refl). cbn [app]. rewrite <- Et.
  rewrite (split_none "=") by (apply Nin; auto). cbn [map]. unfold tail.
  assert (K := strip_blank_ext (x :: k) [] b2 ltac:(constructor) B2). cbn [app] in K. rewrite K, Hk. reflexivity.
Qed.

(** ** tags *)
Lemma prefix_some p s r : prefix p s = Some r <-> s = p ++ r.
Proof.
  revert s. induction p as [|x p IH]; intros s; cbn; [split; congruence|]. destruct s as [|y s]; [split; discriminate|].
  destruct (Ascii.eqb_spec x y) as [->|N]; [rewrite IH; split; [intros ->; auto|intros [= ->]; auto]|split; [discriminate|intros [= -> _]; congruence]].
Qed.
Lemma split_nodot fuel t n : ~ In "." n -> split_str fuel (t ++ ["."]) n = [n].
Proof.
  revert n. induction fuel as [|fuel IH]; intros n Hn; [reflexivity|]. cbn. destruct (prefix (t ++ ["."]) n) as [r|] eqn:E.
  - exfalso. apply prefix_some in E. apply Hn. rewrite E, !in_app_iff. cbn. auto.
  - destruct n as [|x n]; auto. rewrite IH; auto. intros K; apply Hn; right; auto.
Qed.
Lemma dot_unique (a b c d : str) : ~ In "." a -> ~ In "." c -> a ++ "." :: b = c ++ "." :: d -> a = c /\ b = d.
Proof.
  intros Ha Hc E. assert (K1 : cut "." (a ++ "." :: b) = Some (a, b)) by (apply cut_some; auto). rewrite E in K1.
  assert (K2 : cut "." (c ++ "." :: d) = Some (c, d)) by (apply cut_some; auto). rewrite K2 in K1. inversion K1; auto.
Qed.
Definition ends_with (u t : str) : Prop := exists a, u = a ++ t.
Lemma split_key t u n : ~ In "." t -> ~ In "." u -> ~ In "." n -> forall fuel, (length u < fuel)%nat ->
  (forall a, u = a ++ t -> split_str fuel (t ++ ["."]) (u ++ "." :: n) = [a; n]) /\
  (~ ends_with u t -> split_str fuel (t ++ ["."]) (u ++ "." :: n) = [u ++ "." :: n]).
Proof.
  intros Ht Hu Hn. induction u as [|x u IH]; intros fuel Hf; (destruct fuel as [|fuel]; [cbn in Hf; lia|]).
  - cbn [app split_str]. split.
    + intros a E. symmetry in E. apply app_eq_nil in E. destruct E as [-> ->]. cbn. rewrite (split_nodot fuel [] n Hn : split_str fuel ["."] n = [n]). reflexivity.
    + intros K. destruct (prefix (t ++ ["."]) ("." :: n)) as [r|] eqn:E.
      * exfalso. apply prefix_some in E. rewrite <- app_assoc in E. destruct (dot_unique [] n t r) as [E1 _]; auto. apply K. exists []. auto.
      * rewrite split_nodot by auto. reflexivity.
  - assert (Hu' : ~ In "." u) by (intros K; apply Hu; right; auto). cbn in Hf. destruct (IH Hu' fuel ltac:(lia)) as [IH1 IH2].
    cbn [app split_str]. destruct (prefix (t ++ ["."]) (x :: u ++ "." :: n)) as [r|] eqn:E.
    + apply prefix_some in E. rewrite <- app_assoc in E. change (x :: u ++ "." :: n) with ((x :: u) ++ "." :: n) in E.
      destruct (dot_unique (x :: u) n t r Hu Ht E) as [<- <-]. split.
      * intros a Ea. destruct a as [|y a]; [now rewrite split_nodot|]. exfalso. apply (f_equal (@length _)) in Ea. rewrite app_length in Ea. cbn in Ea. lia.
      * intros K. exfalso. apply K. exists []. auto.
    + split.
      * intros a Ea. destruct a as [|y a]; cbn in Ea.
        -- exfalso. assert (K : prefix (t ++ ["."]) (x :: u ++ "." :: n) = Some n). { apply prefix_some. rewrite <- Ea, <- app_assoc. reflexivity. } congruence.
        -- injection Ea as -> Ea. rewrite (IH1 a Ea). reflexivity.
      * intros K. rewrite IH2; [reflexivity|]. intros (a & ->). apply K. exists (x :: a). auto.
Qed.
Lemma ends_with_dec u t : {ends_with u t} + {~ ends_with u t}.
Proof.
  assert (K : forall w p : str, {exists r, w = p ++ r} + {~ exists r, w = p ++ r}).
  { intros w p. destruct (prefix p w) as [r|] eqn:E; [left; exists r; now apply prefix_some|right]. intros (r & Hr). apply prefix_some in Hr. congruence. }
  destruct (K (rev u) (rev t)) as [H|H]; [left|right].
  - destruct H as (r & Hr). exists (rev r). rewrite <- (rev_involutive u), Hr, rev_app_distr, rev_involutive. reflexivity.
  - intros (a & ->). apply H. exists (rev a). now rewrite rev_app_distr.
Qed.
Lemma attribute_key u n tags : ~ In "." u -> ~ In "." n -> Forall (fun t => ~ In "." t) tags ->
  (exists t, In t tags /\ ends_with u t /\ attribute tags (u ++ "." :: n) = Some (t, strip n)) \/
  ((forall t, In t tags -> ~ ends_with u t) /\ attribute tags (u ++ "." :: n) = None).
Proof.
  intros Hu Hn. induction 1 as [|t tags Ht Hts IH]; [right; split; auto; intros t []|]. cbn [attribute].
  destruct (split_key t u n Ht Hu Hn (S (length (u ++ "." :: n)))) as [K1 K2]. { rewrite app_length. lia. }
  destruct (ends_with_dec u t) as [(a & Ea)|Ne].
  - left. exists t. split; [left; auto|]. split; [exists a; auto|]. rewrite (K1 a Ea). reflexivity.
  - rewrite (K2 Ne). destruct IH as [(t' & A & B & C)|[A B]].
    + left. exists t'. split; [right; auto|]. auto.
    + right. split; auto. intros t' [<-|H]; auto.
Qed.
