(** Proofs about the nonlinear bias functions. *)
From Coq Require Import Reals List Bool Arith Lia.
Import ListNotations.
From Verif Require Import M_Bias S_Bias.
Local Open Scope R_scope.

Lemma horner00 z y x b : horner [z; 0; y; 0; x] b = x + y * b ^ 2 + z * b ^ 4. Proof. unfold horner; simpl. ring. Qed.
Lemma horner01 z y x b : horner [0; 0; z; y; x] b = x + y * b + z * b ^ 2. Proof. unfold horner; simpl. ring. Qed.

(** one step of the map between names *)
Definition next (s : state) (n : name) : option name := match dispatch s n with inr t => Some t | _ => None end.
Inductive path (s : state) : name -> list name -> Prop :=
| path_end n : next s n = None -> path s n [n]
| path_step n n' p : next s n = Some n' -> path s n' p -> path s n (n :: p).
Lemma path_det s n p : path s n p -> forall p', path s n p' -> p = p'.
Proof.
  induction 1 as [n E|n n' p E P IH]; intros p' H'; inversion H' as [x E'|x y q E' P']; subst; try congruence.
  rewrite E in E'. injection E' as ->. f_equal. auto.
Qed.
Lemma path_in s n p : path s n p -> forall x, In x p -> exists q, path s x q /\ (length q <= length p)%nat.
Proof.
  induction 1 as [n E|n n' p E P IH]; intros x Hx.
  - destruct Hx as [<-|[]]. exists [n]. split; [constructor; auto | lia].
  - destruct Hx as [<-|Hx]. + exists (n :: p). split; [econstructor; eauto | lia].
    + destruct (IH x Hx) as (q & Q & L). exists q. split; auto. simpl. lia.
Qed.
Lemma path_nodup s n p : path s n p -> NoDup p.
Proof.
  induction 1 as [n E|n n' p E P IH]; [constructor; [intros [] | constructor]|]. constructor; auto. intros Hn.
  destruct (path_in _ _ _ P n Hn) as (q & Q & L). assert (Q' := path_det _ _ _ Q (n :: p) (path_step _ _ _ _ E P)). subst q. simpl in L. lia.
Qed.
Lemma path_short s n p : path s n p -> (length p <= 6)%nat.
Proof.
  intros H. change 6%nat with (length names). apply NoDup_incl_length; [eapply path_nodup; eauto|]. intros x _. destruct x; simpl; tauto.
Qed.

Lemma value_det t c fit n b v : value t c fit n b v -> forall v', value t c fit n b v' -> v' = v.
Proof.
  induction 1 as [n b E|n b F E|n b v F E V IH|b v E V IH|n b c0 c2 c4 F E C|n b c0 c1 c2 F E C|n n' b v E N V IH]; intros v' H'; inversion H'; subst;
    repeat match goal with H : _ \/ _ |- _ => destruct H end; subst; try congruence; auto.
  apply IH. congruence.
Qed.
Lemma value_dispatch s fit n b v : value (tys s) (co s) fit n b v ->
  (exists g, dispatch s n = inl (Ok g) /\ call fit g b = v) \/ (exists n', dispatch s n = inr n' /\ value (tys s) (co s) fit n' b v).
Proof.
  intros H; inversion H as [x y E|x y F E|x y w F E V|y w E V|x y c0 c2 c4 F E C|x y c0 c1 c2 F E C|x n' y w E N V]; subst; unfold dispatch.
  - left. exists (Fit n). destruct E as [-> | ->]; [auto|]. destruct (name_eq n n); [auto | congruence].
  - left. exists (Fit n). rewrite E. destruct F; subst; auto.
  - right. exists A00. rewrite E. destruct F as [F|[F|F]]; subst; auto.
  - right. exists A01. rewrite E. auto.
  - left. exists (Poly (poly_of (co s) n)). rewrite E. split; auto. simpl. unfold poly_of. rewrite C. destruct F as [F|[F|[F|F]]]; subst; apply horner00.
  - left. exists (Poly (poly_of (co s) n)). rewrite E. split; auto. simpl. unfold poly_of. rewrite C. destruct F as [F|F]; subst; apply horner01.
  - right. exists n'. rewrite E. destruct (name_eq n' n); [congruence|auto].
Qed.
Lemma value_path s fit n b v : value (tys s) (co s) fit n b v -> exists p, path s n p.
Proof.
  induction 1 as [n b E|n b F E|n b v F E V (p & IH)|b v E V (p & IH)|n b c0 c2 c4 F E C|n b c0 c1 c2 F E C|n n' b v E N V (p & IH)].
  - exists [n]. constructor. unfold next, dispatch. destruct E as [-> | ->]; auto. destruct (name_eq n n); auto. congruence.
  - exists [n]. constructor. unfold next, dispatch. rewrite E. destruct F; subst; auto.
  - exists (n :: p). apply path_step with A00; auto. unfold next, dispatch. rewrite E. destruct F as [F|[F|F]]; subst; auto.
  - exists (B01 :: p). apply path_step with A01; auto. unfold next, dispatch. rewrite E. auto.
  - exists [n]. constructor. unfold next, dispatch. rewrite E. auto.
  - exists [n]. constructor. unfold next, dispatch. rewrite E. auto.
  - exists (n :: p). apply path_step with n'; auto. unfold next, dispatch. rewrite E. destruct (name_eq n' n); [congruence|auto].
Qed.

(** every cached function has the documented values *)
Definition good (t : types) (c : coefs) (n : name) (g : fn) : Prop := forall fit b, value t c fit n b (call fit g b).
Definition inv (s : state) : Prop := forall n g, cache s n = Some g -> good (tys s) (co s) n g.
Lemma dispatch_good s n g : dispatch s n = inl (Ok g) -> good (tys s) (co s) n g.
Proof.
  unfold dispatch. intros H fit b. destruct (tys s n) as [| | |t|] eqn:E.
  - injection H as <-. apply v_default. auto.
  - destruct n; simpl in H; try discriminate; injection H as <-; apply v_vlah_first; auto.
  - injection H as <-. unfold poly_of, call. destruct (co s n) as ((x & y) & z) eqn:C.
    destruct n; first [rewrite horner00; apply v_poly00; auto; tauto | rewrite horner01; apply v_poly01; auto].
  - destruct (name_eq t n); [|discriminate]. injection H as <-. subst. apply v_default. auto.
  - discriminate.
Qed.
Lemma dispatch_good_inr s n n' g : dispatch s n = inr n' -> good (tys s) (co s) n' g -> good (tys s) (co s) n g.
Proof.
  unfold dispatch. intros H G fit b. destruct (tys s n) as [| | |t|] eqn:E; try discriminate.
  - destruct n; simpl in H; try discriminate; injection H as <-; [apply v_vlah00; auto .. | apply v_vlah01; auto].
  - destruct (name_eq t n); [discriminate|]. injection H as <-. apply v_map with t; auto.
Qed.
Lemma fill_inv s n g : inv s -> good (tys s) (co s) n g -> inv (fill s n g).
Proof. intros I G x h H. simpl in *. destruct (name_eq x n); [injection H as <-; subst; exact G | apply I; exact H]. Qed.
Lemma get_frame lim : forall s n, tys (snd (get lim s n)) = tys s /\ co (snd (get lim s n)) = co s.
Proof.
  induction lim as [|lim IH]; intros s n; simpl; auto. destruct (cache s n); simpl; auto. destruct (dispatch s n) as [[g| |]|t]; simpl; auto.
  specialize (IH s t). destruct (get lim s t) as [[g| |] s']; simpl in *; auto.
Qed.
Lemma get_inv lim : forall s n, inv s -> inv (snd (get lim s n)) /\ forall g, fst (get lim s n) = Ok g -> good (tys s) (co s) n g.
Proof.
  induction lim as [|lim IH]; intros s n I; simpl. { split; [auto | discriminate]. }
  destruct (cache s n) as [g|] eqn:C; simpl. { split; auto. intros g' H. injection H as <-. auto. }
  destruct (dispatch s n) as [[g| |]|t] eqn:D; simpl; try (split; [exact I | discriminate]).
  - split; [apply fill_inv; auto; apply dispatch_good; auto|]. intros g' H. injection H as <-. apply dispatch_good; auto.
  - destruct (IH s t I) as (I' & G'). destruct (get_frame lim s t) as (F1 & F2). destruct (get lim s t) as [[g| |] s'] eqn:E; simpl in *; try (split; [exact I' | discriminate]).
    assert (G : good (tys s) (co s) n g) by (eapply dispatch_good_inr; eauto).
    split; [apply fill_inv; auto; rewrite F1, F2; exact G|]. intros g' H. injection H as <-. exact G.
Qed.
Lemma get_defined s n p : path s n p -> forall fit b v, value (tys s) (co s) fit n b v -> forall lim, (length p <= lim)%nat -> exists g, fst (get lim s n) = Ok g.
Proof.
  induction 1 as [n E|n n' p E P IH]; intros fit b v V lim L.
  - destruct lim as [|lim]; [simpl in L; lia|]. simpl. destruct (cache s n); [eexists; reflexivity|]. unfold next in E. destruct (value_dispatch _ _ _ _ _ V) as [(g & D & _)|(n' & D & _)]; rewrite D in *; [exists g; reflexivity | discriminate].
  - destruct lim as [|lim]; [simpl in L; lia|]. simpl. destruct (cache s n); [eexists; reflexivity|]. unfold next in E.
    destruct (value_dispatch _ _ _ _ _ V) as [(g & D & _)|(m & D & V')]; rewrite D in *; [discriminate|]. injection E as ->.
    simpl in L. destruct (IH _ _ _ V' lim ltac:(lia)) as (g & G). destruct (get lim s n') as [r s']; simpl in *. subst. exists g. reflexivity.
Qed.
Lemma inv_reads lim s n : (6 <= lim)%nat -> inv s -> reads_right lim s n.
Proof.
  intros L I fit b v V. destruct (value_path _ _ _ _ _ V) as (p & P). pose proof (path_short _ _ _ P) as SH.
  destruct (get_defined _ _ _ P _ _ _ V lim ltac:(lia)) as (g & G). exists g. split; auto.
  destruct (get_inv lim s n I) as (_ & H). apply (value_det _ _ _ _ _ _ V). apply H, G.
Qed.
Lemma start_inv c t : inv (start c t). Proof. intros n g H. discriminate. Qed.
Lemma set_types_inv s t : inv (set_types s t). Proof. intros n g H. discriminate. Qed.
Lemma step_inv lim s o : self_contained (tys s) -> inv s -> inv (step lim s o).
Proof.
  intros SC I. destruct o as [n v|t|kws|b|n]; simpl.
  - intros x g H. simpl in *. destruct (name_eq x n); [discriminate|]. intros fit b. apply (SC x (co s)); [|apply I; exact H]. simpl. destruct (name_eq x n); congruence.
  - apply set_types_inv.
  - unfold update_biasing. destruct (forallb _ _); [apply set_types_inv | exact I].
  - destruct b; apply set_types_inv.
  - apply get_inv, I.
Qed.
Lemma run_inv lim : forall os s, always_self_contained lim s os -> inv s -> inv (run lim s os).
Proof.
  induction os as [|o os IH]; intros s A I; simpl; auto. apply IH.
  - intros o1 o2 E. apply (A (o :: o1) o2). simpl. congruence.
  - apply step_inv; auto. apply (A [] (o :: os)). reflexivity.
Qed.

(** tables *)
Lemma direct_self_contained t : (forall n, t n = TNone \/ t n = TPoly \/ t n = TMap n \/ (t n = TVlah /\ (t (first_of n) = TVlah \/ t (first_of n) = TNone))) -> self_contained t.
Proof.
  intros D n c c' fit b v E V. inversion V as [x y F|x y F F'|x y w F F' V'|y w F V'|x y c0 c2 c4 F F' C|x y c0 c1 c2 F F' C|x n' y w F N V']; subst.
  - apply v_default; auto.
  - apply v_vlah_first; auto.
  - apply v_vlah00; auto. assert (X : t A00 = TVlah \/ t A00 = TNone).
    { destruct (D n) as [Z|[Z|[Z|(_ & Z)]]]; try congruence. destruct F as [F|[F|F]]; subst; exact Z. }
    inversion V'; subst; repeat match goal with H : _ \/ _ |- _ => destruct H end; try congruence; try discriminate.
    all: first [apply v_default; solve [auto] | apply v_vlah_first; solve [auto]].
  - apply v_vlah01; auto. assert (X : t A01 = TVlah \/ t A01 = TNone).
    { destruct (D B01) as [Z|[Z|[Z|(_ & Z)]]]; try congruence. exact Z. }
    inversion V'; subst; repeat match goal with H : _ \/ _ |- _ => destruct H end; try congruence; try discriminate.
    all: first [apply v_default; solve [auto] | apply v_vlah_first; solve [auto]].
  - rewrite E in C. apply v_poly00; auto.
  - rewrite E in C. apply v_poly01; auto.
  - destruct (D n) as [Z|[Z|[Z|(Z & _)]]]; congruence.
Qed.
(** a cycle *)
Lemma cycle_raises lim : forall s n, (forall x, cache s x = None) -> (forall x p, path s x p -> x <> n) -> (exists m, next s n = Some m) -> fst (get lim s n) = RecursionError.
Proof.
  induction lim as [|lim IH]; intros s n C NP (m & E); auto. simpl. rewrite C. unfold next in E. destruct (dispatch s n) as [|t] eqn:D; [discriminate|]. injection E as ->.
  assert (NM : forall x p, path s x p -> x <> m). { intros x p P ->. apply (NP n (n :: p)); [|reflexivity]. apply path_step with m; auto. unfold next. rewrite D. reflexivity. }
  assert (H : fst (get lim s m) = RecursionError).
  { apply IH; auto. destruct (next s m) eqn:Em; [eexists; reflexivity|]. exfalso. apply (NM m [m]); [constructor; auto | reflexivity]. }
  destruct (get lim s m) as [r s']. simpl in *. subst. reflexivity.
Qed.
