(** * Proofs about M_ParamWrite: the parameters themselves, and the whole file *)
From Coq Require Import Bool Ascii String Arith Lia Permutation.
From Coq Require Import List.
From Verif Require Import M_ParamFile S_ParamFile P_ParamFile P_ParamFile2 M_ParamWrite S_ParamWrite P_ParamWrite.
Import ListNotations.
Local Open Scope char_scope.

Section Helpers.
Context {A : Type}.
Variable truth : bool -> A.
Variable finite : pv A -> bool.
Lemma mem_iff k l : mem k l = true <-> In k l.
Proof. induction l as [|x l IH]; cbn; [split; [discriminate|tauto]|]. rewrite orb_true_iff, eqs_iff, IH. tauto. Qed.
Lemma spec_iff (v : pv A) : specification v <-> match v with DictV kvs => forallb (fun kv => mem (fst kv) valid_keys) kvs = true | _ => False end.
Proof.
  split.
  - intros (kvs & -> & H). apply forallb_forall. intros [k x] Hx. apply mem_iff. eapply H. eauto.
  - destruct v as [| |kvs]; try tauto. intros H. exists kvs. split; auto. intros k x Hx. rewrite forallb_forall in H. apply H in Hx. now apply mem_iff in Hx.
Qed.
Lemma of_plain v : ~ specification v -> of_value truth v (lit "value") = v.
Proof.
  intros H. assert (K : construct truth [(lit "value", v)] (lit "value") = v) by (destruct v; reflexivity). unfold of_value. destruct v as [| |kvs]; auto.
  destruct (forallb _ kvs) eqn:E; auto. exfalso. apply H. apply spec_iff. auto.
Qed.
Lemma dict_get p keys k : out p = None -> NoDup keys -> k <> lit "description" -> k <> lit "prior" ->
  get k (to_dict_keys finite p keys) = if mem k keys && negb (is_none (attr p k)) && negb ((eqs k (lit "min") || eqs k (lit "max")) && negb (finite (attr p k))) then Some (attr p k) else None.
Proof.
  intros Ho. induction keys as [|q keys IH]; intros N Hd Hp; cbn [to_dict_keys]; [reflexivity|]. inversion N; subst. specialize (IH H2 Hd Hp).
  cbn [mem]. destruct (eqs q k) eqn:E.
  - apply eqs_iff in E. subst q. rewrite (eqs_neq k (lit "description")) by auto. rewrite (eqs_neq k (lit "prior")) by auto. cbn [orb]. rewrite Ho.
    assert (M : mem k keys = false). { destruct (mem k keys) eqn:M; auto. apply mem_iff in M. contradiction. }
    rewrite M in IH. cbn [andb] in IH.
    assert (X : (if eqs k (lit "value") then attr p k else attr p k) = attr p k) by (destruct (eqs k (lit "value")); auto). rewrite X.
    destruct (is_none (attr p k)) eqn:En; cbn [negb andb]; auto.
    destruct ((eqs k (lit "min") || eqs k (lit "max")) && negb (finite (attr p k))) eqn:Ef; cbn [negb andb]; auto. cbn [get]. now rewrite eqs_refl.
  - cbn [orb]. destruct (eqs q (lit "description") || eqs q (lit "prior")); auto. rewrite Ho.
    match goal with |- get k (if ?b then _ else _) = _ => destruct b; auto end. match goal with |- get k (if ?b then _ else _) = _ => destruct b; auto end.
    cbn [get]. rewrite E. auto.
Qed.
Lemma dict_keys_in p keys k v : In (k, v) (to_dict_keys finite p keys) -> In k keys /\ k <> lit "prior".
Proof.
  induction keys as [|q keys IH]; cbn [to_dict_keys]; [intros []|]. intros H.
  assert (R : In (k, v) (to_dict_keys finite p keys) -> In k (q :: keys) /\ k <> lit "prior") by (intros K; destruct (IH K); split; auto; right; auto).
  destruct (eqs q (lit "description") || eqs q (lit "prior")) eqn:E; auto.
  match type of H with In _ (if ?b then _ else _) => destruct b; auto end. match type of H with In _ (if ?b then _ else _) => destruct b; auto end.
  destruct H as [H|H]; auto. inversion H; subst. split; [left; auto|]. intros ->. rewrite eqs_refl, orb_true_r in E. discriminate.
Qed.
Lemma valid_nodup : NoDup valid_keys.
Proof. assert (K : (fix nd (l : list str) : bool := match l with [] => true | x :: l => negb (mem x l) && nd l end) valid_keys = true) by (vm_compute; reflexivity). revert K. generalize valid_keys. induction l as [|x l IH]; [constructor|]. intros K. apply andb_true_iff in K. destruct K as [K1 K2]. constructor; auto. intros Q. apply mem_iff in Q. rewrite Q in K1. discriminate. Qed.
Definition proper_attrs (p : par A) : Prop :=
  out p = None /\ (value_of p = NoneV -> attr p (lit "fiducial") = NoneV) /\ attr p (lit "vary") <> NoneV /\ attr p (lit "analytic") <> NoneV /\
  (forall k, k = lit "min" \/ k = lit "max" -> attr p k <> NoneV -> finite (attr p k) = true).
Lemma kw_get p k : proper_attrs p -> In (lit k) valid_keys -> lit k <> lit "description" -> lit k <> lit "prior" ->
  get (lit k) (to_dict finite p) = match attr p (lit k) with NoneV => None | v => Some v end.
Proof.
  intros (Ho & _ & _ & _ & Hm) Hin Hd Hp. unfold to_dict. rewrite dict_get; auto using valid_nodup. rewrite (proj2 (mem_iff _ _) Hin). cbn [andb].
  destruct (eqs (lit k) (lit "min") || eqs (lit k) (lit "max")) eqn:E.
  - assert (F : attr p (lit k) <> NoneV -> finite (attr p (lit k)) = true). { apply Hm. apply orb_true_iff in E. rewrite !eqs_iff in E. auto. }
    destruct (attr p (lit k)); cbn in *; auto; rewrite F by discriminate; reflexivity.
  - destruct (attr p (lit k)); reflexivity.
Qed.
Lemma prior_get_keys p keys : get (lit "prior") (to_dict_keys finite p keys) = None.
Proof.
  destruct (get (lit "prior") (to_dict_keys finite p keys)) as [v|] eqn:E; auto. apply get_some in E. apply dict_keys_in in E. destruct E as [_ E]. now elim E.
Qed.
Lemma prior_get p : get (lit "prior") (to_dict finite p) = None.
Proof. exact (prior_get_keys p valid_keys). Qed.
Lemma or_none (v : pv A) : (match match v with NoneV => None | v => Some v end with Some v => v | None => NoneV end) = v.
Proof. destruct v; auto. Qed.
Lemma kept_valid k : In k kept -> In (lit k) valid_keys.
Proof. unfold kept, valid_keys. intros Q. apply in_map. cbn in Q |- *. tauto. Qed.
Lemma construct_dict p k : proper_attrs p -> In k kept -> construct truth (to_dict finite p) (lit k) = attr p (lit k).
Proof.
  intros H Hk. assert (G := fun k => kw_get p k H). destruct H as (Ho & Hv & H1 & H2 & Hm). unfold value_of in Hv. unfold kept in Hk. unfold construct, kw.
  assert (V := kept_valid). unfold kept in V.
  repeat (destruct Hk as [<-|Hk]; [
    repeat match goal with |- context [eqs (lit ?a) (lit ?b)] => let x := eval vm_compute in (eqs (lit a) (lit b)) in change (eqs (lit a) (lit b)) with x end;
    cbn [orb]; cbv iota; rewrite ?prior_get;
    repeat rewrite G by first [apply V; cbn; tauto | discriminate]; rewrite ?or_none|]); try (now destruct Hk); auto.
  all: unfold or_else, is_none;
    repeat match goal with |- context [match attr ?q ?k with NoneV => None | Plain a => Some (Plain a) | DictV kvs => Some (DictV kvs) end] => destruct (attr q k) eqn:? end;
    first [reflexivity | congruence | (specialize (Hv eq_refl); congruence) | (exfalso; congruence)].
Qed.
Lemma dict_valid_keys p keys : forallb (fun kv => mem (fst kv) keys) (to_dict_keys finite p keys) = true.
Proof.
  apply forallb_forall. intros [k v] H. apply dict_keys_in in H. destruct H as [H _]. cbn [fst]. apply mem_iff. exact H.
Qed.
Lemma dict_valid p : forallb (fun kv => mem (fst kv) valid_keys) (to_dict finite p) = true.
Proof. exact (dict_valid_keys p valid_keys). Qed.
End Helpers.

Section File.
Context {A : Type}.
Variable truth : bool -> A.
Variable finite : pv A -> bool.
Variable repr : pv A -> str.
Variable eval : list (str * pv A) -> str -> option (pv A).
Variable tostr : pv A -> str.
Variable env : str -> option str.
(** what evaluation of the written text of a parameter gives *)
Definition valued (d : bool) (p : par A) : pv A := if d then DictV (to_dict finite p) else value_of p.
Lemma simple_settled p : self_contained repr eval env p -> settled finite repr eval env false p (value_of p).
Proof.
  intros [_ H]. unfold settled, shown, output. destruct (out p) as [o|].
  - destruct H as (H1 & H2 & H3 & H4). auto.
  - destruct H as (H1 & H2 & H3). auto.
Qed.
Lemma fit_settled p : well_formed finite repr eval p -> settled finite repr eval env true p (DictV (to_dict finite p)).
Proof. intros (Ho & _ & _ & _ & _ & H1 & H2 & H3). unfold settled, shown. rewrite Ho. auto. Qed.
Definition good (b : block A) : Prop :=
  NoDup (map fst (pars b)) /\ forall e, In e (pars b) -> identifier (fst e) /\ settled finite repr eval env (as_dict b) (snd e) (valued (as_dict b) (snd e)).
Definition good_extras (es : list (str * str)) : Prop :=
  NoDup (map fst es) /\ forall e, In e es -> identifier (fst e) /\ one_line (quoted (snd e)) /\ ~ In "$" (quoted (snd e)) /\ exists v, forall D, eval D (quoted (snd e)) = Some v.
Lemma good_sorted b : good b -> NoDup (map fst (sorted (pars b))) /\
  forall e, In e (sorted (pars b)) -> identifier (fst e) /\ settled finite repr eval env (as_dict b) (snd e) (valued (as_dict b) (snd e)).
Proof.
  intros [N H]. split.
  - eapply Permutation_NoDup; [apply Permutation_map, Permutation_sym, sorted_perm|auto].
  - intros e He. apply H. eapply Permutation_in; [apply sorted_perm|auto].
Qed.
Lemma good_evaluates b : good b -> Forall2 (evaluates eval tostr env) (items finite repr b) (map (fun e => valued (as_dict b) (snd e)) (sorted (pars b))).
Proof.
  intros H. destruct (good_sorted b H) as [_ K]. unfold items. induction (sorted (pars b)) as [|e es IH]; cbn; constructor.
  - apply settled_eval. apply K. left. auto.
  - apply IH. intros. apply K. right. auto.
Qed.
Lemma good_items b i : identifier (tag b) -> good b -> In i (items finite repr b) -> exists n, fst i = tag b ++ "." :: n /\ identifier n.
Proof. intros Ht H Hi. destruct (good_sorted b H) as [_ K]. unfold items in Hi. apply in_map_iff in Hi. destruct Hi as (e & <- & Hi). exists (fst e). split; auto. apply K. auto. Qed.
Lemma keys_nodup {B} t (es : list (str * B)) : NoDup (map fst es) -> NoDup (map (fun e => t ++ "." :: fst e) es).
Proof.
  intros N. induction es as [|e es IH]; cbn [map]; constructor; cbn [map] in N; apply NoDup_cons_iff in N; destruct N as [N1 N2]; auto. intros K. apply in_map_iff in K. destruct K as (e' & E & K).
  apply app_inv_head in E. injection E as E. apply N1. exact (eq_ind _ (fun z => In z (map fst es)) (in_map fst es e' K) _ E).
Qed.
Lemma good_keys b : good b -> NoDup (map fst (items finite repr b)).
Proof. intros H. destruct (good_sorted b H) as [N _]. unfold items. rewrite map_map. exact (keys_nodup (tag b) _ N). Qed.
Lemma extras_evaluates es : good_extras es -> exists vs, Forall2 (evaluates eval tostr env) (map eitem es) vs.
Proof.
  intros [_ H]. induction es as [|e es IH]; cbn; [exists []; constructor|]. destruct IH as [vs IH]; [intros; apply H; right; auto|].
  destruct (H e) as (_ & [S _] & Hd & v & Hv); [left; auto|]. exists (v :: vs). constructor; auto. intros D _. unfold eval_item, eitem. cbn [fst]. rewrite contains_not by auto. rewrite S, Hv. reflexivity.
Qed.
Lemma extras_items es i : good_extras es -> In i (map eitem es) -> exists n, fst i = lit "theory_extra" ++ "." :: n /\ identifier n.
Proof. intros [_ H] Hi. apply in_map_iff in Hi. destruct Hi as (e & <- & Hi). exists (fst e). split; auto. apply H. auto. Qed.
Lemma extras_keys es : good_extras es -> NoDup (map fst (map eitem es)).
Proof. intros [N _]. rewrite map_map. exact (keys_nodup (lit "theory_extra") _ N). Qed.
Lemma not_ends u t : (forall a, rev u <> rev t ++ a) -> ~ ends_with u t.
Proof. intros H (a & ->). apply (H (rev a)). apply rev_app_distr. Qed.
Lemma keys_apart u t (l1 l2 : list (str * str)) : identifier u -> identifier t -> u <> t -> (forall i, In i l1 -> exists n, fst i = u ++ "." :: n /\ identifier n) ->
  (forall i, In i l2 -> exists n, fst i = t ++ "." :: n /\ identifier n) -> forall k, In k (map fst l1) -> In k (map fst l2) -> False.
Proof.
  intros Hu Ht N H1 H2 k K1 K2. apply in_map_iff in K1, K2. destruct K1 as (i & E1 & K1), K2 as (j & E2 & K2). destruct (H1 i K1) as (n & E3 & _), (H2 j K2) as (m & E4 & _).
  rewrite E1 in E3. rewrite E2 in E4. rewrite E3 in E4. assert (Q1 : cut "." (u ++ "." :: n) = Some (u, n)) by (apply cut_some; split; auto; apply (ident_not u); auto; apply dot_no).
  assert (Q2 : cut "." (t ++ "." :: m) = Some (t, m)) by (apply cut_some; split; auto; apply (ident_not t); auto; apply dot_no). congruence.
Qed.
Lemma nodup_app {X} (a b : list X) : NoDup a -> NoDup b -> (forall x, In x a -> In x b -> False) -> NoDup (a ++ b).
Proof.
  intros Ha Hb H. induction Ha as [|x a H1 H2 IH]; cbn; auto. constructor.
  - intros K. apply in_app_or in K. destruct K as [K|K]; auto. apply (H x); auto. left. auto.
  - apply IH. intros y Y1 Y2. apply (H y); auto. right. auto.
Qed.
Definition reread (d : bool) (e : str * par A) : str * par A := (fst e, {| attr := of_value truth (valued d (snd e)); out := out (snd e) |}).
Lemma read_one b lines pre post vpre vpost : identifier (tag b) -> good b -> Forall2 (evaluates eval tostr env) pre vpre -> Forall2 (evaluates eval tostr env) post vpost ->
  (forall i, In i (pre ++ post) -> exists u n, fst i = u ++ "." :: n /\ identifier u /\ identifier n /\ ~ ends_with u (tag b)) -> NoDup (map fst pre ++ map fst post) ->
  read_lines [] lines = Ok (pre ++ items finite repr b ++ post) -> read truth eval tostr env (tag b) lines = Ok (map (reread (as_dict b)) (sorted (pars b))).
Proof.
  intros Ht H F1 F2 Ho Hn Hr. destruct (good_sorted b H) as [N K].
  assert (Fs : Forall2 (fun e v => settled finite repr eval env (as_dict b) (snd e) v) (sorted (pars b)) (map (fun e => valued (as_dict b) (snd e)) (sorted (pars b)))).
  { clear -K. induction (sorted (pars b)) as [|e es IH]; cbn; constructor; [apply K; left; auto|apply IH; intros; apply K; right; auto]. }
  assert (Fi : Forall (fun e : str * par A => identifier (fst e)) (sorted (pars b))) by (apply Forall_forall; intros e He; apply K; auto).
  rewrite (read_block truth finite repr eval tostr env (tag b) (as_dict b) _ _ lines pre post vpre vpost Ht N Fi Fs F1 F2 Ho Hn Hr). f_equal.
  clear. induction (sorted (pars b)) as [|e es IH]; cbn; auto. rewrite IH. reflexivity.
Qed.
Lemma reread_same (R : par A -> par A -> Prop) b : good b -> (forall e, In e (pars b) -> R (snd (reread (as_dict b) e)) (snd e)) ->
  same_set R (map (reread (as_dict b)) (sorted (pars b))) (pars b).
Proof.
  intros [N _] H n. rewrite <- (get_perm (sorted (pars b)) (pars b)).
  2: apply sorted_perm. 2:{ eapply Permutation_NoDup; [apply Permutation_map, Permutation_sym, sorted_perm|auto]. }
  assert (H' : forall e, In e (sorted (pars b)) -> R (snd (reread (as_dict b) e)) (snd e)) by (intros; apply H; eapply Permutation_in; [apply sorted_perm|auto]).
  clear H. induction (sorted (pars b)) as [|[k p] es IH]; cbn [map get reread fst snd]; auto. destruct (eqs k n); [apply (H' (k, p)); left; auto|apply IH; intros; apply H'; right; auto].
Qed.
End File.
