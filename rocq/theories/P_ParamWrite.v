(** * Proofs about M_ParamWrite *)
From Coq Require Import Bool Ascii String Arith Lia Permutation.
From Coq Require Import List.
From Verif Require Import M_ParamFile S_ParamFile P_ParamFile P_ParamFile2 M_ParamWrite S_ParamWrite.
Import ListNotations.
Local Open Scope char_scope.

Lemma eqs_iff a b : eqs a b = true <-> a = b.
Proof. unfold eqs. destruct (list_eq_dec ascii_dec a b); split; congruence. Qed.
Lemma eqs_refl a : eqs a a = true. Proof. now apply eqs_iff. Qed.
Lemma eqs_neq a b : a <> b -> eqs a b = false.
Proof. intros H. destruct (eqs a b) eqn:E; auto. apply eqs_iff in E. contradiction. Qed.
Lemma Forall2_len {X Y} (R : X -> Y -> Prop) a b : Forall2 R a b -> length a = length b.
Proof. induction 1; cbn; auto. Qed.
Lemma get_app {B} k (l l' : list (str * B)) : get k (l ++ l') = match get k l with Some v => Some v | None => get k l' end.
Proof. induction l as [|[k' v] l IH]; cbn; auto. destruct (eqs k' k); auto. Qed.
Lemma get_none {B} k (l : list (str * B)) : ~ In k (map fst l) -> get k l = None.
Proof. induction l as [|[k' v] l IH]; cbn; auto. intros H. rewrite eqs_neq by tauto. apply IH. tauto. Qed.
Lemma get_in {B} k v (l : list (str * B)) : NoDup (map fst l) -> In (k, v) l -> get k l = Some v.
Proof.
  induction l as [|[k' v'] l IH]; cbn; [tauto|]. intros H [E|E]; inversion H; subst.
  - inversion E; subst. now rewrite eqs_refl.
  - rewrite eqs_neq; auto. intros ->. apply H2. apply (in_map fst) in E. auto.
Qed.
Lemma get_some {B} k v (l : list (str * B)) : get k l = Some v -> In (k, v) l.
Proof. induction l as [|[k' v'] l IH]; cbn; [discriminate|]. destruct (eqs k' k) eqn:E; [apply eqs_iff in E; intros H; inversion H; subst; auto|auto]. Qed.
Lemma dict_set_fresh V D k v : ~ In k (map fst D) -> dict_set V D k v = D ++ [(k, v)].
Proof. induction D as [|[k' v'] D IH]; cbn; auto. intros H. rewrite eqs_neq by tauto. rewrite IH by tauto. auto. Qed.

(** characters of names *)
Lemma ident_not n c : identifier n -> ~ In c name_chars -> ~ In c n.
Proof. intros [_ H] K L. apply K. apply H. auto. Qed.
Lemma dot_no : ~ In "." name_chars. Proof. apply name_not. reflexivity. Qed.
Lemma eq_no : ~ In "=" name_chars. Proof. apply name_not. reflexivity. Qed.
Lemma hash_no : ~ In "#" name_chars. Proof. apply name_not. reflexivity. Qed.
Lemma bs_no : ~ In "\" name_chars. Proof. apply name_not. reflexivity. Qed.
Lemma name_not_space c : In c name_chars -> is_space c = false.
Proof. intros H. destruct (is_space c) eqn:E; auto. exfalso. revert c H E. 
  assert (K : forallb (fun c => negb (is_space c)) name_chars = true) by reflexivity. rewrite forallb_forall in K. intros c H E. apply K in H. rewrite E in H. discriminate. Qed.
Lemma strip_nospace s : (forall c, In c s -> is_space c = false) -> strip s = s.
Proof.
  intros H. destruct s as [|x s]; [reflexivity|]. rewrite strip_eq. rewrite lstrip_stop by (apply H; left; auto).
  destruct (@exists_last _ (x :: s)) as (l & y & E); [discriminate|]. rewrite E. apply rstrip_stop. apply H. rewrite E. apply in_or_app. right. left. auto.
Qed.
Lemma strip_ident n : identifier n -> strip n = n.
Proof. intros [_ H]. apply strip_nospace. intros c Hc. apply name_not_space. apply H. auto. Qed.
Lemma strip_key t n : identifier t -> identifier n -> strip (t ++ "." :: n) = t ++ "." :: n.
Proof.
  intros [_ H] [_ K]. apply strip_nospace. intros c Hc. apply in_app_or in Hc. destruct Hc as [Hc|[<-|Hc]]; [|reflexivity|]; apply name_not_space; auto.
Qed.

(** reading written lines *)
Lemma key_notin c t n : identifier t -> identifier n -> c <> "." -> ~ In c name_chars -> ~ In c (t ++ "." :: n).
Proof. intros Ht Hn N H K. apply in_app_or in K. destruct K as [K|[K|K]]; [eapply (ident_not t)|congruence|eapply (ident_not n)]; eauto. Qed.
Lemma entry_read t n x rest : identifier t -> identifier n -> one_line x ->
  read_lines [] ((t ++ "." :: n ++ " " :: "=" :: " " :: x) :: rest) = match read_lines [] rest with Ok l => Ok ((t ++ "." :: n, x) :: l) | e => e end.
Proof.
  intros Ht Hn (H1 & H2 & H3 & H4).
  assert (K : read_line [] ([] ++ (t ++ "." :: n) ++ [" "] ++ "=" :: [" "] ++ x ++ []) = Ok ([], Some (t ++ "." :: n, x))).
  { apply clean_line; try (repeat constructor; fail); auto.
    - apply strip_key; auto.
    - intros K. apply app_eq_nil in K. destruct K. discriminate.
    - intros K. apply in_app_or in K. destruct K as [K|K]; auto. revert K. apply (key_notin "=" t n Ht Hn); [discriminate|apply eq_no].
    - intros K. apply in_app_or in K. destruct K as [K|K]; auto. revert K. apply (key_notin "#" t n Ht Hn); [discriminate|apply hash_no].
    - intros K. apply in_app_or in K. destruct K as [K|K]; auto. revert K. apply (key_notin "\" t n Ht Hn); [discriminate|apply bs_no]. }
  assert (E : [] ++ (t ++ "." :: n) ++ [" "] ++ "=" :: [" "] ++ x ++ [] = t ++ "." :: n ++ " " :: "=" :: " " :: x).
  { rewrite app_nil_r. cbn [app]. rewrite <- app_assoc. cbn [app]. reflexivity. }
  rewrite E in K. cbn [read_lines]. rewrite K. reflexivity.
Qed.
Lemma skip_read l rest : ignorable l -> read_lines [] (l :: rest) = read_lines [] rest.
Proof. intros H. cbn [read_lines]. rewrite (ignorable_line [] l H). destruct (read_lines [] rest); reflexivity. Qed.
Lemma dashes_ign : ignorable dashes. Proof. right. eexists. vm_compute. reflexivity. Qed.
Lemma nil_ign : ignorable []. Proof. left. reflexivity. Qed.
Lemma hash_ign h : ignorable ("#" :: h).
Proof. right. rewrite strip_eq. rewrite lstrip_stop by reflexivity. exists (rstrip h). apply (rstrip_nonspace [] "#" h). reflexivity. Qed.

Definition ok_item (i : str * str) : Prop := exists t n, fst i = t ++ "." :: n /\ identifier t /\ identifier n /\ one_line (snd i).
Section RT.
Context {A : Type}.
Variable truth : bool -> A.
Variable finite : pv A -> bool.
Variable repr : pv A -> str.
Variable eval : list (str * pv A) -> str -> option (pv A).
Variable tostr : pv A -> str.
Variable env : str -> option str.

Definition item (b : block A) (e : str * par A) : str * str := (tag b ++ "." :: fst e, shown finite repr (as_dict b) (snd e)).
Definition items (b : block A) : list (str * str) := map (item b) (sorted (pars b)).
Definition ok_read (rest : list str) (l : list (str * str)) : Prop := read_lines [] rest = Ok l.
Lemma entries_read b es rest l : identifier (tag b) -> (forall e, In e es -> identifier (fst e) /\ one_line (shown finite repr (as_dict b) (snd e))) ->
  ok_read rest l -> ok_read (map (entry_line finite repr b) es ++ rest) (map (item b) es ++ l).
Proof.
  intros Ht H Hr. induction es as [|e es IH]; cbn [map app]; auto. unfold ok_read in *. unfold entry_line at 1. destruct (H e) as [H1 H2]; [left; auto|].
  rewrite entry_read by auto. rewrite IH by (intros; apply H; right; auto). reflexivity.
Qed.
Lemma block_read b rest l : identifier (tag b) ->
  (forall e, In e (sorted (pars b)) -> identifier (fst e) /\ one_line (shown finite repr (as_dict b) (snd e))) ->
  ok_read rest l -> ok_read (block_lines finite repr b ++ rest) (items b ++ l).
Proof.
  intros Ht H Hr. unfold block_lines, items. rewrite <- !app_assoc.
  assert (K : ok_read ((match sorted (pars b) with [] => [[]] | l0 => map (entry_line finite repr b) l0 end) ++ (if footer b then [dashes; []] else []) ++ rest)
              (map (item b) (sorted (pars b)) ++ l)).
  { assert (F : ok_read ((if footer b then [dashes; []] else []) ++ rest) l).
    { unfold ok_read in *. destruct (footer b); auto. cbn [app]. rewrite (skip_read dashes) by apply dashes_ign. rewrite (skip_read []) by apply nil_ign. auto. }
    destruct (sorted (pars b)) as [|e es] eqn:E.
    - unfold ok_read in *. cbn [app map]. rewrite (skip_read []) by apply nil_ign. auto.
    - apply entries_read; auto. }
  destruct (header b) as [h|]; auto. unfold ok_read in *. cbn [app].
  rewrite (skip_read dashes) by apply dashes_ign. rewrite (skip_read ("#" :: " " :: h)) by apply hash_ign. rewrite (skip_read dashes) by apply dashes_ign. auto.
Qed.
Definition quoted (d : str) : str := "'" :: d ++ ["'"].
Definition eitem (e : str * str) : str * str := (lit "theory_extra" ++ "." :: fst e, quoted (snd e)).
Lemma extra_read es rest l : (forall e, In e es -> identifier (fst e) /\ one_line (quoted (snd e))) ->
  ok_read rest l -> ok_read (extra_lines es ++ rest) (map eitem es ++ l).
Proof.
  intros H Hr. unfold extra_lines. rewrite <- app_assoc.
  assert (F : ok_read ([[]] ++ rest) l). { unfold ok_read in *. cbn [app]. rewrite (skip_read []) by apply nil_ign. auto. }
  destruct es as [|e0 es0] eqn:E; [unfold ok_read in *; cbn [app map] in *; rewrite (skip_read []) by apply nil_ign; auto|]. rewrite <- E in *. clear E e0 es0. remember ([[]] ++ rest) as R eqn:ER. clear ER Hr.
  induction es as [|e es IH]; cbn [map app]; auto. unfold ok_read in *. destruct (H e) as [H1 (Q1 & Q2 & Q3 & Q4)]; [left; auto|].
  assert (Hid : identifier (lit "theory_extra")). { split; [discriminate|]. intros c Hc. cbn in Hc. cbn. tauto. }
  assert (K : read_line [] ([] ++ (lit "theory_extra" ++ "." :: fst e) ++ [" "] ++ "=" :: [" "; " "] ++ quoted (snd e) ++ []) = Ok ([], Some (eitem e))).
  { apply clean_line; try (repeat constructor; fail); auto.
    - apply strip_key; auto.
    - discriminate.
    - intros K. apply in_app_or in K. destruct K as [K|K]; auto. revert K. apply (key_notin "=" _ (fst e) Hid H1); [discriminate|apply eq_no].
    - intros K. apply in_app_or in K. destruct K as [K|K]; auto. revert K. apply (key_notin "#" _ (fst e) Hid H1); [discriminate|apply hash_no].
    - intros K. apply in_app_or in K. destruct K as [K|K]; auto. revert K. apply (key_notin "\" _ (fst e) Hid H1); [discriminate|apply bs_no]. }
  assert (E : [] ++ (lit "theory_extra" ++ "." :: fst e) ++ [" "] ++ "=" :: [" "; " "] ++ quoted (snd e) ++ [] = extra_line e).
  { unfold extra_line, quoted. rewrite app_nil_r. change (lit "theory_extra.") with (lit "theory_extra" ++ ["."]). change (lit " =  '") with (" " :: "=" :: " " :: " " :: ["'"]).
    change (lit "'") with ["'"]. cbn [app]. rewrite <- !app_assoc. cbn [app]. reflexivity. }
  rewrite E in K. cbn [read_lines]. rewrite K. rewrite IH by (intros; apply H; right; auto). reflexivity.
Qed.

(** sorting *)
Lemma insert_perm (e : str * par A) l : Permutation (insert e l) (e :: l).
Proof. induction l as [|h t IH]; cbn; auto. destruct (str_leb (fst e) (fst h)); auto. rewrite IH. apply perm_swap. Qed.
Lemma sorted_perm (l : list (str * par A)) : Permutation (sorted l) l.
Proof. induction l as [|e l IH]; cbn; auto. rewrite insert_perm. auto. Qed.
Lemma get_perm {B} (l l' : list (str * B)) k : Permutation l l' -> NoDup (map fst l) -> get k l = get k l'.
Proof.
  intros P N. assert (N' : NoDup (map fst l')) by (eapply Permutation_NoDup; [apply Permutation_map; eauto|auto]).
  destruct (get k l) as [v|] eqn:E.
  - symmetry. apply get_in; auto. apply get_some in E. eapply Permutation_in; eauto.
  - symmetry. apply get_none. intros H. apply in_map_iff in H. destruct H as ([k' v] & <- & H). assert (K : get k' l = Some v); [|cbn in *; congruence].
    apply get_in; auto. eapply Permutation_in; [apply Permutation_sym; eauto|auto].
Qed.

(** evaluation *)
Definition evaluates (i : str * str) (v : pv A) : Prop := forall D : list (str * pv A), Forall (In ".") (map fst D) -> eval_item (pv A) eval tostr env D i = Ok (dict_set (pv A) D (fst i) v).
Lemma items_eval is vs : Forall2 evaluates is vs -> forall D, NoDup (map fst D ++ map fst is) -> Forall (In ".") (map fst D ++ map fst is) ->
  eval_items (pv A) eval tostr env D is = Ok (D ++ combine (map fst is) vs).
Proof.
  induction 1 as [|i v is vs H F IH]; intros D N Q; cbn; [now rewrite app_nil_r|].
  rewrite H. 2:{ apply Forall_app in Q. tauto. } rewrite dict_set_fresh.
  2:{ intros K. apply NoDup_remove_2 in N. apply N. apply in_or_app. auto. }
  rewrite IH. - rewrite <- app_assoc. reflexivity.
  - rewrite map_app. cbn. rewrite <- app_assoc. auto.
  - rewrite map_app. cbn. rewrite <- app_assoc. auto.
Qed.
Lemma dotted_lookup (D : list (str * pv A)) : Forall (In ".") (map fst D) -> dotted (fun n => option_map tostr (lookup (pv A) D n)).
Proof.
  intros H n Hn. induction D as [|[k v] D IH]; cbn [lookup]; auto. cbn [map fst] in H. inversion H; subst. destruct (eqs k n) eqn:E; auto. apply eqs_iff in E. subst. contradiction.
Qed.
Lemma originals_get is : forall O k, NoDup (map fst is) ->
  get k (originals eval is O) = match get k is with
    | Some t => if contains "$" t then match eval [] t with Some v => Some v | None => get k O end else get k O
    | None => get k O end.
Proof.
  assert (G : forall (O : list (str * pv A)) k k' v, get k (dict_set (pv A) O k' v) = if eqs k' k then Some v else get k O).
  { induction O as [|[q w] O IH]; intros k k' v; cbn; auto. destruct (eqs q k') eqn:E; cbn.
    - apply eqs_iff in E. subst q. destruct (eqs k' k); auto.
    - rewrite IH. destruct (eqs q k) eqn:E2; auto. apply eqs_iff in E2. subst q. rewrite eqs_neq; auto. intros ->. rewrite eqs_refl in E. discriminate. }
  induction is as [|[q t] is IH]; intros O k N; cbn; auto. inversion N; subst. rewrite IH by auto.
  destruct (eqs q k) eqn:E.
  - apply eqs_iff in E. subst q. rewrite (get_none k is) by auto. destruct (contains "$" t); auto. destruct (eval [] t); auto. rewrite G, eqs_refl. auto.
  - destruct (contains "$" t); auto. destruct (eval [] t) as [v|]; auto. rewrite G, E. auto.
Qed.

(** sections *)
Lemma section_app t O D1 : forall D2 s, section truth t O (D1 ++ D2) s = section truth t O D2 (section truth t O D1 s).
Proof. induction D1 as [|[k v] D1 IH]; intros D2 s; cbn; auto. Qed.
Lemma section_other t O D : forall s, (forall k v, In (k, v) D -> attribute [t] k = None) -> section truth t O D s = s.
Proof. induction D as [|[k v] D IH]; intros s H; cbn [section]; auto. rewrite (H k v) by (left; auto). apply IH. intros. eapply H. right. eauto. Qed.
Lemma section_own t O (es : list (str * pv A)) : identifier t -> forall s, NoDup (map fst s ++ map fst es) -> Forall (fun e => identifier (fst e)) es ->
  section truth t O (map (fun e => (t ++ "." :: fst e, snd e)) es) s =
  s ++ map (fun e => (fst e, {| attr := of_value truth (snd e); out := get (t ++ "." :: fst e) O |})) es.
Proof.
  intros Ht. induction es as [|[n v] es IH]; intros s N F; cbn [map section fst snd]; [now rewrite app_nil_r|]. inversion F; subst. cbn in H1.
  assert (K : attribute [t] (t ++ "." :: n) = Some (t, strip n)).
  { assert (Q := attribute_key t n [t]). destruct Q as [(t' & [<-|[]] & _ & C)|[B _]]; auto.
    - apply (ident_not t); auto. apply dot_no. - apply (ident_not n); auto. apply dot_no. - repeat constructor. apply (ident_not t); auto. apply dot_no.
    - exfalso. apply (B t); [left; auto|]. exists []. reflexivity. }
  rewrite K. rewrite strip_ident by auto. cbn in N.
  rewrite dict_set_fresh. 2:{ intros X. apply NoDup_remove_2 in N. apply N. apply in_or_app. auto. }
  rewrite IH; auto. - rewrite <- app_assoc. reflexivity.
  - rewrite map_app. cbn. rewrite <- app_assoc. auto.
Qed.

(** a parameter and what is read for it *)
Definition settled (d : bool) (p : par A) (v : pv A) : Prop :=
  let t := shown finite repr d p in one_line t /\
  match out p with
  | None => ~ In "$" t /\ forall D, eval D t = Some v
  | Some o => In "$" t /\ eval [] t = Some o /\ exists x, (forall L, dotted L -> replace_vars L env t = Ok x) /\ forall D, eval D (strip x) = Some v
  end.
Lemma contains_iff c s : contains c s = true <-> In c s.
Proof.
  unfold contains. destruct (cut c s) as [[a b]|] eqn:E.
  - split; auto. intros _. apply cut_some in E. destruct E as [-> _]. apply in_or_app. right. left. auto.
  - split; [discriminate|]. apply cut_none in E. tauto.
Qed.
Lemma contains_not c s : ~ In c s -> contains c s = false.
Proof. intros H. destruct (contains c s) eqn:E; auto. apply contains_iff in E. contradiction. Qed.
Lemma settled_eval d p v k : settled d p v -> evaluates (k, shown finite repr d p) v.
Proof.
  intros [[S1 S2] S] D HD. unfold eval_item. cbn [fst]. destruct (out p) as [o|].
  - destruct S as (H1 & H2 & x & H3 & H4). rewrite (proj2 (contains_iff _ _) H1), H2, (H3 _ (dotted_lookup D HD)), H4. reflexivity.
  - destruct S as (H1 & H2). rewrite contains_not by auto. rewrite S1, H2. reflexivity.
Qed.
Lemma settled_orig d p v k : settled d p v -> (if contains "$" (shown finite repr d p) then match eval [] (shown finite repr d p) with Some x => Some x | None => get k (@nil (str * pv A)) end
  else get k (@nil (str * pv A))) = out p.
Proof.
  intros [[S1 S2] S]. destruct (out p) as [o|].
  - destruct S as (H1 & H2 & _). rewrite (proj2 (contains_iff _ _) H1), H2. reflexivity.
  - destruct S as (H1 & H2). rewrite contains_not by auto. reflexivity.
Qed.
(** A file of items: pre ++ one block ++ post, where only that block has the tag *)
Lemma read_block t d (es : list (str * par A)) (vs : list (pv A)) lines pre post vpre vpost :
  identifier t -> NoDup (map fst es) -> Forall (fun e => identifier (fst e)) es ->
  Forall2 (fun e v => settled d (snd e) v) es vs ->
  Forall2 evaluates pre vpre -> Forall2 evaluates post vpost ->
  (forall i, In i (pre ++ post) -> exists u n, fst i = u ++ "." :: n /\ identifier u /\ identifier n /\ ~ ends_with u t) ->
  NoDup (map fst pre ++ map fst post) ->
  read_lines [] lines = Ok (pre ++ map (fun e => (t ++ "." :: fst e, shown finite repr d (snd e))) es ++ post) ->
  read truth eval tostr env t lines = Ok (map (fun ev => (fst (fst ev), {| attr := of_value truth (snd ev); out := out (snd (fst ev)) |})) (combine es vs)).
Proof.
  intros Ht Nd Fi Fs Fp Fq Ho Np Hr. unfold read. rewrite Hr.
  set (mid := map (fun e => (t ++ "." :: fst e, shown finite repr d (snd e))) es).
  assert (Fm : Forall2 evaluates mid vs).
  { clear -Fs. unfold mid. induction Fs as [|e v es vs H F IH]; cbn; constructor; auto. apply settled_eval. auto. }
  assert (Hm : map fst mid = map (fun e => t ++ "." :: fst e) es) by (unfold mid; rewrite map_map; reflexivity).
  assert (Own : forall k, In k (map fst mid) -> exists n, k = t ++ "." :: n /\ identifier n).
  { intros k K. rewrite Hm in K. apply in_map_iff in K. destruct K as (e & <- & K). exists (fst e). split; auto. rewrite Forall_forall in Fi. auto. }
  assert (Att : forall u n, identifier u -> identifier n -> ~ ends_with u t -> attribute [t] (u ++ "." :: n) = None).
  { intros u n Hu Hn Hne. assert (Q := attribute_key u n [t]). destruct Q as [(t' & [<-|[]] & X & _)|[_ B]]; auto.
    - apply (ident_not u); auto. apply dot_no. - apply (ident_not n); auto. apply dot_no. - repeat constructor. apply (ident_not t); auto. apply dot_no.
    - contradiction. }
  assert (Att' : forall n, identifier n -> attribute [t] (t ++ "." :: n) = Some (t, strip n)).
  { intros n Hn. assert (Q := attribute_key t n [t]). destruct Q as [(t' & [<-|[]] & _ & C)|[B _]]; auto.
    - apply (ident_not t); auto. apply dot_no. - apply (ident_not n); auto. apply dot_no. - repeat constructor. apply (ident_not t); auto. apply dot_no.
    - exfalso. apply (B t); [left; auto|]. exists []. reflexivity. }
  assert (Disj : forall k, In k (map fst mid) -> In k (map fst (pre ++ post)) -> False).
  { intros k K1 K2. destruct (Own k K1) as (n & -> & Hn). apply in_map_iff in K2. destruct K2 as (i & E & K2). destruct (Ho i K2) as (u & m & E2 & Hu & Hm2 & Hne).
    rewrite E in E2. assert (X := Att u m Hu Hm2 Hne). rewrite <- E2, (Att' n Hn) in X. discriminate. }
  assert (Nm : NoDup (map fst mid)).
  { rewrite Hm. clear -Nd. induction es as [|e es IH]; cbn; constructor; cbn in Nd; apply NoDup_cons_iff in Nd; destruct Nd as [N1 N2]; auto. intros K. apply in_map_iff in K. destruct K as (e' & E & K).
    apply app_inv_head in E. injection E as E. apply N1. exact (eq_ind _ (fun z => In z (map fst es)) (in_map fst es e' K) _ E). }
  assert (Nall : NoDup (map fst (pre ++ mid ++ post))).
  { rewrite !map_app. eapply Permutation_NoDup with (l := map fst mid ++ map fst pre ++ map fst post).
    - rewrite app_assoc. rewrite (Permutation_app_comm (map fst mid) (map fst pre)). rewrite <- app_assoc. auto.
    - clear -Nm Np Disj. rewrite map_app in Disj. induction (map fst mid) as [|k l IH]; cbn; auto. inversion Nm; subst. constructor.
      + intros K. apply in_app_or in K. destruct K as [K|K]; auto. eapply (Disj k); [left; auto|auto].
      + apply IH; auto. intros k' K1 K2. eapply Disj; [right|]; eauto. }
  assert (Fall : Forall2 evaluates (pre ++ mid ++ post) (vpre ++ vs ++ vpost)) by (apply Forall2_app; auto; apply Forall2_app; auto).
  assert (Dot : Forall (In ".") (map fst (pre ++ mid ++ post))).
  { apply Forall_forall. intros k K. rewrite !map_app in K. apply in_app_or in K. destruct K as [K|K]; [|apply in_app_or in K; destruct K as [K|K]].
    - apply in_map_iff in K. destruct K as (i & <- & K). destruct (Ho i) as (u & n & -> & _); [apply in_or_app; auto|]. apply in_or_app. right. left. reflexivity.
    - destruct (Own k K) as (n & -> & _). apply in_or_app. right. left. reflexivity.
    - apply in_map_iff in K. destruct K as (i & <- & K). destruct (Ho i) as (u & n & -> & _); [apply in_or_app; auto|]. apply in_or_app. right. left. reflexivity. }
  rewrite (items_eval _ _ Fall []) by (cbn; auto). cbn [app].
  set (O := originals eval (pre ++ mid ++ post) []).
  rewrite !map_app.
  assert (Cmb : forall X Y (a a' : list X) (b b' : list Y), length a = length b -> combine (a ++ a') (b ++ b') = combine a b ++ combine a' b').
  { induction a as [|x a IH]; intros a' [|y b] b' E; cbn in *; try discriminate; auto. rewrite IH; auto. }
  rewrite Cmb by (rewrite map_length; eapply Forall2_len; eauto). rewrite Cmb by (rewrite map_length; eapply Forall2_len; eauto).
  rewrite section_app. rewrite section_app.
  assert (Oth : forall is vs' s, incl is (pre ++ post) -> section truth t O (combine (map fst is) vs') s = s).
  { intros is vs' s Hi. apply section_other. intros k v K. apply in_combine_l in K. apply in_map_iff in K. destruct K as (i & <- & K). destruct (Ho i (Hi i K)) as (u & n & -> & Hu & Hn & Hne). auto. }
  rewrite (Oth post) by (apply incl_appr, incl_refl). rewrite (Oth pre) by (apply incl_appl, incl_refl).
  assert (Lv : length es = length vs) by (eapply Forall2_len; eauto).
  assert (E : combine (map fst mid) vs = map (fun e => (t ++ "." :: fst e, snd e)) (combine (map fst es) vs)).
  { rewrite Hm. clear -Lv. revert vs Lv. induction es as [|e es IH]; intros [|v vs] L; cbn in *; try discriminate; auto. rewrite IH; auto. }
  assert (Cf : map fst (combine (map fst es) vs) = map fst es).
  { clear -Lv. revert vs Lv. induction es as [|e es IH]; intros [|v vs] L; cbn in *; try discriminate; auto. rewrite IH; auto. }
  match goal with |- context [section truth t O ?X _] => replace X with (map (fun e => (t ++ "." :: fst e, snd e)) (combine (map fst es) vs)) by (symmetry; exact E) end.
  rewrite section_own; auto.
  2:{ cbn. rewrite Cf. auto. }
  2:{ apply Forall_forall. intros e He. apply (in_map fst) in He. rewrite Cf in He. apply in_map_iff in He. destruct He as (e' & <- & He). rewrite Forall_forall in Fi. auto. }
  cbn [app]. f_equal.
  assert (Og : forall e v, In e es -> settled d (snd e) v -> get (t ++ "." :: fst e) O = out (snd e)).
  { intros e v He Hs. unfold O. rewrite originals_get by auto.
    assert (G : get (t ++ "." :: fst e) (pre ++ mid ++ post) = Some (shown finite repr d (snd e))).
    { apply get_in; auto. apply in_or_app. right. apply in_or_app. left. unfold mid. apply in_map_iff. exists e. auto. }
    rewrite G. apply (settled_orig d (snd e) v). auto. }
  clearbody O. clear -Fs Og. revert Og. induction Fs as [|e v es vs H F IH]; intros Og; cbn; auto. f_equal.
  - f_equal. f_equal. apply (Og e v); auto. left. auto.
  - apply IH. intros. eapply Og; eauto. right. auto.
Qed.
End RT.
