(** * Properties C195-C197: writing parameter files and reading them again *)
From Coq Require Import Bool Ascii String Arith Lia Permutation.
From Coq Require Import List.
From Verif Require Import M_ParamFile S_ParamFile P_ParamFile P_ParamFile2 M_ParamWrite S_ParamWrite P_ParamWrite P_ParamWrite2.
Import ListNotations.
Local Open Scope char_scope.

(** every parameter of the list has an identifier as its name, names are distinct, and P holds of it *)
Definition all_pars {A} (P : par A -> Prop) (l : list (str * par A)) : Prop := NoDup (map fst l) /\ forall n p, In (n, p) l -> identifier n /\ P p.
(** the descriptions of the extra parameters can be quoted on one line *)
Definition good_descriptions {A} (eval : list (str * pv A) -> str -> option (pv A)) (l : list (str * str)) : Prop :=
  NoDup (map fst l) /\ forall n d, In (n, d) l -> identifier n /\ one_line ("'" :: d ++ ["'"]) /\ ~ In "$" ("'" :: d ++ ["'"]) /\ exists v, forall D, eval D ("'" :: d ++ ["'"]) = Some v.

Section C195.
Context {A : Type}.
Variable truth : bool -> A.
Variable finite : pv A -> bool.
Variable repr : pv A -> str.
Variable eval : list (str * pv A) -> str -> option (pv A).
Variable tostr : pv A -> str.
Variable env : str -> option str.

Lemma simple_good t h f l : all_pars (self_contained repr eval env) l -> good finite repr eval env {| tag := t; header := h; footer := f; as_dict := false; pars := l |}.
Proof. intros [N H]. split; auto. intros [n p] K. destruct (H n p K). split; auto. apply simple_settled. auto. Qed.
Lemma fit_good t h f l : all_pars (well_formed finite repr eval) l -> good finite repr eval env {| tag := t; header := h; footer := f; as_dict := true; pars := l |}.
Proof. intros [N H]. split; auto. intros [n p] K. destruct (H n p K). split; auto. apply fit_settled. auto. Qed.
Lemma simple_lines b : good finite repr eval env b -> forall e, In e (sorted (pars b)) -> identifier (fst e) /\ one_line (shown finite repr (as_dict b) (snd e)).
Proof. intros H e He. destruct (good_sorted finite repr eval env b H) as [_ K]. destruct (K e He) as [K1 [K2 _]]. auto. Qed.

(** ** C195 The parameters of the driver, the data, the theory and the model are all read back from the file that the driver writes: simple parameters with
    their value and their '$' text, fit parameters with all their attributes, and nothing else. *)
Theorem C195_round_trip : forall drv data theory model extras,
  all_pars (self_contained repr eval env) drv -> all_pars (self_contained repr eval env) data -> all_pars (self_contained repr eval env) model ->
  all_pars (well_formed finite repr eval) theory -> good_descriptions eval extras ->
  let file := driver_file finite repr drv data theory model extras in
  exists drv' data' theory' model',
    read truth eval tostr env (lit "driver") file = Ok drv' /\ same_set same_value drv' drv /\
    read truth eval tostr env (lit "data") file = Ok data' /\ same_set same_value data' data /\
    read truth eval tostr env (lit "theory") file = Ok theory' /\ same_set same_parameter theory' theory /\
    read truth eval tostr env (lit "model") file = Ok model' /\ same_set same_value model' model.
Proof.
  intros drv data theory model extras H1 H2 H4 H3 HE file.
  unfold driver_file in file.
  set (b1 := {| tag := lit "driver"; header := Some (lit "driver_params"); footer := true; as_dict := false; pars := drv |}) in *.
  set (b2 := {| tag := lit "data"; header := Some (lit "data params"); footer := true; as_dict := false; pars := data |}) in *.
  set (b3 := {| tag := lit "theory"; header := Some (lit "theory params"); footer := true; as_dict := true; pars := theory |}) in *.
  set (b4 := {| tag := lit "model"; header := Some (lit "model params"); footer := true; as_dict := false; pars := model |}) in *.
  assert (G1 : good finite repr eval env b1) by (apply simple_good; auto). assert (G2 : good finite repr eval env b2) by (apply simple_good; auto).
  assert (G3 : good finite repr eval env b3) by (apply fit_good; auto). assert (G4 : good finite repr eval env b4) by (apply simple_good; auto).
  assert (GE : good_extras eval extras). { destruct HE as [N HE]. split; auto. intros [n d] K. exact (HE n d K). }
  assert (ID : forall t, In t (map lit ["driver"; "data"; "theory"; "theory_extra"; "model"]%string) -> identifier t).
  { intros t Ht. split; [intros ->; cbn in Ht; intuition discriminate|]. intros c Hc. change (In c name_chars). apply name_iff.
    assert (K : forallb (fun t => forallb var_char t) (map lit ["driver"; "data"; "theory"; "theory_extra"; "model"]%string) = true) by reflexivity.
    rewrite forallb_forall in K. specialize (K t Ht). rewrite forallb_forall in K. auto. }
  assert (I1 : identifier (tag b1)) by (apply ID; cbn; tauto). assert (I2 : identifier (tag b2)) by (apply ID; cbn; tauto).
  assert (I3 : identifier (tag b3)) by (apply ID; cbn; tauto). assert (I4 : identifier (tag b4)) by (apply ID; cbn; tauto).
  assert (IE : identifier (lit "theory_extra")) by (apply ID; cbn; tauto).
  set (J1 := items finite repr b1). set (J2 := items finite repr b2). set (J3 := items finite repr b3). set (JE := map eitem extras). set (J4 := items finite repr b4).
  assert (RL : read_lines [] file = Ok (J1 ++ J2 ++ J3 ++ JE ++ J4)).
  { unfold file. apply block_read; auto using simple_lines. apply block_read; auto using simple_lines. apply block_read; auto using simple_lines.
    apply extra_read. { intros e He. destruct GE as [_ GE]. destruct (GE e He) as (X & Y & _). auto. }
    rewrite <- (app_nil_r (block_lines finite repr b4)), <- (app_nil_r J4). apply block_read; auto using simple_lines. reflexivity. }
  assert (F1 := good_evaluates finite repr eval tostr env b1 G1). assert (F2 := good_evaluates finite repr eval tostr env b2 G2).
  assert (F3 := good_evaluates finite repr eval tostr env b3 G3). assert (F4 := good_evaluates finite repr eval tostr env b4 G4).
  destruct (extras_evaluates eval tostr env extras GE) as [vE FE].
  fold J1 in F1. fold J2 in F2. fold J3 in F3. fold J4 in F4. fold JE in FE.
  assert (O1 := fun i => good_items finite repr eval env b1 i I1 G1). assert (O2 := fun i => good_items finite repr eval env b2 i I2 G2).
  assert (O3 := fun i => good_items finite repr eval env b3 i I3 G3). assert (O4 := fun i => good_items finite repr eval env b4 i I4 G4).
  assert (OE := fun i => extras_items eval extras i GE). fold J1 in O1. fold J2 in O2. fold J3 in O3. fold J4 in O4. fold JE in OE.
  assert (N1 := good_keys finite repr eval env b1 G1). assert (N2 := good_keys finite repr eval env b2 G2). assert (N3 := good_keys finite repr eval env b3 G3).
  assert (N4 := good_keys finite repr eval env b4 G4). assert (NE := extras_keys eval extras GE). fold J1 in N1. fold J2 in N2. fold J3 in N3. fold J4 in N4. fold JE in NE.
  assert (NEnds : forall u t, In u (map lit ["driver"; "data"; "theory"; "theory_extra"; "model"]%string) -> In t (map lit ["driver"; "data"; "theory"; "model"]%string) -> u <> t -> ~ ends_with u t).
  { intros u t Hu Ht Hne. apply not_ends. intros a E. cbn in Hu, Ht.
    destruct Hu as [<-|[<-|[<-|[<-|[<-|[]]]]]]; destruct Ht as [<-|[<-|[<-|[<-|[]]]]]; try (now apply Hne); cbn in E; discriminate. }
  assert (D12 := keys_apart (lit "driver") (lit "data") J1 J2 I1 I2 ltac:(discriminate) O1 O2).
  assert (D13 := keys_apart (lit "driver") (lit "theory") J1 J3 I1 I3 ltac:(discriminate) O1 O3).
  assert (D1E := keys_apart (lit "driver") (lit "theory_extra") J1 JE I1 IE ltac:(discriminate) O1 OE).
  assert (D14 := keys_apart (lit "driver") (lit "model") J1 J4 I1 I4 ltac:(discriminate) O1 O4).
  assert (D23 := keys_apart (lit "data") (lit "theory") J2 J3 I2 I3 ltac:(discriminate) O2 O3).
  assert (D2E := keys_apart (lit "data") (lit "theory_extra") J2 JE I2 IE ltac:(discriminate) O2 OE).
  assert (D24 := keys_apart (lit "data") (lit "model") J2 J4 I2 I4 ltac:(discriminate) O2 O4).
  assert (D3E := keys_apart (lit "theory") (lit "theory_extra") J3 JE I3 IE ltac:(discriminate) O3 OE).
  assert (D34 := keys_apart (lit "theory") (lit "model") J3 J4 I3 I4 ltac:(discriminate) O3 O4).
  assert (DE4 := keys_apart (lit "theory_extra") (lit "model") JE J4 IE I4 ltac:(discriminate) OE O4).
  assert (KK : forall (t : str) (i : str * str) (J : list (str * str)) (u : str), In i J -> (forall i, In i J -> exists n, fst i = u ++ "." :: n /\ identifier n) -> identifier u -> ~ ends_with u t ->
     exists u n, fst i = u ++ "." :: n /\ identifier u /\ identifier n /\ ~ ends_with u t).
  { intros t i J u Hi HJ Hu Hne. destruct (HJ i Hi) as (n & E & Hn). exists u, n. auto. }
  exists (map (reread truth finite (as_dict b1)) (sorted (pars b1))), (map (reread truth finite (as_dict b2)) (sorted (pars b2))),
    (map (reread truth finite (as_dict b3)) (sorted (pars b3))), (map (reread truth finite (as_dict b4)) (sorted (pars b4))).
  assert (SV : forall b, good finite repr eval env b -> as_dict b = false -> (forall n p, In (n, p) (pars b) -> self_contained repr eval env p) ->
    same_set same_value (map (reread truth finite (as_dict b)) (sorted (pars b))) (pars b)).
  { intros b Hb Hd Hs. eapply reread_same; eauto. intros [n p] He. rewrite Hd. split; [|reflexivity]. unfold value_of. cbn. apply of_plain. apply (Hs n p He). }
  set (V1 := map (fun e => valued finite (as_dict b1) (snd e)) (sorted (pars b1))) in F1.
  set (V2 := map (fun e => valued finite (as_dict b2) (snd e)) (sorted (pars b2))) in F2.
  set (V3 := map (fun e => valued finite (as_dict b3) (snd e)) (sorted (pars b3))) in F3.
  set (V4 := map (fun e => valued finite (as_dict b4) (snd e)) (sorted (pars b4))) in F4.
  Local Ltac pick KK NEnds := let i := fresh "i" in let Hi := fresh "Hi" in intros i Hi; repeat (apply in_app_or in Hi; destruct Hi as [Hi|Hi]);
     match type of Hi with In _ ?J => match goal with HJ : forall i, In i J -> exists n, fst i = ?u ++ _ /\ _ |- _ =>
       apply (KK _ i J u Hi HJ); [assumption|apply NEnds; [cbn; tauto|cbn; tauto|discriminate]] end end.
  Local Ltac clash := match goal with H1 : In ?x (map fst ?a), H2 : In ?x (map fst ?b) |- False =>
       match goal with D : forall k, In k (map fst a) -> In k (map fst b) -> False |- _ => exact (D x H1 H2) | D : forall k, In k (map fst b) -> In k (map fst a) -> False |- _ => exact (D x H2 H1) end end.
  Local Ltac spl := repeat match goal with H : In _ (_ ++ _) |- _ => apply in_app_or in H; destruct H as [H|H] end.
  Local Ltac nd := rewrite ?map_app; repeat (apply nodup_app; [ | |let x := fresh in let y := fresh in let z := fresh in intros x y z; spl; clash]); try assumption.
  split; [|split; [apply SV; auto; intros n p Hp; apply (proj2 H1 n p Hp)|]].
  { apply (read_one truth finite repr eval tostr env b1 file [] (J2 ++ J3 ++ JE ++ J4) [] (V2 ++ V3 ++ vE ++ V4) I1 G1); [constructor|repeat (apply Forall2_app; auto)|cbn [app]; pick KK NEnds|cbn [map app]; nd|exact RL]. }
  split; [|split; [apply SV; auto; intros n p Hp; apply (proj2 H2 n p Hp)|]].
  { apply (read_one truth finite repr eval tostr env b2 file J1 (J3 ++ JE ++ J4) V1 (V3 ++ vE ++ V4) I2 G2); [assumption|repeat (apply Forall2_app; auto)|pick KK NEnds|nd|exact RL]. }
  split; [|split].
  { apply (read_one truth finite repr eval tostr env b3 file (J1 ++ J2) (JE ++ J4) (V1 ++ V2) (vE ++ V4) I3 G3); [apply Forall2_app; auto|apply Forall2_app; auto|pick KK NEnds|nd|].
    rewrite RL, <- app_assoc. reflexivity. }
  { apply reread_same with (repr := repr) (eval := eval) (env := env); auto. intros [n p] He. destruct (proj2 H3 n p He) as (_ & W). assert (W' := W). destruct W' as (O & W1 & W2 & W3 & W4 & _).
    split; [reflexivity|]. intros k Hk. assert (PA : proper_attrs finite p) by (repeat split; auto).
    cbn [snd reread attr as_dict b3 valued]. unfold of_value. rewrite dict_valid. apply construct_dict; auto. }
  split; [|apply SV; auto; intros n p Hp; apply (proj2 H4 n p Hp)].
  { apply (read_one truth finite repr eval tostr env b4 file (J1 ++ J2 ++ J3 ++ JE) [] (V1 ++ V2 ++ V3 ++ vE) [] I4 G4); [repeat (apply Forall2_app; auto)|constructor|rewrite app_nil_r; pick KK NEnds|cbn [map]; rewrite app_nil_r; nd|].
    rewrite app_nil_r, <- !app_assoc. exact RL. }
Qed.
End C195.
Print Assumptions C195_round_trip.

(** deciding the side conditions on literals *)
Lemma ident_dec n : n <> [] /\ forallb var_char n = true -> identifier n.
Proof. intros [N H]. split; auto. intros c Hc. change (In c name_chars). apply name_iff. rewrite forallb_forall in H. auto. Qed.
Lemma one_line_dec t : strip t = t /\ contains "#" t = false /\ contains "\" t = false /\ contains "=" t = false -> one_line t.
Proof.
  intros (H1 & H2 & H3 & H4). assert (Q : forall c, contains c t = false -> ~ In c t) by (intros c E K; assert (K2 := proj2 (contains_iff (fun _ => None) c t) K); congruence).
  exact (conj H1 (conj (Q _ H2) (conj (Q _ H3) (Q _ H4)))).
Qed.

Lemma eval_plain {A} (eval : list (str * pv A) -> str -> option (pv A)) tostr env D k t v : contains "$" t = false -> eval D (strip t) = Some v ->
  eval_item (pv A) eval tostr env D (k, t) = Ok (dict_set (pv A) D k v).
Proof. intros H1 H2. unfold eval_item. rewrite H1, H2. reflexivity. Qed.
Lemma eval_dollar {A} (eval : list (str * pv A) -> str -> option (pv A)) tostr env D k t o x v : contains "$" t = true -> eval [] t = Some o ->
  replace_vars (fun n => option_map tostr (lookup (pv A) D n)) env t = Ok x -> eval D (strip x) = Some v ->
  eval_item (pv A) eval tostr env D (k, t) = Ok (dict_set (pv A) D k v).
Proof. intros H1 H2 H3 H4. unfold eval_item. rewrite H1, H2, H3, H4. reflexivity. Qed.
Lemma read_two {A} truth (eval : list (str * pv A) -> str -> option (pv A)) tostr env t lines i j D1 D2 s :
  read_lines [] lines = Ok [i; j] -> eval_item (pv A) eval tostr env [] i = Ok D1 -> eval_item (pv A) eval tostr env D1 j = Ok D2 ->
  section truth t (originals eval [i; j] []) D2 [] = s -> read truth eval tostr env t lines = Ok s.
Proof. intros H1 H2 H3 H4. unfold read. rewrite H1. cbn [eval_items]. rewrite H2, H3, H4. reflexivity. Qed.
Lemma originals_two {A} (eval : list (str * pv A) -> str -> option (pv A)) k1 t1 k2 t2 o : contains "$" t1 = false -> contains "$" t2 = true -> eval [] t2 = Some o ->
  originals eval [(k1, t1); (k2, t2)] [] = [(k2, o)].
Proof. intros H1 H2 H3. cbn [originals]. rewrite H1, H2, H3. reflexivity. Qed.
Lemma replace_root (L : str -> option str) env : L (lit "root") = Some (lit "/a") -> replace_vars L env (lit "'$(root)/r'") = Ok (lit "'/a/r'").
Proof. intros H. unfold replace_vars. cbn. cbn in H. rewrite H. reflexivity. Qed.
Lemma replace_b (L : str -> option str) env : L (lit "driver.b") = Some (lit "x") -> replace_vars L env (lit "'$(driver.b)'") = Ok (lit "'x'").
Proof. intros H. unfold replace_vars. cbn. cbn in H. rewrite H. reflexivity. Qed.

Definition one_line_ok (t : str) : bool := eqs (strip t) t && negb (contains "#" t) && negb (contains "\" t) && negb (contains "=" t).
Lemma one_line_dec' t : one_line_ok t = true -> one_line t.
Proof.
  unfold one_line_ok. intros H. apply andb_true_iff in H. destruct H as [H H4]. apply andb_true_iff in H. destruct H as [H H3]. apply andb_true_iff in H. destruct H as [H1 H2].
  apply eqs_iff in H1. apply negb_true_iff in H2, H3, H4. apply one_line_dec. auto.
Qed.

Section C196.
Context {A : Type}.
Variable truth : bool -> A.
Variable finite : pv A -> bool.
Variable repr : pv A -> str.
Variable eval : list (str * pv A) -> str -> option (pv A).
Variable tostr : pv A -> str.
Variable env : str -> option str.

(** the line "section.name = text" *)
Definition param_line (t : str) (e : str * (str * pv A)) : str := t ++ "." :: fst e ++ " " :: "=" :: " " :: fst (snd e).

(** what is read from such lines *)
Lemma entries_read : forall t (es : list (str * (str * pv A))),
  identifier t -> NoDup (map fst es) ->
  (forall n x v, In (n, (x, v)) es -> identifier n /\ one_line x /\ ~ In "$" x /\ forall D, eval D x = Some v) ->
  exists s, read truth eval tostr env t (map (param_line t) es) = Ok s /\ map fst s = map fst es /\
    forall n x v, In (n, (x, v)) es -> get n s = Some {| attr := of_value truth v; out := None |}.
Proof.
  intros t es Ht N H.
  set (is := map (fun e : str * (str * pv A) => (t ++ "." :: fst e, fst (snd e))) es).
  assert (R : read_lines [] (map (param_line t) es) = Ok is).
  { unfold is. clear N. induction es as [|[n [x v]] es IH]; [reflexivity|]. cbn [map]. unfold param_line at 1. cbn [fst snd].
    destruct (H n x v) as (A1 & A2 & _); [left; auto|]. rewrite (entry_read t n x _ Ht A1 A2). rewrite IH by (intros; eapply H; right; eauto). reflexivity. }
  assert (K : map fst is = map (fun e : str * (str * pv A) => t ++ "." :: fst e) es) by (unfold is; rewrite map_map; reflexivity).
  assert (F : Forall2 (evaluates eval tostr env) is (map (fun e => snd (snd e)) es)).
  { unfold is. clear N R K is. induction es as [|[n [x v]] es IH]; cbn [map]; constructor.
    - destruct (H n x v) as (_ & A2 & A3 & A4); [left; auto|]. intros D _. unfold eval_item. cbn [fst snd]. rewrite contains_not by auto. destruct A2 as [A2 _]. rewrite A2, A4. reflexivity.
    - apply IH. intros; eapply H; right; eauto. }
  assert (ND : NoDup (map fst is)) by (rewrite K; apply keys_nodup; auto).
  assert (DT : Forall (In ".") (map fst is)).
  { rewrite K. apply Forall_forall. intros k Hk. apply in_map_iff in Hk. destruct Hk as (e & <- & _). apply in_or_app. right. left. reflexivity. }
  assert (EV := items_eval truth finite repr eval tostr env is _ F [] ltac:(cbn [map app]; exact ND) ltac:(cbn [map app]; exact DT)).
  assert (O : forall k, get k (originals eval is []) = None).
  { intros k. rewrite originals_get by auto. destruct (get k is) as [x|] eqn:E; [|reflexivity]. apply get_some in E. unfold is in E. apply in_map_iff in E.
    destruct E as ([n [x' v]] & E & I). cbn in E. inversion E; subst. destruct (H n x v I) as (_ & _ & Q & _). rewrite contains_not by auto. reflexivity. }
  set (ws := map (fun e : str * (str * pv A) => (fst e, snd (snd e))) es).
  assert (C : [] ++ combine (map fst is) (map (fun e : str * (str * pv A) => snd (snd e)) es) = map (fun e => (t ++ "." :: fst e, snd e)) ws).
  { rewrite K. unfold ws. rewrite map_map. cbn [app fst snd]. clear. induction es as [|e es IH]; cbn; auto. rewrite IH. reflexivity. }
  assert (EV' : eval_items (pv A) eval tostr env [] is = Ok (map (fun e => (t ++ "." :: fst e, snd e)) ws)) by exact (eq_trans EV (f_equal Ok C)).
  unfold read. rewrite R, EV'. assert (W : map fst ws = map fst es) by (unfold ws; rewrite map_map; reflexivity).
  rewrite section_own; auto.
  2:{ cbn [map app]. rewrite W. auto. }
  2:{ apply Forall_forall. intros e He. apply in_map_iff in He. destruct He as ([n [x v]] & <- & I). cbn. apply (H n x v I). }
  eexists. split; [reflexivity|]. cbn [app]. split; [rewrite map_map; exact W|].
  intros n x v I. assert (E : get (t ++ "." :: n) (originals eval is []) = None) by apply O.
  apply get_in. { rewrite map_map. cbn [fst]. change (NoDup (map fst ws)). rewrite W. exact N. }
  apply in_map_iff. exists (n, v). split; [cbn [fst snd]; rewrite E; reflexivity|]. unfold ws. apply in_map_iff. exists (n, (x, v)). auto.
Qed.
(** ** C196, proved part: in a file of lines "section.name = text", every parameter whose text does not evaluate to a dict that passes for a specification has
    the value of its text.  Missing: values that are such dicts, where it is false ([C196_empty_dict_refuted]). *)
Theorem C196_value_partial : forall t (es : list (str * (str * pv A))),
  identifier t -> NoDup (map fst es) ->
  (forall n x v, In (n, (x, v)) es -> identifier n /\ one_line x /\ ~ In "$" x /\ forall D, eval D x = Some v) ->
  exists s, read truth eval tostr env t (map (param_line t) es) = Ok s /\ map fst s = map fst es /\
    forall n x v, In (n, (x, v)) es -> ~ specification v -> exists p, get n s = Some p /\ value_of p = v /\ out p = None.
Proof.
  intros t es Ht N H. destruct (entries_read t es Ht N H) as (s & R & K & G). exists s. split; [exact R|]. split; [exact K|].
  intros n x v I S. eexists. split; [exact (G n x v I)|]. split; [|reflexivity]. unfold value_of. cbn [attr]. apply of_plain. exact S.
Qed.
(** A dict whose keys are attributes of a parameter gives a parameter with these attributes: its value is the fiducial one if the dict has none, [prior] is another name
    of [prior_name] and wins over it, what is left out is None or False. *)
Theorem C196_specification_partial : forall t (es : list (str * (str * pv A))),
  identifier t -> NoDup (map fst es) ->
  (forall n x v, In (n, (x, v)) es -> identifier n /\ one_line x /\ ~ In "$" x /\ forall D, eval D x = Some v) ->
  exists s, read truth eval tostr env t (map (param_line t) es) = Ok s /\
    forall n x kvs, In (n, (x, DictV kvs)) es -> specification (DictV kvs) -> NoDup (map fst kvs) -> exists p, get n s = Some p /\ out p = None /\
      (forall v, In (lit "value", v) kvs -> v <> NoneV -> value_of p = v) /\
      (forall v, (forall w, In (lit "value", w) kvs -> w = NoneV) -> In (lit "fiducial", v) kvs -> value_of p = v) /\
      (forall v, In (lit "prior", v) kvs -> attr p (lit "prior_name") = v) /\
      (forall v, ~ In (lit "prior") (map fst kvs) -> In (lit "prior_name", v) kvs -> attr p (lit "prior_name") = v) /\
      (forall k v, k <> lit "value" -> k <> lit "prior" -> k <> lit "prior_name" -> In (k, v) kvs -> attr p k = v) /\
      (forall k, In k (map lit ["vary"; "analytic"]%string) -> ~ In k (map fst kvs) -> attr p k = Plain (truth false)) /\
      (forall k, In k (map lit ["min"; "max"; "expr"; "description"; "fiducial"; "lower"; "upper"; "mu"; "sigma"]%string) -> ~ In k (map fst kvs) -> attr p k = NoneV).
Proof.
  intros t es Ht N H. destruct (entries_read t es Ht N H) as (s & R & K & G). exists s. split; [exact R|].
  intros n x kvs I S ND. eexists. split; [exact (G n x _ I)|]. split; [reflexivity|].
  assert (F : forallb (fun kv : str * pv A => mem (fst kv) valid_keys) kvs = true).
  { apply forallb_forall. intros [k w] Hk. destruct S as (kvs' & E & V). inversion E; subst kvs'. cbn [fst]. specialize (V _ _ Hk). clear - V.
    induction valid_keys as [|y l IH]; [destruct V|]. cbn [mem]. destruct V as [-> |V]; [rewrite eqs_refl; reflexivity|rewrite IH by auto; apply orb_true_r]. }
  unfold value_of. cbn [attr of_value]. rewrite F.
  assert (GI : forall k w, In (k, w) kvs -> get k kvs = Some w) by (intros; apply get_in; auto).
  assert (GN : forall k, ~ In k (map fst kvs) -> get k kvs = None).
  { intros k Hk. destruct (get k kvs) eqn:E; [|reflexivity]. exfalso. apply Hk. apply get_some in E. apply in_map_iff. eexists. split; [|exact E]. reflexivity. }
  assert (KW : forall k w, In (lit k, w) kvs -> kw kvs k = w) by (intros k w Hk; unfold kw; rewrite (GI _ _ Hk); reflexivity).
  repeat split.
  - intros v Hv NV. unfold construct. change (eqs (lit "value") (lit "value")) with true. cbv iota. rewrite (KW _ _ Hv). unfold or_else. destruct v; [congruence|reflexivity|reflexivity].
  - intros v Hv Hf. unfold construct. change (eqs (lit "value") (lit "value")) with true. cbv iota. rewrite (KW _ _ Hf). unfold or_else, kw.
    destruct (get (lit "value") kvs) eqn:E; [|reflexivity]. apply get_some in E. rewrite (Hv _ E). reflexivity.
  - intros v Hv. unfold construct. change (eqs (lit "prior_name") (lit "value")) with false. change (eqs (lit "prior_name") (lit "prior_name")) with true. cbv iota.
    rewrite (GI _ _ Hv). reflexivity.
  - intros v Hn Hv. unfold construct. change (eqs (lit "prior_name") (lit "value")) with false. change (eqs (lit "prior_name") (lit "prior_name")) with true. cbv iota.
    rewrite (GN _ Hn). exact (KW _ _ Hv).
  - intros k v N1 N2 N3 Hv. unfold construct.
    rewrite (eqs_neq _ _ N1), (eqs_neq _ _ N2), (eqs_neq _ _ N3), (GI _ _ Hv). destruct (_ || _); reflexivity.
  - intros k Hk Hn. cbn [map In] in Hk. destruct Hk as [<-|[<-|[]]]; unfold construct; vm_compute eqs; cbn [orb]; rewrite (GN _ Hn); reflexivity.
  - intros k Hk Hn. cbn [map In] in Hk. repeat (destruct Hk as [<-|Hk]; [unfold construct; vm_compute eqs; cbn [orb]; rewrite (GN _ Hn); reflexivity|]). destruct Hk.
Qed.
(** An empty dict passes for a specification: the parameter has no value. *)
Theorem C196_empty_dict_refuted : (forall D, eval D (lit "{}") = Some (DictV [])) ->
  exists s p, read truth eval tostr env (lit "driver") [lit "driver.lbfgs_options = {}"] = Ok s /\ get (lit "lbfgs_options") s = Some p /\ value_of p = NoneV.
Proof.
  intros H. assert (R : read_lines [] [lit "driver.lbfgs_options = {}"] = Ok [(lit "driver.lbfgs_options", lit "{}")]) by (vm_compute; reflexivity).
  unfold read. rewrite R. cbn [eval_items]. unfold eval_item. assert (C : contains "$" (lit "{}") = false) by (vm_compute; reflexivity). rewrite C.
  assert (S : strip (lit "{}") = lit "{}") by (vm_compute; reflexivity). rewrite S, H. cbn [dict_set originals]. rewrite C. cbn [section].
  set (p := {| attr := of_value truth (DictV []); out := None |}).
  exists [(lit "lbfgs_options", p)], p. split; [vm_compute; reflexivity|]. split; [vm_compute; reflexivity|]. reflexivity.
Qed.

(** ** C197 A folder written by a run can be loaded again: refuted.  A text that refers to an untagged definition is kept when the file is written, its definition is not. *)
Theorem C197_untagged_reference_refuted : forall a b o,
  env (lit "root") = None -> (forall D, eval D (lit "'/a'") = Some (Plain a)) -> tostr (Plain a) = lit "/a" ->
  (forall D, eval D (lit "'$(root)/r'") = Some (Plain o)) -> (forall D, eval D (lit "'/a/r'") = Some (Plain b)) -> repr (Plain o) = lit "'$(root)/r'" ->
  exists drv p, read truth eval tostr env (lit "driver") [lit "root = '/a'"; lit "driver.start_from = '$(root)/r'"] = Ok drv /\
    get (lit "start_from") drv = Some p /\ value_of p = Plain b /\
    read truth eval tostr env (lit "driver") (driver_file finite repr drv [] [] [] []) = KeyError.
Proof.
  intros a b o He H1 H2 H3 H4 H5.
  assert (E1 : strip (lit "'/a'") = lit "'/a'") by (vm_compute; reflexivity).
  assert (C1 : contains "$" (lit "'/a'") = false) by (vm_compute; reflexivity).
  assert (C2 : contains "$" (lit "'$(root)/r'") = true) by (vm_compute; reflexivity).
  assert (R : read_lines [] [lit "root = '/a'"; lit "driver.start_from = '$(root)/r'"] = Ok [(lit "root", lit "'/a'"); (lit "driver.start_from", lit "'$(root)/r'")]) by (vm_compute; reflexivity).
  set (p := {| attr := of_value truth (Plain b); out := Some (Plain o) |}).
  assert (RD : read truth eval tostr env (lit "driver") [lit "root = '/a'"; lit "driver.start_from = '$(root)/r'"] = Ok [(lit "start_from", p)]).
  { eapply read_two; [exact R| | |].
    - apply eval_plain with (v := Plain a); [exact C1|]. exact (H1 []).
    - cbn [dict_set]. apply eval_dollar with (o := Plain o) (x := lit "'/a/r'") (v := Plain b); [exact C2|apply H3| |exact (H4 _)].
      apply replace_root. cbn [lookup]. assert (Q : eqs (lit "root") (lit "root") = true) by (vm_compute; reflexivity). rewrite Q. cbn [option_map]. rewrite H2. reflexivity.
    - rewrite (originals_two eval _ _ _ _ (Plain o) C1 C2 (H3 [])). vm_compute. reflexivity. }
  exists [(lit "start_from", p)], p. split; [exact RD|]. split; [vm_compute; reflexivity|]. split; [reflexivity|].
  assert (F : read_lines [] (driver_file finite repr [(lit "start_from", p)] [] [] [] []) = Ok [(lit "driver.start_from", lit "'$(root)/r'")]).
  { assert (F' : driver_file finite repr [(lit "start_from", p)] [] [] [] [] = driver_file (A := A) finite (fun _ => lit "'$(root)/r'") [(lit "start_from", p)] [] [] [] []).
    { unfold driver_file, block_lines, entry_line, shown. cbn [sorted insert map pars as_dict header footer tag]. unfold output. cbn [snd out p]. rewrite H5. reflexivity. }
    rewrite F'. vm_compute. reflexivity. }
  unfold read. rewrite F. cbn [eval_items]. unfold eval_item. rewrite C2, H3.
  assert (V : replace_vars (fun n => option_map tostr (lookup (pv A) [] n)) env (lit "'$(root)/r'") = KeyError).
  { unfold replace_vars. cbn. cbn in He. rewrite He. reflexivity. }
  rewrite V. reflexivity.
Qed.
(** The parameters are written in the order of their names, so that a text can precede the parameter it refers to. *)
Theorem C197_order_refuted : forall b o,
  env (lit "driver.b") = None -> (forall D, eval D (lit "'x'") = Some (Plain b)) -> tostr (Plain b) = lit "x" ->
  (forall D, eval D (lit "'$(driver.b)'") = Some (Plain o)) -> repr (Plain o) = lit "'$(driver.b)'" -> repr (Plain b) = lit "'x'" ->
  exists drv p, read truth eval tostr env (lit "driver") [lit "driver.b = 'x'"; lit "driver.a = '$(driver.b)'"] = Ok drv /\
    get (lit "a") drv = Some p /\ value_of p = Plain b /\
    read truth eval tostr env (lit "driver") (driver_file finite repr drv [] [] [] []) = KeyError.
Proof.
  intros b o He H1 H2 H3 H5 H6.
  assert (E1 : strip (lit "'x'") = lit "'x'") by (vm_compute; reflexivity).
  assert (C1 : contains "$" (lit "'x'") = false) by (vm_compute; reflexivity).
  assert (C2 : contains "$" (lit "'$(driver.b)'") = true) by (vm_compute; reflexivity).
  assert (R : read_lines [] [lit "driver.b = 'x'"; lit "driver.a = '$(driver.b)'"] = Ok [(lit "driver.b", lit "'x'"); (lit "driver.a", lit "'$(driver.b)'")]) by (vm_compute; reflexivity).
  set (q := {| attr := of_value truth (Plain b); out := None |}).
  set (p := {| attr := of_value truth (Plain b); out := Some (Plain o) |}).
  assert (RD : read truth eval tostr env (lit "driver") [lit "driver.b = 'x'"; lit "driver.a = '$(driver.b)'"] = Ok [(lit "b", q); (lit "a", p)]).
  { eapply read_two; [exact R| | |].
    - apply eval_plain with (v := Plain b); [exact C1|]. exact (H1 []).
    - cbn [dict_set]. apply eval_dollar with (o := Plain o) (x := lit "'x'") (v := Plain b); [exact C2|apply H3| |exact (H1 _)].
      apply replace_b. cbn [lookup]. assert (Q : eqs (lit "driver.b") (lit "driver.b") = true) by (vm_compute; reflexivity). rewrite Q. cbn [option_map]. rewrite H2. reflexivity.
    - rewrite (originals_two eval _ _ _ _ (Plain o) C1 C2 (H3 [])). vm_compute. reflexivity. }
  exists [(lit "b", q); (lit "a", p)], p. split; [exact RD|]. split; [vm_compute; reflexivity|]. split; [reflexivity|].
  assert (F : read_lines [] (driver_file finite repr [(lit "b", q); (lit "a", p)] [] [] [] []) = Ok [(lit "driver.a", lit "'$(driver.b)'"); (lit "driver.b", lit "'x'")]).
  { unfold driver_file. 
    match goal with |- read_lines [] (block_lines _ _ ?b ++ ?rest) = _ => assert (Z : read_lines [] rest = Ok []) by (vm_compute; reflexivity); assert (Y := block_read finite repr b rest [] ) end.
    assert (SO : sorted [(lit "b", q); (lit "a", p)] = [(lit "a", p); (lit "b", q)]) by (vm_compute; reflexivity).
    assert (SA : shown finite repr false p = lit "'$(driver.b)'") by exact H5. assert (SB : shown finite repr false q = lit "'x'") by exact H6.
    cbn [pars tag as_dict] in Y. rewrite SO in Y. rewrite Y; auto.
    - unfold items. cbn [pars tag as_dict]. rewrite SO. cbn [map]. unfold item. cbn [fst snd tag as_dict]. rewrite SA, SB. vm_compute. reflexivity.
    - apply ident_dec. split; [discriminate|reflexivity].
    - intros e [<-|[<-|[]]]; (split; [apply ident_dec; split; [discriminate|reflexivity]|]); cbn [snd]; rewrite ?SA, ?SB; apply one_line_dec; vm_compute; repeat split; reflexivity. }
  unfold read. rewrite F. cbn [eval_items]. unfold eval_item. rewrite C2, H3.
  assert (V : replace_vars (fun n => option_map tostr (lookup (pv A) [] n)) env (lit "'$(driver.b)'") = KeyError).
  { unfold replace_vars. cbn. cbn in He. rewrite He. reflexivity. }
  rewrite V. reflexivity.
Qed.
End C196.
Print Assumptions C196_value_partial.
Print Assumptions C196_specification_partial.
Print Assumptions C196_empty_dict_refuted.
Print Assumptions C197_untagged_reference_refuted.
Print Assumptions C197_order_refuted.

(** Non-vacuity: a world whose other values are literal texts, and a driver with a '$' text, a data and a theory parameter *)
Lemma replace_home (L : str -> option str) (env : str -> option str) : env (lit "HOME") = Some (lit "/home/u") -> L (lit "HOME") = None -> replace_vars L env (lit "'$(HOME)/r'") = Ok (lit "'/home/u/r'").
Proof. intros H1 H2. unfold replace_vars. cbn. cbn in H1, H2. rewrite H2, H1. reflexivity. Qed.
Fixpoint show (v : pv str) : str :=
  match v with
  | NoneV => lit "None" | Plain t => t
  | DictV l => "{" :: (fix go (l : list (str * pv str)) : str := match l with [] => ["}"] | (k, v) :: l => "'" :: k ++ lit "': " ++ show v ++ lit ", " ++ go l end) l
  end.
Definition b1_parameter : par str := {| attr := of_value (fun b : bool => if b then lit "True" else lit "False") (DictV
   [(lit "name", Plain (lit "'b1'")); (lit "value", Plain (lit "2.5")); (lit "vary", Plain (lit "True")); (lit "min", Plain (lit "0.5"));
    (lit "prior_name", Plain (lit "'uniform'")); (lit "lower", Plain (lit "0.5")); (lit "upper", Plain (lit "9."))]); out := None |}.
Definition table : list (str * pv str) :=
  map (fun v => (show v, v)) ([Plain (lit "'/home/u/r'"); Plain (lit "'$(HOME)/r'"); Plain (lit "2"); Plain (lit "'pole'"); Plain (lit "'growth'"); DictV (to_dict (fun _ => true) b1_parameter)]).
Definition ex_eval (D : list (str * pv str)) (t : str) : option (pv str) := get t table.
Definition ex_env (n : str) : option str := if eqs n (lit "HOME") then Some (lit "/home/u") else None.
Definition ex_truth (b : bool) : str := if b then lit "True" else lit "False".
Lemma plain_ok v : (exists t, v = Plain t) -> ~ @specification str v. Proof. intros [t ->] (k & E & _). discriminate. Qed.
Example C195_nonvacuous :
  let drv := [(lit "start_from", {| attr := of_value ex_truth (Plain (lit "'/home/u/r'")); out := Some (Plain (lit "'$(HOME)/r'")) |});
              (lit "nchains", {| attr := of_value ex_truth (Plain (lit "2")); out := None |})] in
  let data := [(lit "mode", {| attr := of_value ex_truth (Plain (lit "'pole'")); out := None |})] in
  all_pars (self_contained show ex_eval ex_env) drv /\ all_pars (self_contained show ex_eval ex_env) data /\
  all_pars (self_contained show ex_eval ex_env) [] /\ all_pars (well_formed (fun _ => true) show ex_eval) [(lit "b1", b1_parameter)] /\
  good_descriptions ex_eval [(lit "f", lit "growth")].
Proof.
  assert (ND : forall t, contains "$" t = false -> ~ In "$" t) by (intros t E K; assert (K2 := proj2 (contains_iff (fun _ => None) "$" t) K); congruence).
  assert (PL : forall t, one_line_ok t = true -> ex_eval [] t = Some (Plain t) -> contains "$" t = false ->
     self_contained show ex_eval ex_env {| attr := of_value ex_truth (Plain t); out := None |}).
  { intros t H1 H2 H3. split; [apply plain_ok; exists t; reflexivity|]. cbn [out]. split; [apply one_line_dec'; exact H1|]. split; [apply ND; exact H3|]. intros D. exact H2. }
  intros drv data. split; [|split; [|split; [|split]]].
  - split. { repeat constructor; cbn; intuition discriminate. }
    intros n p [E|[E|[]]]; inversion E; subst n p; (split; [apply ident_dec; split; [discriminate|reflexivity]|]).
    + split; [apply plain_ok; eexists; reflexivity|]. cbn [out]. split; [apply one_line_dec'; vm_compute; reflexivity|]. split; [vm_compute; tauto|]. split; [vm_compute; reflexivity|].
      exists (lit "'/home/u/r'"). split; [intros L HL|intros D; vm_compute; reflexivity]. apply replace_home; [reflexivity|]. apply HL. cbn. intuition discriminate.
    + apply PL; vm_compute; reflexivity.
  - split. { repeat constructor; cbn; intuition discriminate. }
    intros n p [E|[]]; inversion E; subst n p; (split; [apply ident_dec; split; [discriminate|reflexivity]|]). apply PL; vm_compute; reflexivity.
  - split; [constructor|intros n p []].
  - split. { repeat constructor; cbn; intuition discriminate. }
    intros n p [E|[]]; inversion E; subst n p; (split; [apply ident_dec; split; [discriminate|reflexivity]|]).
    split; [reflexivity|]. split; [vm_compute; discriminate|]. split; [vm_compute; discriminate|]. split; [vm_compute; discriminate|]. split; [reflexivity|].
    split; [apply one_line_dec'; vm_compute; reflexivity|]. split; [apply ND; vm_compute; reflexivity|]. intros D. vm_compute. reflexivity.
  - split. { repeat constructor; cbn; intuition discriminate. }
    intros n p [E|[]]; inversion E; subst n p; (split; [apply ident_dec; split; [discriminate|reflexivity]|]).
    split; [apply one_line_dec'; vm_compute; reflexivity|]. split; [apply ND; vm_compute; reflexivity|]. eexists. intros D. vm_compute. reflexivity.
Qed.
(** A line with a dict, as in the files of the documentation *)
Definition sigma_spec : list (str * pv str) := [(lit "vary", Plain (lit "True")); (lit "fiducial", Plain (lit "4.")); (lit "prior", Plain (lit "'normal'")); (lit "mu", Plain (lit "4."))].
Definition sigma_text : str := lit "{'vary': True, 'fiducial': 4., 'prior': 'normal', 'mu': 4.}".
Definition sigma_eval (D : list (str * pv str)) (t : str) : option (pv str) := if eqs t sigma_text then Some (DictV sigma_spec) else None.
Example C196_nonvacuous : identifier (lit "theory") /\ identifier (lit "sigma_fog") /\ one_line sigma_text /\ ~ In "$" sigma_text /\ (forall D, sigma_eval D sigma_text = Some (DictV sigma_spec)) /\
  @specification str (DictV sigma_spec) /\ NoDup (map fst sigma_spec) /\
  exists s p, read ex_truth sigma_eval (fun _ => []) ex_env (lit "theory") [param_line (lit "theory") (lit "sigma_fog", (sigma_text, DictV sigma_spec))] = Ok s /\
    get (lit "sigma_fog") s = Some p /\ value_of p = Plain (lit "4.") /\ attr p (lit "prior_name") = Plain (lit "'normal'").
Proof.
  split; [apply ident_dec; split; [discriminate|reflexivity]|]. split; [apply ident_dec; split; [discriminate|reflexivity]|].
  split; [apply one_line_dec'; vm_compute; reflexivity|].
  split. { intros K. assert (K2 := proj2 (contains_iff (fun _ => None) "$" sigma_text) K). vm_compute in K2. discriminate. }
  split; [intros D; vm_compute; reflexivity|].
  split. { exists sigma_spec. split; [reflexivity|]. intros k x K. cbn [sigma_spec In] in K. repeat (destruct K as [K|K]; [inversion K; subst; vm_compute; tauto|]). destruct K. }
  split. { repeat constructor; cbn; intuition discriminate. }
  eexists. eexists. split; [vm_compute; reflexivity|]. split; [vm_compute; reflexivity|]. split; vm_compute; reflexivity.
Qed.
