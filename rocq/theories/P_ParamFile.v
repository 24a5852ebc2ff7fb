From Coq Require Import List Bool Ascii Arith Lia.
From Verif Require Import M_ParamFile S_ParamFile.
Import ListNotations.
Open Scope char_scope.

(** ** cut, span *)
Lemma cut_none c s : cut c s = None <-> ~ In c s.
Proof.
  induction s as [|x s IH]; cbn; [split; auto|]. destruct (Ascii.eqb_spec x c) as [->|N].
  - split; [discriminate|intros H; exfalso; auto].
  - destruct (cut c s) as [[a b]|]; split; try discriminate; intros H.
    + exfalso. assert (K : Some (a, b) = None) by (apply IH; auto). discriminate.
    + intros [E|E]; [congruence|]. apply IH in E; auto.
    + reflexivity.
Qed.
Lemma cut_some c s a b : cut c s = Some (a, b) <-> s = a ++ c :: b /\ ~ In c a.
Proof.
  revert a. induction s as [|x s IH]; intros a; cbn.
  - split; [discriminate|]. intros [E _]. destruct a; discriminate.
  - destruct (Ascii.eqb_spec x c) as [->|N].
    + split.
      * intros [= <- <-]. auto.
      * intros [E Ha]. destruct a as [|y a]; cbn in E; inversion E; subst; [now auto|]. exfalso. apply Ha. left. auto.
    + destruct (cut c s) as [[a' b']|] eqn:Ec.
      * split.
        -- intros [= <- <-]. destruct (proj1 (IH a') eq_refl) as [-> H]. split; auto. intros [E|E]; auto.
        -- intros [E Ha]. destruct a as [|y a]; cbn in E; inversion E; subst; [congruence|].
           assert (K : Some (a', b') = Some (a, b)) by (apply IH; split; auto; intros H; apply Ha; right; auto). inversion K; subst; reflexivity.
      * split; [discriminate|]. intros [E Ha]. destruct a as [|y a]; cbn in E; inversion E; subst; [congruence|].
        assert (K : None = Some (a, b)) by (apply IH; split; auto; intros H; apply Ha; right; auto). discriminate.
Qed.
Lemma cut_app c t s : ~ In c t -> cut c (t ++ s) = match cut c s with Some (a, b) => Some (t ++ a, b) | None => None end.
Proof.
  intros H. destruct (cut c s) as [[a b]|] eqn:E.
  - apply cut_some in E. destruct E as [-> Hn]. apply cut_some. split; [now rewrite app_assoc|]. rewrite in_app_iff. tauto.
  - apply cut_none in E. apply cut_none. rewrite in_app_iff. tauto.
Qed.
Lemma span_split p s : s = fst (span p s) ++ snd (span p s) /\ Forall (fun x => p x = true) (fst (span p s)) /\
  (forall x r, snd (span p s) = x :: r -> p x = false).
Proof.
  induction s as [|x s IH]; cbn; [repeat split; auto; discriminate|]. destruct (p x) eqn:E.
  - destruct (span p s) as [a b]. cbn in *. destruct IH as (-> & H1 & H2). repeat split; auto.
  - cbn. repeat split; auto. intros y r [= <- <-]. auto.
Qed.
Lemma span_app p v s : Forall (fun x => p x = true) v -> (forall c r, s = c :: r -> p c = false) -> span p (v ++ s) = (v, s).
Proof.
  intros Hv Hs. induction Hv as [|x v Hx Hv IH]; cbn.
  - destruct s as [|c r]; auto. cbn. rewrite (Hs c r eq_refl). auto.
  - rewrite Hx, IH. reflexivity.
Qed.

(** ** replace_vars *)
Lemma var_char_spec c : var_char c = existsb (Ascii.eqb c) name_chars.
Proof. destruct c as [[] [] [] [] [] [] [] []]; vm_compute; reflexivity. Qed.
Lemma name_iff c : In c name_chars <-> var_char c = true.
Proof.
  rewrite var_char_spec, existsb_exists. split; [intros H; exists c; split; auto; apply Ascii.eqb_refl|].
  intros (x & H & E). apply Ascii.eqb_eq in E. now subst.
Qed.
Lemma name_not c : ~ In c name_chars <-> var_char c = false.
Proof. rewrite name_iff. destruct (var_char c); split; congruence. Qed.
Section R.
Variables D env : str -> option str.
Notation loop := (replace_loop D env).
Lemma loop_lit fuel t s out : ~ In "$" t -> loop (S fuel) (t ++ s) out = loop (S fuel) s (out ++ t).
Proof.
  intros H. cbn [replace_loop]. rewrite (cut_app "$" t s H). destruct (cut "$" s) as [[a b]|]; [now rewrite app_assoc|now rewrite app_assoc].
Qed.
Lemma loop_paren fuel v s out : ~ In ")" v ->
  loop (S fuel) (show (Paren v) ++ s) out = match value D env (Paren v) with Some x => loop fuel s (out ++ x) | None => KeyError end.
Proof.
  intros H. cbn -[cut]. change (cut "$" ("$" :: "(" :: (v ++ [")"]) ++ s)) with (Some ([] : str, "(" :: (v ++ [")"]) ++ s)).
  cbn -[cut]. replace ("(" :: (v ++ [")"]) ++ s) with (("(" :: v) ++ ")" :: s) by (cbn; now rewrite <- app_assoc).
  assert (E : cut ")" (("(" :: v) ++ ")" :: s) = Some ("(" :: v, s)). { apply cut_some. split; auto. intros [K|K]; [discriminate|auto]. }
  rewrite E. cbn [tl]. rewrite app_nil_r. destruct (D v); [reflexivity|]. destruct (env v); reflexivity.
Qed.
Lemma loop_bare fuel v s out : Forall (fun x => In x name_chars) v ->
  (match s with [] => v <> [] | c :: _ => ~ In c name_chars /\ (v = [] -> c <> "(") end) ->
  loop (S fuel) (show (Bare v) ++ s) out = match D v with Some x => loop fuel s (out ++ x) | None => KeyError end.
Proof.
  intros Hv Hs. assert (Hv' : Forall (fun x => var_char x = true) v) by (eapply Forall_impl; [|exact Hv]; intros; now apply name_iff). clear Hv. rename Hv' into Hv.
  cbn [show app replace_loop].
  change (cut "$" ("$" :: v ++ s)) with (Some ([] : str, v ++ s)).
  assert (Hsp : span var_char (v ++ s) = (v, s)). { apply span_app; auto. intros c r ->. apply name_not, Hs. }
  destruct (v ++ s) as [|x w] eqn:E.
  - apply app_eq_nil in E. destruct E as [-> ->]. congruence.
  - assert (Hx : Ascii.eqb x "(" = false).
    { apply Ascii.eqb_neq. destruct v as [|y v]; cbn in E.
      - destruct s as [|c r]; [discriminate|]. injection E as -> ->. apply Hs. reflexivity.
      - injection E as E1 E2; subst x. inversion Hv as [|? ? Hy _]. intros ->. vm_compute in Hy. discriminate. }
    rewrite Hx. rewrite app_nil_r. rewrite Hsp. reflexivity.
Qed.
Definition dollars (ps : list piece) : nat := length (filter (fun p => match p with Lit _ => false | _ => true end) ps).
Lemma loop_render tail ps : forall fuel out, proper tail ps -> (dollars ps < fuel)%nat ->
  exists f, (f + dollars ps = fuel)%nat /\
  loop fuel (render ps ++ tail) out = match substituted D env ps with Ok y => loop f tail (out ++ y) | e => e end.
Proof.
  induction ps as [|p ps IH]; intros fuel out HP Hf.
  - exists fuel. cbn. split; [lia|]. now rewrite app_nil_r.
  - destruct fuel as [|fuel]; [lia|]. change (render (p :: ps)) with (show p ++ render ps). rewrite <- app_assoc. destruct p as [t|v|v].
    + destruct HP as [H1 H2]. cbn [show]. rewrite loop_lit by auto. destruct (IH (S fuel) (out ++ t) H2 Hf) as (f & Ef & E). exists f. split; auto. rewrite E. cbn. destruct (substituted D env ps); auto. now rewrite app_assoc.
    + destruct HP as [H1 H2]. rewrite loop_paren by auto. cbn [substituted]. unfold dollars in *. cbn in Hf.
      destruct (value D env (Paren v)) as [x|].
      * destruct (IH fuel (out ++ x) H2 ltac:(lia)) as (f & Ef & E). exists f. split; [cbn; lia|]. rewrite E. destruct (substituted D env ps); auto. now rewrite app_assoc.
      * exists (fuel - length (filter (fun p => match p with Lit _ => false | _ => true end) ps))%nat. split; [cbn; lia|auto].
    + destruct HP as (H1 & H2 & H3). rewrite loop_bare by auto. cbn [substituted value]. unfold dollars in *. cbn in Hf. destruct (D v) as [x|].
      * destruct (IH fuel (out ++ x) H3 ltac:(lia)) as (f & Ef & E). exists f. split; [cbn; lia|]. rewrite E. destruct (substituted D env ps); auto. now rewrite app_assoc.
      * exists (fuel - length (filter (fun p => match p with Lit _ => false | _ => true end) ps))%nat. split; [cbn; lia|auto].
Qed.
Lemma dollars_len ps : (dollars ps <= length (render ps))%nat.
Proof.
  induction ps as [|p ps IH]; [cbn; lia|]. unfold dollars in *. change (render (p :: ps)) with (show p ++ render ps). rewrite app_length.
  destruct p; cbn; lia.
Qed.
Lemma subst_cases ps : (exists y, substituted D env ps = Ok y) \/ substituted D env ps = KeyError.
Proof.
  induction ps as [|p ps IH]; cbn; [left; eauto|]. destruct (value D env p); auto. destruct IH as [[y ->] | ->]; eauto.
Qed.
Lemma replace_render ps : proper [] ps -> replace_vars D env (render ps) = substituted D env ps.
Proof.
  intros H. unfold replace_vars. assert (K := dollars_len ps). destruct (loop_render [] ps (S (length (render ps))) [] H ltac:(lia)) as (f & Ef & E).
  rewrite app_nil_r in E. rewrite E. destruct (substituted D env ps) as [y| | |] eqn:Es; auto.
  destruct f as [|f]; [lia|]. cbn. now rewrite app_nil_r.
Qed.
Lemma replace_malformed ps tail : proper tail ps -> malformed_end tail -> raises (replace_vars D env (render ps ++ tail)).
Proof.
  intros H Ht. unfold replace_vars. assert (K := dollars_len ps).
  assert (Lt : (1 <= length tail)%nat) by (destruct Ht as [->|(r & -> & _)]; cbn; lia).
  destruct (loop_render tail ps (S (length (render ps ++ tail))) [] H) as (f & Ef & E). { rewrite app_length. lia. }
  rewrite E. rewrite app_length in Ef. destruct (subst_cases ps) as [[y Es]|Es]; rewrite Es; [|right; auto].
  destruct f as [|f]; [lia|]. left. destruct Ht as [->|(r & -> & Hr)]; [reflexivity|]. cbn -[cut].
  change (cut "$" ("$" :: "(" :: r)) with (Some ([] : str, "(" :: r)). cbn -[cut].
  replace (cut ")" ("(" :: r)) with (@None (str * str)); auto. symmetry. apply cut_none. intros [E1|E1]; [discriminate|auto].
Qed.
(** every string is a template, or ends in a trailing '$' or an unclosed bracket *)
Lemma decompose n : forall s, (length s <= n)%nat -> exists ps tail, proper tail ps /\ s = render ps ++ tail /\ (tail = [] \/ malformed_end tail).
Proof.
  induction n as [|n IH]; intros s Hs.
  - destruct s; cbn in Hs; [|lia]. exists [], []. split; [exact I|]. auto.
  - destruct (cut "$" s) as [[a b]|] eqn:E.
    2: { apply cut_none in E. exists [Lit s], []. split; [split; auto; exact I|]. cbn. rewrite !app_nil_r. auto. }
    apply cut_some in E. destruct E as [-> Ha]. rewrite app_length in Hs. cbn in Hs.
    destruct b as [|x b].
    { exists [Lit a], ["$"]. split; [split; auto; exact I|]. cbn. rewrite app_nil_r. split; auto. right. left. auto. }
    destruct (Ascii.eqb_spec x "(") as [->|Nx].
    + destruct (cut ")" b) as [[v r]|] eqn:E.
      * apply cut_some in E. destruct E as [-> Hv]. destruct (IH r) as (ps & tail & H1 & H2 & H3). { cbn in Hs. rewrite app_length in Hs. cbn in Hs. lia. }
        exists (Lit a :: Paren v :: ps), tail. split; [split; auto; split; auto|]. split; auto. rewrite H2. unfold render. cbn. repeat (rewrite <- app_assoc; cbn). reflexivity.
      * apply cut_none in E. exists [Lit a], ("$" :: "(" :: b). split; [split; auto; exact I|]. cbn. rewrite app_nil_r. split; auto. right. right. eauto.
    + destruct (span_split var_char (x :: b)) as (E & Hv & Hr). destruct (span var_char (x :: b)) as [v r] eqn:Es. cbn [fst snd] in *.
      destruct (IH r) as (ps & tail & H1 & H2 & H3). { assert (length (x :: b) = length v + length r)%nat by (rewrite E; apply app_length). cbn in *. lia. }
      exists (Lit a :: Bare v :: ps), tail. split.
      * split; auto. split; [eapply Forall_impl; [|exact Hv]; intros; now apply name_iff|]. split; auto. rewrite <- H2. destruct r as [|c r]; [intros ->; discriminate|].
        split; [apply name_not; eapply Hr; eauto|]. intros ->. cbn in E. injection E as -> ->. auto.
      * split; auto. rewrite E, H2. unfold render. cbn. repeat (rewrite <- app_assoc; cbn). reflexivity.
Qed.
End R.
