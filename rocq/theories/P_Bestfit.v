From Coq Require Import Ascii String Reals Arith Bool Lia Lra.
From Coq Require Import List.
From Verif Require Import M_Bestfit S_Bestfit.
Import ListNotations.
Local Open Scope char_scope.

Lemma eqb_false a b : a <> b -> Ascii.eqb a b = false. Proof. intros H. apply Ascii.eqb_neq. exact H. Qed.
Lemma nq_true s : needs_quote s = true <-> In SP s \/ In QU s.
Proof.
  unfold needs_quote. rewrite existsb_exists. split.
  - intros (c & H & E). apply orb_prop in E. destruct E as [E|E]; apply Ascii.eqb_eq in E; subst c; [left|right]; exact H.
  - intros [H|H]; [exists SP|exists QU]; (split; [exact H|]); rewrite Ascii.eqb_refl; [reflexivity|apply orb_true_r].
Qed.
Lemma nq_false s : needs_quote s = false -> ~ In SP s /\ ~ In QU s.
Proof. intros H. split; intros I; assert (needs_quote s = true) by (apply nq_true; tauto); congruence. Qed.
Lemma tok_plain s : forall cur rest, ~ In SP s -> ~ In HASH s -> tok InField cur (s ++ rest) = tok InField (cur ++ s) rest.
Proof.
  induction s as [|c s IH]; intros cur rest H1 H2; cbn [app]; [rewrite app_nil_r; reflexivity|]. cbn [tok]. rewrite (eqb_false c SP), (eqb_false c HASH); [|intros ->; apply H2; left; reflexivity|intros ->; apply H1; left; reflexivity].
  rewrite IH; [|intros I; apply H1; right; exact I|intros I; apply H2; right; exact I]. rewrite <- app_assoc. reflexivity.
Qed.
Lemma tok_quoted s : forall cur rest, tok InQuoted cur (doubled s ++ QU :: rest) = tok QuoteInQuoted (cur ++ s) rest.
Proof.
  induction s as [|c s IH]; intros cur rest; cbn [doubled].
  - cbn [app tok]. rewrite Ascii.eqb_refl, app_nil_r. reflexivity.
  - destruct (Ascii.eqb_spec c QU) as [->|N].
    + cbn [app]. cbn [tok]. rewrite Ascii.eqb_refl. cbn [tok]. rewrite IH, <- app_assoc. reflexivity.
    + cbn [app]. cbn [tok]. rewrite (eqb_false c QU N). rewrite IH, <- app_assoc. reflexivity.
Qed.
Lemma field_end s : writable s -> tok Between [] (write_field s) = [s].
Proof.
  intros (N & H). unfold write_field. destruct (needs_quote s) eqn:E.
  - cbn [tok]. rewrite (eqb_false QU SP), (eqb_false QU HASH), Ascii.eqb_refl by discriminate. rewrite tok_quoted. reflexivity.
  - destruct (nq_false s E) as [N1 N2]. assert (NH : ~ In HASH s) by (destruct H as [H|[H|H]]; [contradiction|contradiction|exact H]). destruct s as [|c s]; [contradiction N; reflexivity|].
    cbn [tok]. rewrite (eqb_false c SP), (eqb_false c HASH), (eqb_false c QU); [|intros ->; apply N2; left; reflexivity|intros ->; apply NH; left; reflexivity|intros ->; apply N1; left; reflexivity].
    rewrite <- (app_nil_r s) at 1. rewrite tok_plain; [reflexivity|intros I; apply N1; right; exact I|intros I; apply NH; right; exact I].
Qed.
Lemma field_more s t : writable s -> tok Between [] (write_field s ++ SP :: t) = s :: tok Between [] t.
Proof.
  intros (N & H). unfold write_field. destruct (needs_quote s) eqn:E.
  - cbn [app tok]. rewrite (eqb_false QU SP), (eqb_false QU HASH), Ascii.eqb_refl by discriminate. rewrite <- app_assoc. cbn [app]. rewrite tok_quoted. reflexivity.
  - destruct (nq_false s E) as [N1 N2]. assert (NH : ~ In HASH s) by (destruct H as [H|[H|H]]; [contradiction|contradiction|exact H]). destruct s as [|c s]; [contradiction N; reflexivity|].
    cbn [app tok]. rewrite (eqb_false c SP), (eqb_false c HASH), (eqb_false c QU); [|intros ->; apply N2; left; reflexivity|intros ->; apply NH; left; reflexivity|intros ->; apply N1; left; reflexivity].
    rewrite tok_plain; [reflexivity|intros I; apply N1; right; exact I|intros I; apply NH; right; exact I].
Qed.
Definition nonempty (s : str) : bool := match s with [] => false | _ => true end.
Lemma line_tokens l : Forall (fun s => s = [] \/ writable s) l -> tokens (write_line l) = filter nonempty l.
Proof.
  unfold tokens, write_line. induction l as [|s l IH]; intros H; [reflexivity|]. inversion H as [|? ? Hs Hl]; subst. specialize (IH Hl). cbn [map join filter]. destruct l as [|s2 l].
  - cbn [map]. destruct Hs as [->|Hs]; [reflexivity|]. rewrite field_end by exact Hs. destruct s as [|c s]; [destruct Hs as [Hs _]; contradiction Hs; reflexivity|reflexivity].
  - change (map write_field (s2 :: l)) with (write_field s2 :: map write_field l) in *. destruct Hs as [->|Hs].
    + change (write_field []) with (@nil ascii). cbn [app]. change (tok Between [] (SP :: join (write_field s2 :: map write_field l))) with (tok Between [] (join (write_field s2 :: map write_field l))). exact IH.
    + change (tok Between [] (write_field s ++ SP :: join (write_field s2 :: map write_field l)) = if nonempty s then s :: filter nonempty (s2 :: l) else filter nonempty (s2 :: l)).
      rewrite field_more by exact Hs. rewrite IH. destruct s as [|c s]; [destruct Hs as [Hs _]; contradiction Hs; reflexivity|reflexivity].
Qed.
Lemma wr_ne s : writable s -> nonempty s = true. Proof. intros (H & _). destruct s; [contradiction H; reflexivity|reflexivity]. Qed.
Lemma filter_all l : Forall writable l -> filter nonempty l = l.
Proof. induction 1 as [|s l H _ IH]; [reflexivity|]. cbn [filter]. rewrite (wr_ne s H), IH. reflexivity. Qed.
(** ** metadata lines *)
Lemma words_more s : forall cur t, ~ In SP s -> cur ++ s <> [] -> wordsf cur (s ++ SP :: t) = (cur ++ s) :: wordsf [] t.
Proof.
  induction s as [|c s IH]; intros cur t H N; cbn [app].
  - rewrite app_nil_r in *. cbn [wordsf]. rewrite Ascii.eqb_refl. destruct cur; [contradiction N; reflexivity|reflexivity].
  - cbn [wordsf]. rewrite (eqb_false c SP) by (intros ->; apply H; left; reflexivity). rewrite IH; [rewrite <- app_assoc; reflexivity|intros I; apply H; right; exact I|]. destruct cur; discriminate.
Qed.
Lemma words_end s : forall cur, ~ In SP s -> cur ++ s <> [] -> wordsf cur s = [cur ++ s].
Proof.
  induction s as [|c s IH]; intros cur H N.
  - rewrite app_nil_r in *. cbn [wordsf]. destruct cur; [contradiction N; reflexivity|reflexivity].
  - cbn [wordsf]. rewrite (eqb_false c SP) by (intros ->; apply H; left; reflexivity). rewrite IH; [rewrite <- app_assoc; reflexivity|intros I; apply H; right; exact I|]. destruct cur; discriminate.
Qed.
Lemma words3 k v ty : word k -> word v -> word ty -> words (SP :: k ++ SP :: v ++ SP :: ty) = [k; v; ty].
Proof. intros (K & K') (V & V') (T & T'). unfold words. cbn [wordsf]. rewrite Ascii.eqb_refl. rewrite (words_more k []) by assumption. rewrite (words_more v []) by assumption. rewrite (words_end ty []) by assumption. reflexivity. Qed.
Lemma nosp (s : str) : existsb (Ascii.eqb SP) s = false -> ~ In SP s.
Proof. intros H I. assert (existsb (Ascii.eqb SP) s = true) by (apply existsb_exists; exists SP; split; [exact I|apply Ascii.eqb_refl]). congruence. Qed.
Lemma word_lit s : s <> [] -> existsb (Ascii.eqb SP) s = false -> word s. Proof. intros A B. split; [exact A|apply nosp, B]. Qed.
Lemma type_word v : (match v with PNum ty _ => In ty (map list_ascii_of_string ["int"; "float"; "int64"; "float64"]%string) | _ => True end) -> word (type_name v).
Proof.
  destruct v as [ty t|s|b|]; cbn [type_name]; intros H; try (apply word_lit; [discriminate|reflexivity]).
  cbn [map] in H. repeat (destruct H as [<-|H]; [apply word_lit; [discriminate|reflexivity]|]). contradiction.
Qed.
Lemma seqb_refl s : str_eqb s s = true. Proof. unfold str_eqb. destruct (list_eq_dec ascii_dec s s); [reflexivity|congruence]. Qed.
Lemma seqb_ne a b : a <> b -> str_eqb a b = false. Proof. intros H. unfold str_eqb. destruct (list_eq_dec ascii_dec a b); [contradiction|reflexivity]. Qed.
Lemma cast_storable v : storable v -> cast (type_name v) (show v) = Some v /\ word (show v) /\ word (type_name v).
Proof.
  intros H. destruct v as [ty t|s|b|]; cbn [storable] in H; try contradiction.
  - destruct H as [H1 H2]. split; [|split; [exact H2|apply type_word; exact H1]]. cbn [type_name show]. unfold cast. replace (numeric ty) with true; [reflexivity|].
    symmetry. unfold numeric. apply existsb_exists. exists ty. split; [exact H1|apply seqb_refl].
  - split; [reflexivity|]. split; [exact H|]. apply type_word. exact I.
Qed.
Lemma dset_new d k v : ~ In k (map fst d) -> dset d k v = d ++ [(k, v)].
Proof. induction d as [|[k' v'] d IH]; intros H; [reflexivity|]. cbn [dset app]. rewrite seqb_ne by (intros ->; apply H; left; reflexivity). rewrite IH; [reflexivity|]. intros I. apply H. right. exact I. Qed.
Lemma read_meta_line k v x rest d : word k -> word (show v) -> word (type_name v) -> cast (type_name v) (show v) = Some x ->
  read_meta (meta_line (k, v) :: rest) d = read_meta rest (dset d k x).
Proof. intros K V T C. unfold meta_line. cbn [fst snd]. cbn [read_meta]. rewrite Ascii.eqb_refl. rewrite words3 by assumption. cbn [last]. rewrite C. reflexivity. Qed.
Lemma read_meta_all meta : forall rest d, Forall (fun kv => word (fst kv) /\ storable (snd kv)) meta -> NoDup (map fst meta) -> (forall k, In k (map fst meta) -> ~ In k (map fst d)) ->
  read_meta (map meta_line meta ++ rest) d = read_meta rest (d ++ meta).
Proof.
  induction meta as [|[k v] meta IH]; intros rest d H ND HD; [rewrite app_nil_r; reflexivity|]. inversion H as [|? ? (W & S) H']; subst. cbn [fst snd] in *. destruct (cast_storable v S) as (C & V & T).
  cbn [map app]. rewrite (read_meta_line k v v) by assumption. inversion ND as [|? ? N1 N2]; subst. rewrite dset_new by (apply HD; left; reflexivity). rewrite IH; [rewrite <- app_assoc; reflexivity|exact H'|exact N2|].
  intros k' Hk I. rewrite map_app in I. apply in_app_iff in I. destruct I as [I|[I|[]]]; [exact (HD k' (or_intror Hk) I)|]. cbn [fst] in I. subst k'. contradiction.
Qed.
Definition not_comment (l : str) : Prop := match l with [] => True | c :: _ => c <> HASH end.
Lemma read_meta_none lines d : Forall not_comment lines -> read_meta lines d = Some d.
Proof. induction 1 as [|l lines H _ IH]; [reflexivity|]. destruct l as [|c l]; cbn [read_meta]; [exact IH|]. rewrite eqb_false by exact H. exact IH. Qed.
Lemma not_comment_line s l : writable s -> not_comment (write_line (s :: l)).
Proof.
  intros (N & H). unfold write_line. cbn [map]. assert (F : exists c t, write_field s = c :: t /\ c <> HASH).
  { unfold write_field. destruct (needs_quote s) eqn:E; [exists QU, (doubled s ++ [QU]); split; [reflexivity|discriminate]|]. destruct (nq_false s E) as [N1 N2]. assert (NH : ~ In HASH s) by (destruct H as [H|[H|H]]; [contradiction|contradiction|exact H]).
    destruct s as [|c s]; [contradiction N; reflexivity|]. exists c, s. split; [reflexivity|]. intros ->. apply NH. left. reflexivity. }
  destruct F as (c & t & E & NC). cbn [join]. rewrite E. destruct (map write_field l); exact NC.
Qed.
Lemma header_line cols : cols <> [] -> not_comment (write_line ([] :: cols)).
Proof. destruct cols as [|c cols]; [intros H; contradiction H; reflexivity|]. intros _. cbn. discriminate. Qed.
Lemma table_meta f d rest : f_cols f <> [] -> Forall (fun r => writable (fst r)) (f_rows f) -> read_meta (table_lines f ++ rest) d = read_meta rest d.
Proof.
  intros HC HR. unfold table_lines. assert (NC : Forall not_comment (write_line ([] :: f_cols f) :: map (fun r => write_line (fst r :: map cell_text (snd r))) (f_rows f))).
  { constructor; [apply header_line; exact HC|]. induction HR as [|r rows H _ IH]; [constructor|]. cbn [map]. constructor; [apply not_comment_line; exact H|exact IH]. }
  induction NC as [|l lines H _ IH]; [reflexivity|]. cbn [app]. destruct l as [|c l]; cbn [read_meta]; [exact IH|]. rewrite eqb_false by exact H. exact IH.
Qed.
(** ** tables *)
Lemma header_tokens cols : Forall writable cols -> tokens (write_line ([] :: cols)) = cols.
Proof. intros H. rewrite line_tokens; [cbn [filter nonempty]; apply filter_all, H|]. constructor; [left; reflexivity|]. eapply Forall_impl; [|exact H]. intros a A. right. exact A. Qed.
Lemma cells_ok l : Forall (fun c => exists s, c = Some s /\ writable s) l -> Forall writable (map cell_text l) /\ map opt_cell (map cell_text l) = l.
Proof.
  induction 1 as [|c l (s & -> & W) _ [I1 I2]]; [split; [constructor|reflexivity]|]. cbn [map cell_text]. split; [constructor; assumption|]. rewrite I2. f_equal.
  destruct s; [destruct W as [W _]; contradiction W; reflexivity|reflexivity].
Qed.
Lemma row_tokens n l : writable n -> Forall (fun c => exists s, c = Some s /\ writable s) l -> tokens (write_line (n :: map cell_text l)) = n :: map cell_text l.
Proof. intros W H. destruct (cells_ok l H) as [A _]. rewrite line_tokens; [apply filter_all; constructor; assumption|]. apply Forall_impl with (P := writable); [intros a X; right; exact X|constructor; assumption]. Qed.
Lemma meta_tokens kv : tokens (meta_line kv) = []. Proof. reflexivity. Qed.
Definition nonnil (l : list str) : bool := match l with [] => false | _ => true end.
Lemma metas_gone meta rest : filter nonnil (map tokens (map meta_line meta ++ rest)) = filter nonnil (map tokens rest).
Proof. induction meta as [|kv meta IH]; [reflexivity|]. cbn [map app]. rewrite meta_tokens. exact IH. Qed.
Lemma rows_tokens (rows : list (str * list (option str))) : Forall (fun r => writable (fst r) /\ Forall (fun c => exists s, c = Some s /\ writable s) (snd r)) rows ->
  filter nonnil (map tokens (map (fun r => write_line (fst r :: map cell_text (snd r))) rows)) = map (fun r => fst r :: map cell_text (snd r)) rows.
Proof. induction 1 as [|[n l] rows [W H] _ IH]; [reflexivity|]. cbn [map filter fst snd]. rewrite row_tokens by assumption. cbn [nonnil]. f_equal. exact IH. Qed.
Lemma table_tokens f : complete f -> filter nonnil (map tokens (table_lines f)) = f_cols f :: map (fun r => fst r :: map cell_text (snd r)) (f_rows f).
Proof.
  intros (HC & WC & HR). unfold table_lines. cbn [map filter]. rewrite header_tokens by exact WC. destruct (f_cols f) as [|c0 cs] eqn:E; [contradiction HC; reflexivity|]. cbn [nonnil]. f_equal. apply rows_tokens.
  eapply Forall_impl; [|exact HR]. intros r (A & _ & B). split; assumption.
Qed.
