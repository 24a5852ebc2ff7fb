(** * Properties C52, C53: parameter files *)
From Coq Require Import List Bool Ascii String Arith Lia.
From Verif Require Import M_ParamFile S_ParamFile P_ParamFile P_ParamFile2.
Import ListNotations.
Open Scope char_scope.
(** string literals, for the examples *)
Definition lit := list_ascii_of_string.

(** ** C52 *)
(** Every proper template is replaced piece by piece, or raises KeyError on the first unknown name. *)
Theorem C52_exact :
  forall D env ps, proper [] ps -> replace_vars D env (render ps) = substituted D env ps.
Proof. exact replace_render. Qed.
(** Every string is a proper template, or a proper template followed by a trailing '$' or an unclosed bracket. *)
Theorem C52_every_string_covered :
  forall s, exists ps tail, proper tail ps /\ s = render ps ++ tail /\ (tail = [] \/ malformed_end tail).
Proof. intros s. now apply (decompose (List.length s)). Qed.
(** Malformed strings always raise. *)
Theorem C52_malformed_raises :
  forall D env ps tail, proper tail ps -> malformed_end tail -> raises (replace_vars D env (render ps ++ tail)).
Proof. exact replace_malformed. Qed.
(** Text without '$' is unchanged; an unknown name raises. *)
Theorem C52_plain_text_unchanged :
  forall D env s, ~ In "$" s -> replace_vars D env s = Ok s.
Proof.
  intros D env s H. assert (K := replace_render D env [Lit s] (conj H I)). unfold render in K. cbn [flat_map show] in K. rewrite app_nil_r in K. rewrite K.
  cbn [substituted value]. now rewrite app_nil_r.
Qed.
Theorem C52_unknown_name_raises :
  forall D env ps p, proper [] ps -> In p ps -> value D env p = None -> replace_vars D env (render ps) = KeyError.
Proof.
  intros D env ps p H Hin Hv. rewrite replace_render by auto. clear H. induction ps as [|q ps IH]; [destruct Hin|]. cbn. destruct Hin as [->|Hin].
  - rewrite Hv. reflexivity.
  - destruct (value D env q); auto. rewrite (IH Hin). reflexivity.
Qed.
(** The call always terminates with a value or an exception. *)
Theorem C52_total :
  forall D env s, (exists r, replace_vars D env s = Ok r) \/ raises (replace_vars D env s).
Proof.
  intros D env s. destruct (decompose (List.length s) s (le_n _)) as (ps & tail & H1 & -> & [-> | H3]).
  - rewrite app_nil_r. rewrite replace_render by auto. destruct (subst_cases D env ps) as [H|H]; auto. right. right. auto.
  - right. now apply replace_malformed.
Qed.
Print Assumptions C52_exact.
Print Assumptions C52_total.
Example C52_nonvacuous :
  let D := fun n => if eqs n (lit "my_var1") then Some (lit "abc") else if eqs n (lit "my_var2") then Some (lit "123") else None in
  proper [] [Lit (lit "I know my "); Paren (lit "my_var1"); Lit (lit "s and "); Bare (lit "my_var2"); Lit (lit "'s")] /\
  replace_vars D (fun _ => None) (lit "I know my $(my_var1)s and $my_var2's") = Ok (lit "I know my abcs and 123's").
Proof.
  split; [|vm_compute; reflexivity]. cbn [proper].
  assert (F : forall v, forallb var_char v = true -> Forall (fun x => In x name_chars) v).
  { intros v H. rewrite forallb_forall in H. apply Forall_forall. intros x Hx. apply name_iff. auto. }
  assert (P : forall c t, contains c t = false -> ~ In c t).
  { intros c t H K. unfold contains in H. destruct (cut c t) eqn:E; [discriminate|]. apply cut_none in E. auto. }
  split; [apply P; reflexivity|]. split; [apply P; reflexivity|]. split; [apply P; reflexivity|].
  split; [apply F; reflexivity|]. split; [|split; [apply P; reflexivity|exact I]].
  cbn [render flat_map show app lit list_ascii_of_string]. split; [apply name_not; reflexivity|discriminate].
Qed.

(** ** C53 *)
(** Blank lines and comments may stand anywhere, also inside a continued line. *)
Theorem C53_blank_and_comments_ignored :
  forall V eval tostr env l1 l l2, ignorable l ->
  from_file V eval tostr env (l1 ++ l :: l2) = from_file V eval tostr env (l1 ++ l2).
Proof.
  intros V eval tostr env l1 l l2 H. unfold from_file. rewrite (read_lines_app l1 [] (l :: l2) l2); auto.
  intros o. cbn. rewrite (ignorable_line o l H). destruct (read_lines o l2); reflexivity.
Qed.
(** A comment after the text of a line is ignored. *)
Theorem C53_trailing_comment_ignored :
  forall V eval tostr env l1 t c l2, ~ In "#" t -> ~ In "\" t ->
  from_file V eval tostr env (l1 ++ (t ++ "#" :: c) :: l2) = from_file V eval tostr env (l1 ++ t :: l2).
Proof.
  intros V eval tostr env l1 t c l2 H1 H2. unfold from_file. rewrite (read_lines_app l1 [] _ (t :: l2)); auto.
  intros o. apply read_lines_cons. now apply trailing_comment.
Qed.
(** A line ending in a backslash is joined with the next one by a blank; what follows the backslash is dropped. *)
Theorem C53_continuation_joined :
  forall V eval tostr env l1 x j y l2, ~ In "#" x -> ~ In "\" x -> ~ blank x -> ~ ignorable y ->
  from_file V eval tostr env (l1 ++ (x ++ "\" :: j) :: y :: l2) = from_file V eval tostr env (l1 ++ (x ++ " " :: strip y) :: l2).
Proof.
  intros V eval tostr env l1 x j y l2 H1 H2 H3 H4. unfold from_file.
  rewrite (read_lines_app l1 [] _ ((x ++ " " :: strip y) :: l2)); auto.
  intros o. cbn [read_lines]. rewrite continuation_line by auto. rewrite joined_line by auto.
  destruct (read_line o (x ++ " " :: strip y)) as [[o' it]| | |]; auto. destruct (read_lines o' l2); auto.
Qed.
(** A line "key = value", blanks anywhere around the two, gives exactly that pair. *)
Theorem C53_line_gives_pair :
  forall k v b1 b2 b3 b4 rest, blank b1 -> blank b2 -> blank b3 -> blank b4 ->
  strip k = k -> strip v = v -> k <> [] -> ~ In "=" (k ++ v) -> ~ In "#" (k ++ v) -> ~ In "\" (k ++ v) ->
  read_lines [] ((b1 ++ k ++ b2 ++ "=" :: b3 ++ v ++ b4) :: rest) =
  match read_lines [] rest with Ok l => Ok ((k, v) :: l) | e => e end.
Proof. intros. cbn [read_lines]. rewrite clean_line by auto. reflexivity. Qed.
(** A line without "=" is refused, wherever it stands. *)
Theorem C53_line_without_equals_refused :
  forall k b1 b2 rest, blank b1 -> blank b2 -> strip k = k -> k <> [] -> ~ In "=" k -> ~ In "#" k -> ~ In "\" k ->
  read_lines [] ((b1 ++ k ++ b2) :: rest) = ValueError.
Proof. intros. cbn [read_lines]. rewrite bad_line by auto. reflexivity. Qed.
(** A key "u.n" goes to the section of a tag that u ends with, with name n, or to none if there is no such tag. *)
Theorem C96_attribution_partial :
  forall u n tags, ~ In "." u -> ~ In "." n -> Forall (fun t => ~ In "." t) tags ->
  (forall t, In t tags -> ends_with u t -> t = u) ->
  (In u tags -> attribute tags (u ++ "." :: n) = Some (u, strip n)) /\ (~ In u tags -> attribute tags (u ++ "." :: n) = None).
Proof.
  intros u n tags Hu Hn Ht Hs. destruct (attribute_key u n tags Hu Hn Ht) as [(t & A & B & C)|[A B]].
  - assert (E := Hs t A B). subst t. split; auto. intros K. contradiction.
  - split; auto. intros K. exfalso. apply (A u K). exists []. reflexivity.
Qed.
(** REFUTED: a key whose section name merely ends with the tag is taken for that section, ... *)
Theorem C96_suffix_tag_refuted :
  forall a t n, a <> [] -> ~ In "." (a ++ t) -> ~ In "." n -> attribute [t] ((a ++ t) ++ "." :: n) = Some (t, strip n) /\ a ++ t <> t.
Proof.
  intros a t n Ha H1 H2. split.
  - destruct (attribute_key (a ++ t) n [t] H1 H2) as [(t' & [<-|[]] & _ & C)|[A _]]; auto.
    + repeat constructor. intros K. apply H1. apply in_or_app. auto.
    + exfalso. apply (A t); [left; auto|]. exists a. auto.
  - intros E. apply Ha. apply (f_equal (@List.length _)) in E. rewrite app_length in E. destruct a; auto. cbn in E. lia.
Qed.
(** ... a '#' inside a quoted value cuts it, a value with '=' is refused, a line starting with '=' is skipped,
    and a continuation at the end of the file is dropped. *)
Theorem C96_quoted_characters_refuted :
  read_lines [] [lit "a = 'x#y'"] = Ok [(lit "a", lit "'x")] /\
  read_lines [] [lit "a = dict(b=1)"] = ValueError /\
  read_lines [] [lit "= 3"] = Ok [] /\
  read_lines [] [lit "a = 1 \"] = Ok [].
Proof. repeat split; vm_compute; reflexivity. Qed.
Print Assumptions C53_continuation_joined.
Print Assumptions C96_attribution_partial.
Example C53_nonvacuous :
  read_lines [] [lit "# header"; lit "theory.f = {'value' : 0.8, \ "; lit ""; lit "   'vary' : True}  # growth"; lit "b1=2"] =
    Ok [(lit "theory.f", lit "{'value' : 0.8,  'vary' : True}"); (lit "b1", lit "2")] /\
  attribute [lit "data"; lit "theory"] (lit "theory.f") = Some (lit "theory", lit "f") /\
  attribute [lit "data"] (lit "theory.f") = None /\ attribute [lit "model"] (lit "mymodel.f") = Some (lit "model", lit "f").
Proof. repeat split; vm_compute; reflexivity. Qed.
