(** C206-C208: the theory section of a parameter file and the default parameters. *)
From Coq Require Import List Arith QArith Bool Lia.
From Verif Require Import M_Prep S_Prep P_Prep M_TheoryFile S_TheoryFile P_TheoryFile.
Import ListNotations.
Local Open Scope nat_scope.

(** [loads fuel valid deprecated default_names defaults file names t]: from_file has returned the parameters [names] with the table [t], for a file whose lines have
    different names and whose constraints have no cycle. *)
Section TheoryFile.
Variables (fuel : nat) (valid deprecated : nat -> bool) (default_names : list nat) (defaults : table) (file : list (nat * line)) (names : list nat) (t : table).
Hypothesis L : loads fuel valid deprecated default_names defaults file names t.

Lemma no_expr n l : (forall d, defaults n = Some d -> expr d = None) -> l_expr l = None -> expr (laid defaults n l) = None.
Proof. intros D E. unfold laid. destruct (defaults n) as [d|]; cbn; rewrite E; cbn; auto. Qed.
Lemma laid_vary n l : vary (laid defaults n l) = match l_vary l with Some b => b | None => false end.
Proof. unfold laid. now destruct (defaults n). Qed.

(** ** C206 What a line says about a theory parameter holds after loading.
    Proved for a parameter that is not constrained by default: free exactly if the line says so; value, bounds, prior and the other numbers are those of the line. *)
Theorem C206_line_holds_partial : forall n l, In (n, l) file -> deprecated n = false -> (forall d, defaults n = Some d -> expr d = None) -> l_expr l = None ->
  exists p, t n = Some p /\ (In n (free_names names t) <-> l_vary l = Some true) /\ ~ In n (constrained_names names t) /\
    (forall v, l_value l = Some v -> between (min p) (max p) v -> read p = Some v) /\
    kept (l_min l) (min p) /\ kept (l_max l) (max p) /\ kept (l_prior l) (prior p) /\ forall f, kept (l_num l f) (num p f).
Proof.
  intros n l I D DE LE. destruct (after_line _ _ _ _ _ _ _ _ L n l I D) as (IN & p & TP & SB & V & _).
  pose proof (no_expr n l DE LE) as EN. assert (EP : expr p = None) by (rewrite (sb_expr _ _ SB); exact EN). specialize (V EP).
  exists p. split; [exact TP|]. split.
  { rewrite (free_iff _ _ _ _ _ _ _ _ L n p TP), V, laid_vary. destruct (l_vary l) as [[]|]; split; intuition congruence. }
  split.
  { rewrite (constrained_iff _ _ _ _ _ _ _ _ L n). intros (_ & X & _). apply X. unfold expr_of. now rewrite TP. }
  assert (KM : kept (l_min l) (min p) /\ kept (l_max l) (max p) /\ kept (l_prior l) (prior p) /\ forall f, kept (l_num l f) (num p f)).
  { rewrite (sb_min _ _ SB), (sb_max _ _ SB), (sb_prior _ _ SB), (sb_num _ _ SB). unfold laid, kept. destruct (defaults n); cbn; repeat split; intros; try assumption;
      match goal with H : _ = Some _ |- _ => rewrite H; reflexivity end. }
  split; [|exact KM]. destruct KM as (K1 & K2 & _). intros v LV B. 
  assert (value p = Some v) as PV.
  { rewrite (sb_value _ _ SB). assert (value (make l) = Some v) as MV by (cbn; rewrite LV; f_equal; apply clip_between; eapply between_given; eauto).
    unfold laid. destruct (defaults n); [|exact MV]. unfold update_param. cbn [value]. rewrite MV. reflexivity. }
  unfold read. rewrite PV. destruct (vary p); cbn; [|reflexivity]. now rewrite clip_between.
Qed.
(** Proved: an expression that the line gives is the one that is used. *)
Theorem C206_expression_partial : forall n l e, In (n, l) file -> deprecated n = false -> l_expr l = Some e -> expr_of t n = Some e /\ ~ In n (free_names names t).
Proof.
  intros n l e I D LE. destruct (after_line _ _ _ _ _ _ _ _ L n l I D) as (IN & p & TP & SB & _ & V).
  assert (EP : expr p = Some e). { rewrite (sb_expr _ _ SB). unfold laid. destruct (defaults n); cbn; rewrite LE; reflexivity. }
  unfold expr_of. rewrite TP. split; [exact EP|]. rewrite (free_iff _ _ _ _ _ _ _ _ L n p TP). rewrite V by congruence. intros [_ X]; discriminate.
Qed.
(** Refuted: a line without expression cannot free or fix a parameter that is constrained by default: the default expression stays whatever the line says. *)
Theorem C206_default_expression_refuted : forall n l d e, In (n, l) file -> deprecated n = false -> defaults n = Some d -> expr d = Some e -> l_expr l = None ->
  expr_of t n = Some e /\ ~ In n (free_names names t).
Proof.
  intros n l d e I D DN DE LE. destruct (after_line _ _ _ _ _ _ _ _ L n l I D) as (IN & p & TP & SB & _ & V).
  assert (EP : expr p = Some e). { rewrite (sb_expr _ _ SB). unfold laid. rewrite DN. cbn. rewrite LE. exact DE. }
  unfold expr_of. rewrite TP. split; [exact EP|]. rewrite (free_iff _ _ _ _ _ _ _ _ L n p TP). rewrite V by congruence. intros [_ X]; discriminate.
Qed.

(** ** C207 What a line leaves out keeps its default, and so do the parameters without a line.
    Proved for the bounds, the prior, the other numbers and the expression; for the value if the line has no fiducial value and no bound (or an expression);
    and for the parameters without a line. *)
Theorem C207_left_out_partial : forall n l d, In (n, l) file -> deprecated n = false -> defaults n = Some d ->
  exists p, t n = Some p /\ unchanged (l_min l) (min d) (min p) /\ unchanged (l_max l) (max d) (max p) /\ unchanged (l_prior l) (prior d) (prior p) /\
    (forall f, unchanged (l_num l f) (num d f) (num p f)) /\ unchanged (l_expr l) (expr d) (expr p) /\
    (l_num l Fiducial = None -> (l_min l = None /\ l_max l = None) \/ l_expr l <> None -> unchanged (l_value l) (value d) (value p)).
Proof.
  intros n l d I D DN. destruct (after_line _ _ _ _ _ _ _ _ L n l I D) as (IN & p & TP & SB & _). exists p. split; [exact TP|].
  rewrite (sb_min _ _ SB), (sb_max _ _ SB), (sb_prior _ _ SB), (sb_num _ _ SB), (sb_expr _ _ SB), (sb_value _ _ SB). unfold laid, unchanged. rewrite DN. cbn.
  repeat split; intros; try (match goal with H : _ = None |- _ => rewrite H; reflexivity end).
  rewrite H1, H. cbn. destruct H0 as [[A B]|A]; [rewrite A, B; now destruct (l_expr l)|destruct (l_expr l); [reflexivity|congruence]].
Qed.
Theorem C207_no_line_partial : forall n d, ~ In n (map fst file) \/ deprecated n = true -> In n default_names -> defaults n = Some d ->
  exists p, t n = Some p /\ value p = value d /\ min p = min d /\ max p = max d /\ expr p = expr d /\ prior p = prior d /\ num p = num d /\
    (expr d = None -> (In n (free_names names t) <-> vary d = true)).
Proof.
  intros n d I DN DF. destruct (after_default _ _ _ _ _ _ _ _ L n d I DN DF) as (IN & p & TP & SB & V & _). exists p. split; [exact TP|].
  rewrite (sb_min _ _ SB), (sb_max _ _ SB), (sb_prior _ _ SB), (sb_num _ _ SB), (sb_expr _ _ SB), (sb_value _ _ SB). repeat split; auto.
  - rewrite (free_iff _ _ _ _ _ _ _ _ L n p TP). intros [_ X]. rewrite <- X. symmetry. apply V. now rewrite (sb_expr _ _ SB).
  - intro X. apply (free_iff _ _ _ _ _ _ _ _ L n p TP). split; [exact IN|]. rewrite <- X. apply V. now rewrite (sb_expr _ _ SB).
Qed.
(** Refuted: a line that does not mention [vary] fixes a parameter that is free by default. *)
Theorem C207_vary_refuted : forall n l d, In (n, l) file -> deprecated n = false -> defaults n = Some d -> vary d = true -> l_vary l = None ->
  ~ In n (free_names names t).
Proof.
  intros n l d I D DN DV LV. destruct (after_line _ _ _ _ _ _ _ _ L n l I D) as (IN & p & TP & SB & V & V2).
  rewrite (free_iff _ _ _ _ _ _ _ _ L n p TP). intros [_ X]. destruct (expr p) eqn:E; [rewrite V2 in X by congruence; discriminate|].
  rewrite V, laid_vary, LV in X by reflexivity. discriminate.
Qed.
(** Refuted: a line that gives a lower bound and no value moves the parameter to that bound. *)
Theorem C207_value_refuted : forall n l d m, In (n, l) file -> deprecated n = false -> defaults n = Some d ->
  l_value l = None -> l_num l Fiducial = None -> l_expr l = None -> l_min l = Some m -> exists p, t n = Some p /\ value p = Some m.
Proof.
  intros n l d m I D DN LV LF LE LM. destruct (after_line _ _ _ _ _ _ _ _ L n l I D) as (IN & p & TP & SB & _). exists p. split; [exact TP|].
  rewrite (sb_value _ _ SB). unfold laid. rewrite DN. cbn. rewrite LV, LF, LE, LM. reflexivity.
Qed.

(** ** C208 A parameter counts as constrained exactly if it has an expression that depends, directly or through other constrained parameters, on a free parameter. *)
Theorem C208_constrained : forall n, In n (constrained_names names t) <->
  In n names /\ expr_of t n <> None /\ exists u, depends names (expr_of t) n u /\ In u (free_names names t).
Proof. exact (constrained_iff _ _ _ _ _ _ _ _ L). Qed.
End TheoryFile.
(** A name in the file that is neither a parameter nor deprecated is refused. *)
Theorem C208_unknown_name : forall fuel valid deprecated default_names defaults file n l, In (n, l) file -> valid n = false -> deprecated n = false -> ~ In n default_names ->
  from_file fuel valid deprecated default_names defaults file = None.
Proof.
  intros fuel valid deprecated default_names defaults file n l I V D N. unfold from_file. now rewrite (lines_unknown valid deprecated n l ltac:(congruence) D file _ _ N I).
Qed.

(** A concrete file: parameter 0 is free by default, 2 is fixed, 1 depends on 0 and 2, 3 on 1, 4 on 2 only; 5 is an extra parameter. *)
Definition no_num : field -> option Q := fun _ => None.
Definition par v va lo hi e := {| value := v; vary := va; min := lo; max := hi; expr := e; prior := None; num := no_num; analytic := false; fixed_constraint := false |}.
Definition ln v va lo e := {| l_value := v; l_vary := va; l_min := lo; l_max := None; l_expr := e; l_prior := None; l_num := no_num; l_analytic := None |}.
Definition defs (n : nat) : option param :=
  match n with
  | 0 => Some (par (Some (1#1)) true (Some (0#1)) (Some (10#1)) None)
  | 1 => Some (par None false None None (Some [0; 2]))
  | 2 => Some (par (Some (5#1)) false None None None)
  | 3 => Some (par None false None None (Some [1]))
  | 4 => Some (par None false None None (Some [2]))
  | _ => None
  end%nat.
Definition the_file : list (nat * line) :=
  [(0, ln (Some (2#1)) (Some true) None None); (1, ln (Some (7#1)) (Some true) None None); (2, ln None None (Some (3#1)) None); (5, ln (Some (4#1)) None None None)].
Definition the_result := from_file 50 (fun n => n <=? 5) (fun _ => false) [0; 1; 2; 3; 4] defs the_file.
Example C206_nonvacuous : exists names t, the_result = Some (names, t) /\ loads 50 (fun n => n <=? 5) (fun _ => false) [0; 1; 2; 3; 4] defs the_file names t
  /\ names = [0; 1; 2; 3; 4; 5] /\ free_names names t = [0] /\ constrained_names names t = [1; 3]
  /\ option_map read (t 0) = Some (Some (2#1)) /\ option_map read (t 2) = Some (Some (3#1)) /\ option_map read (t 5) = Some (Some (4#1)).
Proof.
  destruct the_result as [[names t]|] eqn:E; [|vm_compute in E; discriminate]. exists names, t. split; [reflexivity|].
  assert (names = [0; 1; 2; 3; 4; 5]) as -> by (vm_compute in E; congruence).
  assert (X : forall n, expr_of t n = match n with 1 => Some [0; 2] | 3 => Some [1] | 4 => Some [2] | _ => None end).
  { intro n. vm_compute in E. injection E as <-. do 6 (destruct n as [|n]; [reflexivity|]). reflexivity. }
  split; [|vm_compute in E; injection E as <-; repeat split].
  split; [exact E|]. split; [repeat constructor; cbn; intuition discriminate|]. split; [repeat constructor; cbn; intuition discriminate|]. split.
  - exists (fun n => match n with 0 => 0 | 1 => 1 | 2 => 0 | 3 => 2 | 4 => 1 | _ => 0 end). intros n c (A & B & l & C & D). rewrite X in C.
    destruct n as [|[|[|[|[|n]]]]]; try discriminate; injection C as <-; cbn in D; intuition subst; lia.
  - intros n d H. destruct n as [|[|[|[|[|n]]]]]; try discriminate; injection H as <-; reflexivity.
Qed.

Print Assumptions C206_line_holds_partial.
Print Assumptions C206_expression_partial.
Print Assumptions C206_default_expression_refuted.
Print Assumptions C207_left_out_partial.
Print Assumptions C207_no_line_partial.
Print Assumptions C207_vary_refuted.
Print Assumptions C207_value_refuted.
Print Assumptions C208_constrained.
Print Assumptions C208_unknown_name.
