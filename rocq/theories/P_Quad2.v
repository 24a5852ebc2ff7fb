From Coq Require Import Reals List Arith Lra Lia.
From Coquelicot Require Import Coquelicot.
From Verif Require Import M_Quad S_Quad P_QuadSort P_Quad P_QuadGK.
Import ListNotations.
Local Open Scope R_scope.

(* invariants through the loop *)
Lemma loop_inv (P : lst -> Prop) rule er ea : (forall s, P s -> (l_iter s < limit (l_ws s))%nat -> P (body rule er ea s)) ->
  forall fuel s s', P s -> (l_iter s < limit (l_ws s))%nat -> loop fuel rule er ea s = Some s' -> P s'.
Proof.
  intros HB. induction fuel as [|f IH]; intros s s' Hs Hl E; [discriminate E|]. cbn [loop] in E. assert (B := HB s Hs Hl).
  destruct (continue (body rule er ea s)) eqn:C; [|injection E as <-; exact B].
  apply (IH _ _ B) in E; [exact E|]. unfold continue in C. apply andb_prop in C. destruct C as [C _]. apply Nat.ltb_lt in C. exact C.
Qed.
Lemma iter_r {A} (f : A -> A) : forall k x, Nat.iter k f (f x) = f (Nat.iter k f x).
Proof. induction k as [|k IH]; intros x; [reflexivity|]. cbn [Nat.iter]. unfold Nat.iter in *. cbn [nat_rect]. rewrite IH. reflexivity. Qed.
(* the loop runs body some number of times *)
Lemma loop_iter rule er ea : forall fuel s s', loop fuel rule er ea s = Some s' -> exists k, s' = Nat.iter (S k) (body rule er ea) s.
Proof.
  induction fuel as [|f IH]; intros s s' E; [discriminate E|]. cbn [loop] in E. destruct (continue (body rule er ea s)).
  - destruct (IH _ _ E) as (k & ->). exists (S k). rewrite iter_r. reflexivity.
  - injection E as <-. exists 0%nat. reflexivity.
Qed.
Lemma iter_inv w rule a b er ea : a <= b -> (2 <= limit w)%nat -> forall k, (S k <= limit w)%nat ->
  let s := Nat.iter k (body rule er ea) (first w rule a b) in linv rule a b (limit w) s /\ l_iter s = S k.
Proof.
  intros Hab HL. induction k as [|k IH]; intros Hk.
  - split; [apply first_inv; assumption|]. cbn [Nat.iter]. unfold first. destruct (rule a b). reflexivity.
  - destruct (IH ltac:(lia)) as [I E]. cbn [Nat.iter]. destruct (body_inv rule a b (limit w) er ea _ I ltac:(cbv zeta in *; lia)) as (I' & E' & _). split; [exact I'|]. etransitivity; [exact E'|]. f_equal. exact E.
Qed.
(* only the values inside matter *)
Lemma body_ext r1 r2 a b L er ea s : (forall c d, a <= c <= d -> d <= b -> r1 c d = r2 c d) -> linv r1 a b L s -> (l_iter s < L)%nat -> body r1 er ea s = body r2 er ea s.
Proof.
  intros E I Hl. destruct I as (W & HL & Hz & Hi & _). assert (OF := ordered_first _ _ _ _ (proj1 (proj2 W)) ltac:(lia)). destruct OF as [Him _].
  assert (HP := proj1 (proj2 (proj2 W)) _ Him). destruct HP as (P1 & P2 & _). unfold body. rewrite !E by lra. reflexivity.
Qed.
Lemma loop_ext r1 r2 a b L er ea : (forall c d, a <= c <= d -> d <= b -> r1 c d = r2 c d) -> forall fuel s, linv r1 a b L s -> (l_iter s < L)%nat ->
  loop fuel r1 er ea s = loop fuel r2 er ea s.
Proof.
  intros E. induction fuel as [|f IH]; intros s I Hl; [reflexivity|]. cbn [loop]. rewrite <- (body_ext r1 r2 a b L er ea s E I Hl).
  destruct (body_inv r1 a b L er ea s I Hl) as (I' & Hi & _). destruct (continue (body r1 er ea s)) eqn:C; [|reflexivity]. apply IH; [exact I'|].
  unfold continue in C. apply andb_prop in C. destruct C as [C _]. apply Nat.ltb_lt in C. destruct I' as (_ & HL & _). lia.
Qed.
Lemma integrate_ext w f g a b er ea : (2 <= limit w)%nat -> (forall x, Rmin a b <= x <= Rmax a b -> f x = g x) -> integrate w f a b er ea = integrate w g a b er ea.
Proof.
  intros HL H. unfold integrate, integrate_rule. destruct (refuse_spec er ea) as [R|R]; [reflexivity|].
  assert (K : forall lo hi, lo <= hi -> (forall x, lo <= x <= hi -> f x = g x) -> loop (S (limit w)) (gk15 f) er ea (first w (gk15 f) lo hi) = loop (S (limit w)) (gk15 g) er ea (first w (gk15 g) lo hi)).
  { intros lo hi Hlh Q. assert (EE : forall c d, lo <= c <= d -> d <= hi -> gk15 f c d = gk15 g c d) by (intros c d C D; apply gk15_ext; [lra|intros; apply Q; lra]).
    rewrite (loop_ext _ _ lo hi (limit w) er ea EE (S (limit w)) (first w (gk15 f) lo hi) (first_inv _ lo hi w Hlh HL)).
    - unfold first. rewrite EE by lra. reflexivity.
    - unfold first. destruct (gk15 f lo hi). cbn. lia. }
  destruct (rltb_spec b a) as [L|L].
  - rewrite (K b a ltac:(lra)); [reflexivity|]. intros x Hx. apply H. rewrite Rmin_right, Rmax_left by lra. exact Hx.
  - rewrite (K a b ltac:(lra)); [reflexivity|]. intros x Hx. apply H. rewrite Rmin_left, Rmax_right by lra. exact Hx.
Qed.
(* sound estimates give a sound result *)
Lemma lsum_sound (l : list (R * R)) (q e J : R * R -> R) : (forall I, In I l -> Rabs (q I - J I) <= e I) -> Rabs (lsum (map q l) - lsum (map J l)) <= lsum (map e l).
Proof.
  induction l as [|I l IH]; intros H; cbn [map lsum]; [rewrite Rminus_0_r, Rabs_R0; lra|].
  replace (q I + lsum (map q l) - (J I + lsum (map J l))) with ((q I - J I) + (lsum (map q l) - lsum (map J l))) by ring.
  eapply Rle_trans; [apply Rabs_triang|]. apply Rplus_le_compat; [apply H; left; reflexivity|apply IH; intros; apply H; right; assumption].
Qed.
Lemma lsum_ext {A} (f g : A -> R) l : (forall x, In x l -> f x = g x) -> lsum (map f l) = lsum (map g l).
Proof. intros H. f_equal. apply map_ext_in. exact H. Qed.
