(** * Proofs about the one-loop spectra and the two-loop integrals *)
From Coq Require Import Reals List ZArith Lra Lia Psatz.
From Coquelicot Require Import Coquelicot.
From Verif Require Import M_Spline S_Spline P_Spline P_SplineV M_Disc P_Disc P_Disc3 M_Kernels S_Kernels S_Kernels2 P_Kernels P_KInt Props_Kernels Props_Kernels2 M_Jmn Props_Jmn Props_Spline Props_Disc M_OneLoop S_OneLoop.
Import ListNotations.
Local Open Scope R_scope.

(** ** a cubic spline is linear in its ordinates, whatever the working memory contained *)
Lemma tri_scal N X Y Z (s : arr) l : (forall i, Z i = l * Y i) -> tri N X Y s -> tri N X Z (fun i => l * s i).
Proof.
  intros HZ (A & B & C).
  assert (Ei : forall i, cint X Z i = l * cint X Y i) by (intro i; unfold cint; rewrite !HZ; unfold Rdiv; ring).
  assert (E0 : cc0 N X Z = l * cc0 N X Y) by (unfold cc0; destruct (Nat.ltb 3 N); rewrite ?Ei; unfold Rdiv; ring).
  assert (El : ccl N X Z = l * ccl N X Y) by (unfold ccl; destruct (Nat.ltb 3 N); rewrite ?Ei; unfold Rdiv; ring).
  assert (Ec : forall i, cc N X Z i = l * cc N X Y i) by (intro i; unfold cc; destruct (Nat.eqb i 0); [exact E0|]; destruct (Nat.eqb i (N - 1)); [exact El|apply Ei]).
  unfold tri. rewrite !Ec. rewrite <- A, <- C. split; [ring|]. split; [|ring]. intros i H1 H2. rewrite Ec, <- (B i H1 H2). ring.
Qed.
Lemma cubic_work_scal N X Y Z w0 w1 l i : (2 <= N)%nat -> (forall i, (S i < N)%nat -> X i < X (S i)) -> (forall i, Z i = l * Y i) -> (i < N - 1)%nat ->
  w_b (cubic_work N X Z w1) i = l * w_b (cubic_work N X Y w0) i /\ w_c (cubic_work N X Z w1) i = l * w_c (cubic_work N X Y w0) i /\ w_d (cubic_work N X Z w1) i = l * w_d (cubic_work N X Y w0) i.
Proof.
  intros HN HI HZ Hi. destruct (Nat.eq_dec N 2) as [->|Hn].
  - assert (i = 0)%nat by lia. subst i. unfold cubic_work. cbn [Nat.eqb]. arr. rewrite !HZ. unfold Rdiv. repeat match goal with |- _ /\ _ => split end; ring.
  - assert (H3 : (3 <= N)%nat) by lia. destruct (cubic_ok N X Y H3 HI w0) as (s & T & C). destruct (cubic_ok N X Z H3 HI w1) as (t & U & D).
    assert (E : forall j, (j < N)%nat -> t j = l * s j) by (apply (tri_unique N X Z H3 HI t (fun j => l * s j) U); apply (tri_scal N X Y); assumption).
    destruct (C i Hi) as (C1 & C2 & C3). destruct (D i Hi) as (D1 & D2 & D3). rewrite C1, C2, C3, D1, D2, D3. rewrite !E by lia. rewrite !HZ.
    unfold Rdiv. repeat match goal with |- _ /\ _ => split end; ring.
Qed.
Lemma at_scal l ys i : at_ (map (Rmult l) ys) i = l * at_ ys i.
Proof. unfold at_. revert i. induction ys as [|y ys IH]; intros [|i]; cbn [map nth]; try ring. apply IH. Qed.
Lemma cubic_scal w0 w1 xs ys l x : (2 <= length xs)%nat -> increasing xs ->
  evaluate (CubicS xs (map (Rmult l) ys) (cubic_work (length xs) (at_ xs) (at_ (map (Rmult l) ys)) w1)) x
  = option_map (Rmult l) (evaluate (CubicS xs ys (cubic_work (length xs) (at_ xs) (at_ ys) w0)) x).
Proof.
  intros H2 HI. unfold evaluate. destruct (outside xs x) eqn:O; [cbn [option_map]; f_equal; ring|].
  assert (G : at_ xs 0%nat <= x <= at_ xs (length xs - 1)%nat). { unfold outside in O. destruct (Rlt_dec _ _); [discriminate O|]. destruct (Rlt_dec _ _); [discriminate O|]. lra. }
  destruct (lookup_some (length xs) (at_ xs) H2 HI x G) as (j & L & Hj & _). rewrite L. cbn [option_map]. rewrite Nat2Z.id. f_equal.
  unfold cub_y. destruct (cubic_work_scal (length xs) (at_ xs) (at_ ys) (at_ (map (Rmult l) ys)) w0 w1 l j H2 HI (at_scal l ys) ltac:(lia)) as (A & B & C).
  cbv zeta. rewrite A, B, C, at_scal. ring.
Qed.
Lemma cubic_w0 w0 w1 xs ys x : (2 <= length xs)%nat -> increasing xs ->
  evaluate (CubicS xs ys (cubic_work (length xs) (at_ xs) (at_ ys) w1)) x = evaluate (CubicS xs ys (cubic_work (length xs) (at_ xs) (at_ ys) w0)) x.
Proof.
  intros H2 HI. pose proof (cubic_scal w0 w1 xs ys 1 x H2 HI) as E.
  replace (map (Rmult 1) ys) with ys in E by (rewrite (map_ext _ (fun y => y)) by (intro; ring); symmetry; apply map_id).
  rewrite E. match goal with |- option_map _ ?e = _ => destruct e end; cbn [option_map]; [rewrite Rmult_1_l|]; reflexivity.
Qed.

(** ** the grid *)
Lemma grid : exists ks, k_spline = Some ks /\ length ks = NUM_PTS /\ first_x ks = KMIN /\ last_x ks = KMAX /\ increasing ks /\ (forall i, (i < NUM_PTS)%nat -> 0 < nth i ks 0).
Proof.
  assert (H2 : (2 <= NUM_PTS)%nat) by (apply Nat.leb_le; reflexivity). assert (HK : 0 < KMIN) by (unfold KMIN; lra). assert (HM : 0 < KMAX) by (unfold KMAX; lra).
  destruct (C126_logspace KMIN KMAX NUM_PTS H2 HK HM) as (ks & E & L & F & T & I & P). specialize (I ltac:(unfold KMIN, KMAX; lra)).
  exists ks. do 5 (split; [assumption|]). intros i Hi. assert (B := bounds ks ltac:(lia) I i ltac:(lia)). unfold at_ in B. lra.
Qed.
Opaque NUM_PTS.
(** ** the tables *)
Lemma entry_some K P k : exists v, entry K P k = Some v.
Proof. destruct K; unfold entry, I_eval, J_eval; cbn [ob Z.mul Z.add Pos.mul Pos.add Pos.succ]; eexists; reflexivity. Qed.
Lemma entries_some K P ks : exists l, entries K P ks = Some l /\ length l = length ks /\ forall i, (i < length ks)%nat -> entry K P (nth i ks 0) = Some (nth i l 0).
Proof.
  induction ks as [|k ks (l & E & L & H)]; [exists []; repeat split; cbn [length]; intros; lia|]. destruct (entry_some K P k) as [v Ev].
  exists (v :: l). cbn [entries]. rewrite Ev, E. cbn [ob]. split; [reflexivity|]. split; [cbn [length]; lia|]. intros [|i] Hi; cbn [nth length] in *; [exact Ev|apply H; lia].
Qed.
Lemma entry_scal K P k l : entry K (fun q => l * P q) k = option_map (Rmult (l ^ 2)) (entry K P k).
Proof.
  destruct K; unfold entry; rewrite ?I_eval_scal; try rewrite C162_integrals_are_linear_in_the_spectrum;
   unfold I_eval, J_eval; cbn [ob option_map Z.mul Z.add Pos.mul Pos.add Pos.succ]; f_equal; ring.
Qed.
Lemma entries_scal K P l ks : entries K (fun q => l * P q) ks = option_map (map (Rmult (l ^ 2))) (entries K P ks).
Proof.
  induction ks as [|k ks IH]; [reflexivity|]. cbn [entries]. rewrite entry_scal, IH. destruct (entry K P k); cbn [ob option_map]; [|reflexivity].
  destruct (entries K P ks); cbn [ob option_map]; reflexivity.
Qed.
Lemma with_power_ok w0 K P eps power : (NUM_PTS <= length power)%nat -> exists ks o, k_spline = Some ks /\ with_power w0 K P eps power = Some o /\
  ol_kind o = Some K /\ ol_lin o = P /\ ol_eps o = eps /\ ol_power o = power /\ ol_spline o = CubicS ks power (cubic_work (length ks) (at_ ks) (at_ power) w0).
Proof.
  intro H. destruct grid as (ks & E & L & F & T & I & _). exists ks. unfold with_power. rewrite E. cbn [ob]. rewrite (cubic_some w0 ks power ltac:(rewrite L; apply Nat.leb_le; reflexivity) ltac:(lia)).
  cbn [ob]. eexists. do 2 (split; [reflexivity|]). do 4 (split; [reflexivity|]). reflexivity.
Qed.
Lemma make_ok w0 K P eps : exists ks l o, k_spline = Some ks /\ entries K P ks = Some l /\ length l = length ks /\ make w0 K P eps = Some o /\ with_power w0 K P eps l = Some o /\
  ol_kind o = Some K /\ ol_lin o = P /\ ol_eps o = eps /\ ol_power o = l /\ ol_spline o = CubicS ks l (cubic_work (length ks) (at_ ks) (at_ l) w0).
Proof.
  destruct grid as (ks & E & L & F & T & I & _). destruct (entries_some K P ks) as (l & El & Ll & Hl).
  destruct (with_power_ok w0 K P eps l ltac:(lia)) as (ks' & o & E' & W & R). rewrite E in E'. injection E' as <-.
  exists ks, l, o. do 3 (split; [assumption|]). split; [unfold make; rewrite E; cbn [ob]; rewrite El; cbn [ob]; exact W|]. split; [exact W|exact R].
Qed.
Lemma two_pts : (2 <= NUM_PTS)%nat. Proof. apply Nat.leb_le; reflexivity. Qed.
Lemma with_power_eval w0 w1 K K' P P' e e' l power x o o' : (NUM_PTS <= length power)%nat ->
  with_power w0 K P e power = Some o -> with_power w1 K' P' e' (map (Rmult l) power) = Some o' -> ol_evaluate o' x = option_map (Rmult l) (ol_evaluate o x).
Proof.
  intros H Ho Ho'. destruct (with_power_ok w0 K P e power H) as (ks & a & E & A & _ & _ & _ & _ & S). rewrite Ho in A. injection A as <-.
  destruct (with_power_ok w1 K' P' e' (map (Rmult l) power) ltac:(rewrite map_length; exact H)) as (ks' & a & E' & A & _ & _ & _ & _ & S'). rewrite Ho' in A. injection A as <-.
  rewrite E in E'. injection E' as <-. destruct grid as (ks' & E' & L & F & T & I & _). rewrite E in E'. injection E' as <-.
  unfold ol_evaluate. rewrite S, S'. destruct (Rlt_dec x KMIN); [cbn [option_map]; f_equal; ring|]. destruct (Rlt_dec KMAX x); [cbn [option_map]; f_equal; ring|].
  apply cubic_scal; [rewrite L; apply two_pts|exact I].
Qed.
Lemma make_total w0 K P eps o x : make w0 K P eps = Some o -> exists v, ol_evaluate o x = Some v.
Proof.
  intro H. destruct (make_ok w0 K P eps) as (ks & l & o' & E & El & Ll & M & _ & _ & _ & _ & _ & S). rewrite H in M. injection M as <-.
  destruct grid as (ks' & E' & L & F & T & I & _). rewrite E in E'. injection E' as <-.
  unfold ol_evaluate. destruct (Rlt_dec x KMIN); [eauto|]. destruct (Rlt_dec KMAX x); [eauto|]. rewrite S.
  destruct (cubic_total w0 ks l ltac:(rewrite L; apply two_pts) I x) as (v & _ & V & _). eauto.
Qed.
Lemma make_scal w0 w1 K P l eps eps' o o' x : make w0 K P eps = Some o -> make w1 K (fun q => l * P q) eps' = Some o' ->
  ol_evaluate o' x = option_map (Rmult (l ^ 2)) (ol_evaluate o x).
Proof.
  intros H H'. destruct (make_ok w0 K P eps) as (ks & t & a & E & El & Ll & M & W & _). rewrite H in M. injection M as <-.
  destruct (make_ok w1 K (fun q => l * P q) eps') as (ks' & t' & a & E' & El' & Ll' & M & W' & _). rewrite H' in M. injection M as <-.
  rewrite E in E'. injection E' as <-. rewrite entries_scal, El in El'. cbn [option_map] in El'. injection El' as <-.
  destruct grid as (ks' & E' & L & _). rewrite E in E'. injection E' as <-. eapply with_power_eval; [|exact W|exact W']. lia.
Qed.
Lemma fn_scal w0 w1 K P l eps eps' o o' x : make w0 K P eps = Some o -> make w1 K (fun q => l * P q) eps' = Some o' -> fn o' x = l ^ 2 * fn o x.
Proof.
  intros H H'. unfold fn. rewrite (make_scal w0 w1 K P l eps eps' o o' x H H'). destruct (make_total w0 K P eps o x H) as [v ->]. reflexivity.
Qed.

(** ** the two-loop integrals *)
Lemma il_ext f P1 P2 Q1 Q2 a k : (forall q r, P1 q * P2 r = a * (Q1 q * Q2 r)) -> il_integral f P1 P2 k = a * il_integral f Q1 Q2 k.
Proof.
  intro H. unfold il_integral. destruct (Rle_dec k 0); [ring|]. cbv zeta. rewrite (Integrate2_ext _ (fun x y => a * il_integrand f Q1 Q2 k x y)).
  - rewrite Integrate2_scal. ring.
  - intros x y _ _. unfold il_integrand. cbv zeta. match goal with |- ?u * ?q * ?r * ?p1 * ?p2 * ?g = _ => replace (u * q * r * p1 * p2 * g) with (u * q * r * (p1 * p2) * g) by ring end.
    rewrite H. ring.
Qed.
Lemma il_bip f P1 P2 k : 0 < k -> il_integral f P1 P2 k = bipolar2 (fun q r k => f ((q + r) / k) ((r - q) / k)) P1 P2 k.
Proof.
  intro Hk. unfold il_integral, bipolar2. destruct (Rle_dec k 0); [lra|]. cbv zeta. unfold Integrate2. rewrite ln_1. replace (8 * PI * PI) with (8 * PI ^ 2) by ring. f_equal.
  apply RInt_ext. intros x _. apply RInt_ext. intros v _. unfold il_integrand, both. cbv zeta. f_equal. f_equal; field; lra.
Qed.
Lemma umax20 k : 0 < k <= 20 -> 0 <= ln (2 * 10 / k).
Proof. intro Hk. rewrite <- ln_1. apply Rcomplements.ln_le; [lra|]. apply Rle_div_r; lra. Qed.
Lemma both_ext f g P1 P2 k x v : 0 < k <= 20 -> 0 < x < ln (2 * 10 / k) -> -1 < v < 1 ->
  (forall q r, 0 < q -> 0 < r -> k < q + r -> r - q < k -> q - r < k -> f q r k = g q r k) -> both f P1 P2 k x v = both g P1 P2 k x v.
Proof.
  intros Hk Hx Hv H. assert (1 < exp x) by (rewrite <- exp_0; apply exp_increasing; lra). unfold both. cbv zeta. f_equal. apply H; try (apply Rmult_lt_0_compat; lra); nra.
Qed.
Lemma bipolar2_ext f g P1 P2 k : 0 < k <= 20 -> (forall q r, 0 < q -> 0 < r -> k < q + r -> r - q < k -> q - r < k -> f q r k = g q r k) -> bipolar2 f P1 P2 k = bipolar2 g P1 P2 k.
Proof.
  intros Hk H. unfold bipolar2. f_equal. apply RInt_ext. intros x Hx. rewrite Rmin_left, Rmax_right in Hx by (apply umax20; exact Hk).
  apply RInt_ext. intros v Hv. rewrite Rmin_left, Rmax_right in Hv by lra. apply both_ext; assumption.
Qed.
Lemma bipolar2_ex_ext f g P1 P2 k : 0 < k <= 20 -> (forall q r, 0 < q -> 0 < r -> k < q + r -> r - q < k -> q - r < k -> f q r k = g q r k) -> bipolar2_exists f P1 P2 k -> bipolar2_exists g P1 P2 k.
Proof.
  intros Hk H [A B]. split.
  - intros x Hx. eapply ex_RInt_ext; [|exact (A x Hx)]. intros v Hv. rewrite Rmin_left, Rmax_right in Hv by lra. apply both_ext; assumption.
  - eapply ex_RInt_ext; [|exact B]. intros x Hx. rewrite Rmin_left, Rmax_right in Hx by (apply umax20; exact Hk).
    apply RInt_ext. intros v Hv. rewrite Rmin_left, Rmax_right in Hv by lra. apply both_ext; assumption.
Qed.
Lemma bipolar2_sum f P1 P2 Q1 Q2 S1 S2 k : 0 < k <= 20 -> (forall q r, S1 q * S2 r = P1 q * P2 r + Q1 q * Q2 r) -> bipolar2_exists f P1 P2 k -> bipolar2_exists f Q1 Q2 k ->
  bipolar2_exists f S1 S2 k /\ bipolar2 f S1 S2 k = bipolar2 f P1 P2 k + bipolar2 f Q1 Q2 k.
Proof.
  intros Hk HS [A1 A2] [B1 B2]. pose proof (umax20 k Hk) as Hu.
  assert (E : forall x v, Hierarchy.plus (both f P1 P2 k x v) (both f Q1 Q2 k x v) = both f S1 S2 k x v).
  { intros x v. unfold Hierarchy.plus; simpl. unfold both. cbv zeta.
    match goal with |- _ = ?u * ?q * ?r * ?p1 * ?p2 * ?g => replace (u * q * r * p1 * p2 * g) with (u * q * r * (p1 * p2) * g) by ring end. rewrite HS. ring. }
  assert (C1 : forall x, 0 < x < ln (2 * 10 / k) -> ex_RInt (both f S1 S2 k x) (-1) 1).
  { intros x Hx. eapply ex_RInt_ext; [intros v _; apply E|]. apply (@ex_RInt_plus R_NormedModule (both f P1 P2 k x) (both f Q1 Q2 k x)); [apply A1|apply B1]; exact Hx. }
  assert (D : forall x, 0 < x < ln (2 * 10 / k) -> Hierarchy.plus (RInt (both f P1 P2 k x) (-1) 1) (RInt (both f Q1 Q2 k x) (-1) 1) = RInt (both f S1 S2 k x) (-1) 1).
  { intros x Hx. rewrite <- (RInt_ext _ _ (-1) 1 (fun v _ => E x v)). symmetry. apply (@RInt_plus R_CompleteNormedModule (both f P1 P2 k x) (both f Q1 Q2 k x)); [apply A1|apply B1]; exact Hx. }
  split; [split; [exact C1|]|].
  - eapply ex_RInt_ext; [intros x Hx; rewrite Rmin_left, Rmax_right in Hx by exact Hu; apply D; exact Hx|]. exact (@ex_RInt_plus R_NormedModule _ _ _ _ A2 B2).
  - assert (F : RInt (fun x => RInt (both f S1 S2 k x) (-1) 1) 0 (ln (2 * 10 / k)) = RInt (fun x => RInt (both f P1 P2 k x) (-1) 1) 0 (ln (2 * 10 / k)) + RInt (fun x => RInt (both f Q1 Q2 k x) (-1) 1) 0 (ln (2 * 10 / k))).
    { etransitivity; [|exact (@RInt_plus R_CompleteNormedModule _ _ _ _ A2 B2)]. apply RInt_ext. intros x Hx; rewrite Rmin_left, Rmax_right in Hx by exact Hu. symmetry. apply D; exact Hx. }
    unfold bipolar2. rewrite F. ring.
Qed.
(** exchanging the two wavevectors *)
Lemma is_RInt_reflect (g : R -> R) c I : is_RInt g (- c) c I -> is_RInt (fun v => g (- v)) (- c) c I.
Proof.
  intro H. assert (Y := is_RInt_comp_opp g (- c) c (opp I)). rewrite Ropp_involutive in Y. specialize (Y (is_RInt_swap _ _ _ _ H)).
  apply is_RInt_opp in Y. rewrite opp_opp in Y. apply (is_RInt_ext _ (fun v => g (- v))) in Y; [exact Y|]. intros v _. apply opp_opp.
Qed.
Lemma RInt_reflect (g : R -> R) c : RInt (fun v => g (- v)) (- c) c = RInt g (- c) c.
Proof.
  assert (Hd : ex_RInt g (- c) c \/ ~ ex_RInt g (- c) c) by apply Classical_Prop.classic. destruct Hd as [[I HI]|Hn].
  - rewrite (is_RInt_unique _ _ _ _ HI). apply is_RInt_unique. apply is_RInt_reflect, HI.
  - rewrite (RInt_nonex g) by exact Hn. apply RInt_nonex. intros [I HI]. apply Hn. exists I. apply is_RInt_reflect in HI.
    eapply is_RInt_ext; [|exact HI]. intros v _. cbv beta. rewrite Ropp_involutive. reflexivity.
Qed.
Lemma bipolar2_swap f P1 P2 k : (forall q r, f q r k = f r q k) -> bipolar2 f P1 P2 k = bipolar2 f P2 P1 k.
Proof.
  intro Hf. unfold bipolar2. f_equal. apply RInt_ext. intros x _. replace (-1) with (- (1)) by ring.
  rewrite <- (RInt_reflect (both f P2 P1 k x) 1). apply RInt_ext. intros v _.
  unfold both. cbv zeta. replace (exp x - - v) with (exp x + v) by ring. replace (exp x + - v) with (exp x - v) by ring. rewrite Hf.
  match goal with |- @eq _ ?a ?b => change (@eq R a b) end. ring.
Qed.
