(** Tabulated integrals and grids of the compiled library *)
From Coq Require Import Reals ZArith List Arith Lra Lia.
From Coquelicot Require Import Coquelicot.
From Verif Require Import M_Disc M_Transfer M_Poles S_Poles S_Spline S_Disc P_Simps P_Disc P_Disc2 P_Disc3.
Import ListNotations.
Local Open Scope R_scope.

(** C123: with at least three points SimpsIntegrate reads only its tables, no size check fails; an odd number of points integrates parabolas
    exactly, an even number straight lines; the result is linear in the ordinates. *)
Theorem C123_safe : forall x y, length x = length y -> (3 <= length y)%nat -> c_simps x y <> None.
Proof. intros x y H1 H2. rewrite c_simps_ok by assumption. discriminate. Qed.
Theorem C123_parabola : forall a b c xs, increasing xs -> (3 <= length xs)%nat -> Nat.odd (length xs) = true ->
  c_simps xs (map (fun x => a + b * x + c * x ^ 2) xs) = Some (RInt (fun x => a + b * x + c * x ^ 2) (first_x xs) (last_x xs)).
Proof. exact simps_odd_exact. Qed.
Theorem C123_line : forall a b xs, increasing xs -> (3 <= length xs)%nat ->
  c_simps xs (map (fun x => a + b * x) xs) = Some (RInt (fun x => a + b * x) (first_x xs) (last_x xs)).
Proof.
  intros a b xs I L. destruct (Nat.even (length xs)) eqn:E.
  - apply simps_even_exact; auto. destruct (length xs) as [|[|[|[|n]]]]; try lia. discriminate E.
  - assert (O : Nat.odd (length xs) = true) by (rewrite <- Nat.negb_even, E; reflexivity).
    assert (K := simps_odd_exact a b 0 xs I L O). replace (map (fun x => a + b * x) xs) with (map (fun x => a + b * x + 0 * x ^ 2) xs) by (apply map_ext; intros; ring).
    rewrite K. refine (f_equal (@Some R) _). apply RInt_ext. intros. match goal with |- ?a = ?b => change (@eq R a b) end. ring.
Qed.
Theorem C123_linear : forall a b x y z, length x = length y -> length y = length z -> (3 <= length y)%nat ->
  exists u v, c_simps x y = Some u /\ c_simps x z = Some v /\ c_simps x (lin_comb a b y z) = Some (a * u + b * v).
Proof. exact simps_lin. Qed.
(** it is the rule the multipole code uses (the same formulas as scipy.integrate.simps) *)
Theorem C123_agrees_with_scipy_rule : forall x y, length x = length y -> (3 <= length y)%nat -> c_simps x y = Some (simps (combine x y)).
Proof. exact c_simps_ok. Qed.
Example C123_nonvacuous : c_simps [0; 1; 3] (map (fun x => 1 + 2 * x + 3 * x ^ 2) [0; 1; 3]) = Some 39 /\ c_simps [0; 1; 3; 4] (map (fun x => 1 + 2 * x) [0; 1; 3; 4]) = Some 20.
Proof. split; rewrite c_simps_ok by (cbn; lia); cbn; unfold seg, trap; cbn [fst snd]; f_equal; field. Qed.

(** C124 (refuted): tables of one or two points abort instead of giving an integral, and so does the trapezoidal rule without points. *)
Theorem C124_simps_short_refuted : (forall x0 y0, c_simps [x0] [y0] = None) /\ (forall x0 x1 y0 y1, c_simps [x0; x1] [y0; y1] = None) /\ c_trapz [] [] = None.
Proof. repeat split. Qed.
Theorem C124_trapz_short_partial : forall x0 x1 y0 y1, c_trapz [x0] [y0] = Some 0 /\ c_trapz [x0; x1] [y0; y1] = Some ((x1 - x0) * (1/2) * (y1 + y0)).
Proof. intros. split; [reflexivity|]. rewrite c_trapz_ok by (reflexivity || discriminate). unfold tab. cbn [length Nat.sub seq map total nth]. f_equal. ring. Qed.

(** C125: TrapzIntegrate is the integral of the polygon through the points, linear in the ordinates, with the usual error bound. *)
Theorem C125_polygon : forall xs g, increasing xs -> (forall i, (S i < length xs)%nat -> straight_on (nth i xs 0) (nth (S i) xs 0) g) -> xs <> [] ->
  c_trapz xs (map g xs) = Some (RInt g (first_x xs) (last_x xs)).
Proof. exact trapz_is_RInt. Qed.
Theorem C125_linear : forall a b x y z, length x = length y -> length y = length z -> y <> [] ->
  exists u v, c_trapz x y = Some u /\ c_trapz x z = Some v /\ c_trapz x (lin_comb a b y z) = Some (a * u + b * v).
Proof. exact trapz_lin. Qed.
(** spacing at most h: error at most M h^2 (b - a) / 12 *)
Theorem C125_error : forall xs f M h, increasing xs -> xs <> [] -> smooth2 (first_x xs) (last_x xs) f M -> (forall i, (S i < length xs)%nat -> nth (S i) xs 0 - nth i xs 0 <= h) ->
  exists v, c_trapz xs (map f xs) = Some v /\ Rabs (v - RInt f (first_x xs) (last_x xs)) <= M / 12 * h ^ 2 * (last_x xs - first_x xs).
Proof.
  intros xs f M h I Hn S Hh. destruct (trapz_error xs f M I Hn S) as (v & E & B). exists v. split; [exact E|].
  assert (HN : (1 <= length xs)%nat) by (destruct xs; [contradiction|cbn; lia]).
  assert (M0 : 0 <= M). { destruct S as (f1 & f2 & D). assert (A := incr_le xs 0 (length xs - 1) I ltac:(lia) ltac:(lia)). destruct (D (first_x xs)) as (_ & _ & Hb); [unfold first_x, last_x; lra|]. assert (P := Rabs_pos (f2 (first_x xs))). lra. }
  assert (K : forall n, (n < length xs)%nat -> total (tab n (cubes xs)) <= h ^ 2 * (nth n xs 0 - first_x xs)).
  { induction n as [|n IH]; intros L; [unfold first_x; change (total (tab 0 (cubes xs))) with 0; right; ring|]. rewrite total_tab_S. specialize (IH ltac:(lia)). specialize (I n L). specialize (Hh n L). unfold cubes at 2.
    set (d := nth (Datatypes.S n) xs 0 - nth n xs 0) in *. assert (D0 : 0 < d) by (unfold d; lra). assert (d ^ 3 <= h ^ 2 * d). { assert (d * d <= h * h) by nra. replace (d ^ 3) with (d * d * d) by ring. replace (h ^ 2) with (h * h) by ring. apply Rmult_le_compat_r; lra. } replace (nth (Datatypes.S n) xs 0) with (nth n xs 0 + d) by (unfold d; ring). lra. }
  specialize (K (length xs - 1)%nat ltac:(lia)). fold (last_x xs) in K. nra.
Qed.
Example C125_nonvacuous : smooth2 (first_x [0; 1; 2]) (last_x [0; 1; 2]) (fun x => x ^ 2) 2 /\ c_trapz [0; 1; 2] (map (fun x => x ^ 2) [0; 1; 2]) = Some 3.
Proof.
  split.
  - exists (fun x => 2 * x), (fun _ => 2). intros x _. split; [auto_derive; auto; ring|]. split; [auto_derive; auto; ring|rewrite Rabs_pos_eq; lra].
  - rewrite c_trapz_ok by (reflexivity || discriminate). unfold tab. cbn [length Nat.sub seq map total nth]. f_equal. field.
Qed.

(** C126: grids. n >= 2 points, the first and last exactly the limits, strictly increasing, equally spaced (in the logarithm); otherwise the
    constructor aborts. *)
Theorem C126_linspace : forall mn mx n, (2 <= n)%nat ->
  exists l, p_linspace mn mx n = Some l /\ length l = n /\ first_x l = mn /\ last_x l = mx /\ (mn < mx -> increasing l) /\
    forall i, (S i < n)%nat -> nth (S i) l 0 - nth i l 0 = (mx - mn) / INR (n - 1).
Proof.
  intros mn mx n H. exists (tab n (fun i => mn + INR i * ((mx - mn) / INR (n - 1)))). assert (P := INR_pos_pred n H).
  assert (D : forall i, (S i < n)%nat -> nth (S i) (tab n (fun i => mn + INR i * ((mx - mn) / INR (n - 1)))) 0 - nth i (tab n (fun i => mn + INR i * ((mx - mn) / INR (n - 1)))) 0 = (mx - mn) / INR (n - 1)).
  { intros i Hi. rewrite !tab_nth by lia. rewrite S_INR. ring. }
  split; [apply linspace_tab; exact H|]. split; [apply tab_len|]. split; [|split; [|split; [|exact D]]].
  - unfold first_x. rewrite tab_nth by lia. cbn [INR]. ring.
  - unfold last_x. rewrite tab_len, tab_nth by lia. field. lra.
  - intros L i Hi. rewrite tab_len in Hi. specialize (D i Hi). assert (0 < (mx - mn) / INR (n - 1)) by (apply Rdiv_lt_0_compat; lra). lra.
Qed.
Theorem C126_logspace : forall mn mx n, (2 <= n)%nat -> 0 < mn -> 0 < mx ->
  exists l, p_logspace mn mx n = Some l /\ length l = n /\ first_x l = mn /\ last_x l = mx /\ (mn < mx -> increasing l) /\
    forall i, (S i < n)%nat -> 0 < nth i l 0 /\ nth (S i) l 0 = nth i l 0 * exp ((ln mx - ln mn) / INR (n - 1)).
Proof.
  intros mn mx n H Hmn Hmx. exists (tab n (fun i => exp (ln mn + INR i * ((ln mx - ln mn) / INR (n - 1))))). assert (P := INR_pos_pred n H).
  split; [apply logspace_tab; assumption|]. split; [apply tab_len|]. split; [|split; [|split]].
  - unfold first_x. rewrite tab_nth by lia. cbn [INR]. rewrite Rmult_0_l, Rplus_0_r. apply exp_ln. exact Hmn.
  - unfold last_x. rewrite tab_len, tab_nth by lia. replace (ln mn + INR (n - 1) * ((ln mx - ln mn) / INR (n - 1))) with (ln mx) by (field; lra). apply exp_ln. exact Hmx.
  - intros L i Hi. rewrite tab_len in Hi. rewrite !tab_nth by lia. apply exp_increasing. rewrite S_INR.
    assert (ln mn < ln mx) by (apply ln_increasing; assumption). assert (0 < (ln mx - ln mn) / INR (n - 1)) by (apply Rdiv_lt_0_compat; lra). lra.
  - intros i Hi. rewrite !tab_nth by lia. split; [apply exp_pos|]. rewrite <- exp_plus. f_equal. rewrite S_INR. ring.
Qed.
Theorem C126_refused : forall mn mx n, ((n < 2)%nat -> p_linspace mn mx n = None) /\ ((n < 2)%nat \/ mn <= 0 \/ mx <= 0 -> p_logspace mn mx n = None).
Proof.
  intros mn mx n. unfold p_linspace, p_logspace. split; intros H.
  - destruct (Nat.leb_spec 2 n); [lia|reflexivity].
  - destruct (Nat.leb_spec 2 n), (Rlt_dec 0 mn), (Rlt_dec 0 mx); cbn [andb]; try reflexivity. exfalso. destruct H as [H|[H|H]]; [lia|lra|lra].
Qed.
Example C126_nonvacuous : p_linspace 0 4 3 = Some [0; 2; 4].
Proof. rewrite linspace_tab by lia. unfold tab. cbn [seq map Nat.sub INR]. f_equal. f_equal; [field|]. f_equal; [field|]. f_equal. field. Qed.
Print Assumptions C123_parabola. Print Assumptions C123_line. Print Assumptions C123_linear. Print Assumptions C125_polygon. Print Assumptions C125_error. Print Assumptions C126_logspace.
