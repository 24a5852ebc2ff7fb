(** C209-C210: selections from gridded data by position and by coordinate. *)
From Coq Require Import List Arith ZArith QArith Qabs Bool Lia Lqa Sorted.
From Verif Require Import M_Select S_Select P_Select.
Import ListNotations.
Local Open Scope Z_scope.

(** ** C209 Several conditions on an axis select exactly the elements that all of them name.
    Proved for non-negative positions, masks and slices: the rows where all conditions hold, once each, in the order of the axis; if several conditions have no
    row in common the selection is refused. *)
Theorem C209_intersection_partial : forall {A} (data : list A) cs, cs <> [] -> (forall c, In c cs -> plain (Z.of_nat (length data)) c) ->
  exists ps, StronglySorted Z.lt ps /\ (forall p, In p ps <-> wanted (Z.of_nat (length data)) cs p) /\
  ((length cs = 1%nat \/ ps <> []) -> exists rs, select data cs = Some rs /\ rows_at data ps rs) /\
  ((1 < length cs)%nat -> ps = [] -> select data cs = None).
Proof. intros A data cs. exact (select_spec data cs). Qed.
(** Refuted: an element counted from the end is not recognised as the same element counted from the start. *)
Theorem C209_from_the_end_refuted : forall {A} (data : list A) p, 0 <= p < Z.of_nat (length data) ->
  let cs := [Elements [p]; Elements [p - Z.of_nat (length data)]] in wanted (Z.of_nat (length data)) cs p /\ select data cs = None.
Proof.
  intros A data p H. cbv zeta. split.
  - split; [exact H|]. intros c [<-|[<-|[]]]; cbn; [exists p|exists (p - Z.of_nat (length data))]; unfold names; auto.
  - unfold select, axis_key. cbn [expand_all expand hd filter forallb]. 
    assert (memz p [p - Z.of_nat (length data)] = false) as ->. { cbn. rewrite orb_false_r. apply Z.eqb_neq. lia. }
    rewrite andb_false_r. reflexivity.
Qed.
(** Refuted: the elements come out in the order of the axis, not in the order in which they are listed; one from the end comes first. *)
Theorem C209_order_refuted : forall {A} (data : list A) x y, nth_error data 0 = Some x -> nth_error data (length data - 1) = Some y ->
  select data [Elements [0; -1]] = Some [y; x] /\ select data [Elements [-1; 0]] = Some [y; x].
Proof.
  intros A data x y X Y. assert (0 < length data)%nat as L by (destruct data; [discriminate|cbn; lia]).
  assert (at_ data (-1) = Some y) as E1.
  { unfold at_. cbn [Z.leb Z.compare andb]. rewrite (proj2 (Z.leb_le _ _)) by lia. cbn [Z.ltb Z.compare andb]. rewrite <- Y. f_equal. lia. }
  assert (at_ data 0 = Some x) as E2 by (unfold at_; rewrite (proj2 (Z.ltb_lt _ _)) by lia; cbn; exact X).
  assert (K : forall l, l = [0; -1] \/ l = [-1; 0] -> axis_key (Z.of_nat (length data)) [Elements l] = Some (Many [-1; 0])) by (intros l [-> | ->]; reflexivity).
  split; unfold select; rewrite K by auto; cbn [map all_some]; rewrite E1, E2; reflexivity.
Qed.
(** Refuted: if the first condition is a single position the other conditions of the axis are ignored. *)
Theorem C209_scalar_refuted : forall {A} (data : list A) i cs r, nth_error data i = Some r ->
  select data (Scalar (Z.of_nat i) :: cs) = Some [r].
Proof.
  intros A data i cs r R. assert (i < length data)%nat by (apply nth_error_Some; congruence). unfold select, axis_key, at_.
  rewrite (proj2 (Z.leb_le 0 _)), (proj2 (Z.ltb_lt _ _)), Nat2Z.id, R by lia. reflexivity.
Qed.

(** ** C210 [nearest] returns the coordinate nearest to the one asked for, and its position.
    Proved for coordinates that do not decrease: the coordinate is a nearest one; the position is the one on the axis if no coordinate is repeated. *)
Theorem C210_nearest_partial : forall coords v, coords <> [] -> rising coords ->
  nearest_to coords v (snd (get_nearest coords v)) /\
  (strictly_rising coords -> nth_error coords (fst (get_nearest coords v)) = Some (snd (get_nearest coords v))).
Proof.
  intros coords v NE R. split; [now apply get_nearest_spec|]. intro S. unfold get_nearest. cbv zeta. cbn [fst snd].
  rewrite unique_id by (auto; intros s x []). apply nth_error_nth'. now apply nearest_spec.
Qed.
(** Refuted: with repeated coordinates (several modes per wavenumber) the position is one among the different coordinates: it is lower than the first position that
    has the coordinate, by the repetitions before it. *)
Theorem C210_repeated_refuted : forall coords v k, rising coords -> (S k < length coords)%nat -> (nth k coords 0 == nth (S k) coords 0)%Q ->
  (nth k coords 0 < snd (get_nearest coords v))%Q -> ~ (nth (fst (get_nearest coords v)) coords 0 == snd (get_nearest coords v))%Q.
Proof. exact repeated. Qed.

(** Concrete cases. *)
Example C209_nonvacuous : select [10; 11; 12; 13; 14] [Slice (Some 1) (Some (-1)); Mask [true; true; false; true; true]] = Some [11; 13]
  /\ (forall c, In c [Slice (Some 1) (Some (-1)); Mask [true; true; false; true; true]] -> plain 5 c)
  /\ select [10; 11; 12; 13; 14] [Elements [0; 1]; Elements [3]] = None /\ select [10; 11; 12] [Elements [2; 1; 2]] = Some [11; 12]
  /\ select [10; 11; 12] [Elements [2]; Elements [-1]] = None /\ select [10; 11; 12] [Scalar 0; Elements [1]] = Some [10].
Proof. repeat split. intros c [<-|[<-|[]]]; cbn; auto. Qed.
Example C210_nonvacuous : get_nearest [1#10; 2#10; 4#10] (31#100) = (2%nat, 4#10) /\ get_nearest [1#10; 2#10; 4#10] (3#10) = (2%nat, 4#10) /\ rising [1#10; 1#10; 2#10; 2#10]
  /\ get_nearest [1#10; 1#10; 2#10; 2#10] (2#10) = (1%nat, 2#10).
Proof. repeat split; cbn; unfold Qle; cbn; lia. Qed.

Print Assumptions C209_intersection_partial.
Print Assumptions C209_from_the_end_refuted.
Print Assumptions C209_order_refuted.
Print Assumptions C209_scalar_refuted.
Print Assumptions C210_nearest_partial.
Print Assumptions C210_repeated_refuted.
