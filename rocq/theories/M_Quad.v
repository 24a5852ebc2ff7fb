(** Model of the adaptive one-dimensional quadrature of the compiled library (_gcl/cpp/Quadrature.cpp, include/Quadrature.inl, Quadrature.h).
    Doubles are reals (so comparisons are exact and sums associative); the C arrays of the workspace are functions of the index with arbitrary
    initial contents; the integrand is a pure function. The n-dimensional Genz-Malik routine is not modelled. *)
From Coq Require Import Reals List Arith Lra.
Import ListNotations.
Local Open Scope R_scope.

Definition set {A} (f : nat -> A) (i : nat) (v : A) : nat -> A := fun j => if Nat.eqb j i then v else f j.
Definition rltb (x y : R) : bool := if Rlt_dec x y then true else false.
Definition rleb (x y : R) : bool := if Rle_dec x y then true else false.

(** Quadrature.cpp:142-170 *)
Definition wg15 : list R := [0.1294849661688697; 0.2797053914892767; 0.3818300505051189; 0.4179591836734694].
Definition wgk15 : list R := [0.02293532201052922; 0.06309209262997855; 0.1047900103222502; 0.1406532597155259; 0.1690047266392679; 0.1903505780647854; 0.2044329400752989; 0.2094821410847278].
Definition xgk15 : list R := [0.9914553711208126; 0.9491079123427585; 0.8648644233597691; 0.7415311855993944; 0.5860872354676911; 0.4058451513773972; 0.2077849550078985; 0].
Definition DBL_EPSILON : R := / 2 ^ 52.
Definition DBL_MIN : R := / 2 ^ 1022.
Fixpoint sum_n (n : nat) (F : nat -> R) : R := match n with O => 0 | S m => sum_n m F + F m end.

(** Quadrature.cpp:173-222 (n = 8, all three output pointers given); returns (result, abserr). fv1, fv2: values at c - half x_j, c + half x_j. *)
Definition gk_err (err0 asc abs_ : R) : R :=
  let e := if andb (if Req_EM_T asc 0 then false else true) (if Req_EM_T err0 0 then false else true)
           then let scale := Rpower (200 * err0 / asc) (3/2) in if rltb scale 1 then asc * scale else asc
           else err0 in
  if rltb (DBL_MIN / (50 * DBL_EPSILON)) abs_ then Rmax e (50 * DBL_EPSILON * abs_) else e.
Definition gauss_kronrod (fc : R) (fv1 fv2 : nat -> R) (half : R) : R * R :=
  let wg j := nth j wg15 0 in let wgk j := nth j wgk15 0 in
  let gauss := fc * wg 3%nat + sum_n 3 (fun j => wg j * (fv1 (2*j+1)%nat + fv2 (2*j+1)%nat)) in
  let kron := fc * wgk 7%nat + sum_n 3 (fun j => wgk (2*j+1)%nat * (fv1 (2*j+1)%nat + fv2 (2*j+1)%nat))
              + sum_n 4 (fun j => wgk (2*j)%nat * (fv1 (2*j)%nat + fv2 (2*j)%nat)) in
  let abs_ := Rabs (fc * wgk 7%nat) + sum_n 3 (fun j => wgk (2*j+1)%nat * (Rabs (fv1 (2*j+1)%nat) + Rabs (fv2 (2*j+1)%nat)))
              + sum_n 4 (fun j => wgk (2*j)%nat * (Rabs (fv1 (2*j)%nat) + Rabs (fv2 (2*j)%nat))) in
  let mean := (1/2) * kron in
  let asc := wgk 7%nat * Rabs (fc - mean) + sum_n 7 (fun j => wgk j * (Rabs (fv1 j - mean) + Rabs (fv2 j - mean))) in
  let err0 := Rabs (kron - gauss) * half in
  (kron * half, gk_err err0 (asc * Rabs half) (abs_ * Rabs half)).
(** Quadrature.inl:56-76 *)
Definition gk15 (f : R -> R) (a b : R) : R * R :=
  let c := (1/2) * (a + b) in let half := (1/2) * (b - a) in
  let x j := half * nth j xgk15 0 in
  gauss_kronrod (f c) (fun j => f (c - x j)) (fun j => f (c + x j)) half.

(** Quadrature.inl:16-26, Quadrature.cpp:18-26 *)
Record ws := { limit : nat; size : nat; al : nat -> R; bl : nat -> R; rl : nat -> R; el : nat -> R; order : nat -> nat }.

(** Quadrature.cpp:96-102: insert errmax going down; returns (j, order) *)
Fixpoint ins_top (n : nat) (j : nat) (errmax : R) (e : nat -> R) (o : nat -> nat) : nat * (nat -> nat) :=
  match n with O => (j, o) | S m => if rltb errmax (e (o j)) then ins_top m (S j) errmax e (set o (j - 1) (o j)) else (j, o) end.
(** Quadrature.cpp:104-111: insert errmin going up; p = k + 1 is the slot to fill, the loop runs while p >= j; returns (p, order) *)
Fixpoint ins_bot (n : nat) (p : nat) (errmin : R) (e : nat -> R) (o : nat -> nat) : nat * (nat -> nat) :=
  match n with O => (p, o) | S m => if rleb (e (o (p - 1)%nat)) errmin then ins_bot m (p - 1) errmin e (set o p (o (p - 1)%nat)) else (p, o) end.
(** Quadrature.cpp:78-112 *)
Definition sort_order (lim sz : nat) (e : nat -> R) (o : nat -> nat) : nat -> nat :=
  let last := (sz - 1)%nat in
  if Nat.ltb last 2 then set (set o 0 0%nat) 1 1%nat else
  let i_max := o 0%nat in
  let top := if Nat.ltb last (lim / 2 + 2) then last else (lim - last + 1)%nat in
  let '(j, o1) := ins_top (top - 1) 1 (e i_max) e o in
  let o2 := set o1 (j - 1) i_max in
  let '(p, o3) := ins_bot (top + 1 - j) top (e last) e o2 in
  set o3 p last.
(** Quadrature.cpp:44-76 *)
Definition update (w : ws) (a1 b1 area1 error1 a2 b2 area2 error2 : R) : ws :=
  let im := order w 0%nat in let inew := size w in
  let '(al', bl', rl', el') :=
    if rltb error1 error2 then (set (set (al w) im a2) inew a1, set (bl w) inew b1, set (set (rl w) im area2) inew area1, set (set (el w) im error2) inew error1)
    else (set (al w) inew a2, set (set (bl w) im b1) inew b2, set (set (rl w) im area1) inew area2, set (set (el w) im error1) inew error2) in
  {| limit := limit w; size := S (size w); al := al'; bl := bl'; rl := rl'; el := el'; order := sort_order (limit w) (S (size w)) el' (order w) |}.
(** Quadrature.inl:103-109 *)
Definition ws_init (w : ws) (a b r e : R) : ws :=
  {| limit := limit w; size := 1; al := set (al w) 0 a; bl := set (bl w) 0 b; rl := set (rl w) 0 r; el := set (el w) 0 e; order := set (order w) 0 0%nat |}.

(** Quadrature.inl:111-161: state of the loop; the loop body and the loop (fuel bounds the number of rounds, None: not enough). *)
Record lst := { l_ws : ws; l_area : R; l_errsum : R; l_iter : nat; l_code : nat; l_tol : R; l_neval : nat }.
Definition body (rule : R -> R -> R * R) (epsrel epsabs : R) (s : lst) : lst :=
  let w := l_ws s in let im := order w 0%nat in
  let a_i := al w im in let b_i := bl w im in
  let m := (1/2) * (a_i + b_i) in
  let '(area1, error1) := rule a_i m in
  let '(area2, error2) := rule m b_i in
  let errsum := l_errsum s + (error1 + error2 - el w im) in
  let area := l_area s + (area1 + area2 - rl w im) in
  let tol := Rmax epsabs (epsrel * Rabs area) in
  let code := if rltb tol errsum then
      let tmp := (1 + 100 * DBL_EPSILON) * (Rabs m + 1000 * DBL_MIN) in
      let c := if andb (rleb (Rabs a_i) tmp) (rleb (Rabs b_i) tmp) then 3%nat else l_code s in
      if Nat.eqb (l_iter s) (limit w) then 4%nat else c
    else l_code s in
  {| l_ws := update w a_i m area1 error1 m b_i area2 error2; l_area := area; l_errsum := errsum; l_iter := S (l_iter s);
     l_code := code; l_tol := tol; l_neval := (l_neval s + 30)%nat |}.
Definition continue (s : lst) : bool := andb (Nat.ltb (l_iter s) (limit (l_ws s))) (andb (Nat.eqb (l_code s) 0) (rltb (l_tol s) (l_errsum s))).
Fixpoint loop (fuel : nat) (rule : R -> R -> R * R) (epsrel epsabs : R) (s : lst) : option lst :=
  match fuel with O => None | S m => let s' := body rule epsrel epsabs s in if continue s' then loop m rule epsrel epsabs s' else Some s' end.

(** What a call returns: value, *pabserr and *pneval (None: left untouched), the warnings printed (Quadrature.cpp:122-140; 0 prints nothing). *)
Record answer := { q_val : R; q_err : option R; q_neval : option nat; q_warn : list nat }.
Definition report (c : nat) : list nat := match c with O => [] | S _ => [c] end.
(** Quadrature.inl:78-173 *)
Definition first (w : ws) (rule : R -> R -> R * R) (a b : R) : lst :=
  let '(r, e) := rule a b in
  {| l_ws := ws_init w a b r e; l_area := r; l_errsum := e; l_iter := 1; l_code := 0; l_tol := 0; l_neval := 15 |}.
Definition integrate_rule (w : ws) (rule : R -> R -> R * R) (a b epsrel epsabs : R) : option answer :=
  if andb (rleb epsabs 0) (orb (rltb epsrel (50 * DBL_EPSILON)) (rltb epsrel (5 / 10 ^ 29))) then Some {| q_val := 0; q_err := None; q_neval := None; q_warn := [1%nat] |} else
  let '(lo, hi, sign) := if rltb b a then (b, a, -1) else (a, b, 1) in
  match loop (S (limit w)) rule epsrel epsabs (first w rule lo hi) with
  | None => None
  | Some s =>
    let w' := l_ws s in
    let result := sum_n (size w') (rl w') in let abserr := sum_n (size w') (el w') in
    Some {| q_val := sign * result; q_err := Some abserr; q_neval := Some (l_neval s); q_warn := if rltb (l_tol s) abserr then report (l_code s) else [] |}
  end.
Definition integrate (w : ws) (f : R -> R) := integrate_rule w (gk15 f).

(** Quadrature.h:47-63, Quadrature.inl:236-254: integration with a substitution (the workspace comes from the manager). *)
Inductive sub := NoSub | ExpSub | InverseSub.
Definition sub_x (s : sub) (u : R) : R := match s with NoSub => u | ExpSub => exp u | InverseSub => 1 / u end.
Definition sub_u (s : sub) (x : R) : R := match s with NoSub => x | ExpSub => ln x | InverseSub => 1 / x end.
Definition sub_dx (s : sub) (u : R) : R := match s with NoSub => 1 | ExpSub => exp u | InverseSub => -1 / (u * u) end.
Definition integrate_sub (w : ws) (s : sub) (f : R -> R) (a b epsrel epsabs : R) : option answer :=
  integrate w (fun u => f (sub_x s u) * sub_dx s u) (sub_u s a) (sub_u s b) epsrel epsabs.
