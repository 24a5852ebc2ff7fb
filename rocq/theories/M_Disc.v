(** Model of the integration of tabulated functions in the compiled library (_gcl/cpp/DiscreteQuad.cpp, the parts of _gcl/cpp/parray.cpp it uses)
    and of the power-law grids (parray.cpp:98-125). Doubles are reals. None: an assertion fails or memory outside an array is touched. *)
From Coq Require Import Reals ZArith List Lra.
Import ListNotations.
Local Open Scope R_scope.

(** parray.h:79-80: flat access, negative indices count from the end *)
Definition pget (v : list R) (i : Z) : option R :=
  let n := Z.of_nat (length v) in let j := if (i <? 0)%Z then (i + n)%Z else i in
  if andb (0 <=? j)%Z (j <? n)%Z then Some (nth (Z.to_nat j) v 0) else None.
Fixpoint all_some {A} (l : list (option A)) : option (list A) :=
  match l with [] => Some [] | o :: t => match o, all_some t with Some a, Some r => Some (a :: r) | _, _ => None end end.
(** parray.cpp:148-180 (C++ division truncates toward 0; a negative length is a failed allocation) *)
Definition slice (v : list R) (start stop step : Z) : option (list R) :=
  let n := Z.of_nat (length v) in
  if (n =? 0)%Z then Some [] else
  let start := if (start <? 0)%Z then (start + n)%Z else start in
  let stop := if (stop <? 0)%Z then (stop + n)%Z else stop in
  let stop := if (n <? stop)%Z then n else stop in
  let len := (1 + Z.quot (stop - start - 1) step)%Z in
  if (len <? 0)%Z then None else
  all_some (map (fun i => pget v (start + step * Z.of_nat i)) (seq 0 (Z.to_nat len))).
(** parray.cpp:228-330: element-wise arithmetic asserts equal sizes *)
Definition zip (f : R -> R -> R) (u v : option (list R)) : option (list R) :=
  match u, v with Some a, Some b => if Nat.eqb (length a) (length b) then Some (map (fun p => f (fst p) (snd p)) (combine a b)) else None | _, _ => None end.
Definition mapo (f : R -> R) (u : option (list R)) : option (list R) := option_map (map f) u.
Fixpoint total (l : list R) : R := match l with [] => 0 | x :: t => x + total t end.
(** DiscreteQuad.cpp:3-28 *)
Definition c_basic_simps (y : list R) (start stop : Z) (x : list R) : option R :=
  let N := Z.of_nat (length y) in
  let y0 := slice y start stop 2 in let y1 := slice y (start + 1) (stop + 1) 2 in let y2 := slice y (start + 2) (stop + 2) 2 in
  let h := zip Rminus (slice x 1 N 1) (slice x 0 (-1) 1) in
  let sl a b := match h with Some l => slice l a b 2 | None => None end in
  let h0 := sl start stop in let h1 := sl (start + 1)%Z (stop + 1)%Z in
  let hsum := zip Rplus h0 h1 in let hprod := zip Rmult h0 h1 in let h0divh1 := zip Rdiv h0 h1 in
  let result := zip Rmult (mapo (Rmult (1/6)) hsum)
    (zip Rplus (zip Rplus (zip Rmult y0 (mapo (Rminus 2) (mapo (Rdiv 1) h0divh1))) (zip Rdiv (zip Rmult (zip Rmult y1 hsum) hsum) hprod)) (zip Rmult y2 (mapo (Rminus 2) h0divh1))) in
  option_map total result.
Definition obind {A B} (o : option A) (f : A -> option B) : option B := match o with Some a => f a | None => None end.
(** DiscreteQuad.cpp:40-66 *)
Definition c_simps (x y : list R) : option R :=
  let N := Z.of_nat (length y) in
  if (Z.rem N 2 =? 0)%Z then
    obind (pget x (-1)) (fun xl => obind (pget x (-2)) (fun xl2 => obind (pget y (-1)) (fun yl => obind (pget y (-2)) (fun yl2 =>
    obind (c_basic_simps y 0 (N - 3) x) (fun s1 =>
    obind (pget x 1) (fun x1 => obind (pget x 0) (fun x0 => obind (pget y 1) (fun y1 => obind (pget y 0) (fun y0 =>
    obind (c_basic_simps y 1 (N - 2) x) (fun s2 =>
    Some (1/2 * (s1 + s2) + 1/2 * (1/2 * (xl - xl2) * (yl + yl2) + 1/2 * (x1 - x0) * (y1 + y0)))))))))))))
  else c_basic_simps y 0 (N - 2) x.
(** DiscreteQuad.cpp:30-38. For an empty y the unsigned y.size()-1 wraps around and the loop runs out of the array. *)
Definition c_trapz (x y : list R) : option R :=
  match length y with
  | O => None
  | S n => option_map total (all_some (map (fun i =>
      obind (pget x (Z.of_nat (S i))) (fun a => obind (pget x (Z.of_nat i)) (fun b => obind (pget y (Z.of_nat (S i))) (fun c => obind (pget y (Z.of_nat i)) (fun d =>
      Some ((a - b) * (1/2) * (c + d))))))) (seq 0 n)))
  end.
(** parray.cpp:98-125: n0 points from min to max, equally spaced or equally spaced in the logarithm; the two end points are overwritten *)
Definition ends (mn mx : R) (l : list R) : list R :=
  map (fun i => if Nat.eqb i (length l - 1) then mx else if Nat.eqb i 0 then mn else nth i l 0) (seq 0 (length l)).
Definition p_linspace (mn mx : R) (n : nat) : option (list R) :=
  if Nat.leb 2 n then Some (ends mn mx (map (fun i => mn + INR i * (mx - mn) / INR (n - 1)) (seq 0 n))) else None.
Definition p_logspace (mn mx : R) (n : nat) : option (list R) :=
  if andb (Nat.leb 2 n) (andb (if Rlt_dec 0 mn then true else false) (if Rlt_dec 0 mx then true else false))
  then Some (ends mn mx (map (fun i => exp (ln mn + INR i * (ln mx - ln mn) / INR (n - 1))) (seq 0 n))) else None.
