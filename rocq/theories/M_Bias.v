(** Model of the nonlinear bias functions of a biased spectrum (rsd/nonlinear_biasing.py) with their caching (rsd/_cache.py:209-318).
    Simplifications: the Gaussian-process fits are named, not evaluated (an arbitrary function per name); the lru_cache around the two `_a`
    functions is transparent (its transparency is C06); Python's recursion limit is the number [lim]. *)
From Coq Require Import Reals List Bool.
Import ListNotations.
Local Open Scope R_scope.

(** nonlinear_biasing.py:46 *)
Inductive name := A00 | B00 | C00 | D00 | A01 | B01.
Definition name_eq (x y : name) : {x = y} + {x <> y}. Proof. decide equality. Defined.
(** the values of the table nonlinear_bias_types *)
Inductive ty := TNone | TVlah | TPoly | TMap (n : name) | TOther.
(** a bias function: the fit called [n] or a polynomial by its coefficients, highest power first (numpy.poly1d) *)
Inductive fn := Fit (n : name) | Poly (cs : list R).
Inductive res := Ok (g : fn) | ValueError | RecursionError.

(** numpy.poly1d(cs)(b) (Horner's rule, as numpy evaluates it) and functools.partial(self.nonlinear_bias_fitter, select=name)(b) *)
Definition horner (cs : list R) (b : R) : R := fold_left (fun acc c => acc * b + c) cs 0.
Definition call (fit : name -> R -> R) (g : fn) (b : R) : R := match g with Fit n => fit n b | Poly cs => horner cs b end.

(** the free coefficients of a name: __0, __2, __4 for b2_00 and __0, __1, __2 for b2_01 *)
Definition coefs := name -> R * R * R.
Definition types := name -> ty.
(** nonlinear_biasing.py:140-145, 164-169, 188-193, 212-217, 236-241, 260-265 *)
Definition poly_of (c : coefs) (n : name) : list R :=
  let '(x, y, z) := c n in match n with A01 | B01 => [0; 0; z; y; x] | _ => [z; 0; y; 0; x] end.
(** kind + '_a' *)
Definition first_of (n : name) : name := match n with A01 | B01 => A01 | _ => A00 end.
Definition is_first (n : name) : bool := match n with A00 | A01 => true | _ => false end.

Record state := { co : coefs; tys : types; cache : name -> option fn }.
Definition fill (s : state) (n : name) (g : fn) : state :=
  {| co := co s; tys := tys s; cache := fun x => if name_eq x n then Some g else cache s x |}.

(** what the getter of [n] does when it is not cached, nonlinear_biasing.py:10-31: an answer or the name whose getter is called *)
Definition dispatch (s : state) (n : name) : res + name :=
  match tys s n with
  | TNone => inl (Ok (Fit n))
  | TMap t => if name_eq t n then inl (Ok (Fit n)) else inr t
  | TVlah => if is_first n then inl (Ok (Fit n)) else inr (first_of n)
  | TPoly => inl (Ok (Poly (poly_of (co s) n)))
  | TOther => inl ValueError
  end.
(** _cache.py:279-296; exceptions leave nothing in the cache for the failing names *)
Fixpoint get (lim : nat) (s : state) (n : name) : res * state :=
  match lim with
  | O => (RecursionError, s)
  | S lim =>
    match cache s n with
    | Some g => (Ok g, s)
    | None =>
      match dispatch s n with
      | inl (Ok g) => (Ok g, fill s n g)
      | inl e => (e, s)
      | inr t => match get lim s t with (Ok g, s') => (Ok g, fill s' n g) | (e, s') => (e, s') end
      end
    end
  end.
(** setting a coefficient pops the function of that name only (its declared parents), _cache.py:219-237 *)
Definition set_coef (s : state) (n : name) (v : R * R * R) : state :=
  {| co := fun x => if name_eq x n then v else co s x; tys := tys s; cache := fun x => if name_eq x n then None else cache s x |}.
(** setting the table pops all six *)
Definition set_types (s : state) (t : types) : state := {| co := co s; tys := t; cache := fun _ => None |}.
(** keywords of update_nonlinear_biasing: one of the six names, the group names, or something else *)
Inductive key := KName (n : name) | KAll00 | KAll01 | KOther.
Definition all00 (v : ty) : list (key * ty) := [(KName A00, v); (KName B00, v); (KName C00, v); (KName D00, v)].
Definition all01 (v : ty) : list (key * ty) := [(KName A01, v); (KName B01, v)].
Fixpoint klook00 (d : list (key * ty)) : option ty := match d with [] => None | (KAll00, v) :: _ => Some v | _ :: d => klook00 d end.
Fixpoint klook01 (d : list (key * ty)) : option ty := match d with [] => None | (KAll01, v) :: _ => Some v | _ :: d => klook01 d end.
Definition is_name (kv : key * ty) : bool := match fst kv with KName _ => true | _ => false end.
Fixpoint upd (t : types) (d : list (key * ty)) : types :=
  match d with [] => t | (KName n, v) :: d => upd (fun x => if name_eq x n then v else t x) d | _ :: d => upd t d end.
(** nonlinear_biasing.py:103-129: [d] is copied before the group keywords are popped from [kws] *)
Definition update_biasing (s : state) (kws : list (key * ty)) : option state :=
  let d := kws ++ (match klook00 kws with Some v => all00 v | None => [] end) ++ (match klook01 kws with Some v => all01 v | None => [] end) in
  if forallb is_name d then Some (set_types s (upd (tys s) d)) else None.
(** nonlinear_biasing.py:89-101 *)
Definition use_vlah (s : state) (b : bool) : option state :=
  let v := if b then TVlah else TNone in update_biasing s (all00 v ++ all01 v).
(** nonlinear_biasing.py:60-74: the dictionary of defaults is created anew for every name; [ds n] = the defaults of [n] that are attributes *)
Fixpoint bias_defaults {A} (names : list name) (ds : name -> list A) (acc : list A) : list A :=
  match names with [] => acc | n :: r => bias_defaults r ds (ds n) end.
Definition names : list name := [A00; B00; C00; D00; A01; B01].

(** a session *)
Inductive op := SetCoef (n : name) (v : R * R * R) | SetTypes (t : types) | Update (kws : list (key * ty)) | UseVlah (b : bool) | Read (n : name).
Definition step (lim : nat) (s : state) (o : op) : state :=
  match o with
  | SetCoef n v => set_coef s n v
  | SetTypes t => set_types s t
  | Update kws => match update_biasing s kws with Some s' => s' | None => s end
  | UseVlah b => match use_vlah s b with Some s' => s' | None => s end
  | Read n => snd (get lim s n)
  end.
Fixpoint run (lim : nat) (s : state) (os : list op) : state := match os with [] => s | o :: os => run lim (step lim s o) os end.
Definition start (c : coefs) (t : types) : state := {| co := c; tys := t; cache := fun _ => None |}.
