(** * Property theorems: the lru_cache decorator (C06-C09) *)
From Coq Require Import List Arith Bool ZArith QArith String Lia Permutation.
From Verif Require Import M_Lru S_Lru P_Lru P_LruHist M_LruKey S_LruKey P_LruKey.
Import ListNotations.
Local Open Scope nat_scope.

(** ** C06: transparency *)
(** All three branches (maxsize 0, None, n > 0), any key function whose equality is an
    equivalence, any history of calls and clears: if the calls of the history that share a key have
    the same result, every call returns (or raises) exactly what the bare function does. *)
Theorem C06_transparent :
  forall (A K V : Type) (keq : K -> K -> bool) (mk : A -> K) (f : A -> option V) c h rs s,
  key_equivalence keq -> valid_cfg c ->
  (forall a b, In a (calls h) -> In b (calls h) -> keq (mk a) (mk b) = true -> f a = f b) ->
  mrun keq mk f c (minit c) h = (rs, s) ->
  map fst rs = map (fun a => match f a with Some v => Ret v | None => Raised end) (calls h).
Proof.
  intros A K V keq mk f c h rs s Hk Hv Hf H.
  assert (Hin : Forall (fun a => In a (calls h)) (calls h)) by (apply Forall_forall; auto).
  destruct (@mrun_inv A K V keq mk f (fun a => In a (calls h)) Hk c Hv h _ _ _ _ Hin (@MInv_init A K V keq mk f _ c) H) as [_ G]. clear H Hin.
  assert (Hin : forall a, In a (calls h) -> In a (calls h)) by auto. revert G Hin. generalize (calls h) at 2 3 5. intros m G. revert G.
  induction 1 as [|a [o ev] m l' [H1 [H2 H3]] G IH]; cbn; intro Hin; [reflexivity|]. f_equal; [|apply IH; intros; apply Hin; now right]. cbn in *.
  destruct ev; [auto|]. destruct (H3 eq_refl) as [b [v [E0 [E1 [E2 ->]]]]]. rewrite <- (Hf b a E0 (Hin a (or_introl eq_refl)) E1), E2. reflexivity.
Qed.
(** With the keys the decorator really builds: a function of positional and keyword arguments
    that gives equal results on Python-equal arguments (equal and of equal types for
    typed=True) is transparent. *)
Theorem C06_transparent_python_calls :
  forall (V : Type) (f : pycall -> option V) c (typed : bool) h rs s,
  valid_cfg c ->
  (forall x y, same_call (if typed then py_equal_typed else py_equal) x y -> f x = f y) ->
  Forall proper_call (calls h) ->
  mrun keyeq (pykey c typed) f c (minit c) h = (rs, s) ->
  map fst rs = map (fun a => match f a with Some v => Ret v | None => Raised end) (calls h).
Proof.
  intros V f c typed h rs s Hv Hf Hp H. refine (@C06_transparent pycall key V keyeq (pykey c typed) f c h rs s keyeq_equivalence Hv _ H).
  rewrite Forall_forall in Hp. intros a b Ha Hb E. apply Hf. apply pykey_separates with c; auto.
Qed.
(** Under any interleaving of threads (and for recursive use) of a bounded cache, with clears in
    between, every finished call gives what the bare function gives. *)
Theorem C06_transparent_concurrent :
  forall (A K V : Type) (keq : K -> K -> bool) (mk : A -> K) (f : A -> option V) n es c os,
  key_equivalence keq -> 0 < n -> (forall a b, keq (mk a) (mk b) = true -> f a = f b) ->
  crun keq mk f (Z.of_nat n) cinit es = Some (c, os) ->
  Forall (fun x => snd x = match f (fst x) with Some v => Ret v | None => Raised end) os.
Proof.
  intros A K V keq mk f n es c os Hk Hn Hf H.
  destruct (@crun_inv A K V keq mk f (fun _ => True) Hk n es Hn ltac:(apply Forall_forall; intros []; cbn; auto) _ _ _ (@CInv_init A K V keq mk f _ n) H) as [_ [G _]].
  eapply Forall_impl; [|exact G]. intros x [[E|[b [v [_ [E1 [E2 E3]]]]]] _]; [exact E|]. now rewrite <- (Hf _ _ E1), E2.
Qed.
(** The unconditional claim is false: 1 and 1.0 share a cache entry, so a function that
    distinguishes them is answered wrongly. *)
Definition kind (x : pycall) : option nat := match fst x with v :: _ => Some (pytype v) | [] => None end.
Theorem C06_equal_arguments_refuted :
  exists h rs s, mrun keyeq (pykey (Bounded 2) false) kind (Bounded 2) (minit (Bounded 2)) h = (rs, s) /\
    map fst rs <> map (fun a => match kind a with Some v => Ret v | None => Raised end) (calls h).
Proof.
  exists [Call ([PInt 1], []); Call ([PFloat 1], [])]. do 2 eexists. split; [vm_compute; reflexivity|]. vm_compute. discriminate.
Qed.
(** A negative maxsize makes the first call that returns fail with a KeyError from the cache. *)
Theorem C06_negative_maxsize_refuted :
  forall (A K V : Type) (keq : K -> K -> bool) (mk : A -> K) (f : A -> option V) n a v,
  (n < 0)%Z -> f a = Some v -> fst (call keq mk f n init a) = (KeyErr, true).
Proof.
  intros A K V keq mk f n a v Hn Hf. unfold call, lookup. cbn. rewrite Hf. unfold store. cbn.
  rewrite (proj2 (Z.leb_le _ _)) by lia. cbn. reflexivity.
Qed.
Print Assumptions C06_transparent_python_calls.
Print Assumptions C06_transparent_concurrent.
(** non-vacuity: hits, misses, an exception, a clear, with a size-2 cache *)
Definition f3 (n : nat) : option nat := if Nat.eqb n 7 then None else Some (n * n).
Example C06_case : fst (mrun Nat.eqb (fun n => n) f3 (Bounded 2) (minit (Bounded 2)) [Call 3; Call 3; Call 7; Call 4; Call 5; Call 3; Clear; Call 5])
  = [(Ret 9, true); (Ret 9, false); (Raised, true); (Ret 16, true); (Ret 25, true); (Ret 9, true); (Ret 25, true)].
Proof. vm_compute. reflexivity. Qed.
Example C06_case_equiv : key_equivalence Nat.eqb.
Proof. repeat split; intros; rewrite ?Nat.eqb_eq in *; auto using Nat.eqb_refl, Nat.eqb_sym; congruence. Qed.
(** two threads evaluate the same missing key; the second store finds it present *)
Example C06_case_threads : exists c os, crun Nat.eqb (fun n => n) f3 2 cinit [Enter 0 3; Enter 1 3; Leave 1; ClearEv; Leave 0; Enter 2 3; Enter 1 4; Leave 1] = Some (c, os)
  /\ os = [(3, Ret 9); (3, Ret 9); (3, Ret 9); (4, Ret 16)] /\ info (cst c) = (1, 2, 2).
Proof. do 2 eexists. split; [vm_compute; reflexivity|]. split; vm_compute; reflexivity. Qed.

(** ** C07: bounded, evicts exactly the least recently used key *)
(** After any history, the next call is answered from the cache iff its key is one of the n most
    recently used distinct keys (of returned calls since the last clear). So a miss on a full cache
    removes exactly the entry whose last use is oldest. *)
Theorem C07_keeps_exactly_the_most_recent :
  forall (A K V : Type) (keq : K -> K -> bool) (mk : A -> K) (f : A -> option V) n h rs s a,
  key_equivalence keq -> (0 < n)%Z ->
  mrun keq mk f (Bounded n) (minit (Bounded n)) h = (rs, s) ->
  snd (fst (mcall keq mk f (Bounded n) s a)) =
    negb (member keq (mk a) (most_recent keq (Z.to_nat n) (uses mk (since_clear h rs [])))).
Proof.
  intros A K V keq mk f n h rs s a Hk Hn H.
  destruct (@mrun_inv A K V keq mk f (fun _ => True) Hk (Bounded n) Hn h _ _ _ _ ltac:(apply Forall_forall; auto) (@MInv_init A K V keq mk f _ (Bounded n)) H) as [G _].
  destruct (@mcall_inv A K V keq mk f (fun _ => True) Hk (Bounded n) s _ a I Hn G) as [o [ev [s' [E1 [_ [E2 _]]]]]]. rewrite E1. exact E2.
Qed.
(** Never more than n entries, sequentially or under any interleaving of threads. *)
Theorem C07_bounded :
  forall (A K V : Type) (keq : K -> K -> bool) (mk : A -> K) (f : A -> option V) n h rs s,
  key_equivalence keq -> (0 < n)%Z ->
  mrun keq mk f (Bounded n) (minit (Bounded n)) h = (rs, s) -> snd (minfo s) <= Z.to_nat n.
Proof.
  intros A K V keq mk f n h rs s Hk Hn H.
  destruct (@mrun_inv A K V keq mk f (fun _ => True) Hk (Bounded n) Hn h _ _ _ _ ltac:(apply Forall_forall; auto) (@MInv_init A K V keq mk f _ (Bounded n)) H) as [G _].
  rewrite (@MInv_info A K V keq mk f _ Hk (Bounded n) _ _ Hn G). cbn. unfold most_recent. rewrite firstn_length. lia.
Qed.
Theorem C07_bounded_concurrent :
  forall (A K V : Type) (keq : K -> K -> bool) (mk : A -> K) (f : A -> option V) n es c os,
  key_equivalence keq -> 0 < n -> crun keq mk f (Z.of_nat n) cinit es = Some (c, os) -> snd (info (cst c)) <= n.
Proof.
  intros A K V keq mk f n es c os Hk Hn H.
  destruct (@crun_inv A K V keq mk f (fun _ => True) Hk n es Hn ltac:(apply Forall_forall; intros []; cbn; auto) _ _ _ (@CInv_init A K V keq mk f _ n) H) as [[ns [l [HR [Hl _]]]] _].
  cbn. now rewrite (Rel_size HR).
Qed.
Print Assumptions C07_keeps_exactly_the_most_recent.
Example C07_case : most_recent Nat.eqb 2 [1; 2; 1; 3] = [3; 1].
Proof. reflexivity. Qed.
Example C07_case_run : let '(rs, s) := mrun Nat.eqb (fun n => n) f3 (Bounded 2) (minit (Bounded 2)) [Call 1; Call 2; Call 1; Call 3] in
  (snd (fst (mcall Nat.eqb (fun n => n) f3 (Bounded 2) s 1)), snd (fst (mcall Nat.eqb (fun n => n) f3 (Bounded 2) s 2))) = (false, true).
Proof. vm_compute. reflexivity. Qed.

(** ** C08: cache_info is exact *)
(** hits = calls since the last clear answered without evaluating the function, misses = calls that
    evaluated it and returned (an evaluation that raises is not counted), currsize = number of
    distinct keys kept: none (maxsize 0), all (None), or the n most recent. *)
Theorem C08_info_exact :
  forall (A K V : Type) (keq : K -> K -> bool) (mk : A -> K) (f : A -> option V) c h rs s tr,
  key_equivalence keq -> valid_cfg c ->
  mrun keq mk f c (minit c) h = (rs, s) -> tr = since_clear h rs [] ->
  minfo s = (List.length (filter (fun x => returned x && negb (evaluated x)) tr),
             List.length (filter (fun x => returned x && evaluated x) tr),
             List.length (match c with NoCache => [] | Unbounded => dedup keq (rev (uses mk tr))
                          | Bounded n => most_recent keq (Z.to_nat n) (uses mk tr) end)).
Proof.
  intros A K V keq mk f c h rs s tr Hk Hv H ->.
  destruct (@mrun_inv A K V keq mk f (fun _ => True) Hk c Hv h _ _ _ _ ltac:(apply Forall_forall; auto) (@MInv_init A K V keq mk f _ c) H) as [G _].
  rewrite (@MInv_info A K V keq mk f _ Hk c _ _ Hv G). destruct c; reflexivity.
Qed.
(** hits + misses = completed calls since the last clear *)
Theorem C08_hits_plus_misses :
  forall (A K V : Type) (keq : K -> K -> bool) (mk : A -> K) (f : A -> option V) c h rs s hits misses size,
  key_equivalence keq -> valid_cfg c ->
  mrun keq mk f c (minit c) h = (rs, s) -> minfo s = (hits, misses, size) ->
  hits + misses = List.length (filter (@returned A V) (since_clear h rs [])).
Proof.
  intros A K V keq mk f c h rs s hits misses size Hk Hv H Hi.
  rewrite (C08_info_exact _ _ _ _ _ _ _ _ _ _ _ Hk Hv H eq_refl) in Hi. injection Hi as <- <- _.
  induction (since_clear h rs []) as [|x l IH]; cbn; [reflexivity|]. destruct (returned x), (evaluated x); cbn; lia.
Qed.
Theorem C08_clear_resets :
  forall (K V : Type) (s : mstate K V), minfo (mclear s) = (0, 0, 0).
Proof. intros K V [s|s]; reflexivity. Qed.
(** The bounded cache counts under its lock: exact for every interleaving. *)
Theorem C08_concurrent :
  forall (A K V : Type) (keq : K -> K -> bool) (mk : A -> K) (f : A -> option V) n es0 c0 os0 es c os,
  key_equivalence keq -> 0 < n ->
  crun keq mk f (Z.of_nat n) cinit es0 = Some (c0, os0) ->
  crun keq mk f (Z.of_nat n) c0 es = Some (c, os) -> (forall e, In e es -> e <> ClearEv) ->
  fst (fst (info (cst c))) + snd (fst (info (cst c))) =
  fst (fst (info (cst c0))) + snd (fst (info (cst c0))) + List.length (filter (@returns A V) os).
Proof.
  intros A K V keq mk f n es0 c0 os0 es c os Hk Hn H0 H Hc.
  destruct (@crun_inv A K V keq mk f (fun _ => True) Hk n es0 Hn ltac:(apply Forall_forall; intros []; cbn; auto) _ _ _ (@CInv_init A K V keq mk f _ n) H0) as [G _].
  destruct (@crun_inv A K V keq mk f (fun _ => True) Hk n es Hn ltac:(apply Forall_forall; intros []; cbn; auto) _ _ _ G H) as [_ [_ G3]]. exact (G3 Hc).
Qed.
(** The unbounded and the disabled cache count without the lock: two threads can lose a count. *)
Theorem C08_unlocked_branches_can_lose_counts :
  exists es, cnt_run es = 1 /\ List.length (filter (fun e => match e with CStore _ => true | _ => false end) es) = 2.
Proof. exists [CLoad 0; CLoad 1; CStore 0; CStore 1]. split; reflexivity. Qed.
Print Assumptions C08_info_exact.
Example C08_case : minfo (snd (mrun Nat.eqb (fun n => n) f3 (Bounded 2) (minit (Bounded 2)) [Call 3; Clear; Call 3; Call 3; Call 7; Call 4; Call 5])) = (1, 3, 2).
Proof. vm_compute. reflexivity. Qed.

(** ** C09: keys separate different calls *)
Theorem C09_keys_separate :
  forall c (typed : bool) x y, proper_call x -> proper_call y ->
  keyeq (pykey c typed x) (pykey c typed y) = true ->
  same_call (if typed then py_equal_typed else py_equal) x y.
Proof. exact pykey_separates. Qed.
(** The order in which keyword arguments are written does not matter. *)
Theorem C09_keyword_order_irrelevant :
  forall c (typed : bool) args kw kw', NoDup (map fst kw) -> Permutation kw kw' ->
  pykey c typed (args, kw) = pykey c typed (args, kw').
Proof. exact pykey_order. Qed.
Print Assumptions C09_keys_separate.
Open Scope string_scope.
Example C09_case : keyeq (pykey Unbounded false ([PInt 1], [("b", PInt 2); ("a", PNone)])) (pykey Unbounded false ([PFloat 1], [("a", PNone); ("b", PFloat 2)])) = true.
Proof. vm_compute. reflexivity. Qed.
Example C09_case_no : keyeq (pykey (Bounded 3) false ([PStr "a"; PInt 2], [])) (pykey (Bounded 3) false ([], [("a", PInt 2)])) = false.
Proof. vm_compute. reflexivity. Qed.
