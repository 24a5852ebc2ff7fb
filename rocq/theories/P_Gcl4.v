From Coq Require Import String Reals ZArith Lra Lia Bool.
From Coq Require Import List.
From Coquelicot Require Import Coquelicot.
From Verif Require Import M_Spline S_Spline M_Gcl S_Gcl P_Gcl P_Gcl2 P_Gcl3 M_GclFit P_Spline P_SplineV Props_Spline.
From Verif Require M_Disc Props_Disc M_Kaiser.
Import ListNotations.
Local Open Scope R_scope.
Lemma pget_pupdate q : forall p k, NoDup (map fst q) -> pget (pupdate p q) k = match pget q k with Some v => Some v | None => pget p k end.
Proof.
  induction q as [|[a v] q IH]; intros p k N; [reflexivity|]. inversion N as [|x l Hn Hq e]; subst. cbn [pupdate pget]. rewrite IH by exact Hq.
  destruct (String.eqb_spec a k) as [->|D].
  - assert (G : pget q k = None) by (apply pget_None_notin; exact Hn). rewrite G. apply pget_pset_eq.
  - rewrite pget_pset_neq by exact D. reflexivity.
Qed.
Lemma setdefault_get d k v k' : pget (setdefault d k v) k' = match pget d k' with Some w => Some w | None => if String.eqb k' k then Some v else None end.
Proof.
  unfold setdefault. destruct (pget d k) as [w|] eqn:G.
  - destruct (pget d k') eqn:G'; [reflexivity|]. destruct (String.eqb_spec k' k); [congruence|reflexivity].
  - destruct (String.eqb_spec k' k) as [->|N]; [rewrite pget_pset_eq, G; reflexivity|]. rewrite pget_pset_neq by congruence. destruct (pget d k'); reflexivity.
Qed.
Lemma setdefault_keys d k v : keys_distinct d -> keys_distinct (setdefault d k v).
Proof. intros H. unfold setdefault. destruct (pget d k); [exact H|apply pset_keys, H]. Qed.
Lemma update_params c kw k : keys_distinct kw -> pget (pupdate (c_pars c) (from_dict kw)) k = after_update c kw k.
Proof.
  intros K. unfold from_dict. rewrite pget_pupdate.
  - rewrite pget_pupdate by (apply setdefault_keys, setdefault_keys, K). rewrite !setdefault_get. unfold after_update. cbn [pget]. destruct (pget kw k); [reflexivity|].
    destruct (String.eqb k "P_k_max_h/Mpc"); [reflexivity|]. destruct (String.eqb k "z_max_pk"); reflexivity.
  - apply (pupdate_keys _ []). constructor.
Qed.
Lemma verify_get p k : k <> "output"%string -> pget (verify p) k = pget p k.
Proof. intros N. unfold verify. destruct (pget p "output"); apply pget_pset_neq; congruence. Qed.

Section V.
Variable E : env.
Hypothesis HJ : homogeneous (v_int E).
Lemma int_ext f g : (forall k, g k = f k) -> v_int E g = v_int E f.
Proof. intros H. rewrite (HJ 1 f g); [ring|]. intros k. rewrite H. ring. Qed.
Lemma variance_sigma2 T ns : exact_j1 E -> variance E (fun k => Rpower k ns * (T k) ^ 2) = sigma2 E T ns.
Proof.
  intros X. apply int_ext. intros k. unfold f_sigma, M_Kaiser.W_cosmo. rewrite (Rmult_comm 8 k). destruct (Rlt_dec (k * 8) (1/10000)) as [L|L]; [ring|]. rewrite X by lra. ring.
Qed.
Lemma variance_scale a P Q : (forall k, Q k = a * P k) -> variance E Q = a * variance E P.
Proof. intros H. apply HJ. intros k. rewrite H. ring. Qed.
End V.
Lemma sq_sqrt x : 0 < x -> sqrt x <> 0 /\ sqrt x ^ 2 = x.
Proof. intros H. split; [apply Rgt_not_eq, sqrt_lt_R0, H|]. replace (sqrt x ^ 2) with (sqrt x * sqrt x) by ring. apply sqrt_sqrt. lra. Qed.
Lemma nth_map0 (f : R -> R) l i : (i < length l)%nat -> nth i (map f l) 0 = f (nth i l 0).
Proof. intros H. rewrite (nth_indep (map f l) 0 (f 0)) by (rewrite map_length; exact H). apply map_nth. Qed.
(** construction succeeds *)
Lemma new_class E p : let g := v_class E (verify p) in 0 < e_kmin g -> 0 < e_kmax g -> e_kmin g < e_kmax g ->
  exists c t, new E p CLASS = Some c /\ c_eng c = Some g /\ c_fit c = CLASS /\ c_tab c = Some t /\ c_s8 c = e_s8 g /\ M_Disc.p_logspace (e_kmin g) (e_kmax g) 500 = Some (c_k c) /\ c_T c = map (e_Tk g) (c_k c) /\ make_table E g (c_k c) (c_T c) = Some t.
Proof.
  intros g H0 H1 H2. destruct (Props_Disc.C126_logspace (e_kmin g) (e_kmax g) 500 ltac:(lia) H0 H1) as (l & Hl & Ln & F & La & Inc & _).
  assert (X : exists t, make_table E g l (map (e_Tk g) l) = Some t).
  { destruct (C111_cubic_spline (v_w0 E) l (map (e_Tk g) l)) as (s & Hs & _); [rewrite Ln; lia|rewrite map_length; lia|exact (Inc H2)|]. unfold make_table. rewrite Hs. eexists. reflexivity. }
  destruct X as (t & Ht).
  set (d0 := {| c_pars := verify p; c_eng := Some g; c_s8 := 0; c_dH := 1; c_fit := CLASS; c_k := l; c_T := map (e_Tk g) l; c_tab := Some t |}).
  assert (HT : transfer d0 = Some (spline_transfer g t)) by reflexivity. assert (HS := set8_some E d0 (e_s8 g) g _ eq_refl HT).
  exists {| c_pars := c_pars d0; c_eng := c_eng d0; c_s8 := e_s8 g; c_dH := e_s8 g / sqrt (sigma2 E (spline_transfer g t) (e_ns g)); c_fit := c_fit d0; c_k := c_k d0; c_T := c_T d0; c_tab := c_tab d0 |}, t.
  split; [|cbn [c_eng c_fit c_tab c_s8 c_k c_T d0]; repeat (split; [first [reflexivity|exact Hl]|]); exact Ht].
  unfold new, class_then_init, bind, blank. cbn [c_fit]. unfold compute_class. cbn [c_pars]. fold g. rewrite Hl. unfold initialize. cbn [c_eng c_fit c_k c_T c_pars c_s8 c_dH c_tab]. rewrite Ht. exact HS.
Qed.
