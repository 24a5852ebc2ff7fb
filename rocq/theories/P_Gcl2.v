From Coq Require Import String Reals ZArith Lra Lia Bool.
From Coq Require Import List.
From Verif Require Import M_Spline M_Gcl S_Gcl P_Gcl.
From Verif Require M_Disc.
Import ListNotations.
Local Open Scope R_scope.

Section S.
Variable E : env.
Definition normalised (c : cosmo) : Prop := exists g T, c_eng c = Some g /\ transfer c = Some T /\ c_dH c = c_s8 c / sqrt (sigma2 E T (e_ns g)).
Lemma set8_inv c s d : set_sigma8 E c s = Some d -> exists g T, c_eng c = Some g /\ transfer c = Some T /\
  d = {| c_pars := c_pars c; c_eng := c_eng c; c_s8 := s; c_dH := s / sqrt (sigma2 E T (e_ns g)); c_fit := c_fit c; c_k := c_k c; c_T := c_T c; c_tab := c_tab c |}.
Proof.
  unfold set_sigma8, normalize. change (transfer (with_s8 c s)) with (transfer c). cbn [with_s8 c_eng c_pars c_s8 c_fit c_k c_T c_tab]. destruct (c_eng c) as [g|]; [|discriminate]. destruct (transfer c) as [T|]; [|discriminate].
  intros [= <-]. exists g, T. repeat split.
Qed.
Lemma set8_some c s g T : c_eng c = Some g -> transfer c = Some T -> set_sigma8 E c s = Some {| c_pars := c_pars c; c_eng := c_eng c; c_s8 := s; c_dH := s / sqrt (sigma2 E T (e_ns g)); c_fit := c_fit c; c_k := c_k c; c_T := c_T c; c_tab := c_tab c |}.
Proof. intros H1 H2. unfold set_sigma8, normalize. change (transfer (with_s8 c s)) with (transfer c). rewrite H2. cbn [with_s8 c_eng c_pars c_s8 c_fit c_k c_T c_tab]. rewrite H1. reflexivity. Qed.
Lemma transfer_same p e s d s' d' p' f k T k' T' t : transfer {| c_pars := p; c_eng := e; c_s8 := s; c_dH := d; c_fit := f; c_k := k; c_T := T; c_tab := t |} = transfer {| c_pars := p'; c_eng := e; c_s8 := s'; c_dH := d'; c_fit := f; c_k := k'; c_T := T'; c_tab := t |}.
Proof. reflexivity. Qed.
Lemma set8_norm c s d : set_sigma8 E c s = Some d -> normalised d.
Proof. intros H. destruct (set8_inv c s d H) as (g & T & Hg & HT & ->). exists g, T. split; [exact Hg|]. split; [|reflexivity]. rewrite <- HT. reflexivity. Qed.
Lemma init_norm c d : initialize E c = Some d -> normalised d.
Proof.
  unfold initialize. set (c1 := match c_eng c with None => run_class E c | Some _ => c end). destruct (c_eng c1) as [g|]; [|discriminate].
  destruct (c_fit c1); try (apply set8_norm). destruct (make_table E g (c_k c1) (c_T c1)); [apply set8_norm|discriminate].
Qed.
Lemma cti_norm c d : class_then_init E c = Some d -> normalised d.
Proof. unfold class_then_init, bind. destruct (match c_fit c with CLASS => compute_class E c | _ => Some c end); [apply init_norm|discriminate]. Qed.
Lemma new5_norm p f s k T d : new5 E p f s k T = Some d -> normalised d.
Proof. unfold new5, bind. destruct (initialize E (blank p f k T)); [apply set8_norm|discriminate]. Qed.
Lemma fit_norm c f d : normalised c -> set_fit E c f = Some d -> normalised d.
Proof. intros N. unfold set_fit. destruct (fit_eqb f (c_fit c)); [intros [= <-]; exact N|apply cti_norm]. Qed.
Lemma made_norm c : made E c -> normalised c.
Proof.
  intros M. induction M as [p f c H|p f s k T c H|p k P c H|c s d M IH H|c f d M IH H|c kw d M IH H|c d M IH H|c d M IH H|c f d M IH H].
  - exact (cti_norm _ _ H).
  - exact (new5_norm _ _ _ _ _ _ H).
  - revert H. unfold from_power, bind. destruct (new E p CLASS) as [c0|]; [|discriminate]. destruct (c_eng c0); [|discriminate]. destruct (Nat.ltb (length P) (length k)); [discriminate|]. apply init_norm.
  - exact (set8_norm _ _ _ H).
  - exact (fit_norm _ _ _ IH H).
  - revert H. unfold update. destruct kw; [discriminate|]. apply cti_norm.
  - exact (cti_norm _ _ H).
  - exact (new5_norm _ _ _ _ _ _ H).
  - revert H. unfold clone. destruct f as [f|]; [|apply new5_norm]. unfold bind. destruct (pickled E c) as [c1|] eqn:Q; [|discriminate]. intros H. exact (fit_norm _ _ _ (new5_norm _ _ _ _ _ _ Q) H).
Qed.

(** ** plain histories *)
Record good (c : cosmo) : Prop := {
  g_eng : c_eng c = Some (v_class E (c_pars c));
  g_ver : verify (c_pars c) = c_pars c;
  g_key : keys_distinct (c_pars c);
  g_fit : c_fit c <> FromArrays;
  g_tab : c_fit c = CLASS -> exists t, c_tab c = Some t /\ make_table E (v_class E (c_pars c)) (c_k c) (c_T c) = Some t;
  g_nrm : normalised c }.
(* what initialize does *)
Lemma init_form c d : initialize E c = Some d -> c_fit c <> FromArrays -> keys_distinct (c_pars c) ->
  (c_eng c = None \/ c_eng c = Some (v_class E (c_pars c)) /\ verify (c_pars c) = c_pars c) ->
  good d /\ c_pars d = verify (c_pars c) /\ c_fit d = c_fit c /\ c_k d = c_k c /\ c_T d = c_T c /\ c_s8 d = e_s8 (v_class E (verify (c_pars c))).
Proof.
  intros H Hf Hk He. assert (N := init_norm _ _ H). revert H. unfold initialize.
  set (c1 := match c_eng c with None => run_class E c | Some _ => c end).
  assert (F : c_pars c1 = verify (c_pars c) /\ c_eng c1 = Some (v_class E (verify (c_pars c))) /\ c_fit c1 = c_fit c /\ c_k c1 = c_k c /\ c_T c1 = c_T c).
  { unfold c1. destruct He as [He|(He & Hv)]; rewrite He; [repeat split|]. rewrite Hv. repeat split. exact He. }
  destruct F as (F1 & F2 & F3 & F4 & F5). rewrite F2. set (g := v_class E (verify (c_pars c))) in *.
  assert (V := verify_idem (c_pars c)). assert (K := verify_keys _ Hk).
  assert (G : forall tab, (c_fit c = CLASS -> make_table E g (c_k c) (c_T c) = tab /\ tab <> None) ->
    set_sigma8 E {| c_pars := c_pars c1; c_eng := Some g; c_s8 := c_s8 c1; c_dH := c_dH c1; c_fit := c_fit c1; c_k := c_k c1; c_T := c_T c1; c_tab := tab |} (e_s8 g) = Some d ->
    good d /\ c_pars d = verify (c_pars c) /\ c_fit d = c_fit c /\ c_k d = c_k c /\ c_T d = c_T c /\ c_s8 d = e_s8 g).
  { intros tab Ht H. destruct (set8_inv _ _ _ H) as (g' & T' & _ & _ & Hd).
    assert (D : c_pars d = verify (c_pars c) /\ c_eng d = Some g /\ c_fit d = c_fit c /\ c_k d = c_k c /\ c_T d = c_T c /\ c_s8 d = e_s8 g /\ c_tab d = tab) by (rewrite Hd; cbn [c_pars c_eng c_fit c_k c_T c_s8 c_tab]; repeat split; assumption).
    destruct D as (D1 & D2 & D3 & D4 & D5 & D6 & D7). split; [|repeat split; assumption]. constructor.
    - rewrite D1, D2. reflexivity.
    - rewrite D1. exact V.
    - rewrite D1. exact K.
    - rewrite D3. exact Hf.
    - intros Hc. rewrite D3 in Hc. destruct (Ht Hc) as (M & M'). rewrite D1, D4, D5, D7. fold g. rewrite M. destruct tab as [t|]; [|congruence]. exists t. split; reflexivity.
    - exact N. }
  rewrite F3 in *. destruct (c_fit c) eqn:EF; try (exfalso; apply Hf; reflexivity); try (intros H; apply (G (c_tab c1)); [intros; discriminate|exact H]).
  destruct (make_table E g (c_k c1) (c_T c1)) as [t|] eqn:M; [|discriminate]. intros H. apply (G (Some t)); [|exact H]. intros _. rewrite <- F4, <- F5. split; [exact M|discriminate].
Qed.
Lemma cti_form c d : class_then_init E c = Some d -> c_fit c <> FromArrays -> keys_distinct (c_pars c) ->
  (c_fit c = CLASS \/ c_eng c = None \/ c_eng c = Some (v_class E (c_pars c)) /\ verify (c_pars c) = c_pars c) ->
  good d /\ c_pars d = verify (c_pars c) /\ c_fit d = c_fit c /\ c_s8 d = e_s8 (v_class E (verify (c_pars c))) /\
  (c_fit c = CLASS -> M_Disc.p_logspace (e_kmin (v_class E (c_pars d))) (e_kmax (v_class E (c_pars d))) 500 = Some (c_k d) /\ c_T d = map (e_Tk (v_class E (c_pars d))) (c_k d)) /\
  (c_fit c <> CLASS -> c_k d = c_k c /\ c_T d = c_T c).
Proof.
  intros H Hf Hk He. destruct (fit_eqb (c_fit c) CLASS) eqn:EF.
  - assert (F : c_fit c = CLASS) by (destruct (c_fit c); try discriminate EF; reflexivity). revert H. unfold class_then_init, bind. rewrite F.
    unfold compute_class. destruct (M_Disc.p_logspace _ _ 500) as [ki|] eqn:L; [|discriminate]. intros H. apply init_form in H; cbn [c_fit c_pars c_eng c_k c_T].
    + cbn [c_fit c_pars c_eng c_k c_T] in H. rewrite verify_idem in H. destruct H as (A & B & C & D1 & D2 & D3). rewrite B, D1, D2, C, F. split; [exact A|]. split; [reflexivity|]. split; [reflexivity|]. split; [exact D3|].
      split; [intros _; split; [exact L|reflexivity]|congruence].
    + rewrite F. discriminate.
    + apply verify_keys, Hk.
    + right. rewrite verify_idem. split; reflexivity.
  - assert (F : c_fit c <> CLASS) by (intros F; rewrite F in EF; discriminate EF). assert (H' : initialize E c = Some d). { revert H. unfold class_then_init, bind. destruct (c_fit c); try congruence; auto. }
    apply init_form in H'; [|exact Hf|exact Hk|destruct He as [He|He]; [contradiction|exact He]]. destruct H' as (A & B & C & D1 & D2 & D3).
    split; [exact A|]. split; [exact B|]. split; [exact C|]. split; [exact D3|]. split; [congruence|]. intros _. split; assumption.
Qed.
Lemma new_good p f c : keys_distinct p -> f <> FromArrays -> new E p f = Some c -> good c.
Proof. intros K F H. apply (cti_form (blank p f [] [])); [exact H|exact F|exact K|right; left; reflexivity]. Qed.
Lemma set8_good c s d : good c -> set_sigma8 E c s = Some d -> good d.
Proof.
  intros [G1 G2 G3 G4 G5 G6] H. assert (N := set8_norm _ _ _ H). destruct (set8_inv _ _ _ H) as (g & T & _ & _ & Hd). rewrite Hd in N |- *. constructor; assumption.
Qed.
Lemma fit_eqb_spec a b : fit_eqb a b = true -> a = b.
Proof. destruct a, b; intros H; try discriminate H; reflexivity. Qed.
Lemma setfit_good c f d : good c -> f <> FromArrays -> set_fit E c f = Some d -> good d.
Proof.
  intros G F. unfold set_fit. destruct (fit_eqb f (c_fit c)); [intros [= <-]; exact G|]. intros H. apply cti_form in H; [apply H|exact F|apply G|]. right. right. cbn. split; [apply G|apply G].
Qed.
Lemma update_good c kw d : good c -> c_fit c = CLASS -> keys_distinct kw -> update E c kw = Some d -> good d.
Proof.
  intros G F K H. revert H. unfold update. destruct kw as [|kv kw]; [discriminate|]. intros H. apply cti_form in H; [apply H|cbn; rewrite F; discriminate|cbn; apply pupdate_keys, G|left; exact F].
Qed.
(* the pickled object, for any parameters *)
Lemma new5_good p f s k T d : keys_distinct p -> f <> FromArrays -> new5 E p f s k T = Some d -> good d /\ c_pars d = verify p /\ c_fit d = f /\ c_k d = k /\ c_T d = T /\ c_s8 d = s.
Proof.
  intros K F. unfold new5, bind. destruct (initialize E (blank p f k T)) as [c|] eqn:I; [|discriminate]. intros H. apply init_form in I; [|exact F|exact K|left; reflexivity].
  cbn [blank c_pars c_fit c_k c_T] in I. destruct I as (G & A & B & C & D & _). split; [exact (set8_good _ _ _ G H)|]. destruct (set8_inv _ _ _ H) as (g & T' & _ & _ & ->). cbn. repeat split; assumption.
Qed.
Lemma pickled_good c d : good c -> pickled E c = Some d -> good d.
Proof. intros G H. apply new5_good in H; [apply H|apply from_dict_keys|apply G]. Qed.
Lemma plain_good c : plain E c -> good c.
Proof.
  intros P. induction P as [p f c K F H|c s d P IH H|c f d P IH F H|c kw d P IH F K H|c d P IH H|c f d P IH F H].
  - exact (new_good _ _ _ K F H).
  - exact (set8_good _ _ _ IH H).
  - exact (setfit_good _ _ _ IH F H).
  - exact (update_good _ _ _ IH F K H).
  - exact (pickled_good _ _ IH H).
  - revert H. unfold clone. destruct f as [f|]; [|apply pickled_good; exact IH]. unfold bind. destruct (pickled E c) as [c1|] eqn:Q; [|discriminate]. intros H.
    apply (setfit_good c1 f); [exact (pickled_good _ _ IH Q)|congruence|exact H].
Qed.
(* good objects with the same parameters, fit, sigma8 (and tables when the fit is CLASS) are alike *)
Lemma good_alike c d : good c -> good d -> c_pars c = c_pars d -> c_fit c = c_fit d -> c_s8 c = c_s8 d -> (c_fit c = CLASS -> c_k c = c_k d /\ c_T c = c_T d) -> alike c d.
Proof.
  intros [G1 G2 G3 G4 G5 G6] [D1 D2 D3 D4 D5 D6] Hp Hf Hs Ht.
  assert (He : c_eng c = c_eng d) by (rewrite G1, D1, Hp; reflexivity).
  assert (HT : transfer c = transfer d).
  { unfold transfer. rewrite G1, D1, <- Hp, <- Hf. destruct (c_fit c) eqn:F; try reflexivity; [|congruence]. destruct (Ht eq_refl) as (Hk & HT).
    destruct (G5 eq_refl) as (t & Ct & Mt). destruct (D5 (eq_sym Hf)) as (t' & Ct' & Mt'). rewrite <- Hp, <- Hk, <- HT, Mt in Mt'. injection Mt' as <-. rewrite Ct, Ct'. reflexivity. }
  unfold alike. repeat (split; [assumption|]). split; [|split; [exact Hf|split; [exact HT|exact Ht]]].
  destruct G6 as (g & T & A & B & C). destruct D6 as (g' & T' & A' & B' & C'). rewrite C, C'. rewrite He, A' in A. injection A as <-. rewrite HT, B' in B. injection B as <-. rewrite Hs. reflexivity.
Qed.
Lemma numbers_same p : printable E p -> numbers E p = p.
Proof. intros H. unfold numbers. rewrite <- (map_id p) at 2. apply map_ext_in. intros [k v] Hi. cbn. rewrite (H k v Hi). reflexivity. Qed.
Lemma new5_some p f s k T t : keys_distinct p -> verify p = p -> f <> FromArrays -> (f = CLASS -> make_table E (v_class E p) k T = Some t) -> exists d, new5 E p f s k T = Some d.
Proof.
  intros K V F Ht. unfold new5, bind, initialize. cbn [blank c_eng]. unfold run_class. cbn [blank c_eng c_fit c_pars c_k c_T c_s8 c_dH c_tab]. rewrite V.
  destruct f; try congruence; try (unfold set_sigma8, normalize; cbn; eexists; reflexivity).
  rewrite (Ht eq_refl). unfold set_sigma8, normalize. cbn. eexists. reflexivity.
Qed.
Lemma pickle_alike c : good c -> printable E (c_pars c) -> has_defaults (c_pars c) -> exists d, pickled E c = Some d /\ alike c d /\ c_k d = c_k c /\ c_T d = c_T c.
Proof.
  intros G P D. unfold pickled. rewrite (numbers_same _ P), (from_dict_same _ (g_key _ G) D).
  destruct (c_fit c) eqn:F; try (destruct (new5_some (c_pars c) (c_fit c) (c_s8 c) (c_k c) (c_T c) {| t_spl := NullS; t_k0 := 0; t_k1 := 0; t_T0 := 0; t_T1 := 0; t_n0 := 0; t_n1 := 0 |} (g_key _ G) (g_ver _ G) (g_fit _ G)) as (d & Hd); [rewrite F; congruence|]; rewrite F in Hd; exists d; split; [exact Hd|]; apply new5_good in Hd; [|apply G|congruence]; destruct Hd as (Gd & A & B & C & D' & E'); split; [|split; assumption]; apply good_alike; auto; [rewrite A; symmetry; apply G|congruence]).
  - destruct (g_tab _ G F) as (t & _ & Mt). destruct (new5_some (c_pars c) CLASS (c_s8 c) (c_k c) (c_T c) t (g_key _ G) (g_ver _ G)) as (d & Hd); [discriminate|intros _; exact Mt|]. exists d. split; [exact Hd|].
    apply new5_good in Hd; [|apply G|discriminate]. destruct Hd as (Gd & A & B & C & D' & E'). split; [|split; assumption]. apply good_alike; auto; [rewrite A; symmetry; apply G|congruence].
  - exfalso. exact (g_fit _ G F).
Qed.
(* a fresh object with the same parameters *)
Lemma same_as_new c c0 f : class_then_init E c = Some c0 -> c_fit c = f -> f <> FromArrays -> keys_distinct (c_pars c) ->
  (f = CLASS \/ c_eng c = None \/ c_eng c = Some (v_class E (c_pars c)) /\ verify (c_pars c) = c_pars c) -> exists d, new E (c_pars c) f = Some d /\ alike c0 d.
Proof.
  intros H Hf F K He. assert (C := cti_form c c0 H ltac:(congruence) K ltac:(rewrite Hf; exact He)). destruct C as (G & A & B & S8 & T1 & T2).
  assert (X : exists d, new E (c_pars c) f = Some d).
  { unfold new, class_then_init, bind, blank. cbn [c_fit]. destruct f; try congruence.
    - destruct (T1 Hf) as (L & _). rewrite A in L. unfold compute_class. cbn [c_pars]. rewrite L. unfold initialize. cbn [c_eng c_fit c_k c_T c_pars c_s8 c_dH c_tab].
      destruct (g_tab _ G ltac:(congruence)) as (t & _ & Mt). destruct (T1 Hf) as (L' & T'). rewrite A in Mt, T'. rewrite T' in Mt. rewrite Mt. unfold set_sigma8, normalize. cbn. eexists. reflexivity.
    - unfold initialize. cbn [c_eng run_class c_fit]. unfold set_sigma8, normalize. cbn. eexists. reflexivity.
    - unfold initialize. cbn [c_eng run_class c_fit]. unfold set_sigma8, normalize. cbn. eexists. reflexivity.
    - unfold initialize. cbn [c_eng run_class c_fit]. unfold set_sigma8, normalize. cbn. eexists. reflexivity. }
  destruct X as (d & Hd). exists d. split; [exact Hd|]. assert (C := cti_form (blank (c_pars c) f [] []) d Hd F K (or_intror (or_introl eq_refl))). cbn [blank c_pars c_fit c_k c_T] in C.
  destruct C as (G' & A' & B' & S8' & T1' & _). apply good_alike; auto; [congruence..|]. intros Hc. assert (fC : f = CLASS) by congruence. destruct (T1 ltac:(congruence)) as (L & Tm). destruct (T1' fC) as (L' & Tm').
  rewrite A in L, Tm. rewrite A' in L', Tm'. rewrite L in L'. injection L' as Lk. split; [exact Lk|]. rewrite Tm, Tm', Lk. reflexivity.
Qed.
End S.
