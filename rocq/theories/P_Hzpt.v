From Coq Require Import Reals List Lra Lia Bool FunctionalExtensionality.
From Verif Require Import M_Zel S_Zel P_Zel M_Interp S_Interp Props_Interp M_Qso M_Hzpt S_Hzpt.
Import ListNotations.
Local Open Scope R_scope.
Opaque s8_grid k_grid zel_r.

Definition idl (N : numerics) (c : cosmology) (s : R) : zel := ideal N c s 0 true (5/1000).
Definition irows (N : numerics) (c : cosmology) (q : kind) (ss : list R) : list (list R) :=
  map (fun s => map (zeldovich N c q (Some (idl N c s))) k_grid) ss.
Definition good_model (N : numerics) (c : cosmology) (st : hzs) (t : term) (m : hmodel) : Prop :=
  hm_drv m = Some (idl N c (hm_s8 m)) /\ 0 < hm_s8 m /\ ((t = T01 \/ t = T11) -> hm_f m = h_f st).
Definition good (N : numerics) (c : cosmology) (st : hzs) : Prop :=
  h_base st = Some (ideal N c (h_s8 st) 0 false (5/1000)) /\ 0 < h_s8 st /\
  (forall t m, h_mod st t = Some m -> good_model N c st t m) /\
  (forall t v, h_tab st t = Some v -> v = table_fun (irows N c (kind_of t) s8_grid)).
Definition eff (st : hzs) (t : term) : R := match h_mod st t with Some m => hm_s8 m | None => h_s8 st end.

Lemma teqb_refl t : teqb t t = true. Proof. destruct t; reflexivity. Qed.
Lemma teqb_eq a b : teqb a b = true -> a = b. Proof. destruct a, b; cbn; congruence. Qed.
Lemma upd_same {A} (g : term -> A) t x : upd g t x t = x. Proof. unfold upd. rewrite teqb_refl. reflexivity. Qed.
Lemma upd_other {A} (g : term -> A) t x u : u <> t -> upd g t x u = g u.
Proof. intros H. unfold upd. destruct (teqb u t) eqn:E; [apply teqb_eq in E; contradiction|reflexivity]. Qed.

Section G.
Context (N : numerics) (c : cosmology) (P : hpars) (Hn : normalised N c).
Let Hc : c_s8 c <> 0 := proj1 Hn.

Lemma set_idl s d : d <> 0 -> zel_set8 s (Some (idl N c d)) = Some (idl N c s).
Proof. intros H. unfold idl. apply set_ideal; assumption. Qed.
Lemma mset_good st t m s : good_model N c st t m -> 0 < s ->
  exists m', model_set8 s m = Some m' /\ good_model N c st t m' /\ hm_s8 m' = s.
Proof.
  intros (A & B & C) Hs. unfold model_set8. destruct (Rle_dec s 0); [lra|]. eexists. split; [reflexivity|]. cbn [hm_drv hm_s8 hm_f].
  split; [|reflexivity]. rewrite A, set_idl by lra. split; [reflexivity|]. split; [exact Hs|exact C].
Qed.
Lemma mnew_good st t : good N c st -> exists m, model_new st = Some m /\ good_model N c st t m /\ hm_s8 m = h_s8 st.
Proof.
  intros (A & B & _). unfold model_new, model_set8. destruct (Rle_dec (h_s8 st) 0); [lra|]. cbn [option_map hm_drv hm_s8 hm_f].
  eexists. split; [reflexivity|]. split; [|reflexivity]. rewrite A, set_ideal by (assumption || lra).
  split; [reflexivity|]. cbn [hm_s8 hm_f]. split; [exact B|]. intros _. reflexivity.
Qed.
Lemma put_good st t m : good N c st -> good_model N c st t m -> good N c (put_model st t m).
Proof.
  intros (A & B & C & D) G. split; [exact A|]. split; [exact B|]. split; [|exact D].
  intros u m' Hu. cbn [put_model h_mod] in Hu. destruct (teqb u t) eqn:E.
  - apply teqb_eq in E. subst u. rewrite upd_same in Hu. injection Hu as Hu. subst m'. exact G.
  - unfold upd in Hu. rewrite E in Hu. exact (C u m' Hu).
Qed.
Lemma put_tab_good st t : good N c st -> good N c (put_table st t (table_fun (irows N c (kind_of t) s8_grid))).
Proof.
  intros (A & B & C & D). split; [exact A|]. split; [exact B|]. split; [exact C|].
  intros u v Hu. cbn [put_table h_tab] in Hu. destruct (teqb u t) eqn:E.
  - apply teqb_eq in E. subst u. rewrite upd_same in Hu. injection Hu as Hu. symmetry. exact Hu.
  - unfold upd in Hu. rewrite E in Hu. exact (D u v Hu).
Qed.
Lemma get_good st t : good N c st -> exists st1 m, get_model st t = Some (st1, m) /\ good N c st1 /\ good_model N c st1 t m /\ hm_s8 m = eff st t /\
  h_mod st1 t = Some m /\ (forall u, u <> t -> h_mod st1 u = h_mod st u) /\ h_s8 st1 = h_s8 st /\ h_f st1 = h_f st /\ h_int st1 = h_int st /\ h_tab st1 = h_tab st.
Proof.
  intros G. unfold get_model, eff. destruct (h_mod st t) as [m|] eqn:E.
  - exists st, m. split; [reflexivity|]. split; [exact G|]. split; [apply G; exact E|]. do 2 (split; [auto|]). split; [auto|]. auto.
  - destruct (mnew_good st t G) as (m & A & B & C). rewrite A. exists (put_model st t m), m. split; [reflexivity|].
    split; [apply put_good; assumption|]. split; [exact B|]. split; [exact C|]. cbn [put_model h_mod h_s8 h_f h_int h_tab].
    split; [apply upd_same|]. split; [intros u Hu; apply upd_other; exact Hu|]. auto.
Qed.
Lemma sync_good st t m : good_model N c st t m -> sync m = m.
Proof. intros (A & _). unfold sync. rewrite A. cbn [z_s8z idl ideal]. unfold idl, ideal. cbn [z_s8z]. destruct (Req_EM_T _ _); [reflexivity|congruence]. Qed.
Lemma rows_ideal q : forall ss d, d <> 0 -> (forall s, In s ss -> 0 < s) ->
  exists d', d' <> 0 /\ table_rows N c q ss (Some (idl N c d)) = (irows N c q ss, Some (idl N c d')).
Proof.
  induction ss as [|s ss IH]; intros d Hd Hs.
  - exists d. split; [exact Hd|reflexivity].
  - assert (s0 : 0 < s) by (apply Hs; left; reflexivity).
    destruct (IH s) as (d' & A & B); [lra|intros x Hx; apply Hs; right; exact Hx|].
    exists d'. split; [exact A|]. cbn [table_rows]. rewrite set_idl by exact Hd. rewrite B. reflexivity.
Qed.
Lemma grid_pos s : In s s8_grid -> 0 < s.
Proof.
  Transparent s8_grid. unfold s8_grid. intros H. apply in_map_iff in H. destruct H as (i & <- & _). pose proof (pos_INR i). lra. Opaque s8_grid.
Qed.
Lemma build_good st t m : good_model N c st t m ->
  exists m', build_table N c t m = (table_fun (irows N c (kind_of t) s8_grid), Some m') /\ m' = m.
Proof.
  intros (A & B & C). unfold build_table. rewrite A. destruct (rows_ideal (kind_of t) s8_grid (hm_s8 m)) as (d' & D & E); [lra|exact grid_pos|].
  rewrite E. unfold model_set8. destruct (Rle_dec (hm_s8 m) 0); [lra|]. eexists. split; [reflexivity|]. cbn [hm_drv hm_f].
  rewrite set_idl by exact D. rewrite <- A. destruct m; reflexivity.
Qed.

(** the value of an evaluation, in closed form *)
Definition closed_eval (t : term) (b1 : R) (ks : list R) (s f : R) (i : bool) : list (option R) :=
  let m := {| hm_drv := Some (idl N c s); hm_s8 := s; hm_f := f |} in
  combine_bb (broadband P t b1 f s) (coef t b1 f) ks
    (if i then from_table N c t (table_fun (irows N c (kind_of t) s8_grid)) m ks
     else map (fun k => Some (zeldovich N c (kind_of t) (Some (idl N c s)) k)) ks).
Lemma bb_f t b1 f f' s : (t = T01 \/ t = T11 -> f = f') -> broadband P t b1 f s = broadband P t b1 f' s /\ coef t b1 f = coef t b1 f'.
Proof. intros H. destruct t; try (rewrite H by auto); split; reflexivity. Qed.
Lemma from_table_ext t v m m' ks : hm_drv m = hm_drv m' -> hm_s8 m = hm_s8 m' -> from_table N c t v m ks = from_table N c t v m' ks.
Proof. intros A B. unfold from_table. rewrite A, B. reflexivity. Qed.
Lemma eval_good st t b1 ks : good N c st ->
  exists st', hz_eval N c P st t b1 ks = (st', Some (closed_eval t b1 ks (eff st t) (h_f st) (h_int st))) /\ good N c st' /\
    (forall u, eff st' u = eff st u) /\ h_s8 st' = h_s8 st /\ h_f st' = h_f st /\ h_int st' = h_int st.
Proof.
  intros G. destruct (get_good st t G) as (st1 & m & A & G1 & Gm & E & M & O & S & F & I & T).
  unfold hz_eval. rewrite A. cbv zeta. rewrite (sync_good _ _ _ Gm).
  assert (X : put_model st1 t m = put_model st1 t m) by reflexivity.
  assert (G2 : good N c (put_model st1 t m)) by (apply put_good; assumption).
  assert (Ef : forall u, eff (put_model st1 t m) u = eff st u).
  { intros u. unfold eff at 1. cbn [put_model h_mod h_s8]. destruct (teqb u t) eqn:Et.
    - apply teqb_eq in Et. subst u. rewrite upd_same. exact E.
    - unfold upd. rewrite Et. unfold eff. rewrite O, S; [reflexivity|]. intros ->. rewrite teqb_refl in Et. discriminate. }
  pose proof Gm as (D1 & D2 & D3).
  assert (Hb := bb_f t b1 (hm_f m) (h_f st) (hm_s8 m)). rewrite F in D3. destruct (Hb D3) as [Hb1 Hb2].
  assert (Fm : forall v, from_table N c t v m ks = from_table N c t v {| hm_drv := Some (idl N c (eff st t)); hm_s8 := eff st t; hm_f := h_f st |} ks).
  { intros v. apply from_table_ext; cbn [hm_drv hm_s8]; [rewrite D1, E; reflexivity|exact E]. }
  destruct (h_int st) eqn:Hi.
  - destruct (h_tab st t) as [v|] eqn:Hv.
    + eexists. split; [|split; [exact G2|]; cbn [put_model h_s8 h_f h_int]; auto].
      f_equal. f_equal. unfold closed_eval. rewrite Hb1, Hb2, E, <- Fm. assert (v = table_fun (irows N c (kind_of t) s8_grid)) as -> by (apply G; exact Hv). reflexivity.
    + destruct (build_good _ _ _ Gm) as (m' & B1 & B2). rewrite B1. subst m'.
      eexists. split; [f_equal; f_equal; unfold closed_eval; rewrite Hb1, Hb2, E, <- Fm; reflexivity|].
      split; [apply put_tab_good, put_good; [exact G2|exact Gm]|].
      split.
      { intros u. rewrite <- (Ef u). unfold eff. cbn [put_table put_model h_mod h_s8]. unfold upd. destruct (teqb u t); reflexivity. }
      cbn [put_table put_model h_s8 h_f h_int]. auto.
  - eexists. split; [|split; [exact G2|]; cbn [put_model h_s8 h_f h_int]; auto].
    f_equal. f_equal. unfold closed_eval. rewrite Hb1, Hb2, D1, E. reflexivity.
Qed.

Lemma set_models_good st s : 0 < s -> forall ts g, (forall t m, g t = Some m -> good_model N c st t m) -> NoDup ts ->
  exists g', set_models s ts g = (g', false) /\ (forall t m, g' t = Some m -> good_model N c st t m) /\
    (forall t, (In t ts -> match g' t with Some m => hm_s8 m = s | None => g t = None end) /\ (~ In t ts -> g' t = g t)).
Proof.
  intros Hs. induction ts as [|t ts IH]; intros g Hg ND.
  - exists g. split; [reflexivity|]. split; [exact Hg|]. intros t. split; [intros []|reflexivity].
  - inversion ND as [|? ? Nt ND']; subst. cbn [set_models]. destruct (g t) as [m|] eqn:E.
    + destruct (mset_good st t m s (Hg t m E) Hs) as (m' & A & B & C). rewrite A.
      destruct (IH (upd g t (Some m'))) as (g' & D1 & D2 & D3); [|exact ND'|].
      { intros u x Hu. destruct (teqb u t) eqn:Eu.
        - apply teqb_eq in Eu. subst u. rewrite upd_same in Hu. injection Hu as Hu. subst x. exact B.
        - unfold upd in Hu. rewrite Eu in Hu. exact (Hg u x Hu). }
      exists g'. split; [exact D1|]. split; [exact D2|]. intros u. destruct (D3 u) as [P1 P2]. split.
      * intros [<-|Hu].
        { rewrite (P2 Nt). rewrite upd_same. exact C. }
        { specialize (P1 Hu). destruct (g' u); [exact P1|]. destruct (teqb u t) eqn:Eu; [apply teqb_eq in Eu; subst u; contradiction|].
          unfold upd in P1. rewrite Eu in P1. exact P1. }
      * intros Hu. rewrite P2 by (intro X; apply Hu; right; exact X). apply upd_other. intros ->. apply Hu. left. reflexivity.
    + destruct (IH g Hg ND') as (g' & D1 & D2 & D3). exists g'. split; [exact D1|]. split; [exact D2|]. intros u. destruct (D3 u) as [P1 P2]. split.
      * intros [<-|Hu]; [rewrite (P2 Nt), E; reflexivity|exact (P1 Hu)].
      * intros Hu. apply P2. intro X. apply Hu. right. exact X.
Qed.
Lemma all_terms t : In t [T00; T01; T11; Thm]. Proof. destruct t; cbn; auto. Qed.
Lemma nodup_terms : NoDup [T00; T01; T11; Thm]. Proof. repeat constructor; cbn; intuition discriminate. Qed.
Lemma set8_good st s : good N c st -> 0 < s -> exists st', set_s8 s st = (st', false) /\ good N c st' /\ (forall t, eff st' t = s) /\
  h_s8 st' = s /\ h_f st' = h_f st /\ h_int st' = h_int st.
Proof.
  intros (A & B & C & D) Hs. unfold set_s8. destruct (set_models_good st s Hs [T00; T01; T11; Thm] (h_mod st) C nodup_terms) as (g' & E1 & E2 & E3).
  rewrite E1. eexists. split; [reflexivity|]. split; [|split].
  - split; [|split; [|split]]; cbn [h_base h_s8 h_mod h_tab].
    + rewrite A. apply set_ideal; [assumption|lra].
    + exact Hs.
    + intros t m Hm. destruct (E2 t m Hm) as (X1 & X2 & X3). split; [exact X1|]. split; [exact X2|exact X3].
    + exact D.
  - intros t. unfold eff. cbn [h_mod h_s8]. destruct (E3 t) as [Q _]. specialize (Q (all_terms t)). destruct (g' t); [exact Q|reflexivity].
  - cbn [h_s8 h_f h_int]. auto.
Qed.
Definition pos1 (o : hop) : Prop := match o with HSet8 s | HModel8 _ s => 0 < s | _ => True end.
Definition eff_step (t : term) (d : R) (o : hop) : R := match o with HSet8 s => s | HModel8 u s => if teqb t u then s else d | _ => d end.
Lemma step_good st o : good N c st -> pos1 o -> let st' := hstep N c P st o in good N c st' /\ (forall t, eff st' t = eff_step t (eff st t) o) /\
  h_f st' = (match o with HSetF f => f | _ => h_f st end) /\ h_int st' = (match o with HInterp b => b | _ => h_int st end).
Proof.
  intros G Ho. destruct o as [s|f|b|t s|t b1 ks]; cbn [hstep eff_step pos1] in *; cbv zeta.
  - destruct (set8_good st s G Ho) as (st' & A & B & C & D & E & F). rewrite A. cbn [fst]. auto.
  - split; [|split; [|split; reflexivity]].
    + destruct G as (A & B & C & D). split; [exact A|]. split; [exact B|]. split; [|exact D]. intros u m Hm. cbn [set_f h_mod h_f] in Hm.
      assert (Z : forall o, (forall m0, o = Some m0 -> good_model N c st u m0) -> set_mf f o = Some m -> good_model N c (set_f f st) u m).
      { intros o Ho' Hs. destruct o as [m0|]; cbn [set_mf option_map] in Hs; [|discriminate]. injection Hs as Hs. subst m. destruct (Ho' m0 eq_refl) as (Y1 & Y2 & Y3).
        split; [exact Y1|]. split; [exact Y2|]. intros _. reflexivity. }
      destruct u; try (destruct (C _ m Hm) as (Y1 & Y2 & Y3); split; [exact Y1|]; split; [exact Y2|]; intros [X|X]; discriminate X).
      * apply (Z (h_mod st T01)); [intros m0 Hm0; apply C; exact Hm0|exact Hm].
      * apply (Z (h_mod st T11)); [intros m0 Hm0; apply C; exact Hm0|exact Hm].
    + intros t. unfold eff. cbn [set_f h_mod h_s8]. destruct t; try reflexivity.
      * unfold set_mf. destruct (h_mod st T01); reflexivity.
      * unfold set_mf. destruct (h_mod st T11); reflexivity.
  - split; [|split; [|split; reflexivity]].
    + exact G.
    + intros t. reflexivity.
  - destruct (get_good st t G) as (st1 & m & A & G1 & Gm & E & M & O & S & F & I & T). rewrite A.
    destruct (mset_good st1 t m s Gm Ho) as (m' & B1 & B2 & B3). rewrite B1.
    split; [apply put_good; assumption|]. split; [|cbn [put_model h_f h_int]; auto].
    intros u. unfold eff at 1. cbn [put_model h_mod h_s8]. unfold upd. destruct (teqb u t) eqn:Et; [exact B3|].
    unfold eff. rewrite O, S; [reflexivity|]. intros ->. rewrite teqb_refl in Et. discriminate.
  - destruct (eval_good st t b1 ks G) as (st' & A & B & C & D & E & F). rewrite A. cbn [fst]. auto.
Qed.
Lemma last_s8_step t o d l : last_s8 t d (o :: l) = last_s8 t (eff_step t d o) l.
Proof. destruct o as [s|f|b|u s|u b1 ks]; try reflexivity. cbn [last_s8 eff_step]. destruct t, u; reflexivity. Qed.
Lemma last_f_step o d l : last_f d (o :: l) = last_f (match o with HSetF f => f | _ => d end) l. Proof. destruct o; reflexivity. Qed.
Lemma last_int_step o d l : last_int d (o :: l) = last_int (match o with HInterp b => b | _ => d end) l. Proof. destruct o; reflexivity. Qed.
Lemma positive_cons o l : positive (o :: l) -> pos1 o /\ positive l.
Proof.
  intros H. split.
  - destruct o as [s| | |t s|]; cbn; auto; [apply (proj1 (H s T00))|apply (proj2 (H s t))]; left; reflexivity.
  - intros s t. destruct (H s t) as [A B]. split; intros I; [apply A|apply B]; right; exact I.
Qed.
Lemma run_good : forall l st, good N c st -> positive l -> let st' := hrun N c P st l in good N c st' /\ (forall t, eff st' t = last_s8 t (eff st t) l) /\
  h_f st' = last_f (h_f st) l /\ h_int st' = last_int (h_int st) l.
Proof.
  induction l as [|o l IH]; intros st G Hp; cbv zeta.
  - split; [exact G|]. split; [reflexivity|]. split; reflexivity.
  - destruct (positive_cons _ _ Hp) as [Ho Hp']. destruct (step_good st o G Ho) as (A & B & C & D). cbv zeta in *.
    destruct (IH (hstep N c P st o) A Hp') as (E1 & E2 & E3 & E4). change (hrun N c P st (o :: l)) with (hrun N c P (hstep N c P st o) l).
    split; [exact E1|]. split; [|split].
    + intros t. rewrite E2, B, last_s8_step. reflexivity.
    + rewrite E3, C, last_f_step. reflexivity.
    + rewrite E4, D, last_int_step. reflexivity.
Qed.
Lemma new_good s f i : sigma8z c 0 <> 0 -> 0 < s -> good N c (hz_new N c s f i).
Proof.
  intros H0 Hs. unfold good, hz_new. cbn [h_base h_s8 h_mod h_tab]. split; [|split; [exact Hs|split; discriminate]].
  rewrite new_ideal. apply set_ideal; assumption.
Qed.
Lemma new_eval s f i t b1 ks : sigma8z c 0 <> 0 -> 0 < s -> snd (hz_eval N c P (hz_new N c s f i) t b1 ks) = Some (closed_eval t b1 ks s f i).
Proof. intros H0 Hs. destruct (eval_good _ t b1 ks (new_good s f i H0 Hs)) as (st' & A & _). rewrite A. reflexivity. Qed.
Theorem history_eval s0 f0 i0 l t b1 ks : sigma8z c 0 <> 0 -> 0 < s0 -> positive l ->
  snd (hz_eval N c P (hrun N c P (hz_new N c s0 f0 i0) l) t b1 ks) = Some (closed_eval t b1 ks (last_s8 t s0 l) (last_f f0 l) (last_int i0 l)).
Proof.
  intros H0 Hs Hp. destruct (run_good l _ (new_good s0 f0 i0 H0 Hs) Hp) as (A & B & C & D). cbv zeta in *.
  destruct (eval_good _ t b1 ks A) as (st' & E & _). rewrite E. cbn [snd]. rewrite B, C, D. reflexivity.
Qed.
Lemma last_pos t : forall l s0, 0 < s0 -> positive l -> 0 < last_s8 t s0 l.
Proof.
  induction l as [|o l IH]; intros s0 Hs Hp; [exact Hs|]. destruct (positive_cons _ _ Hp) as [Ho Hp']. rewrite last_s8_step. apply IH; [|exact Hp'].
  destruct o as [s|f|b|u s|u b1 ks]; cbn [eff_step pos1] in *; auto. destruct (teqb t u); assumption.
Qed.
End G.
