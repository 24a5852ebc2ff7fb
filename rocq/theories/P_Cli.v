(** * Proofs about the command line *)
From Coq Require Import ZArith Bool Ascii String Lia Arith.
From Coq Require Import List.
From Verif Require Import M_Cli S_Cli.
Import ListNotations.
Local Open Scope string_scope.

Section Cli.
Variable int_of : string -> option Z.
Variable folder_of : string -> string.

Lemma positive_int_iff s v : positive_int int_of s = Some v <-> int_of s = Some v /\ (0 < v)%Z.
Proof.
  unfold positive_int. destruct (int_of s) as [x|]; [|split; [discriminate|intros [H _]; discriminate]]. destruct (Z.leb_spec x 0); split; intros Q; try discriminate.
  - destruct Q as [Q1 Q2]. inversion Q1; subst. lia.
  - inversion Q; subst. auto.
  - destruct Q as [Q1 Q2]. auto.
Qed.
Lemma opt_existing f r o x : opt (existing f) r o = Some x <-> x = o /\ names_file f o /\ (r = true -> given o).
Proof.
  unfold opt, existing, names_file, given, isfile. destruct o as [p|].
  - destruct (f p) as [[|]|] eqn:E; cbn; split; try discriminate.
    + intros H. inversion H. repeat split; auto; [intros q Q; inversion Q; subst; auto|discriminate].
    + intros (-> & _ & _). reflexivity.
    + intros (_ & H & _). specialize (H p eq_refl). congruence.
    + intros (_ & H & _). specialize (H p eq_refl). congruence.
  - destruct r; split; try discriminate.
    + intros (_ & _ & H). exfalso. apply H; auto.
    + intros H. inversion H. repeat split; auto; discriminate.
    + intros (-> & _). reflexivity.
Qed.
Lemma opt_int r o x : opt (positive_int int_of) r o = Some x <-> x = value_of int_of o /\ positive int_of o /\ (r = true -> given o).
Proof.
  unfold opt, positive, given, value_of. destruct o as [s|].
  - destruct (positive_int int_of s) as [v|] eqn:E; cbn.
    + apply positive_int_iff in E. destruct E as [E1 E2]. rewrite E1. split.
      * intros H. inversion H. repeat split; auto; [|discriminate]. intros q Q. inversion Q; subst. exists v. auto.
      * intros (-> & _). reflexivity.
    + split; [discriminate|]. intros (_ & H & _). destruct (H s eq_refl) as (v & H1 & H2). assert (positive_int int_of s = Some v) by (apply positive_int_iff; auto). congruence.
  - destruct r; split; try discriminate.
    + intros (_ & _ & H). exfalso. apply H; auto.
    + intros H. inversion H. repeat split; auto; discriminate.
    + intros (-> & _). reflexivity.
Qed.
Lemma set_same f p k : set f p k p = Some k. Proof. unfold set. now rewrite String.eqb_refl. Qed.
Lemma set_other f p k q : q <> p -> set f p k q = f q. Proof. intros H. unfold set. apply String.eqb_neq in H. now rewrite H. Qed.
Lemma with_logs_ok f n : exists f', with_logs f n = Accepted n f' /\ made f f' [join (n_folder n) "logs"].
Proof.
  unfold with_logs, exists_, makedirs, exists_. destruct (f (join (n_folder n) "logs")) eqn:E.
  - eexists. split; [reflexivity|]. repeat split; auto. intros p [<-|[]]. congruence. congruence.
  - eexists. split; [reflexivity|]. set (l := join (n_folder n) "logs") in *. repeat split.
    + intros p [<-|[]]. rewrite set_same. discriminate.
    + intros p Hp. apply set_other. intros ->. contradiction.
    + intros p Hp. apply set_other. intros ->. apply Hp. left. auto.
    + intros p H1 H2. destruct (string_dec p l) as [->|N]; [apply set_same|]. rewrite set_other in H2 by auto. contradiction.
Qed.
Lemma made_more f f' d l : f d <> None -> made f f' l -> made f f' (d :: l).
Proof. intros H (H1 & H2 & H3 & H4). repeat split; auto. - intros p [<-|Hp]; auto. rewrite H2; auto. - intros p Hp. apply H3. intros K. apply Hp. right. auto. Qed.
Lemma made_dir f f' d l : f d = None -> made (set f d Dir) f' l -> made f f' (d :: l).
Proof.
  intros H (H1 & H2 & H3 & H4). split; [|split; [|split]].
  - intros p [<-|Hp]; auto. rewrite H2; rewrite set_same; discriminate.
  - intros p Hp. assert (p <> d) by congruence. rewrite H2; rewrite set_other; auto.
  - intros p Hp. rewrite H3; [apply set_other; intros ->; apply Hp; left; auto|]. intros K. apply Hp. right. auto.
  - intros p Hp Hq. destruct (string_dec p d) as [->|N]; [rewrite H2; rewrite set_same; auto; discriminate|]. apply H4; auto. rewrite set_other; auto.
Qed.
Lemma isfile_iff f p : isfile f p = true <-> f p = Some File.
Proof. unfold isfile. destruct (f p) as [[|]|]; split; congruence. Qed.
Lemma exists_iff f p : exists_ f p = true <-> f p <> None.
Proof. unfold exists_. destruct (f p); split; congruence. Qed.
Lemma exists_false f p : exists_ f p = false <-> f p = None.
Proof. unfold exists_. destruct (f p); split; congruence. Qed.
Lemma isdir_iff f p : isdir f p = true <-> f p = Some Dir.
Proof. unfold isdir. destruct (f p) as [[|]|]; split; congruence. Qed.
Lemma isdir_false f p : isdir f p = false <-> f p <> Some Dir.
Proof. unfold isdir. destruct (f p) as [[|]|]; split; congruence. Qed.

Lemma restart_describes f c : c_mode c = Restart -> describes int_of folder_of f c (parse_restart int_of folder_of f c).
Proof.
  intros Hm. unfold parse_restart.
  destruct (opt (existing f) true (c_model c)) as [m|] eqn:E1.
  2:{ cbn. unfold acceptable. rewrite Hm. intros (A1 & A2 & _). assert (opt (existing f) true (c_model c) = Some (c_model c)) by (apply opt_existing; auto). congruence. }
  destruct (opt (positive_int int_of) true (c_iterations c)) as [i|] eqn:E2.
  2:{ cbn. unfold acceptable. rewrite Hm. intros (_ & _ & A1 & A2 & _). assert (opt (positive_int int_of) true (c_iterations c) = Some (value_of int_of (c_iterations c))) by (apply opt_int; auto). congruence. }
  apply opt_existing in E1. destruct E1 as (-> & B1 & B2). assert (E2' := E2). apply opt_int in E2. destruct E2 as (-> & B3 & B4).
  destruct (c_iterations c) as [si|] eqn:EI; [|exfalso; apply B4; auto]. destruct (B3 si eq_refl) as (vi & B5 & B6).
  cbn [value_of] in *. rewrite B5 in *.
  destruct (opt (positive_int int_of) false (c_burnin c)) as [b|] eqn:E3.
  2:{ cbn. unfold acceptable. rewrite Hm. intros (_ & _ & _ & _ & A1 & _). assert (opt (positive_int int_of) false (c_burnin c) = Some (value_of int_of (c_burnin c))) by (apply opt_int; repeat split; auto; discriminate). congruence. }
  apply opt_int in E3. destruct E3 as (-> & B7 & _).
  destruct (c_files c) as [|r rs] eqn:EF.
  { cbn. unfold acceptable. rewrite Hm. intros (_ & _ & _ & _ & _ & (x & xs & A & _) & _). congruence. }
  destruct (forallb (isfile f) (r :: rs)) eqn:E4.
  2:{ cbn. unfold acceptable. rewrite Hm. intros (_ & _ & _ & _ & _ & _ & A). rewrite EF in A. assert (forallb (isfile f) (r :: rs) = true) by (apply forallb_forall; intros; apply isfile_iff; auto). congruence. }
  rewrite forallb_forall in E4.
  destruct (exists_ f (join (folder_of r) params_filename)) eqn:E5; cbn [negb].
  2:{ cbn. unfold acceptable. rewrite Hm. intros (_ & _ & _ & _ & _ & (x & xs & A & A2) & _). rewrite EF in A. inversion A; subst. apply exists_false in E5. contradiction. }
  apply exists_iff in E5. destruct (c_model c) as [m|] eqn:EM; [|exfalso; apply B2; auto].
  match goal with |- describes _ _ _ _ (with_logs _ ?n) => destruct (with_logs_ok f n) as (f' & -> & M); set (nn := n) in * end.
  split.
  - unfold acceptable. rewrite Hm. unfold acceptable_restart. rewrite EM, EI, EF. split; [discriminate|]. split; [exact B1|]. split; [discriminate|]. split; [exact B3|]. split; [exact B7|].
    split; [exists r, rs; auto|]. intros x Hx. apply isfile_iff. auto.
  - unfold selects. rewrite Hm. split; [reflexivity|]. split; [rewrite EI; exact B5|]. split; [exact M|]. cbn.
    split; [exists r, rs; auto|]. repeat split; auto. rewrite EF. reflexivity.
Qed.
Lemma new_describes f c : c_mode c <> Restart -> describes int_of folder_of f c (parse_new int_of f c).
Proof.
  intros Hm. assert (AC : acceptable int_of folder_of f c = acceptable_new int_of f c) by (unfold acceptable; destruct (c_mode c); congruence). unfold parse_new.
  destruct (opt (existing f) false (c_model c)) as [m|] eqn:E1.
  2:{ cbn. rewrite AC. intros (A & _). assert (opt (existing f) false (c_model c) = Some (c_model c)) by (apply opt_existing; repeat split; auto; discriminate). congruence. }
  destruct (opt (existing f) false (c_params c)) as [p|] eqn:E2.
  2:{ cbn. rewrite AC. intros (_ & A & _). assert (opt (existing f) false (c_params c) = Some (c_params c)) by (apply opt_existing; repeat split; auto; discriminate). congruence. }
  apply opt_existing in E1, E2. destruct E1 as (-> & B1 & _), E2 as (-> & B2 & _).
  destruct (c_folder c) as [d|] eqn:ED.
  2:{ cbn. rewrite AC. intros (_ & _ & _ & _ & _ & A & _). apply A. auto. }
  destruct (opt (positive_int int_of) (match c_mode c with Mcmc => true | _ => false end) (c_walkers c)) as [w|] eqn:E3.
  2:{ cbn. rewrite AC. intros (_ & _ & A1 & _ & _ & _ & _ & A2 & _).
      assert (opt (positive_int int_of) (match c_mode c with Mcmc => true | _ => false end) (c_walkers c) = Some (value_of int_of (c_walkers c)))
        by (apply opt_int; repeat split; auto; intros Q; apply A2; destruct (c_mode c); congruence). congruence. }
  apply opt_int in E3. destruct E3 as (-> & B3 & B4).
  destruct (opt (positive_int int_of) true (c_iterations c)) as [i|] eqn:E4.
  2:{ cbn. rewrite AC. intros (_ & _ & _ & A1 & _ & _ & A2 & _). assert (opt (positive_int int_of) true (c_iterations c) = Some (value_of int_of (c_iterations c))) by (apply opt_int; auto). congruence. }
  apply opt_int in E4. destruct E4 as (-> & B5 & B6).
  destruct (c_iterations c) as [si|] eqn:EI; [|exfalso; apply B6; auto]. destruct (B5 si eq_refl) as (vi & B7 & B8). cbn [value_of] in *. rewrite B7.
  destruct (opt (positive_int int_of) false (c_nchains c)) as [n|] eqn:E5.
  2:{ cbn. rewrite AC. intros (_ & _ & _ & _ & A & _). assert (opt (positive_int int_of) false (c_nchains c) = Some (value_of int_of (c_nchains c))) by (apply opt_int; repeat split; auto; discriminate). congruence. }
  apply opt_int in E5. destruct E5 as (-> & B9 & _).
  assert (OK : (given (c_params c) \/ exists d0, c_folder c = Some d0 /\ f d0 = Some Dir /\ f (join d0 "params.dat") <> None) -> acceptable int_of folder_of f c).
  { intros Q. rewrite AC. unfold acceptable_new. rewrite ED, EI in *. repeat split; auto; try (unfold given; discriminate). intros Q2. apply B4. rewrite Q2. auto. }
  assert (CH : (c_nchains c = None -> match value_of int_of (c_nchains c) with Some n => n | None => 1%Z end = 1%Z) /\
    (given (c_nchains c) -> value_of int_of (c_nchains c) = Some (match value_of int_of (c_nchains c) with Some n => n | None => 1%Z end))).
  { split; [intros ->; reflexivity|]. intros Q. destruct (c_nchains c) as [s|]; [|contradiction Q; auto]. destruct (B9 s eq_refl) as (v & Q1 & _). cbn. rewrite Q1. auto. }
  destruct (isdir f d) eqn:E6.
  - apply isdir_iff in E6.
    assert (MU : forall q, model_used f c d (if exists_ f (join d model_filename) then match c_model c with Some _ => c_model c | None => Some (join d model_filename) end else c_model c) /\ q = true \/ q = false).
    { intros [|]; [left|right; auto]. split; auto. destruct (c_model c) as [m|] eqn:EM; [destruct (exists_ f (join d model_filename)); rewrite ?EM; apply M_given; auto|].
      destruct (exists_ f (join d model_filename)) eqn:E7; [apply M_folder; auto; apply exists_iff; auto|apply M_none; auto]. apply exists_false in E7. intros [_ Q]. contradiction. }
    assert (MU' := MU true). destruct MU' as [[MU' _]|]; [|discriminate].
    destruct (exists_ f (join d params_filename)) eqn:E7.
    + apply exists_iff in E7. match goal with |- describes _ _ _ _ (with_logs _ ?n) => destruct (with_logs_ok f n) as (f' & -> & M); set (nn := n) in * end.
      split; [apply OK; right; exists d; auto|]. unfold selects. split; [reflexivity|]. split; [rewrite EI; exact B7|]. rewrite ED.
      split; [destruct (c_mode c); try congruence; apply made_more; auto; cbn; congruence|].
      assert (FD : f' d = Some Dir) by (destruct M as (_ & M2 & _); rewrite M2; congruence).
      destruct (c_mode c); try congruence; (split; [reflexivity|]; split; [apply P_folder; auto|]; split; [exact MU'|]; split; [reflexivity|]; destruct CH; auto).
    + apply exists_false in E7. destruct (c_params c) as [p|] eqn:EP.
      * match goal with |- describes _ _ _ _ (with_logs _ ?n) => destruct (with_logs_ok f n) as (f' & -> & M); set (nn := n) in * end.
        split; [apply OK; left; unfold given; discriminate|]. unfold selects. split; [reflexivity|]. split; [rewrite EI; exact B7|]. rewrite ED.
        split; [destruct (c_mode c); try congruence; apply made_more; auto; cbn; congruence|].
        assert (FD : f' d = Some Dir) by (destruct M as (_ & M2 & _); rewrite M2; congruence).
        destruct (c_mode c); try congruence; (split; [reflexivity|]; split; [apply P_given; [intros [_ Q]; contradiction|exact EP]|]; split; [exact MU'|]; split; [reflexivity|]; destruct CH; auto).
      * cbn. rewrite AC. intros (_ & _ & _ & _ & _ & _ & _ & _ & [A|(d' & A1 & A2 & A3)]); [apply A; auto|]. rewrite ED in A1. inversion A1; subst. contradiction.
  - apply isdir_false in E6. destruct (c_params c) as [p|] eqn:EP.
    + unfold makedirs. destruct (exists_ f d) eqn:E7.
      * apply exists_iff in E7. split; [apply OK; left; unfold given; discriminate|]. split; [reflexivity|]. split; [exact Hm|]. exists d. split; auto. destruct (f d) as [[|]|]; congruence.
      * apply exists_false in E7. match goal with |- describes _ _ _ _ (with_logs _ ?n) => destruct (with_logs_ok (set f d Dir) n) as (f' & -> & M); set (nn := n) in * end.
        split; [apply OK; left; unfold given; discriminate|]. unfold selects. split; [reflexivity|]. split; [rewrite EI; exact B7|]. rewrite ED.
        split; [destruct (c_mode c); try congruence; apply made_dir; auto|].
        assert (FD : f' d = Some Dir) by (destruct M as (_ & M2 & _); rewrite M2; rewrite set_same; congruence).
        assert (MU : model_used f c d (c_model c)) by (destruct (c_model c) eqn:EM; [apply M_given; auto|apply M_none; auto; tauto]).
        destruct (c_mode c); try congruence; (split; [reflexivity|]; split; [apply P_given; [tauto|exact EP]|]; split; [exact MU|]; split; [reflexivity|]; destruct CH; auto).
    + cbn. rewrite AC. intros (_ & _ & _ & _ & _ & _ & _ & _ & [A|(d' & A1 & A2 & A3)]); [apply A; auto|]. rewrite ED in A1. inversion A1; subst. contradiction.
Qed.
Lemma parse_describes f c : describes int_of folder_of f c (parse int_of folder_of f c).
Proof. unfold parse. destruct (c_mode c) eqn:E; [apply new_describes; congruence|apply new_describes; congruence|apply restart_describes; auto]. Qed.
End Cli.
