From Coq Require Import Reals List Lra.
From Coquelicot Require Import Coquelicot.
From Verif Require Import M_Zel S_Zel P_Simps P_Zel.
Import ListNotations.
Local Open Scope R_scope.
Ltac req := match goal with |- @eq _ ?a ?b => change (@eq R a b) end.
Lemma map4_maps f (g : R -> R) : forall a b c d, map4 f a (map g b) (map g c) (map g d) = map4 (fun r x y z => f r (g x) (g y) (g z)) a b c d.
Proof. induction a as [|x a IH]; intros [|y b] [|z c] [|w d]; cbn; try reflexivity. rewrite IH. reflexivity. Qed.
Lemma dlin (f : R -> R) (c x l : R) : is_derive f x l -> is_derive (fun s : R => c * f s) x (c * l).
Proof. intros H. pose proof (dmul (fun _ => c) f x 0 l (dconst c x) H) as D. cbv beta in D. replace (c * l) with (0 * f x + c * l) by ring. exact D. Qed.
Lemma dotw_derive (Q : R -> R -> Prop) (F : R -> R -> R -> R -> R -> R) (G : R -> R -> R -> R -> R) (s0 : R) : 
  (forall r x y z, Q x y -> is_derive (fun s => F s r x y z) s0 (G r x y z)) ->
  forall a b c d w, (forall x y, In (x, y) (combine b c) -> Q x y) ->
  is_derive (fun s => dotw w (map4 (F s) a b c d)) s0 (dotw w (map4 G a b c d)).
Proof.
  intros H. induction a as [|x a IH]; intros [|y b] [|z c] [|u d] w HQ; cbn [map4 dotw]; try apply dconst.
  apply dplus.
  - apply (dlin (fun s => F s x y z u)). apply H. apply HQ. left. reflexivity.
  - apply IH. intros p q Hp. apply HQ. right. exact Hp.
Qed.
Lemma rsum_derive (C : R) (F : nat -> R -> R) (G : nat -> R) (s0 : R) : forall l, (forall n, In n l -> is_derive (F n) s0 (G n)) ->
  is_derive (fun s => rsum (map (fun n => C * F n s) l)) s0 (rsum (map (fun n => C * G n) l)).
Proof.
  induction l as [|n l IH]; intros H; cbn [map rsum]; [apply dconst|]. apply dplus.
  - apply (dlin (F n)). apply H. left. reflexivity.
  - apply IH. intros m Hm. apply H. right. exact Hm.
Qed.
Lemma rho_derive (sg s0 : R) : sg <> 0 -> s0 <> 0 -> is_derive (fun s => (s/sg)^2) s0 (2/s0 * (s0/sg)^2).
Proof. intros A B. auto_derive; [auto|]. field. auto. Qed.
Lemma dexp (f : R -> R) (x l : R) : is_derive f x l -> is_derive (fun s => exp (f s)) x (l * exp (f x)).
Proof. intros H. apply (is_derive_comp exp f). apply is_derive_exp. exact H. Qed.
Lemma dpow (f : R -> R) n (x l : R) : is_derive f x l -> is_derive (fun s => (f s)^n) x (INR n * l * (f x)^(pred n)).
Proof. intros H. apply is_derive_pow. exact H. Qed.
Lemma dext (f g : R -> R) (x l : R) : (forall t, f t = g t) -> is_derive f x l -> is_derive g x l.
Proof. intros H. apply is_derive_ext. exact H. Qed.
Lemma deq (f : R -> R) (x l l' : R) : l = l' -> is_derive f x l -> is_derive f x l'.
Proof. intros ->. auto. Qed.

Section Pointwise.
Variables sg s0 : R.
Hypothesis Hsg : sg <> 0.
Hypothesis Hs0 : s0 <> 0.
Let rho s := (s/sg)^2.
Lemma d_rho c : is_derive (fun s => c * rho s) s0 (2/s0 * (c * rho s0)).
Proof. eapply deq; [|apply dlin; apply rho_derive; assumption]. unfold rho. ring. Qed.
(* e^{-k^2 u rho/2} and e^{-k^2 v rho} *)
Lemma d_e1 k xx yy : is_derive (fun s => exp (-(1/2)*k^2*(xx*rho s + yy*rho s))) s0
   (-(1/s0) * (k^2*(xx*rho s0 + yy*rho s0)) * exp (-(1/2)*k^2*(xx*rho s0 + yy*rho s0))).
Proof.
  eapply deq; [|apply dexp; apply dlin; apply dplus; apply d_rho]. cbv beta. field. assumption.
Qed.
Lemma d_e2 k v : is_derive (fun s => exp (-k^2*(v*rho s))) s0 (-(2/s0) * (k^2*(v*rho s0)) * exp (-k^2*(v*rho s0))).
Proof. eapply deq; [|apply dexp; apply dlin; apply d_rho]. cbv beta. field. assumption. Qed.
Lemma d_prim00 k v r x0 xx yy :
  is_derive (fun s => fprim1 P00 k (v*rho s) r (x0*rho s) (xx*rho s) (yy*rho s)) s0
            (-(1/s0) * fprim1 P01 k (v*rho s0) r (x0*rho s0) (xx*rho s0) (yy*rho s0)).
Proof.
  unfold fprim1. eapply deq; [|apply dlin; apply dminus; [apply d_e1|apply d_e2]]. cbv beta. field. assumption.
Qed.
Lemma d_prim01 k v r x0 xx yy : xx = x0 + 2 * v ->
  is_derive (fun s => fprim1 P01 k (v*rho s) r (x0*rho s) (xx*rho s) (yy*rho s)) s0
            (-(1/s0) * (fprim1 P11 k (v*rho s0) r (x0*rho s0) (xx*rho s0) (yy*rho s0) - 4*k^2*(v*rho s0)*fprim1 P00 k (v*rho s0) r (x0*rho s0) (xx*rho s0) (yy*rho s0))).
Proof.
  intros ->. unfold fprim1.
  eapply deq; [|apply dlin; apply dminus; [apply dmul; [apply dplus; apply d_rho|apply d_e1]|
     apply dmul; [|apply d_e2]]].
  2: eapply (dext (fun s => (2*v)*rho s)); [intros; ring|apply d_rho].
  cbv beta. set (E1 := exp _). set (E2 := exp _). set (W := Rpower _ _). set (p := rho s0). cbv beta. field. assumption.
Qed.
Lemma d_sec00 k n r x0 xx yy : n <> O ->
  is_derive (fun s => fsec1 P00 k n r (x0*rho s) (xx*rho s) (yy*rho s)) s0
            (-(1/s0) * fsec1 P01 k n r (x0*rho s0) (xx*rho s0) (yy*rho s0)).
Proof.
  intros Hn. unfold fsec1. destruct n as [|m]; [contradiction|].
  eapply (dext (fun s => Rpower r (3/2 - INR (S m)) * ((((k*yy)*rho s)^(S m)) * exp (-(1/2)*k^2*(xx*rho s + yy*rho s))))).
  { intros t. replace (k * (yy * rho t)) with (k * yy * rho t) by ring. ring. }
  eapply deq; [|apply dlin; apply dmul; [apply dpow; apply d_rho|apply d_e1]].
  cbv beta. cbn [pred]. replace (k * (yy * rho s0)) with (k * yy * rho s0) by ring. set (E1 := exp _). set (W := Rpower _ _). set (p := rho s0). set (N := INR (S m)).
  change ((k*yy*p)^(S m)) with ((k*yy*p) * (k*yy*p)^m). cbv beta. field. assumption.
Qed.
Lemma d_sec01 k n v r x0 xx yy : n <> O -> xx = x0 + 2 * v ->
  is_derive (fun s => fsec1 P01 k n r (x0*rho s) (xx*rho s) (yy*rho s)) s0
            (-(1/s0) * (fsec1 P11 k n r (x0*rho s0) (xx*rho s0) (yy*rho s0) - 4*k^2*(v*rho s0)*fsec1 P00 k n r (x0*rho s0) (xx*rho s0) (yy*rho s0))).
Proof.
  intros Hn ->. unfold fsec1. destruct n as [|m]; [contradiction|].
  eapply (dext (fun s => Rpower r (3/2 - INR (S m)) * ((((k*yy)*rho s)^(S m) * (k^2*((x0 + 2*v)*rho s + yy*rho s) - 2*INR (S m))) * exp (-(1/2)*k^2*((x0 + 2*v)*rho s + yy*rho s))))).
  { intros t. replace (k * (yy * rho t)) with (k * yy * rho t) by ring. ring. }
  eapply deq; [|apply dlin; apply dmul; [apply dmul; [apply dpow; apply d_rho|apply dminus; [apply dlin; apply dplus; apply d_rho|apply dconst]]|apply d_e1]].
  cbv beta. cbn [pred]. replace (k * (yy * rho s0)) with (k * yy * rho s0) by ring. set (E1 := exp _). set (W := Rpower _ _). set (p := rho s0). set (N := INR (S m)).
  change ((k*yy*p)^(S m)) with ((k*yy*p) * (k*yy*p)^m). cbv beta. field. assumption.
Qed.
End Pointwise.
Definition rescaled (s : R) (t : zel) : zel := match zel_set8 s (Some t) with Some u => u | None => t end.
Lemma dot_scale c : forall l w, dotw w (map (fun x => c * x) l) = c * dotw w l.
Proof. induction l as [|x l IH]; intros w; cbn [map dotw]; [ring|]. rewrite IH. ring. Qed.
Lemma map4_map (f : R -> R -> R -> R -> R) (g : R -> R) : forall a b c d, map4 (fun r x y z => g (f r x y z)) a b c d = map g (map4 f a b c d).
Proof. induction a as [|x a IH]; intros [|y b] [|z c] [|w d]; cbn; try reflexivity. rewrite IH. reflexivity. Qed.
Lemma dot_comb al be (f g h : R -> R -> R -> R -> R) : (forall r x y z, h r x y z = al * (f r x y z - be * g r x y z)) ->
  forall a b c d w, dotw w (map4 h a b c d) = al * (dotw w (map4 f a b c d) - be * dotw w (map4 g a b c d)).
Proof.
  intros H. induction a as [|x a IH]; intros [|y b] [|z c] [|u d] w; cbn [map4 dotw]; try ring. rewrite IH, H. ring.
Qed.
Lemma table_rescaled q t s k n : z_s8z t <> 0 -> let rho := (s / z_s8z t)^2 in
  table q (rescaled s t) k n = match n with
    | O => map4 (fun r x y z => fprim1 q k (z_sig2 t * rho) r (x*rho) (y*rho) (z*rho)) zel_r (z_X0 t) (z_XX t) (z_YY t)
    | _ => map4 (fun r x y z => fsec1 q k n r (x*rho) (y*rho) (z*rho)) zel_r (z_X0 t) (z_XX t) (z_YY t) end.
Proof.
  intros H rho. unfold rescaled, zel_set8. destruct (Req_EM_T (z_s8z t) 0) as [E|_]; [contradiction|].
  destruct n as [|n]; unfold table; cbn [z_sig2 z_X0 z_XX z_YY]; fold rho; rewrite map4_maps; reflexivity.
Qed.
Definition closed (t : zel) : Prop := z_s8z t <> 0 /\ z_XX t = map (fun x => x + 2 * z_sig2 t) (z_X0 t).
Lemma closed_pairs t : closed t -> forall x y, In (x, y) (combine (z_X0 t) (z_XX t)) -> y = x + 2 * z_sig2 t.
Proof.
  intros [_ E]. rewrite E. clear E. induction (z_X0 t) as [|x l IH]; intros a b Hi; cbn in Hi; [contradiction|]. destruct Hi as [Hi|Hi]; [injection Hi as <- <-; reflexivity|]. apply IH. exact Hi.
Qed.
Lemma table_derive01 t s0 k n w : z_s8z t <> 0 -> s0 <> 0 ->
  is_derive (fun s => dotw w (table P00 (rescaled s t) k n)) s0 (-(1/s0) * dotw w (table P01 (rescaled s0 t) k n)).
Proof.
  intros Ht H0. eapply dext; [intros s; rewrite (table_rescaled P00) by exact Ht; reflexivity|].
  rewrite (table_rescaled P01) by exact Ht. cbv zeta. destruct n as [|n].
  - rewrite <- dot_scale, <- (map4_map _ (fun x => -(1/s0) * x)).
    apply (dotw_derive (fun _ _ => True) (fun s r x y z => fprim1 P00 k (z_sig2 t * (s / z_s8z t)^2) r (x * (s / z_s8z t)^2) (y * (s / z_s8z t)^2) (z * (s / z_s8z t)^2))); [|auto].
    intros r x y z _. apply d_prim00; assumption.
  - rewrite <- dot_scale, <- (map4_map _ (fun x => -(1/s0) * x)).
    apply (dotw_derive (fun _ _ => True) (fun s r x y z => fsec1 P00 k (S n) r (x * (s / z_s8z t)^2) (y * (s / z_s8z t)^2) (z * (s / z_s8z t)^2))); [|auto].
    intros r x y z _. apply d_sec00; [assumption..|]. discriminate.
Qed.
Lemma table_derive11 t s0 k n w : closed t -> s0 <> 0 ->
  is_derive (fun s => dotw w (table P01 (rescaled s t) k n)) s0
    (-(1/s0) * (dotw w (table P11 (rescaled s0 t) k n) - 4*k^2*z_sig2 (rescaled s0 t)*dotw w (table P00 (rescaled s0 t) k n))).
Proof.
  intros Hc H0. pose proof Hc as [Ht _]. eapply dext; [intros s; rewrite (table_rescaled P01) by exact Ht; reflexivity|].
  rewrite (table_rescaled P11), (table_rescaled P00) by exact Ht. cbv zeta.
  assert (Es : z_sig2 (rescaled s0 t) = z_sig2 t * (s0 / z_s8z t)^2).
  { unfold rescaled, zel_set8. destruct (Req_EM_T (z_s8z t) 0) as [E|_]; [contradiction|reflexivity]. }
  rewrite Es. destruct n as [|n].
  - eapply deq; [apply dot_comb; intros; reflexivity|].
    apply (dotw_derive (fun x y => y = x + 2 * z_sig2 t) (fun s r x y z => fprim1 P01 k (z_sig2 t * (s / z_s8z t)^2) r (x * (s / z_s8z t)^2) (y * (s / z_s8z t)^2) (z * (s / z_s8z t)^2))); [|apply closed_pairs; exact Hc].
    intros r x y z Hq. apply d_prim01; assumption.
  - eapply deq; [apply dot_comb; intros; reflexivity|].
    apply (dotw_derive (fun x y => y = x + 2 * z_sig2 t) (fun s r x y z => fsec1 P01 k (S n) r (x * (s / z_s8z t)^2) (y * (s / z_s8z t)^2) (z * (s / z_s8z t)^2))); [|apply closed_pairs; exact Hc].
    intros r x y z Hq. apply d_sec01; [assumption..|discriminate|exact Hq].
Qed.
Lemma rsum_lin (f g h : nat -> R) a b : (forall n, h n = a * f n + b * g n) -> forall l, rsum (map h l) = a * rsum (map f l) + b * rsum (map g l).
Proof. intros H. induction l as [|n l IH]; cbn [map rsum]; [ring|]. rewrite IH, H. ring. Qed.
Theorem p01_derivative N t s0 k : linear_transform N -> z_s8z t <> 0 -> s0 <> 0 ->
  is_derive (fun s => fftlog_compute N P00 (rescaled s t) k) s0 (2/s0 * fftlog_compute N P01 (rescaled s0 t) k).
Proof.
  intros [w Hw] Ht H0. unfold fftlog_compute.
  eapply deq; [|apply (rsum_derive (factor P00 * sqrt (1/2*PI) * Rpower k (-(3/2))) (fun n s => n_fft N n k (table P00 (rescaled s t) k n)) (fun n => -(1/s0) * dotw (w n k) (table P01 (rescaled s0 t) k n)))].
  - rewrite (rsum_lin (fun n => factor P01 * sqrt (1/2*PI) * Rpower k (-(3/2)) * n_fft N n k (table P01 (rescaled s0 t) k n)) (fun _ => 0) _ (2/s0) 0).
    + ring.
    + intros n. rewrite Hw. cbn [factor]. field. exact H0.
  - intros n _. eapply dext; [intros s; symmetry; apply Hw|]. apply table_derive01; assumption.
Qed.
Theorem p11_derivative N t s0 k : linear_transform N -> closed t -> s0 <> 0 ->
  is_derive (fun s => fftlog_compute N P01 (rescaled s t) k) s0
    (2/s0 * (fftlog_compute N P11 (rescaled s0 t) k - k^2 * z_sig2 (rescaled s0 t) * fftlog_compute N P00 (rescaled s0 t) k)).
Proof.
  intros [w Hw] Hc H0. unfold fftlog_compute. set (v := z_sig2 (rescaled s0 t)).
  eapply deq; [|apply (rsum_derive (factor P01 * sqrt (1/2*PI) * Rpower k (-(3/2))) (fun n s => n_fft N n k (table P01 (rescaled s t) k n))
     (fun n => -(1/s0) * (dotw (w n k) (table P11 (rescaled s0 t) k n) - 4*k^2*v*dotw (w n k) (table P00 (rescaled s0 t) k n))))].
  - rewrite (rsum_lin (fun n => factor P11 * sqrt (1/2*PI) * Rpower k (-(3/2)) * n_fft N n k (table P11 (rescaled s0 t) k n))
        (fun n => factor P00 * sqrt (1/2*PI) * Rpower k (-(3/2)) * n_fft N n k (table P00 (rescaled s0 t) k n)) _ (2/s0) (-(2/s0) * (k^2 * v))).
    + ring.
    + intros n. rewrite !Hw. cbn [factor]. field. exact H0.
  - intros n _. eapply dext; [intros s; symmetry; apply Hw|]. apply table_derive11; assumption.
Qed.
(** the low-k branch *)
Lemma lin_rescaled N c t s k : normalised N c -> z_s8z t <> 0 -> l_s8z (z_lin t) = z_s8z t ->
  lin_eval c (z_lin (rescaled s t)) k = (s / z_s8z t)^2 * lin_eval c (z_lin t) k.
Proof.
  intros [Hc _] Ht Hl. unfold rescaled, zel_set8. destruct (Req_EM_T (z_s8z t) 0) as [E|_]; [contradiction|]. cbn [z_lin lin_set].
  unfold lin_eval, lin_set. cbn [l_s8z]. rewrite Hl. field. auto.
Qed.
Lemma sig_rescaled t s : z_s8z t <> 0 -> z_sig2 (rescaled s t) = z_sig2 t * (s / z_s8z t)^2.
Proof. intros Ht. unfold rescaled, zel_set8. destruct (Req_EM_T (z_s8z t) 0) as [E|_]; [contradiction|reflexivity]. Qed.
Lemma q3_rescaled N c t s k : homogeneous (n_int N) -> normalised N c -> z_s8z t <> 0 -> l_s8z (z_lin t) = z_s8z t ->
  Q3_zel N (lin_eval c (z_lin (rescaled s t))) k = ((s / z_s8z t)^2)^2 * Q3_zel N (lin_eval c (z_lin t)) k.
Proof.
  intros Hh Hn Ht Hl. unfold Q3_zel. rewrite (Hh (((s / z_s8z t)^2)^2) (fun q => lin_eval c (z_lin t) q * lin_eval c (z_lin t) q / q / q)).
  - ring.
  - intros x. rewrite !(lin_rescaled N) by assumption. unfold Rdiv. ring.
Qed.
Lemma lowk_rescaled N c t s k q : homogeneous (n_int N) -> normalised N c -> z_s8z t <> 0 -> l_s8z (z_lin t) = z_s8z t ->
  let rho := (s / z_s8z t)^2 in let P := lin_eval c (z_lin t) k in let Q := Q3_zel N (lin_eval c (z_lin t)) k in let v := z_sig2 t in
  lowk N q c (rescaled s t) k = match q with
   | P00 => (1 - k^2*(v*rho) + 1/2*k^4*(v*rho)^2) * (P*rho) + 1/2 * (Q*rho^2)
   | P01 => (1 - 2*k^2*(v*rho)) * (P*rho) + Q*rho^2
   | P11 => (1 - 3*k^2*(v*rho)) * (P*rho) + 3/2 * (Q*rho^2) end.
Proof.
  intros Hh Hn Ht Hl rho P Q v. unfold lowk. cbv zeta. rewrite (lin_rescaled N) by assumption. rewrite q3_rescaled by assumption. rewrite sig_rescaled by assumption.
  fold rho P Q v. destruct q; ring.
Qed.
Theorem lowk_p01 N c t s0 k : homogeneous (n_int N) -> normalised N c -> z_s8z t <> 0 -> l_s8z (z_lin t) = z_s8z t -> s0 <> 0 ->
  is_derive (fun s => lowk N P00 c (rescaled s t) k) s0
    (2/s0 * (lowk N P01 c (rescaled s0 t) k + 3/2*k^4*(z_sig2 (rescaled s0 t))^2 * lin_eval c (z_lin (rescaled s0 t)) k)).
Proof.
  intros Hh Hn Ht Hl H0. eapply dext; [intros s; symmetry; apply lowk_rescaled; assumption|].
  rewrite (lowk_rescaled N c t s0 k P01) by assumption. rewrite sig_rescaled by assumption. rewrite (lin_rescaled N) by assumption. cbv zeta.
  set (P := lin_eval c (z_lin t) k). set (Q := Q3_zel N _ k). set (v := z_sig2 t). set (sg := z_s8z t) in *.
  eapply deq; [|auto_derive; [auto|reflexivity]]. field. auto.
Qed.
Theorem lowk_p11 N c t s0 k : homogeneous (n_int N) -> normalised N c -> z_s8z t <> 0 -> l_s8z (z_lin t) = z_s8z t -> s0 <> 0 ->
  let v := z_sig2 (rescaled s0 t) in let P := lin_eval c (z_lin (rescaled s0 t)) in
  is_derive (fun s => lowk N P01 c (rescaled s t) k) s0
    (2/s0 * (lowk N P11 c (rescaled s0 t) k - k^2*v*lowk N P00 c (rescaled s0 t) k +
      (1/2*(1 + k^2*v)*Q3_zel N P k - (k^4*v^2 - 1/2*k^6*v^3)*P k))).
Proof.
  intros Hh Hn Ht Hl H0 v P. eapply dext; [intros s; symmetry; apply lowk_rescaled; assumption|].
  unfold v, P. rewrite !(lowk_rescaled N c t s0 k) by assumption. rewrite sig_rescaled by assumption. rewrite (lin_rescaled N) by assumption. rewrite q3_rescaled by assumption. cbv zeta.
  set (Pk := lin_eval c (z_lin t) k). set (Q := Q3_zel N _ k). set (w := z_sig2 t). set (sg := z_s8z t) in *.
  eapply deq; [|auto_derive; [auto|reflexivity]]. field. auto.
Qed.
