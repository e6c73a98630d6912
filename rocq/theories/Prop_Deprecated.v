(** Property theorem C71: the deprecated acceptance functions agree with the current ones. *)

From Coq Require Import ZArith QArith Bool Lia List Reals Lra.
From Verif Require Import Base Num Samplers Deprecated SamplerFacts RVec BalanceSpec BalanceFacts StatsFacts.
Import ListNotations.
Close Scope Q_scope.
Open Scope list_scope.
Open Scope R_scope.

Definition positive (sg : list R) : Prop := Forall (fun s => 0 < s) sg.
Definition an_array {F} (p q : @prior_value F) : Prop := match p, q with PNumber _, PNumber _ => False | _, _ => True end.

Lemma sum_array (p q : @prior_value XR) x : an_array p q -> sum_result p q (Fin x) = Ok (Fin x).
Proof. intros H. destruct p, q; try easy; unfold sum_result; rewrite XR_n0, XR_nadd, Rplus_0_l; reflexivity. Qed.

Lemma sub_fin a b : length a = length b -> map2 (@nsub XR _) (fin a) (fin b) = fin (map2 Rminus a b).
Proof. revert b; induction a as [|x a IH]; intros [|y b] H; simpl in H; try lia; auto. cbn [fin map map2]. f_equal. apply IH. lia. Qed.

Lemma mulinv_fin a b : positive b -> length a = length b ->
  map2 (@nmul XR _) (fin a) (map ninv (fin b)) = fin (map2 Rdiv a b).
Proof.
  intros H. revert a; induction H as [|y b Hy H IH]; intros [|x a] HL; simpl in HL; try lia; auto.
  cbn [fin map map2]. f_equal; [rewrite XR_ninv by lra; reflexivity|]. apply IH. lia.
Qed.

Lemma map2_len {A B C} (f : A -> B -> C) a b : length a = length b -> length (map2 f a b) = length a.
Proof. revert b; induction a as [|x a IH]; intros [|y b] H; simpl in *; try lia; auto with arith. Qed.

Lemma Rsum_cons x l : Rsum (x :: l) = x + Rsum l. Proof. reflexivity. Qed.

Lemma Rsum_minus a b : length a = length b -> Rsum (map2 Rminus a b) = Rsum a - Rsum b.
Proof.
  revert b; induction a as [|x a IH]; intros [|y b] H; simpl in H; try lia; [cbn; lra|].
  cbn [map2]. rewrite Rsum_cons, Rsum_cons, Rsum_cons, IH by lia. lra.
Qed.

Lemma div_minus a b s : length a = length s -> length b = length s ->
  map2 Rdiv (map2 Rminus a b) s = map2 Rminus (map2 Rdiv a s) (map2 Rdiv b s).
Proof.
  revert b s; induction a as [|x a IH]; intros [|y b] [|z s] H H'; simpl in H, H'; try lia; auto.
  cbn [map2]. f_equal; [unfold Rdiv; ring|apply IH; lia].
Qed.

(** The ratio of the posterior densities, whatever the two sets. *)
Theorem C71_posterior_ratio :
  forall sg ss1 ss2 pnew pold p1 p2, positive sg -> length ss1 = length sg -> length ss2 = length sg ->
  an_array pnew pold -> pv pnew = Fin p1 -> pv pold = Fin p2 ->
  calculate_posterior_ratio (fin ss1) (fin ss2) (fin sg) pnew pold =
    Ok (Fin (exp (log_post sg ss1 p1) / exp (log_post sg ss2 p2))) /\
  (exists l1 l2, loglik (fin ss1) (fin sg) = Ok l1 /\ loglik (fin ss2) (fin sg) = Ok l2 /\
    Ok (nexp (calculate_log_posterior_ratio l1 l2 (nmul mhalf (pv pnew)) (nmul mhalf (pv pold)))) =
    calculate_posterior_ratio (fin ss1) (fin ss2) (fin sg) pnew pold).
Proof.
  intros sg ss1 ss2 pnew pold p1 p2 Hsg H1 H2 Ha E1 E2.
  assert (HR : calculate_posterior_ratio (fin ss1) (fin ss2) (fin sg) pnew pold =
    Ok (Fin (exp (log_post sg ss1 p1 - log_post sg ss2 p2)))).
  { unfold calculate_posterior_ratio, bcast2. rewrite !fin_length, H1, H2, Nat.eqb_refl. cbn [bind].
    rewrite sub_fin by lia. rewrite fin_length, map_length, fin_length, map2_len, H1, Nat.eqb_refl by lia. cbn [bind].
    rewrite mulinv_fin by (try assumption; rewrite map2_len; lia). rewrite vsum_fin, E1, E2, XR_nadd, XR_nsub, XR_mhalf, XR_nmul.
    change (@nexp XR _ (Fin ?x)) with (@Fin R (exp x)).
    rewrite div_minus, Rsum_minus by (rewrite ?map2_len; lia).
    rewrite sum_array by assumption. do 3 f_equal. unfold log_post. lra. }
  split.
  - rewrite HR. unfold Rminus, Rdiv. rewrite exp_plus, exp_Ropp. reflexivity.
  - eexists _, _. rewrite !loglik_fin by assumption. split; [reflexivity|]. split; [reflexivity|].
    rewrite E1, E2, log_post_ratio, HR. reflexivity.
Qed.
Print Assumptions C71_posterior_ratio.

(** Its logarithm in the module on delayed rejection; the two sets may have different error variances. *)
Theorem C71_log_posterior_ratio :
  forall th1 th2 sg1 sg2 ss1 ss2 pr1 pr2 al1 al2 pold pnew p1 p2, positive sg1 -> positive sg2 ->
  length ss1 = length sg1 -> length ss2 = length sg2 -> length sg1 = length sg2 ->
  an_array pold pnew -> pv pold = Fin p1 -> pv pnew = Fin p2 ->
  log_posterior_ratio (mkpset th1 (fin ss1) pr1 (fin sg1) al1) (mkpset th2 (fin ss2) pr2 (fin sg2) al2) pold pnew =
    Ok (Fin (log_post sg2 ss2 p2 - log_post sg1 ss1 p1)).
Proof.
  intros th1 th2 sg1 sg2 ss1 ss2 pr1 pr2 al1 al2 pold pnew p1 p2 Hs1 Hs2 H1 H2 H12 Ha E1 E2.
  unfold log_posterior_ratio, bcast2. cbn [p_ss p_sigma2].
  rewrite !map_length, !fin_length, H1, H2, !Nat.eqb_refl. cbn [bind].
  rewrite !mulinv_fin by assumption. rewrite !fin_length, !map2_len, H1, H2, H12, Nat.eqb_refl by assumption. cbn [bind].
  rewrite sub_fin, vsum_fin, E1, E2, XR_nadd, XR_nsub, XR_mhalf, XR_nmul by (rewrite !map2_len; lia).
  rewrite Rsum_minus, sum_array by (try assumption; rewrite !map2_len; lia). do 2 f_equal. unfold log_post. lra.
Qed.
Print Assumptions C71_log_posterior_ratio.

(** With priors that are plain numbers neither of them works. *)
Theorem C71_number_priors_fail :
  forall (F : Type) (NF : Num F) (sg ss1 ss2 : list F) a b, length ss1 = length sg -> length ss2 = length sg ->
  calculate_posterior_ratio ss1 ss2 sg (PNumber a) (PNumber b) = Err TypeError /\
  (forall x1 x2, p_ss x1 = ss1 -> p_sigma2 x1 = sg -> p_ss x2 = ss2 -> p_sigma2 x2 = sg ->
    log_posterior_ratio x1 x2 (PNumber a) (PNumber b) = Err TypeError).
Proof.
  intros F NF sg ss1 ss2 a b H1 H2. split.
  - unfold calculate_posterior_ratio, bcast2. rewrite H1, H2, Nat.eqb_refl. cbn [bind].
    rewrite map2_len, map_length, H1, Nat.eqb_refl by lia. reflexivity.
  - intros x1 x2 A1 A2 A3 A4. unfold log_posterior_ratio, bcast2. rewrite A1, A2, A3, A4, !map_length, H1, H2, Nat.eqb_refl. cbn [bind].
    rewrite !map2_len, H1, H2, Nat.eqb_refl by (rewrite map_length; lia). reflexivity.
Qed.
Print Assumptions C71_number_priors_fail.

(** Both tests accept exactly if the uniform number is below min(1, ratio), for the ratio as well as for its logarithm; the
    test of the logarithm always takes one number of the stream, that of the ratio only if the ratio is below one. *)
Theorem C71_same_decision :
  forall E s a u, s_unif (e_str E) (io_pos s) = Fin u -> 0 <= u < 1 ->
  let old := acceptance_test E (Fin (exp a)) s in
  let new := log_posterior_ratio_acceptance_test E (Fin a) s in
  fst old = fst new /\ (fst old = true <-> u < Rmin 1 (exp a)) /\
  io_pos (snd new) = S (io_pos s) /\ io_pos (snd old) = (if Rltb a 0 then S (io_pos s) else io_pos s) /\
  io_calls (snd old) = io_calls s /\ io_value (snd old) = io_value s.
Proof.
  intros E s a u Hu Hb. cbv zeta. unfold acceptance_test, log_posterior_ratio_acceptance_test, rand. rewrite Hu.
  pose proof (log_test u a Hb) as HL. rewrite XR_n1, XR_nle. destruct (Rleb 1 (exp a)) eqn:H1; cbn [fst snd io_pos io_calls io_value].
  - apply Rleb_true in H1. assert (0 <= a) as H0.
    { destruct (Rle_or_lt 0 a); auto. apply exp_increasing in H. rewrite exp_0 in H. lra. }
    replace (Rltb a 0) with false by (symmetry; apply Rltb_false; lra).
    assert (u < Rmin 1 (exp a)) as HM by (unfold Rmin; destruct (Rle_dec 1 (exp a)); lra).
    rewrite (proj2 HL HM). repeat split; auto.
  - apply Rleb_false in H1. assert (a < 0) as H0.
    { destruct (Rlt_or_le a 0); auto. exfalso. destruct (Req_dec a 0) as [->|]; [rewrite exp_0 in H1; lra|].
      assert (0 < a) as Hp by lra. apply exp_increasing in Hp. rewrite exp_0 in Hp. lra. }
    replace (Rltb a 0) with true by (symmetry; apply Rltb_true; lra). rewrite XR_nlt.
    assert (HM : Rmin 1 (exp a) = exp a) by (unfold Rmin; destruct (Rle_dec 1 (exp a)); lra).
    assert (HQ : Rltb u (exp a) = true <-> u < Rmin 1 (exp a)) by (rewrite HM; apply Rltb_true).
    split; [|repeat split; auto; apply HQ].
    destruct (Rltb u (exp a)), (nlt (nlog (Fin u)) (Fin a)); auto; [symmetry; apply HL, HQ|apply HQ, HL]; auto.
Qed.
Print Assumptions C71_same_decision.

Example C71_case : positive [2; 3] /\ an_array (PArray (Fin 1 : XR)) (PNumber (Fin 0)) /\
  calculate_posterior_ratio (fin [4; 6]) (fin [2; 6]) (fin [2; 3]) (PArray (Fin 1)) (PNumber (Fin 0)) = Ok (Fin (exp (- 1))).
Proof.
  assert (positive [2; 3]) as HP by (repeat constructor; lra). split; [exact HP|]. split; [exact I|].
  destruct (C71_posterior_ratio [2; 3] [4; 6] [2; 6] (PArray (Fin 1)) (PNumber (Fin 0)) 1 0 HP eq_refl eq_refl I eq_refl eq_refl)
    as [-> _]. do 2 f_equal. unfold log_post. cbn [map2]. rewrite !Rsum_cons. change (Rsum []) with 0.
  unfold Rdiv at 1. rewrite <- exp_Ropp, <- exp_plus. f_equal. lra.
Qed.
