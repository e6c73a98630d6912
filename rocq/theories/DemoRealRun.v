(** A whole run over the extended reals, executed symbolically: one parameter, adaptive Metropolis,
    4 simulations with an adaptation at the second, constant sum of squares (every candidate is accepted),
    all normal draws 1, all uniform draws 1/4. *)

From Coq Require Import ZArith QArith Bool Lia List String Reals Lra.
From Verif Require Import Base Num Samplers Adapt Settings Simulator SamplerFacts RVec RMat StatSpec CovFacts AdaptFacts InitFacts.
Import ListNotations.
Close Scope Q_scope.
Open Scope list_scope.
Open Scope R_scope.

(** Factorisation and inverse of 1 x 1 and 2 x 2 matrices. *)
Definition real_chol (M : list (list XR)) : option (list (list XR)) :=
  match M with
  | [[Fin a]] => if Rltb 0 a then Some [[Fin (sqrt a)]] else None
  | [[Fin a; Fin _]; [Fin b; Fin d]] =>
      if Rltb 0 a && Rltb 0 (d - b * b / a)
      then Some [[Fin (sqrt a); Fin 0]; [Fin (b / sqrt a); Fin (sqrt (d - b * b / a))]]
      else None
  | _ => None
  end.
Definition real_inv (M : list (list XR)) : option (list (list XR)) :=
  match M with
  | [[Fin a]] => if Reqb a 0 then None else Some [[Fin (/ a)]]
  | [[Fin a; Fin b]; [Fin c; Fin d]] =>
      if Reqb (a * d - b * c) 0 then None
      else Some [[Fin (d / (a * d - b * c)); Fin (- b / (a * d - b * c))];
                 [Fin (- c / (a * d - b * c)); Fin (a / (a * d - b * c))]]
  | _ => None
  end.

Definition flat_env : env XR :=
  mkenv (fun _ => [Fin 1]) (fun _ _ _ => Fin 0) (mkstream (fun _ => Fin 1) (fun _ => Fin (1 / 4)))
        real_chol real_inv 10.
Definition flat_params : list (param XR) := [mkparam "a" (Fin 0) NInf PInf (Fin 0) PInf true true].
Definition flat_data : data XR := add_data_set empty_data [] (YArray [4; 1])%nat [] None n1.
Definition flat_raw (m : method) : rawopts XR :=
  mkraw 4 m (Some 2%Z) None None (Some (Fin 2)) None 0%Z 0%Z (Some [[Fin 1]]) None false (Fin (1 / 1000)) (Fin 10)
        (Fin (234 / 1000)) (Fin (7 / 10)) [Fin 5; Fin 4; Fin 3] None 0%Z
        "chainfile" "sschainfile" "s2chainfile" "covchainfile" (Some "log"%string) false false false false None None.
Definition flat_model : modset XR := define_model_settings (Some [Fin 1]) None None None None.
Definition flat (m : method) : mcmc XR :=
  new_mcmc flat_params flat_data flat_model (define_simulation_options (flat_raw m) "") 0 [].


Lemma Rltb_true a b : a < b -> Rltb a b = true.
Proof. intros. unfold Rltb. destruct (Rlt_dec a b); auto; try contradiction; lra. Qed.
Lemma Rltb_false a b : b <= a -> Rltb a b = false.
Proof. intros. unfold Rltb. destruct (Rlt_dec a b); auto; lra. Qed.
Lemma Reqb_true a b : a = b -> Reqb a b = true.
Proof. intros. unfold Reqb. destruct (Req_EM_T a b); auto; try contradiction; lra. Qed.
Lemma Reqb_false a b : a <> b -> Reqb a b = false.
Proof. intros. unfold Reqb. destruct (Req_EM_T a b); auto; try contradiction; lra. Qed.
Lemma Rleb_true a b : a <= b -> Rleb a b = true.
Proof. intros. unfold Rleb. destruct (Rle_dec a b); auto; try contradiction; lra. Qed.
Lemma Rleb_false a b : b < a -> Rleb a b = false.
Proof. intros. unfold Rleb. destruct (Rle_dec a b); auto; lra. Qed.
Lemma q0 : Q2R 0 = 0. Proof. unfold Q2R; simpl; lra. Qed.
Lemma q1 : Q2R 1 = 1. Proof. unfold Q2R; simpl; lra. Qed.
Lemma qh : Q2R (-1 # 2) = - (1 / 2). Proof. unfold Q2R; simpl; lra. Qed.
Lemma ln_quarter : ln (1 / 4) < 0.
Proof. rewrite <- ln_1. apply ln_increasing; lra. Qed.


Ltac ar := pose proof ln_quarter; lra.
Ltac dec1 :=
  match goal with
  | |- context [Rltb ?a ?b] => first [rewrite (Rltb_true a b) by ar | rewrite (Rltb_false a b) by ar]
  | |- context [Rleb ?a ?b] => first [rewrite (Rleb_true a b) by ar | rewrite (Rleb_false a b) by ar]
  | |- context [Reqb ?a ?b] => first [rewrite (Reqb_true a b) by ar | rewrite (Reqb_false a b) by ar]
  end.
Ltac decs := repeat (dec1; cbv iota beta).
Ltac red_real := cbv -[Rplus Rminus Rmult Rdiv Rinv Ropp Rabs R_sqrt.sqrt exp ln Rpower Q2R Rltb Rleb Reqb IZR
   loglik log_posterior_ratio_acceptance_test run_adaptation check_adascale].

Lemma flat_loglik : loglik [@Fin R 1] [Fin 1] = Ok (Fin (- (1 / 2))).
Proof. red_real. cbv [loglik]. red_real. rewrite ?q0, ?qh. decs. do 2 f_equal. lra. Qed.
Lemma flat_test E a s : (forall k, s_unif (e_str E) k = Fin (1 / 4)) -> 0 <= a ->
  log_posterior_ratio_acceptance_test E (Fin a) s = (true, mkio (S (io_pos s)) (io_value s) (io_calls s)).
Proof.
  intros HE H. destruct s. destruct E as [? ? [? u] ? ? ?]. cbn in HE. cbv [log_posterior_ratio_acceptance_test]. red_real. rewrite HE, ?q0. dec1.
  rewrite Rltb_true; [reflexivity|]. pose proof ln_quarter. lra.
Qed.


Lemma flat_scale : check_adascale (Some (@Fin R 2)) 1 = Fin 2.
Proof. cbv [check_adascale]. red_real. rewrite ?q0. decs. reflexivity. Qed.


Lemma flat_stats : update_covariance_mean_sum (finm [[0]; [1]]) [n1] None
  = Some ([[Fin (1 / 2)]], [Fin (1 / 2)], @Fin R 2).
Proof.
  change [@n1 XR _] with (fin [Q2R 1]). rewrite q1.
  transitivity (@known 1 ([] ++ seg_sample ([[0]; [1]], [1]))).
  - apply (update_spec 1 ([[0]; [1]], [1]) []); [lia| |constructor].
    split; [|split; [left; reflexivity|constructor; [lra|constructor]]]. intros r [<- | [<- | []]]; reflexivity.
  - cbn [app]. rewrite unit_seg. cbn [known unit_weights map]. unfold stats_of, table, vtab, finm, fin. cbn [map seq].
    assert (H1 : mean [([0], 1); ([1], 1)] 0 = 1 / 2) by (unfold mean, total; cbn; field).
    assert (H2 : covariance [([0], 1); ([1], 1)] 0 0 = 1 / 2) by (unfold covariance, scatter_sum; rewrite H1; unfold total; cbn; field).
    assert (H3 : total [([0], 1); ([1], 1)] = 2) by (unfold total; cbn; ring).
    now rewrite H1, H2, H3.
Qed.

Definition flat_cov : covst XR := mkcov [[Fin 1]] [[Fin 1]] (Fin 2) [false] None None None 0 RUnset None.
Definition flat_cov2 : covst XR :=
  mkcov [[Fin (sqrt (1 / 2) * 2)]] [[Fin 1]] (Fin 2) [false] (Some [[Fin (1 / 2)]]) (Some [Fin (1 / 2)]) (Some (Fin 2)) 2 RNone None.
Lemma flat_adapt E o i ii rj ch u al : e_chol E = real_chol -> ao_burnintime o = 0%Z -> ao_doram o = false -> ao_ntry o = 1%nat ->
  firstn 2 ch = finm [[0]; [1]] -> i = 2%nat ->
  run_adaptation E flat_cov o i ii rj ch 2 u 1 al = Ok flat_cov2.
Proof.
  intros HE Hb Hd Hn Hc ->. unfold run_adaptation. rewrite Hb, Hd, Hn.
  replace (slice (c_last flat_cov) 2 ch) with (finm [[0]; [1]]) by (destruct ch as [|? [|? ?]]; symmetry; exact Hc).
  replace (update_covariance_mean_sum (finm [[0]; [1]]) [n1] (cov_stats flat_cov)) with
    (Some ([[@Fin R (1 / 2)]], [@Fin R (1 / 2)], @Fin R 2)) by (symmetry; exact flat_stats).
  cbn -[check_for_singular_cov_matrix]. unfold check_for_singular_cov_matrix, is_semi_pos_def_chol. rewrite HE.
  unfold real_chol. rewrite Rltb_true by lra. reflexivity.
Qed.

Ltac known :=
  repeat match goal with
  | |- context [@check_adascale ?F ?N ?a ?n] => replace (@check_adascale F N a n) with (@Fin R 2) by (symmetry; exact flat_scale)
  | |- context [@loglik ?F ?N ?a ?n] => replace (@loglik F N a n) with (@Ok XR (@Fin R (- (1 / 2)))) by (symmetry; exact flat_loglik)
  end.
Ltac tidy := known; rewrite ?q0, ?q1, ?qh; decs; rewrite ?sqrt_1, ?Rmult_1_l, ?Rmult_1_r, ?Rplus_0_l, ?Rplus_0_r.
Ltac red_step := cbv -[Rplus Rminus Rmult Rdiv Rinv Ropp Rabs R_sqrt.sqrt exp ln Rpower Q2R Rltb Rleb Reqb IZR
   loglik log_posterior_ratio_acceptance_test run_adaptation check_adascale step real_chol real_inv delayed_rejection_call].
Ltac accept :=
  match goal with
  | |- context [@log_posterior_ratio_acceptance_test ?F ?N ?E (Fin ?a) ?s] =>
    replace (@log_posterior_ratio_acceptance_test F N E (Fin a) s) with (true, mkio (S (io_pos s)) (io_value s) (io_calls s))
      by (symmetry; apply (flat_test E a s); [reflexivity|rewrite ?qh; lra])
  end.
Ltac adapts :=
  match goal with
  | |- context [@run_adaptation ?F ?N ?E ?c ?o ?i ?ii ?rj ?ch ?ci ?u ?n ?al] =>
    replace (@run_adaptation F N E c o i ii rj ch ci u n al) with (@Ok (covst XR) flat_cov2)
      by (symmetry; apply (flat_adapt E o i ii rj ch u al); reflexivity)
  | _ => idtac
  end.

Ltac one_step :=
  match goal with
  | |- context [@step ?F ?N ?E ?K ?i ?st] =>
     let H := fresh in
     eassert (H : @step F N E K i st = Ok _);
       [ unfold step; red_step; known; red_step; accept; red_step; adapts;
         rewrite ?q0, ?q1, ?qh, ?sqrt_1, ?Rmult_1_l, ?Rmult_1_r, ?Rplus_0_l, ?Rplus_0_r; reflexivity
       | rewrite H; clear H; red_step ]
  end.


Ltac run_flat M :=
  let HI := fresh in
  eassert (HI : initialize_simulation flat_env flat_params flat_data flat_model
   (define_simulation_options (flat_raw M) "") RUnset 0 [] = Ok _);
  [red_real; cbv [real_inv]; tidy; tidy; reflexivity|];
  cbv [run_simulation]; change (o_restart (m_opts (flat M))) with (@None (restart XR)); cbv iota beta delta [bind];
    change (initialize_simulation _ _ _ _ _ _ _ _) with (initialize_simulation flat_env flat_params flat_data flat_model
   (define_simulation_options (flat_raw M) "") RUnset 0 []); rewrite HI; clear HI; red_step;
   one_step; one_step; one_step; rewrite ?q0, ?q1; reflexivity.

Lemma flat_run : exists m', run_simulation flat_env false (flat AM) = Ok m' /\
  m_chain m' = finm [[0]; [1]; [2]; [2 + 2 * sqrt (1 / 2)]] /\
  map (@ev_cov XR) (rev (m_trace m')) = [flat_cov; flat_cov; flat_cov2].
Proof.
  eexists. split; [run_flat AM|split; [|reflexivity]].
  cbn [m_chain]. unfold finm, fin. cbn [map].
  replace (2 + 2 * sqrt (1 / 2)) with (1 + 1 + sqrt (1 / 2) * 2) by lra.
  replace (@Fin R 2) with (@Fin R (1 + 1)) by (f_equal; lra). reflexivity.
Qed.

Lemma flat_dr : exists m', run_simulation flat_env false (flat DR) = Ok m' /\
  Forall (fun e => exists Ps iPs, c_RDR (ev_cov e) = RSome Ps /\ c_invR (ev_cov e) = Some iPs /\ List.length Ps = 2%nat)
     (m_trace m') /\ List.length (m_trace m') = 3%nat.
Proof. eexists. split; [run_flat DR|]. split; [|reflexivity]. repeat constructor; cbn; eauto. Qed.

(** What is assumed of numpy holds for these two functions. *)
Lemma finm_inv1 M : shape 1 1 M -> exists a, M = [[a]].
Proof.
  intros [H1 H2]. destruct M as [|r [|]]; try discriminate. specialize (H2 r (or_introl eq_refl)).
  destruct r as [|a [|]]; try discriminate. eauto.
Qed.
Lemma finm_inv2 M : shape 2 2 M -> exists a b c d, M = [[a; b]; [c; d]].
Proof.
  intros [H1 H2]. destruct M as [|r [|r' [|]]]; try discriminate.
  pose proof (H2 r (or_introl eq_refl)). pose proof (H2 r' (or_intror (or_introl eq_refl))).
  destruct r as [|a [|b [|]]]; try discriminate. destruct r' as [|c [|d [|]]]; try discriminate. do 4 eexists. reflexivity.
Qed.
Lemma big n M : shape n n M -> (2 < n)%nat -> real_chol (finm M) = None /\ real_inv (finm M) = None.
Proof.
  intros [H1 H2] H. destruct M as [|r [|r' [|r'' M]]]; cbn in H1; try lia.
  pose proof (H2 r (or_introl eq_refl)). destruct r as [|a [|b [|c r]]]; cbn in *; try lia. auto.
Qed.
Lemma real_chol_ok : factorises real_chol.
Proof.
  intros n M c Hn HS HC. destruct (Nat.lt_trichotomy n 2) as [H|[->|H]].
  - replace n with 1%nat in * by lia. apply finm_inv1 in HS as (a & ->). cbn in HC. unfold Rltb in HC.
    destruct (Rlt_dec 0 a); [|discriminate]. inv HC. exists [[sqrt a]]. split; [reflexivity|]. split; [|split].
    + split; [reflexivity|]. intros ? [<-|[]]. reflexivity.
    + intros; lia.
    + intros i j Hi Hj. replace i with 0%nat by lia. replace j with 0%nat by lia. cbn. rewrite sqrt_sqrt; lra.
  - apply finm_inv2 in HS as (a & b' & b & d & ->). cbn in HC. unfold Rltb in HC.
    destruct (Rlt_dec 0 a) as [Ha|]; [|discriminate]. destruct (Rlt_dec 0 (d - b * b / a)) as [Hd|]; [|discriminate].
    inv HC.
    exists [[sqrt a; 0]; [b / sqrt a; sqrt (d - b * b / a)]]. split; [reflexivity|].
    assert (Hs : sqrt a * sqrt a = a) by (apply sqrt_sqrt; lra).
    assert (Hs2 : sqrt (d - b * b / a) * sqrt (d - b * b / a) = d - b * b / a) by (apply sqrt_sqrt; lra).
    assert (Hp : sqrt a <> 0) by (intros X; rewrite X in Hs; lra).
    split; [|split].
    + split; [reflexivity|]. intros ? [<-|[<-|[]]]; reflexivity.
    + intros i j H1 H2. replace i with 0%nat by lia. replace j with 1%nat by lia. reflexivity.
    + assert (Hb : b / sqrt a * (b / sqrt a) = b * b / a) by (rewrite <- Hs at 3; field; auto).
      intros i j Hi Hj. destruct i as [|[|]]; try lia; destruct j as [|[|]]; try lia; cbn.
      * rewrite Hs. lra.
      * field. auto.
      * rewrite Hs2, Hb. lra.
  - destruct (big n M HS H) as [X _]. congruence.
Qed.
Lemma real_inv_ok : inverts real_inv.
Proof.
  intros n M c Hn HS HC. destruct (Nat.lt_trichotomy n 2) as [H|[->|H]].
  - replace n with 1%nat in * by lia. apply finm_inv1 in HS as (a & ->). cbn in HC. unfold Reqb in HC.
    destruct (Req_EM_T a 0); [discriminate|]. inv HC. exists [[/ a]]. split; [reflexivity|]. split.
    + split; [reflexivity|]. intros ? [<-|[]]. reflexivity.
    + intros i j Hi Hj. replace i with 0%nat by lia. replace j with 0%nat by lia. cbn. field. auto.
  - apply finm_inv2 in HS as (a & b & b' & d & ->). cbn in HC. unfold Reqb in HC.
    destruct (Req_EM_T (a * d - b * b') 0) as [|Hd]; [discriminate|]. inv HC.
    eexists [[_; _]; [_; _]]. split; [reflexivity|]. split.
    + split; [reflexivity|]. intros ? [<-|[<-|[]]]; reflexivity.
    + intros i j Hi Hj. destruct i as [|[|]]; try lia; destruct j as [|[|]]; try lia; cbn; field; auto.
  - destruct (big n M HS H) as [_ X]. congruence.
Qed.

(** The same run with no covariance given by the user. *)
Definition plain_raw : rawopts XR :=
  mkraw 4 AM (Some 2%Z) None None (Some (Fin 2)) None 0%Z 0%Z None None false (Fin (1 / 1000)) (Fin 10)
        (Fin (234 / 1000)) (Fin (7 / 10)) [Fin 5; Fin 4; Fin 3] None 0%Z
        "chainfile" "sschainfile" "s2chainfile" "covchainfile" (Some "log"%string) false false false false None None.
Definition plain : mcmc XR :=
  new_mcmc flat_params flat_data flat_model (define_simulation_options plain_raw "") 0 [].
Lemma plain_default : default_variance (@PInf R) (Fin 0) = Fin 1.
Proof. rewrite default_variance_spec. unfold default_var. rewrite Rabs_R0. destruct (Req_EM_T _ 0); [reflexivity|lra]. Qed.
Lemma plain_run : exists m', run_simulation flat_env false plain = Ok m' /\
  map (@ev_cov XR) (rev (m_trace m')) = [flat_cov; flat_cov; flat_cov2].
Proof.
  eexists. split.
  - let HI := fresh in
    eassert (HI : initialize_simulation flat_env flat_params flat_data flat_model
     (define_simulation_options plain_raw "") RUnset 0 [] = Ok _).
    { cbv -[Rplus Rminus Rmult Rdiv Rinv Ropp Rabs R_sqrt.sqrt exp ln Rpower Q2R Rltb Rleb Reqb IZR
   loglik log_posterior_ratio_acceptance_test run_adaptation check_adascale default_variance].
    known. replace (@default_variance _ _ (@PInf R) (Fin 0)) with (@Fin R 1) by (symmetry; exact plain_default).
    tidy. tidy. reflexivity. }
    cbv [run_simulation]; change (o_restart (m_opts plain)) with (@None (restart XR)); cbv iota beta delta [bind];
    change (initialize_simulation _ _ _ _ _ _ _ _) with (initialize_simulation flat_env flat_params flat_data flat_model
   (define_simulation_options plain_raw "") RUnset 0 []). rewrite H; clear H; red_step;
   one_step; one_step; one_step; rewrite ?q0, ?q1; reflexivity.
  - reflexivity.
Qed.
