(** C97: the first proposals have the covariance that the user gives. *)

From Coq Require Import ZArith QArith Bool Lia List String Reals Lra.
From Verif Require Import Base Num Samplers SamplerFacts Adapt Settings Simulator RunSpec RunFacts RunLift RVec RMat StatSpec
  CovFacts CholFacts AdaptFacts InitFacts AdaptRun AdaptThms InitThms FixedSpec GivenSpec GivenFacts DemoRealRun.
Import ListNotations.
Close Scope Q_scope.
Open Scope list_scope.
Open Scope R_scope.

(** The proposals of the first stage add to the current values a row of standard normal draws times the factor [c_R]: here the
    factor of the covariance given, for the parameters that are sampled.  It is also what the covariance of the chain starts from
    if a weight (initqcovn) is given. *)
Theorem C97_first_proposals :
  forall (E : env XR) u m m' Q C, factorises (e_chol E) -> run_simulation E u m = Ok m' -> starts_with u m Q ->
  let k := List.length (sampled_params (m_params m)) in
  (0 < k)%nat -> says (m_params m) Q C -> symmetric k C -> (forall a, (a < k)%nat -> 0 <= C a a) ->
  (o_method (m_opts m) <> DR /\ o_method (m_opts m) <> DRAM) \/ o_RDR (m_opts m) = None ->
  exists evs last c0, m_trace m' = rev evs ++ m_trace m /\ nth_error (map (@ev_cov XR) evs ++ [last]) 0%nat = Some c0 /\
    (exists e, hd_error evs = Some e /\ ev_cov e = c0) /\
    c_qcov c0 = finm (table k k C) /\ scaled_factor k (c_R c0) 1 C /\
    (forall w, o_initqcovn (m_opts m) = Some w -> c_covchain c0 = Some (finm (table k k C)) /\ c_wsum c0 = Some w).
Proof.
  intros E u m m' Q C HC HR HQ k Hk HS Sy Hd Hr.
  destruct (given_run E u m m' Q C HC HR HQ Hk HS Sy Hd) as (ps & evs & last & r & c0 & PC & H0 & H1 & H2 & H3).
  { destruct Hr as [[A B]|A]; [left|auto]. destruct (o_method (m_opts m)); try reflexivity; congruence. }
  destruct PC. exists evs, last, c0. split; [auto|]. split; [auto|]. split; [|auto].
  destruct evs as [|e evs]; [cbn in pc_iterations; lia|]. exists e. split; [reflexivity|]. cbn in H0. congruence.
Qed.
Print Assumptions C97_first_proposals.

(** Without adaptation all proposals have it, and it is the covariance in the results. *)
Theorem C97_all_proposals :
  forall (E : env XR) u m m' Q C, factorises (e_chol E) -> run_simulation E u m = Ok m' -> starts_with u m Q ->
  let k := List.length (sampled_params (m_params m)) in
  (0 < k)%nat -> says (m_params m) Q C -> symmetric k C -> (forall a, (a < k)%nat -> 0 <= C a a) ->
  (o_method (m_opts m) <> DR /\ o_method (m_opts m) <> DRAM) \/ o_RDR (m_opts m) = None ->
  (o_adaptint (m_opts m) <= 0)%Z ->
  exists evs r, m_trace m' = rev evs ++ m_trace m /\ List.length evs = (o_nsimu (m_opts m) - 1)%nat /\ m_results m' = Some r /\
    (forall e, In e evs -> scaled_factor k (c_R (ev_cov e)) 1 C) /\
    scaled_factor k (rr_R r) 1 C /\ rr_qcov r = finm (table k k C).
Proof.
  intros E u m m' Q C HC HR HQ k Hk HS Sy Hd Hr Ha.
  destruct (given_run E u m m' Q C HC HR HQ Hk HS Sy Hd) as (ps & evs & last & r & c0 & PC & H0 & H1 & H2 & H3).
  { destruct Hr as [[A B]|A]; [left|auto]. destruct (o_method (m_opts m)); try reflexivity; congruence. }
  destruct (constant_course E u m m' ps evs last r c0 PC Ha H0) as (A1 & A2).
  destruct (run_qcov E u m m' HR) as (r' & R1 & R2). destruct PC. assert (r' = r) by congruence. subst r' last.
  exists evs, r. split; [auto|]. split; [auto|]. split; [auto|]. fold k in H2. split; [intros e He; now rewrite A1|].
  rewrite R2, pc_R. split; [auto|]. now apply factor_product.
Qed.
Print Assumptions C97_all_proposals.

(** If factors for the stages of delayed rejection are given as well, the first of them is the factor of the first proposals, in
    any arithmetic, whatever the covariance is. *)
Theorem C97_given_factors :
  forall (F : Type) (NF : Num F) (E : env F) u m m' P l, run_simulation E u m = Ok m' ->
  o_method (m_opts m) = DR \/ o_method (m_opts m) = DRAM -> o_RDR (m_opts m) = Some (P :: l) ->
  exists evs last c0, m_trace m' = rev evs ++ m_trace m /\ nth_error (map (@ev_cov F) evs ++ [last]) 0%nat = Some c0 /\
    c_R c0 = P /\ c_RDR c0 = RSome (P :: l).
Proof.
  intros F NF E u m m' P l HR Hm Hl. destruct (run_covs E u m m' HR) as (ps & evs & last & r & []).
  destruct pc_start as (c0 & H0 & HI). exists evs, last, c0. split; [auto|]. split; [auto|]. cbv zeta in HI.
  assert (O : o_method (run_options u m) = o_method (m_opts m) /\ o_RDR (run_options u m) = Some (P :: l)).
  { unfold run_options. destruct u; [auto|]. destruct (o_restart (m_opts m)); cbn; auto. }
  destruct O as [O1 O2]. rewrite O1, O2 in HI. unfold initialize_covariance in HI.
  replace (uses_dr_setup (o_method (m_opts m))) with true in HI by (destruct Hm as [-> | ->]; reflexivity).
  peel HI. destruct a as [R sub]. peel HI. destruct a as [[R' rd] iv]. peel E1. destruct a as [[R1 l1] i1]. inv E1.
  unfold setup_RDR_matrix in E2. peel E2. cbn [nth_error of_option bind] in E2. inv E2. inv HI. auto.
Qed.
Print Assumptions C97_given_factors.

(** Three parameters, the second is not sampled; the covariance of all three is given. *)
Definition three_params : list (param XR) :=
  [mkparam "a" (Fin 0) NInf PInf (Fin 0) PInf true true; mkparam "b" (Fin 0) NInf PInf (Fin 0) PInf false true;
   mkparam "c" (Fin 0) NInf PInf (Fin 0) PInf true true].
Definition three_cov : list (list R) := [[4; 7; 2]; [9; 8; 9]; [2; 7; 5]].
Definition three_raw : rawopts XR :=
  mkraw 2 MH None None None (Some (Fin 2)) None 0%Z 0%Z (Some (finm three_cov)) None false (Fin (1 / 1000)) (Fin 10)
        (Fin (234 / 1000)) (Fin (7 / 10)) [Fin 5; Fin 4; Fin 3] None 0%Z
        "chainfile" "sschainfile" "s2chainfile" "covchainfile" (Some "log"%string) false false false false None None.
Definition three : mcmc XR :=
  new_mcmc three_params flat_data flat_model (define_simulation_options three_raw "") 0 [].
Lemma three_run : exists m', run_simulation flat_env false three = Ok m'.
Proof.
  eexists.
    let HI := fresh in
    eassert (HI : initialize_simulation flat_env three_params flat_data flat_model
     (define_simulation_options three_raw "") RUnset 0 [] = Ok _).
    { red_real. tidy. tidy. reflexivity. }
    cbv [run_simulation]; change (o_restart (m_opts three)) with (@None (restart XR)); cbv iota beta delta [bind];
    change (initialize_simulation _ _ _ _ _ _ _ _) with (initialize_simulation flat_env three_params flat_data flat_model
   (define_simulation_options three_raw "") RUnset 0 []). rewrite H; clear H; red_step;
   one_step; rewrite ?q0, ?q1; reflexivity.
Qed.

Example C97_case : factorises (e_chol flat_env) /\ (exists m', run_simulation flat_env false three = Ok m') /\
  starts_with false three (finm three_cov) /\ List.length (sampled_params (m_params three)) = 2%nat /\
  (o_adaptint (m_opts three) <= 0)%Z /\ o_method (m_opts three) = MH /\
  (exists C, says (m_params three) (finm three_cov) C /\ symmetric 2 C /\ (forall a, (a < 2)%nat -> 0 <= C a a) /\
     C 0%nat 0%nat = 4 /\ C 0%nat 1%nat = 2 /\ C 1%nat 1%nat = 5) /\
  (exists C, says (m_params three) (finm [[4; 8; 5]]) C /\ C 0%nat 1%nat = 0 /\ C 1%nat 1%nat = 5) /\
  (exists C, says (m_params three) (finm [[4]; [8]; [5]]) C /\ C 0%nat 1%nat = 0 /\ C 1%nat 1%nat = 5) /\
  (exists m', run_simulation flat_env false (flat AM) = Ok m') /\ starts_with false (flat AM) (finm [[1]]) /\
  says (m_params (flat AM)) (finm [[1]]) (fun a b => if Nat.eqb a b then nth a (kept (m_params (flat AM)) [1]) 0 else 0).
Proof.
  split; [exact real_chol_ok|]. split; [exact three_run|]. split; [apply FromOptions; [right; reflexivity|reflexivity]|].
  split; [reflexivity|]. split; [cbn; lia|]. split; [reflexivity|]. split; [|split; [|split; [|split; [|split]]]].
  - eexists. split; [apply SMatrix; [cbn; lia|]|].
    + split; [reflexivity|]. intros row [<-|[<-|[<-|[]]]]; reflexivity.
    + split; [|split; [|split; [|split]]]; try reflexivity.
      * intros [|[|i]] [|[|j]] Hi Hj; try lia; reflexivity.
      * intros [|[|a]] Ha; try lia; cbn; lra.
  - eexists. split; [apply SRow; reflexivity|]. split; reflexivity.
  - eexists. split; [apply (SColumn _ [4; 8; 5]); reflexivity|]. split; reflexivity.
  - destruct flat_run as (m' & H & _). eauto.
  - apply FromOptions; [right; reflexivity|reflexivity].
  - apply SRow. reflexivity.
Qed.
