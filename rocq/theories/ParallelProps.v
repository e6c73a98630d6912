(** Combining the chains of a parallel run. *)

From Coq Require Import ZArith QArith Bool Lia List String.
From Verif Require Import Base Num Samplers Adapt Settings Simulator SamplerFacts RunSpec RunLift SessionFacts RunThms ResumeFacts ChainFiles ChainFileFacts Names
  Parallel ParallelSpec ParallelFacts LoadFacts ParallelReal.
Import ListNotations.
Close Scope Q_scope.
Open Scope list_scope.
Open Scope nat_scope.

Section P.
Context {F : Type} `{NF : Num F}.
Variable E : env F.

Lemma check_width str pos iv0 nc npar (low upp : list F) iv n k : List.length low = npar -> check_initial_values str pos iv0 nc npar low upp = Ok (iv, n, k) ->
  n = List.length iv /\ Forall (fun r => List.length r = npar) iv.
Proof.
  intros <-. unfold check_initial_values. destruct iv0 as [u|]; intros H.
  - unfold check_shape_of_users_initial_values in H. peel H. inv H. unfold check_users_initial_values_wrt_limits in E0. 
    destruct (existsb (fun r => List.length r <? List.length low) (map (firstn (List.length low)) u)) eqn:X; [match type of E0 with context [existsb ?f ?x] => destruct (existsb f x) end; discriminate E0|].
    match type of E0 with context [existsb ?f ?x] => destruct (existsb f x) end; inv E0. rewrite map_length. split; auto. apply Forall_forall. intros r I.
    assert (Y : (List.length r <? List.length low) = false).
    { destruct (List.length r <? List.length low) eqn:Q; auto. rewrite <- X. symmetry. apply existsb_exists. eauto. }
    apply Nat.ltb_ge in Y. apply in_map_iff in I as (z & <- & _). rewrite firstn_length in Y |- *. lia.
  - inv H. unfold generate_initial_values. rewrite map_length, seq_length. split; auto. apply Forall_map, Forall_forall. intros. now rewrite map_length, seq_length.
Qed.

Lemma sampled_width (ps : list (param F)) : forall row, List.length row = List.length ps ->
  List.length (sampled_params (chain_params ps row)) = List.length (sampled_params ps).
Proof.
  unfold sampled_params, chain_params. induction ps as [|p ps IH]; intros [|v row] L; try discriminate; auto.
  injection L as L. cbn [map2 filter set_theta0 a_sample]. destruct (a_sample p); cbn [List.length]; rewrite IH; auto.
Qed.

(** Each chain of a parallel run is a run of a new object. *)
Lemma parallel_chain str pos0 ps d ms o iv0 nc rd (l : fs F) objs c sched pos rs :
  setup_parallel_simulation str pos0 ps d ms o iv0 nc rd l = Ok objs ->
  run_parallel_simulation E objs c sched pos = Ok rs -> schedules (List.length objs) sched ->
  forall i r, nth_error rs i = Some r -> exists R, m_results r = Some R /\ rr_chain R = m_chain r /\ rr_nsimu R = List.length (m_chain r) /\
    rr_nsimu R = o_nsimu o /\ Forall (fun x => List.length x = List.length (sampled_params ps)) (m_chain r).
Proof.
  intros S H HS i r Hi. apply parallel_results in H as (_ & L & R); auto. apply setup_objects in S as (iv & n & k & C & N & O).
  assert (Li : i < List.length objs) by (rewrite <- L; apply nth_error_Some; congruence).
  destruct (nth_error objs i) as [m|] eqn:Em; [|apply nth_error_None in Em; lia].
  destruct (R _ _ Em) as (p & r' & R1 & R2). assert (r' = r) by congruence. subst r'.
  apply O in Em as [In ->]. apply check_width in C as [C1 C2]; [|apply map_length].
  set (row := nth i iv []) in *. assert (W : List.length row = List.length ps) by (rewrite Forall_forall in C2; apply C2, nth_In; lia).
  set (m0 := at_pos _ p) in R2.
  assert (SE : session E (chain_params ps row) m0).
  { unfold m0. cbn [at_pos new_mcmc m_params m_data m_model m_opts m_RDR m_status m_chain m_sschain m_s2chain m_index m_chains m_calls m_fs m_results m_trace].
    eexists d, ms, _, p, l, []. reflexivity. }
  assert (SE' : session E (chain_params ps row) r).
  { destruct SE as (d' & ms' & o' & p' & l' & acs & A). exists d', ms', o', p', l', (acs ++ [Run false]). 
    revert A R2. clear. generalize (new_mcmc (chain_params ps row) d' ms' o' p' l'). induction acs as [|x acs IH]; intros m A R2; cbn [app acts] in *.
    - inv A. cbn [act]. rewrite R2. reflexivity.
    - destruct (act E x m) as [m1|e] eqn:Q; cbn [bind] in *; [|discriminate]. eapply IH; eauto. }
  pose proof (fresh_run_rows E _ _ _ SE R2) as (F1 & _).
  destruct (run_course E _ false m0 r (session_minv _ _ _ SE) ltac:(discriminate) R2) as (start & evs & _ & _ & _ & RR & Q1 & Q2 & _).
  assert (ST : m_status r = true). { apply run_facts in R2 as (x1 & x2 & x3 & x4 & x5 & x6 & X). cbv zeta in X. tauto. }
  destruct (final_theta E _ _ SE' ST) as (RR' & rw & G1 & _ & _ & _ & _ & _ & _ & G2 & _). assert (RR' = RR) by congruence. subst RR'.
  exists RR. split; [exact Q1|]. split; [exact G2|]. rewrite Q2, F1. split; [reflexivity|]. split; [reflexivity|].
  apply Forall_forall. intros x Hx. rewrite <- (sampled_width ps row W). apply (inside_length (chain_params ps row)). exact (rows_inside E _ _ _ SE' Hx).
Qed.

(** The chains of a parallel run, combined: each loses the given fraction of its rows. *)
Lemma parallel_combined str pos0 ps d ms o iv0 nc rd (l : fs F) objs c sched pos rs pct :
  setup_parallel_simulation str pos0 ps d ms o iv0 nc rd l = Ok objs ->
  run_parallel_simulation E objs c sched pos = Ok rs -> schedules (List.length objs) sched -> rs <> [] -> (0 <= pct)%Q ->
  exists pres parts, Forall2 (fun r pr => exists R, m_results r = Some R /\ pr = (rr_nsimu R, rr_chain R)) rs pres /\
    Forall2 (fun r part => kept pct (List.length (m_chain r)) (m_chain r) part) rs parts /\
    generate_combined_chain_with_index pct pres = Ok (List.concat parts, labels parts) /\ generate_chain_list pct pres = parts.
Proof.
  intros S H HS NE P. pose proof (parallel_chain _ _ _ _ _ _ _ _ _ _ _ _ _ _ _ S H HS) as PC.
  assert (X : exists pres, Forall2 (fun r pr => (exists R, m_results r = Some R /\ pr = (rr_nsimu R, rr_chain R)) /\ fst pr = List.length (m_chain r) /\ snd pr = m_chain r /\
     wide (List.length (sampled_params ps)) (snd pr)) rs pres).
  { assert (Y : forall r, In r rs -> exists R, m_results r = Some R /\ rr_chain R = m_chain r /\ rr_nsimu R = List.length (m_chain r) /\ wide (List.length (sampled_params ps)) (m_chain r)).
    { intros r I. apply In_nth_error in I as (i & I). apply PC in I as (R & A & B & C & _ & D). exists R. auto. }
    clear - Y. induction rs as [|r rs IH]; [exists []; constructor|]. destruct IH as (pres & IH); [intros z Z; apply Y; cbn; auto|].
    destruct (Y r) as (R & A & B & C & D); [cbn; auto|]. exists ((rr_nsimu R, rr_chain R) :: pres). constructor; auto.
    cbn [fst snd]. rewrite B. split; [exists R; rewrite B; auto|auto]. }
  destruct X as (pres & X). destruct (combined (List.length (sampled_params ps)) pct pres P) as (parts & A & B & C).
  - clear - X. induction X; constructor; auto. tauto.
  - intros ->. inversion X. subst. congruence.
  - exists pres, parts. split; [clear - X; induction X; constructor; auto; tauto|]. split; [|auto].
    clear - X A. revert parts A. induction X as [|r pr rs pres K X IH]; intros parts A; inversion A as [|? part ? parts' A1 A2]; subst; constructor; auto.
    destruct K as (_ & K1 & K2 & _). rewrite <- K1. rewrite <- K2. exact A1.
Qed.
End P.
