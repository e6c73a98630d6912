(** Property C93: every point can be proposed. *)

From Coq Require Import ZArith QArith Bool Lia List String Reals Lra.
From Verif Require Import Base Num Samplers Adapt Settings Simulator RunSpec SamplerFacts RVec RMat StatSpec StatsFacts CompleteSpec CompleteFacts NumberSpec ReachSpec DemoRealRun Prop_Complete Prop_Numbers.
From Verif Require ReachFacts ReachRun RunLift ContFacts RVec.
Import ListNotations.
Close Scope Q_scope.
Open Scope list_scope.
Open Scope string_scope.
Open Scope R_scope.

(** ** C93 *)

(** In whatever order runs are made, continued and set up anew, with options that are numbers and covariances with
    positive variances: in every iteration, the factor in force for every stage leads from every point to every
    other by exactly one vector of normal draws.  So does the factor stored in the results. *)
Theorem C93_every_point_can_be_proposed :
  forall (E : env XR) ps d ms o pos l acs m',
  sound_library E -> positions ps <> [] -> (forall p, In p ps -> number (a_theta0 p)) ->
  reaching_options ps o -> Forall (options_set (reaching_options ps)) acs ->
  acts E acs (new_mcmc ps d ms o pos l) = Ok m' ->
  (forall e stage P, In e (m_trace m') -> factor_in_force (ev_cov e) stage P -> reaches (List.length (positions ps)) P) /\
  (forall r, m_results m' = Some r -> reaches (List.length (positions ps)) (rr_R r)).
Proof.
  intros E ps d ms o pos l acs m' HE Hps Hv Ho Ha H.
  assert (Hn : (0 < List.length (positions ps))%nat) by (destruct (positions ps); [congruence|cbn; lia]).
  assert (HN : Forall number (map (@a_theta0 XR) ps)).
  { apply Forall_forall. intros x Hx. apply in_map_iff in Hx as (p & <- & Hp). auto. }
  pose proof (ReachRun.good_acts E HE ps Hn acs _ _ Ha (ReachRun.good_new ps d ms o pos l HN Ho) H) as [_ _ _ _ _ _ G7 G8].
  split.
  - intros e stage P He HP. rewrite Forall_forall in G8. apply (ReachRun.in_force_regular _ _ _ _ (G8 e He) HP).
  - intros r Hr. apply (proj2 (G7 r Hr)).
Qed.
Print Assumptions C93_every_point_can_be_proposed.

(** With such a factor every point becomes the candidate if the right normals are drawn, and with no others. *)
Theorem C93_candidate_anywhere :
  forall n P (x y : list R), reaches n P -> square n P -> List.length x = n -> List.length y = n ->
  exists z, List.length z = n /\
    (forall (E : env XR) s, (forall i, (i < n)%nat -> s_normal (e_str E) (io_pos s + i) = Fin (nth i z 0)) ->
       exists s', sample_candidate E n (fin x) P s = Ok (fin y, fin z, s')) /\
    (forall (E : env XR) s z' s', (forall k, number (s_normal (e_str E) k)) ->
       sample_candidate E n (fin x) P s = Ok (fin y, z', s') -> z' = fin z).
Proof.
  intros n P x y HR [S1 S2] Hx Hy. destruct (HR x y Hx Hy) as (z & (Z1 & Z2) & Z3).
  assert (HS : is_square n P = true).
  { unfold is_square. apply andb_true_intro. split; [now apply Nat.eqb_eq|]. apply forallb_forall. intros r Hr. rewrite Forall_forall in S2. now apply Nat.eqb_eq, S2. }
  exists z. split; [exact Z1|]. split.
  - intros E s Hs. unfold sample_candidate. rewrite HS. replace (List.length (fin x) =? n)%nat with true by (symmetry; apply Nat.eqb_eq; now rewrite fin_length).
    cbn [andb]. unfold randn. eexists.
    assert (HZ : map (s_normal (e_str E)) (seq (io_pos s) n) = fin z).
    { apply (list_ext (Fin 0)); [now rewrite map_length, seq_length, fin_length|]. intros i Hi. rewrite map_length, seq_length in Hi.
      rewrite (nth_indep _ (Fin 0) (s_normal (e_str E) 0)) by (now rewrite map_length, seq_length). rewrite map_nth, seq_nth by exact Hi.
      rewrite Hs by exact Hi. unfold fin. now rewrite (map_nth (@Fin R)). }
    rewrite HZ. unfold vec, mat in *. rewrite Z2. reflexivity.
  - intros E s z' s' Hs H. unfold sample_candidate in H. rewrite HS in H. replace (List.length (fin x) =? n)%nat with true in H by (symmetry; apply Nat.eqb_eq; now rewrite fin_length).
    cbn [andb] in H. unfold randn in H. apply ContFacts.Ok_inj in H. injection H as H1 H2 _.
    assert (HZ : exists w, List.length w = n /\ z' = fin w).
    { exists (map (fun k => match s_normal (e_str E) k with Fin v => v | _ => 0 end) (seq (io_pos s) n)). split; [now rewrite map_length, seq_length|].
      rewrite <- H2. unfold fin. rewrite map_map. apply map_ext. intros k. destruct (Hs k) as (v & ->). reflexivity. }
    destruct HZ as (w & W1 & W2). rewrite W2. f_equal. apply Z3; [exact W1|]. rewrite <- W2, <- H2. exact H1.
Qed.
Print Assumptions C93_candidate_anywhere.

Lemma real_library sos str : (forall k, number (s_normal str k)) -> sound_library (pair_env sos str).
Proof.
  intros Hs. constructor; [exact Hs|]. intros A L _ HL. cbn [pair_env e_chol] in HL. unfold real_chol in HL.
  destruct A as [|[|[a| | |] [|[a'| | |] [|]]] [|[|[b| | |] [|[d| | |] [|]]] [|]]]; try discriminate HL.
  - destruct (Rltb 0 a) eqn:Ea; [|discriminate HL]. injection HL as <-. exists 1%nat, (fun _ _ => sqrt a). split; [split; [reflexivity|repeat constructor]|].
    split; [reflexivity|]. split; [intros; lia|]. intros _ _. unfold Rltb in Ea. destruct (Rlt_dec 0 a); [|discriminate]. now apply sqrt_lt_R0.
  - destruct (Rltb 0 a) eqn:Ea; [|discriminate HL]. destruct (Rltb 0 (d - b * b / a)) eqn:Ed; [|discriminate HL]. cbn [andb] in HL. injection HL as <-.
    unfold Rltb in *. destruct (Rlt_dec 0 a) as [Pa|]; [|discriminate]. destruct (Rlt_dec 0 (d - b * b / a)) as [Pd|]; [|discriminate].
    exists 2%nat, (fun i j => match i, j with O, O => sqrt a | O, _ => 0 | _, O => b / sqrt a | _, _ => sqrt (d - b * b / a) end).
    split; [split; [reflexivity|repeat constructor]|]. split; [reflexivity|]. split.
    + intros [|i] [|j] Hi Hj; try lia. reflexivity.
    + intros [|[|i]] Hi; try lia; apply sqrt_lt_R0; assumption.
Qed.

(** Delayed rejection with adaptation at every second step, of any length. *)
Example C93_case :
  sound_library (pair_env bowl steps) /\ positions pair_params <> [] /\ (forall p, In p pair_params -> number (a_theta0 p)) /\
  (forall nsimu us bin, reaching_options pair_params (pair_opts nsimu us bin)) /\
  (forall nsimu bin pos, (2 <= nsimu)%nat -> exists m',
     acts (pair_env bowl steps) [Run false] (new_mcmc pair_params pair_data pair_model (pair_opts nsimu false bin) pos []) = Ok m' /\
     forall e stage P, In e (m_trace m') -> factor_in_force (ev_cov e) stage P -> reaches 2 P).
Proof.
  assert (L : sound_library (pair_env bowl steps)) by (apply real_library; intros k; eexists; reflexivity).
  assert (V : forall p, In p pair_params -> number (a_theta0 p)) by (intros p [<-|[<-|[<-|[]]]]; eexists; reflexivity).
  destruct C92_case as (_ & _ & _ & U & R).
  assert (O : forall nsimu us bin, reaching_options pair_params (pair_opts nsimu us bin)).
  { intros nsimu us bin. constructor; [apply U| | |].
    - intros q Hq. injection Hq as <-. constructor; [intros H; discriminate H|]. intros _ i Hi. discriminate Hi.
    - intros r Hr. discriminate Hr.
    - intros r Hr. discriminate Hr. }
  split; [exact L|]. split; [discriminate|]. split; [exact V|]. split; [exact O|]. intros nsimu bin pos Hn.
  destruct (R nsimu bin pos Hn) as (m' & Hm & _). exists m'.
  assert (Hrun : acts (pair_env bowl steps) [Run false] (new_mcmc pair_params pair_data pair_model (pair_opts nsimu false bin) pos []) = Ok m') by (cbn [acts act]; rewrite Hm; reflexivity).
  split; [exact Hrun|].
  apply (C93_every_point_can_be_proposed (pair_env bowl steps) pair_params pair_data pair_model (pair_opts nsimu false bin) pos [] [Run false] m'); auto; [discriminate|].
  repeat constructor.
Qed.

(** A variance of zero in a covariance given as a list of variances is accepted; without adaptation, no iteration can
    then reach every point. *)
Definition flat_opts (nsimu : nat) : simopts XR :=
  define_simulation_options
    (mkraw nsimu MH (Some 2%Z) None None None None 0%Z 0%Z (Some (finm [[4; 9; 0]])) None false (Fin (1 / 1000)) (Fin 10)
       (Fin (234 / 1000)) (Fin (7 / 10)) (fin [5; 4; 3]) None 3%Z
       "chainfile" "sschainfile" "s2chainfile" "covchainfile" (Some "log"%string) false true false false None None) "".

Theorem C93_refuted_zero_variance :
  forall nsimu pos, (2 <= nsimu)%nat -> exists (E : env XR) m',
  sound_library E /\ usable_options (flat_opts nsimu) /\ (forall p, In p pair_params -> number (a_theta0 p)) /\
  run_simulation E false (new_mcmc pair_params pair_data pair_model (flat_opts nsimu) pos []) = Ok m' /\
  List.length (m_trace m') = (nsimu - 1)%nat /\
  forall e stage P, In e (m_trace m') -> factor_in_force (ev_cov e) stage P -> ~ reaches (List.length (positions pair_params)) P.
Proof.
  intros nsimu pos Hn. exists (pair_env bowl steps). destruct C93_case as (L & _ & V & _ & _).
  assert (HL : forall v, List.length (bowl v) = 1%nat).
  { intros v. unfold bowl. repeat match goal with |- context [match ?x with _ => _ end] => destruct x end; reflexivity. }
  destruct (C88_case bowl steps HL) as (W & _ & _). destruct (W nsimu false false Hn) as (W1 & W2 & _).
  assert (WF : well_formed (pair_env bowl steps) pair_params pair_data pair_model (flat_opts nsimu) [] 1).
  { split; [exact W1|]. split; [|reflexivity]. constructor.
    - exact Hn.
    - exact (wf_chol _ _ _ _ W2).
    - right. split; reflexivity.
    - intros _. left. reflexivity.
    - intros H. cbn in H. lia.
    - intros H. discriminate H.
    - intros H. discriminate H.
    - intros H. discriminate H. }
  destruct (C88_without_variances XR _ (pair_env bowl steps) (new_mcmc pair_params pair_data pair_model (flat_opts nsimu) pos []) 1%nat WF eq_refl eq_refl) as [m' Hm].
  exists m'. split; [exact L|]. split; [|split; [exact V|split; [exact Hm|]]].
  { constructor.
    - intros q Hq. injection Hq as <-. split; [|split].
      + repeat constructor; eexists; reflexivity.
      + intros i row x H1 H2. destruct i as [|i]; [|destruct i; discriminate H1]. injection H1 as <-. injection H2 as <-. exists 4; (split; [reflexivity|lra]).
      + intros _. repeat constructor; [exists 4|exists 9|exists 0]; (split; [reflexivity|lra]).
    - intros a H. discriminate H.
    - intros a H. discriminate H.
    - repeat constructor; eexists; (split; [reflexivity|lra]).
    - eexists. split; [reflexivity|lra].
    - eexists. reflexivity.
    - reflexivity.
    - intros r H. discriminate H. }
  destruct (ReachRun.frozen_run (pair_env bowl steps) (new_mcmc pair_params pair_data pair_model (flat_opts nsimu) pos []) m' ltac:(apply Z.leb_le; reflexivity) eq_refl Hm) as (ini & tr & I0 & T1 & T2 & _ & T3).
  cbn [new_mcmc m_trace] in T1. rewrite app_nil_r in T1. rewrite T1. split; [exact T2|].
  assert (HR : c_R (i_cov ini) = finm [[2; 0]; [0; 0]] /\ c_RDR (i_cov ini) = RUnset).
  { cbn [new_mcmc m_params m_data m_model m_opts m_RDR m_pos m_calls] in I0. unfold initialize_simulation in I0. cbv zeta in I0.
    peel I0. peel I0. peel I0. peel I0. destruct (evaluate_sos_function _ _ _ _) as [ss s1]. peel I0. apply ContFacts.Ok_inj in I0. rewrite <- I0. cbn [i_cov].
    clear - E2. rename E2 into HC. unfold initialize_covariance in HC. cbv zeta in HC. peel HC. rename E into HQ. destruct a as [R0 sub].
    assert (HR0 : R0 = finm [[2; 0]; [0; 0]]).
    { assert (X : setup_R_matrix (pair_env bowl steps) (setup_covariance_matrix (Some (finm [[4; 9; 0]])) [] []) [0; 2]%nat = Ok (R0, sub)) by exact HQ.
      assert (Y : match setup_R_matrix (pair_env bowl steps) (setup_covariance_matrix (Some (finm [[4; 9; 0]])) [] []) [0; 2]%nat with Ok v => fst v | Err _ => [] end
                  = [[@nsqrt XR _ (Fin 4); @nsqrt XR _ n0]; [@nsqrt XR _ n0; @nsqrt XR _ (Fin 0)]]) by reflexivity.
      rewrite X in Y. cbn [fst] in Y. rewrite Y.
      assert (Q4 : @nsqrt XR _ (Fin 4) = Fin 2). { rewrite XR_nsqrt by lra. f_equal. replace 4 with (2 * 2) by lra. apply sqrt_square. lra. }
      assert (Q0 : @nsqrt XR _ (Fin 0) = Fin 0). { rewrite XR_nsqrt by lra. now rewrite sqrt_0. }
      assert (Qn : @nsqrt XR _ n0 = Fin 0). { rewrite RVec.XR_n0. exact Q0. }
      rewrite Q4, Qn, Q0. reflexivity. }
    peel HC. rename E into HX. cbn in HX. apply ContFacts.Ok_inj in HX. rewrite <- HX in HC. apply ContFacts.Ok_inj in HC. rewrite <- HC. cbn [c_R c_RDR]. rewrite HR0. split; reflexivity. }
  destruct HR as [HR HD].
  intros e stage P He HP HC. rewrite Forall_forall in T3. rewrite (T3 e He) in HP. destruct HP as [[_ ->]|(_ & l & Hl & _)]; [|congruence].
  rewrite HR in HC. change (List.length (positions pair_params)) with 2%nat in HC.
  destruct (HC [0; 0] [0; 1] eq_refl eq_refl) as (z & (Z1 & Z2) & _). destruct z as [|a [|b [|]]]; try discriminate Z1.
  unfold finm, fin in Z2. cbn [map] in Z2. cbv [vecmat] in Z2. cbn in Z2. injection Z2 as _ Z2. lra.
Qed.
Print Assumptions C93_refuted_zero_variance.
