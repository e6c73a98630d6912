(** Properties of runs with custom samplers. *)

From Coq Require Import ZArith QArith Bool Lia List String.
From Verif Require Import Base Num Samplers Adapt Settings Simulator RunSpec RunLift LogSpec LogFacts Demo Custom CustomSpec CustomFacts CustomRun CustomLogs CustomChange CustomDemo.
Import ListNotations.
Close Scope Q_scope.
Open Scope list_scope.
Open Scope nat_scope.

(** ** C75: samplers that only watch

    If the sum-of-squares function takes no notice of their output and the samplers draw no random numbers and leave the
    parameter set alone, the run is the run without them: chains, results, calls of the user's function and the random
    stream are the same, and so are all files other than the ones the samplers write themselves. *)
Theorem C75_watching_samplers_change_nothing :
  forall (F : Type) (NF : Num F) (St Out : Type) (E : env F) (u : usersos F Out) (samplers : list (sampler F St Out)) f resumed m sts m' c,
  (forall custom v, sos_call u custom v = f v) -> Forall quiet samplers ->
  crun_simulation E u samplers resumed m sts = Ok (m', c) ->
  exists m'', run_simulation (mkenv f (e_prior E) (e_str E) (e_chol E) (e_inv E) (e_fuel E)) resumed m = Ok m'' /\
    m_params m' = m_params m'' /\ m_data m' = m_data m'' /\ m_model m' = m_model m'' /\ m_opts m' = m_opts m'' /\ m_RDR m' = m_RDR m'' /\
    m_status m' = m_status m'' /\ m_chain m' = m_chain m'' /\ m_sschain m' = m_sschain m'' /\ m_s2chain m' = m_s2chain m'' /\
    m_index m' = m_index m'' /\ m_chains m' = m_chains m'' /\ m_pos m' = m_pos m'' /\ m_calls m' = m_calls m'' /\ m_results m' = m_results m'' /\
    map (@ev_stage F) (m_trace m') = map (@ev_stage F) (m_trace m'') /\
    forall q, (forall op, custom_op samplers op -> q op = false) -> filter q (m_fs m') = filter q (m_fs m'').
Proof.
  intros F NF St Out E u samplers f resumed m sts m' c HF HQ H.
  destruct (run_plain E u samplers f HF HQ _ _ _ _ _ H) as (m'' & H1 & H2 & H3). exists m''. split; [exact H1|].
  assert (T : map (@ev_stage F) (m_trace m') = map (@ev_stage F) (m_trace m'')).
  { assert (X : forall l : list (event F), map (@ev_stage F) l = map (@ev_stage F) (map strip_event l)) by (intros l; rewrite map_map; apply map_ext; intros []; reflexivity).
    rewrite (X (m_trace m')), (X (m_trace m'')). f_equal. unfold forget in H2. now injection H2. }
  unfold forget in H2. injection H2; intros. clear H H1 H2.
  do 14 (split; [symmetry; assumption|]). split; [exact T|]. intros q Hq. eapply adds_filter; [exact Hq|exact H3].
Qed.
Print Assumptions C75_watching_samplers_change_nothing.

(** Nor do they make a run fail, unless chains of theirs go to binary logs. *)
Theorem C75_watching_samplers_do_not_fail :
  forall (F : Type) (NF : Num F) (St Out : Type) (E : env F) (u : usersos F Out) (samplers : list (sampler F St Out)) f resumed m sts m'',
  (forall custom v, sos_call u custom v = f v) -> Forall quiet samplers ->
  o_save_to_bin (m_opts m) = false \/ (forall cs, In cs samplers -> cs_save_chain cs = false) ->
  run_simulation (mkenv f (e_prior E) (e_str E) (e_chol E) (e_inv E) (e_fuel E)) resumed m = Ok m'' ->
  exists m' c, crun_simulation E u samplers resumed m sts = Ok (m', c).
Proof. intros F NF St Out E u samplers f resumed m sts m'' HF HQ HB H. exact (run_custom E u samplers f HF HQ _ _ sts _ H HB). Qed.
Print Assumptions C75_watching_samplers_do_not_fail.

Example C75_case : (forall custom v, sos_call deaf custom v = demo_sos v) /\ Forall quiet [recorder] /\
  (exists m' c, crun_simulation demo_env deaf [recorder] false (demo 8 DRAM) [[]] = Ok (m', c) /\
     map (@ev_stage XQ) (m_trace m') = [1; 0; 1; 1; 1; 0; 1] /\ List.length (m_fs m') = 30) /\
  o_save_to_bin (m_opts (demo_s2 4 MH)) = false /\
  (exists m'', run_simulation demo_env false (demo_s2 4 MH) = Ok m'').
Proof.
  split; [reflexivity|]. split; [repeat constructor; apply recorder_quiet|].
  split; [do 2 eexists; split; [vm_compute; reflexivity|]; split; vm_compute; reflexivity|]. split; [reflexivity|].
  eexists. vm_compute. reflexivity.
Qed.

(** ** C76: what the samplers are asked

    Every sampler is set up once, and then updated once in every iteration, in order, with the number of the iteration,
    whether a point was accepted in it, and the current set: the row of the chain just written, its sum of squares, and
    the error variance just drawn. *)
Theorem C76_samplers_follow_the_chain :
  forall (F : Type) (NF : Num F) (St Out : Type) (E : env F) (u : usersos F Out) (samplers : list (sampler F St Out)) resumed m sts m' c,
  Forall keeps samplers -> List.length sts = List.length samplers ->
  (forall o o' v v', List.length (sos_call u o v) = List.length (sos_call u o' v')) ->
  crun_simulation E u samplers resumed m sts = Ok (m', c) ->
  let start := if resumed then m_index m else 0 in
  exists evs, m_trace m' = rev evs ++ m_trace m /\ List.length evs = o_nsimu (m_opts m) - 1 /\
    forall j cs st, nth_error samplers j = Some cs -> nth_error sts j = Some st ->
    exists pos o pos' st1 reqs st2, cs_setup cs pos st = (o, pos', st1) /\ answers cs st1 reqs st2 /\ nth_error (c_sts c) j = Some st2 /\
      List.length reqs = o_nsimu (m_opts m) - 1 /\
      forall k r, nth_error reqs k = Some r -> q_isimu r = S k /\
        (exists e, nth_error evs k = Some e /\ (q_accept r = true <-> ev_stage e <> 0)) /\
        nth_error (m_chain m') (start + S k) = Some (p_theta (q_set r)) /\
        nth_error (m_sschain m') (start + S k) = Some (p_ss (q_set r)) /\
        (o_updatesigma (m_opts m') = true -> exists s2, m_s2chain m' = Some s2 /\ nth_error s2 (start + S k) = Some (p_sigma2 (q_set r))).
Proof.
  intros F NF St Out E u samplers resumed m sts m' c HK HL HS H start.
  destruct (run_history E u samplers _ _ _ _ _ HK HL HS H) as (evs & first & calls & T & L1 & L2 & S1 & _ & R). exists evs. split; [exact T|]. split; [exact L1|].
  intros j cs st Hj Hst. destruct (S1 _ _ _ Hj Hst) as (pos & o & pos' & st1 & reqs & st2 & Q1 & _ & Q3 & Q4 & Q5).
  exists pos, o, pos', st1, reqs, st2. split; [exact Q1|]. split; [exact Q3|]. split; [exact Q4|].
  split; [rewrite (RunLift.Forall2_len _ _ _ Q5); exact L2|]. intros k r Hr.
  assert (X : exists call, nth_error calls k = Some call /\ q_accept r = uc_accept call /\ q_isimu r = uc_isimu call /\ q_set r = uc_set call).
  { clear -Q5 Hr. unfold requests_of in Q5. revert k Hr. induction Q5 as [|x y l l' (A & B & C & D) _ IH]; intros [|k] Hr; try discriminate; cbn in *.
    - injection Hr as ->. exists y. auto.
    - auto. }
  destruct X as (call & Hc & -> & -> & ->). destruct (R _ _ Hc) as (A1 & (e & A2 & A3) & A4 & A5 & _ & A7). split; [exact A1|]. split; [|auto].
  exists e. split; [exact A2|]. rewrite A3. destruct (Nat.eqb_spec (ev_stage e) 0); cbn; split; intros; congruence.
Qed.
Print Assumptions C76_samplers_follow_the_chain.

Example C76_case : Forall keeps [recorder; noisy] /\ (forall o o' v v', List.length (sos_call hearing o v) = List.length (sos_call hearing o' v')) /\
  exists m' c, crun_simulation demo_env hearing [recorder; noisy] false (demo_s2 8 MH) [[]; []] = Ok (m', c) /\
    o_updatesigma (m_opts m') = true /\ map (@ev_stage XQ) (m_trace m') = [1; 1; 1; 1; 0; 0; 1] /\
    map (fun x => map (fun y => nth 0 y n0) x) (c_sts c) = [map nnat (seq 0 8); []].
Proof.
  split; [repeat constructor; [apply recorder_keeps|apply noisy_keeps]|]. split; [apply hearing_length|].
  do 2 eexists. split; [vm_compute; reflexivity|]. split; [reflexivity|]. split; vm_compute; reflexivity.
Qed.

(** ** C77: which output a stored sum of squares belongs to

    The wish: the stored sum of squares of the current point is the user's function at that point with the outputs in
    force.  What holds: it is the function at that point with the outputs in force when the point was accepted, and without
    outputs as long as nothing was accepted.  The outputs in force are the ones of the previous iteration, of the set-up in
    the first. *)
Theorem C77_stored_ss_has_outputs_of_acceptance_partial :
  forall (F : Type) (NF : Num F) (St Out : Type) (E : env F) (u : usersos F Out) (samplers : list (sampler F St Out)) resumed m sts m' c,
  Forall keeps samplers -> List.length sts = List.length samplers ->
  (forall o o' v v', List.length (sos_call u o v) = List.length (sos_call u o' v')) ->
  crun_simulation E u samplers resumed m sts = Ok (m', c) ->
  let start := if resumed then m_index m else 0 in
  exists evs first calls, m_trace m' = rev evs ++ m_trace m /\ List.length evs = o_nsimu (m_opts m) - 1 /\ List.length calls = o_nsimu (m_opts m) - 1 /\
    (forall j cs st, nth_error samplers j = Some cs -> nth_error sts j = Some st ->
       exists pos o pos' st1 reqs st2, cs_setup cs pos st = (o, pos', st1) /\ nth_error first j = Some o /\
         answers cs st1 reqs st2 /\ requests_of j reqs calls) /\
    (forall k call e, nth_error calls k = Some call -> nth_error evs k = Some e -> uc_accept call = negb (ev_stage e =? 0)) /\
    (resumed = false -> exists row, nth_error (m_chain m') 0 = Some row /\ nth_error (m_sschain m') 0 = Some (sos_call u None (fill (m_params m') row))) /\
    forall k, k < o_nsimu (m_opts m) - 1 -> exists row, nth_error (m_chain m') (start + S k) = Some row /\
      nth_error (m_sschain m') (start + S k) = Some (sos_call u (in_force (firstn (S k) (ledger first calls))) (fill (m_params m') row)).
Proof.
  intros F NF St Out E u samplers resumed m sts m' c HK HL HS H start.
  destruct (run_history E u samplers _ _ _ _ _ HK HL HS H) as (evs & first & calls & T & L1 & L2 & S1 & R0 & R). exists evs, first, calls.
  split; [exact T|]. split; [exact L1|]. split; [exact L2|]. split; [|split; [|split]].
  - intros j cs st Hj Hst. destruct (S1 _ _ _ Hj Hst) as (pos & o & pos' & st1 & reqs & st2 & Q1 & Q2 & Q3 & _ & Q5). eauto 12.
  - intros k call e Hk He. destruct (R _ _ Hk) as (_ & (e' & A2 & A3) & _). congruence.
  - intros Hr. destruct (R0 Hr) as [X1 X2]. eauto.
  - intros k Hk. destruct (nth_error calls k) as [call|] eqn:Hc; [|apply nth_error_None in Hc; lia].
    destruct (R _ _ Hc) as (_ & _ & A4 & A5 & A6 & _). exists (p_theta (uc_set call)). split; [exact A4|]. unfold start. rewrite A5. now f_equal.
Qed.
Print Assumptions C77_stored_ss_has_outputs_of_acceptance_partial.

(** In the second iteration of this run a point is rejected; the sum of squares kept for the current point is not the one
    with the outputs in force, which the candidate was evaluated with. *)
Theorem C77_refuted_outputs_in_force :
  exists (E : env XQ) (u : usersos XQ Q) (samplers : list (sampler XQ (list (list XQ)) Q)) m sts m' c call1 call2 row,
    Forall keeps samplers /\ List.length sts = List.length samplers /\
    (forall o o' v v', List.length (sos_call u o v) = List.length (sos_call u o' v')) /\
    crun_simulation E u samplers false m sts = Ok (m', c) /\
    nth_error (rev (c_calls c)) 0 = Some call1 /\ nth_error (rev (c_calls c)) 1 = Some call2 /\ uc_accept call2 = false /\
    nth_error (m_chain m') 2 = Some row /\
    nth_error (m_sschain m') 2 <> Some (sos_call u (Some (uc_out call1)) (fill (m_params m') row)).
Proof.
  exists demo_env, hearing, [recorder; noisy], (demo_s2 8 MH), [[]; []]. do 5 eexists.
  split; [repeat constructor; [apply recorder_keeps|apply noisy_keeps]|]. split; [reflexivity|]. split; [apply hearing_length|].
  split; [vm_compute; reflexivity|]. split; [vm_compute; reflexivity|]. split; [vm_compute; reflexivity|]. split; [reflexivity|].
  split; [vm_compute; reflexivity|]. vm_compute. discriminate.
Qed.
Print Assumptions C77_refuted_outputs_in_force.

(** ** C78: the logs of custom chains

    A sampler saves a chain; the update of an iteration leaves the rows of earlier iterations as they are, and no other chain
    has that file name.  Then the run adds to the text log of that chain the rows of all its iterations, each once and in order,
    and to the binary log blocks that tile them, whatever the saving interval. *)
Theorem C78_custom_chain_logs :
  forall (F : Type) (NF : Num F) (St Out : Type) (E : env F) (u : usersos F Out) (samplers : list (sampler F St Out)) resumed m sts m' c j cs f M,
  crun_simulation E u samplers resumed m sts = Ok (m', c) -> List.length sts = List.length samplers ->
  nth_error samplers j = Some cs -> cs_save_chain cs = true -> has_chain cs f M -> rows_stay cs M -> only_one samplers j f ->
  ~ In f (map fst (m_chains m')) -> f <> o_covchainfile (m_opts m') ->
  let o := m_opts m' in let n := o_nsimu o in let s := Z.to_nat (o_savesize o) in
  exists st bs, nth_error (c_sts c) j = Some st /\ tiles 0 n bs /\ small s bs /\
    txt_rows (o_savedir o, f, "txt"%string) (m_fs m') =
      txt_rows (o_savedir o, f, "txt"%string) (m_fs m) ++ (if o_save_to_txt o then firstn n (M st) else []) /\
    h5_sets (o_savedir o, f, "h5"%string) (m_fs m') =
      h5_sets (o_savedir o, f, "h5"%string) (m_fs m) ++ (if o_save_to_bin o then map (fun x => (label x, rows_of (M st) x)) bs else []).
Proof. intros F NF St Out E u samplers resumed m sts m' c j cs f M. apply custom_log. Qed.
Print Assumptions C78_custom_chain_logs.

Example C78_case : has_chain recorder "record" (fun st => st) /\ rows_stay recorder (fun st => st) /\ only_one [recorder; noisy] 0 "record" /\
  exists m' c, crun_simulation demo_env hearing [recorder; noisy] false (demo_s2 8 MH) [[]; []] = Ok (m', c) /\
    map fst (m_chains m') = ["chainfile"; "sschainfile"; "s2chainfile"]%string /\ o_covchainfile (m_opts m') = "covchainfile"%string /\
    o_savesize (m_opts m') = 3%Z /\ List.length (txt_rows ("log", "record", "txt")%string (m_fs m')) = 8.
Proof.
  split; [apply recorder_has|]. split; [apply recorder_stays|]. split; [apply recorder_one|].
  do 2 eexists. split; [vm_compute; reflexivity|]. split; [reflexivity|]. split; [reflexivity|]. split; vm_compute; reflexivity.
Qed.

(** ** C79: samplers that change the parameter set

    For any samplers that do not change its shape: the set as the samplers leave it is the point the next iteration starts
    from.  It is repeated in the chain if that iteration rejects, and new points are proposed from it. *)
Theorem C79_changed_set_is_the_next_start :
  forall (F : Type) (NF : Num F) (St Out : Type) (E : env F) (u : usersos F Out) (samplers : list (sampler F St Out)) resumed m sts m' c,
  Forall same_shape samplers -> List.length sts = List.length samplers ->
  (forall o o' v v', List.length (sos_call u o v) = List.length (sos_call u o' v')) ->
  crun_simulation E u samplers resumed m sts = Ok (m', c) ->
  let start := if resumed then m_index m else 0 in
  exists evs calls lefts, m_trace m' = rev evs ++ m_trace m /\ List.length evs = o_nsimu (m_opts m) - 1 /\
    List.length calls = o_nsimu (m_opts m) - 1 /\ c_calls c = rev calls /\
    forall k call, nth_error calls k = Some call ->
      nth_error (m_chain m') (start + S k) = Some (p_theta (uc_set call)) /\ nth_error (m_sschain m') (start + S k) = Some (p_ss (uc_set call)) /\
      exists left, nth_error lefts k = Some left /\ handed_on (uc_accept call) (S k) samplers (uc_set call) left /\
        forall row ss e, nth_error (m_chain m') (start + S (S k)) = Some row -> nth_error (m_sschain m') (start + S (S k)) = Some ss ->
          nth_error evs (S k) = Some e ->
          (ev_stage e = 0 -> row = p_theta left /\ ss = p_ss left) /\
          (ev_stage e <> 0 -> exists P pos, factor_in_force (ev_cov e) (ev_stage e) P /\
             row = vadd (p_theta left) (vecmat (map (s_normal (e_str E)) (seq pos (List.length (sampled_params (m_params m'))))) P)).
Proof.
  intros F NF St Out E u samplers resumed m sts m' c HK HL HS H start.
  destruct (run_course E u samplers _ _ _ _ _ HK HL HS H) as (evs & calls & lefts & set0 & H1 & H2 & H3 & _ & H4 & _ & _ & H5).
  fold start in H5. exists evs, calls, lefts. do 4 (split; [assumption|]).
  intros k call Hk. destruct (H5 _ _ Hk) as (Q1 & Q2 & Q3 & e0 & before & left & _ & _ & _ & Q7 & _ & Q8 & _).
  split; [exact Q2|]. split; [exact Q3|]. exists left. split; [exact Q7|]. split; [exact Q8|]. intros row ss e Hr Hs He.
  destruct (nth_error calls (S k)) as [call'|] eqn:Hc.
  2:{ apply nth_error_None in Hc. assert (S k < List.length evs) by (apply nth_error_Some; congruence). lia. }
  destruct (H5 _ _ Hc) as (_ & X2 & X3 & e' & before' & left' & X4 & _ & X6 & _ & (X7 & X8) & _).
  cbn [nth_error] in X6. assert (before' = left) by congruence. assert (e' = e) by congruence. subst before' e'.
  assert (row = p_theta (uc_set call')) as -> by congruence. assert (ss = p_ss (uc_set call')) as -> by congruence. split; assumption.
Qed.
Print Assumptions C79_changed_set_is_the_next_start.

(** If the samplers keep to the limits, so does the run. *)
Theorem C79_limits_kept_partial :
  forall (F : Type) (NF : Num F) (St Out : Type) (E : env F) (u : usersos F Out) (samplers : list (sampler F St Out)) resumed m sts m' c,
  Forall same_shape samplers -> Forall (respects (inside (m_params m))) samplers -> List.length sts = List.length samplers ->
  (forall o o' v v', List.length (sos_call u o v) = List.length (sos_call u o' v')) ->
  crun_simulation E u samplers resumed m sts = Ok (m', c) ->
  let start := if resumed then m_index m else 0 in
  (resumed = false -> exists row, nth_error (m_chain m') 0 = Some row /\ inside (m_params m) row) /\
  forall k, k < o_nsimu (m_opts m) - 1 -> exists row, nth_error (m_chain m') (start + S k) = Some row /\ inside (m_params m) row.
Proof.
  intros F NF St Out E u samplers resumed m sts m' c HK HR HL HS H start.
  destruct (run_course E u samplers _ _ _ _ _ HK HL HS H) as (evs & calls & lefts & set0 & H1 & H2 & H3 & HD & H4 & H6 & H7 & H5).
  fold start in H5. assert (D : forall row, inside (m_params m') row -> inside (m_params m) row) by (intros row X; eapply same_decls_inside; [exact HD|exact X]).
  split. { intros ->. exists (p_theta set0). auto. }
  assert (A : forall k call, nth_error calls k = Some call -> inside (m_params m) (p_theta (uc_set call)) /\
                forall left, nth_error lefts k = Some left -> inside (m_params m) (p_theta left)).
  { induction k as [|k IH]; intros call Hc; destruct (H5 _ _ Hc) as (_ & _ & _ & e & before & after & X1 & X2 & X3 & X4 & (X5 & _) & X6 & X7).
    - assert (Q : inside (m_params m) (p_theta (uc_set call))).
      { destruct (Nat.eq_dec (ev_stage e) 0) as [Hz|Hz]; [|auto]. destruct (X5 Hz) as [-> _]. cbn in X3. injection X3 as <-. auto. }
      split; [exact Q|]. intros left Hl. assert (left = after) as -> by congruence. eapply handed_respects; eauto.
    - assert (Q : inside (m_params m) (p_theta (uc_set call))).
      { destruct (Nat.eq_dec (ev_stage e) 0) as [Hz|Hz]; [|auto]. destruct (X5 Hz) as [-> _]. cbn [nth_error] in X3.
        destruct (nth_error calls k) as [c0|] eqn:H0; [destruct (IH _ eq_refl) as [_ Y]; auto|].
        apply nth_error_None in H0. assert (S k < List.length calls) by (apply nth_error_Some; congruence). lia. }
      split; [exact Q|]. intros left Hl. assert (left = after) as -> by congruence. eapply handed_respects; eauto. }
  intros k Hk. destruct (nth_error calls k) as [call|] eqn:Hc; [|apply nth_error_None in Hc; lia].
  destruct (H5 _ _ Hc) as (_ & X & _). exists (p_theta (uc_set call)). split; [exact X|]. destruct (A _ _ Hc) as [Y _]. exact Y.
Qed.
Print Assumptions C79_limits_kept_partial.

(** In general it does not: nothing checks the set the samplers leave, nor computes its sum of squares again. *)
Theorem C79_refuted_limits_and_ss :
  exists (E : env XQ) (u : usersos XQ Q) (samplers : list (sampler XQ (list (list XQ)) Q)) m sts m' c row ss,
    Forall same_shape samplers /\ List.length sts = List.length samplers /\
    (forall custom v, sos_call u custom v = e_sos E v) /\
    crun_simulation E u samplers false m sts = Ok (m', c) /\
    nth_error (m_chain m') 2 = Some row /\ nth_error (m_sschain m') 2 = Some ss /\
    ~ inside (m_params m) row /\ ss <> e_sos E (fill (m_params m') row).
Proof.
  exists demo_env, deaf, [pusher], (demo_s2 6 MH), [[]].
  do 4 eexists. split; [constructor; [apply changer_shape|constructor]|]. split; [reflexivity|]. split; [reflexivity|].
  split; [vm_compute; reflexivity|]. split; [cbn [m_chain nth_error]; reflexivity|]. split; [cbn [m_sschain nth_error]; reflexivity|]. split.
  - intros H. inversion H as [|? ? ? ? [_ H1] _]; subst. vm_compute in H1. discriminate.
  - vm_compute. intros H. discriminate.
Qed.
Print Assumptions C79_refuted_limits_and_ss.

Lemma resetter_respects : respects (inside (m_params (demo_s2 6 MH))) resetter.
Proof.
  intros acc i cur pos st o cur' pos' st' H HI. cbn in H. injection H as <- <- <- <-. cbn [p_theta].
  apply inside_length in HI. destruct (p_theta cur) as [|a [|b [|? ?]]]; try discriminate HI.
  unfold inside. change (map _ [a; b]) with [Fin (1 # 2)%Q; Fin (1 # 2)%Q].
  repeat (apply Forall2_cons; [split; vm_compute; reflexivity|]). apply Forall2_nil.
Qed.
Example C79_case : Forall same_shape [resetter] /\ Forall (respects (inside (m_params (demo_s2 6 MH)))) [resetter] /\
  (forall o o' v v', List.length (sos_call deaf o v) = List.length (sos_call deaf o' v')) /\
  exists m' c, crun_simulation demo_env deaf [resetter] false (demo_s2 6 MH) [[]] = Ok (m', c) /\ map (@ev_stage XQ) (m_trace m') = [1; 1; 1; 1; 1].
Proof.
  split; [constructor; [apply changer_shape|constructor]|]. split; [constructor; [apply resetter_respects|constructor]|]. split; [reflexivity|].
  do 2 eexists. split; vm_compute; reflexivity.
Qed.
