(** Properties of parallel runs (C35 - C39). *)

From Coq Require Import ZArith QArith Reals Bool Lia List String Permutation Sorted.
From Verif Require Import Base Num Samplers Adapt Settings Simulator Demo RunSpec DemoRuns DemoLogs LogSpec SamplerFacts Names ChainFiles ChainFileFacts ReadOrder
  Results Parallel ParallelSpec StreamLocal ParallelFacts LoadFacts ParallelReal ParallelProps DemoParallel.
Import ListNotations.
Close Scope Q_scope.
Close Scope R_scope.
Open Scope list_scope.
Open Scope nat_scope.

(** ** C35 *)

(** Real arithmetic; [uniforms str]: every uniform draw is a number in [0, 1]; [well_declared p]: the declared value is a number
    between the limits, each of which is a number or infinite. *)
Theorem C35_generated_points_admissible :
  forall (str : stream XR) pos ps d ms o nc rd l, uniforms str -> Forall well_declared ps ->
  exists objs, setup_parallel_simulation str pos ps d ms o None nc rd l = Ok objs /\ List.length objs = nc /\
    Forall (fun m => Forall2 (fun p q => a_name q = a_name p /\ (exists x, a_theta0 q = Fin x) /\ admits p (a_theta0 q)) ps (m_params m)) objs.
Proof. exact setup_generated. Qed.
Print Assumptions C35_generated_points_admissible.

(** Points of the user, for parameters whose limits are not infinite ([bounded]): used as they are when all of them are within
    the limits; the program stops otherwise. *)
Theorem C35_user_points_partial :
  forall F (NF : Num F) (str : stream F) pos ps d ms o iv nc rd l,
  Forall bounded ps -> Forall (fun r => List.length r = List.length ps) iv ->
  (Forall (Forall2 admits ps) iv -> exists objs, setup_parallel_simulation str pos ps d ms o (Some iv) nc rd l = Ok objs /\
     map (fun m => map (@a_theta0 F) (m_params m)) objs = iv) /\
  (~ Forall (Forall2 admits ps) iv -> setup_parallel_simulation str pos ps d ms o (Some iv) nc rd l = Err SysExit).
Proof. intros F NF. exact setup_users. Qed.
Print Assumptions C35_user_points_partial.

(** Finding: the declared value of every parameter is replaced, also if it is not sampled. *)
Theorem C35_declared_values_are_replaced :
  forall F (NF : Num F) (str : stream F) pos ps d ms o iv0 nc rd l objs, setup_parallel_simulation str pos ps d ms o iv0 nc rd l = Ok objs ->
  exists iv n k, check_initial_values str pos iv0 nc (List.length ps) (map low_lim ps) (map upp_lim ps) = Ok (iv, n, k) /\
    List.length objs = n /\
    forall i m j p q, nth_error objs i = Some m -> nth_error ps j = Some p -> nth_error (m_params m) j = Some q ->
      a_name q = a_name p /\ a_sample q = a_sample p /\ a_theta0 q = nth j (nth i iv []) n0.
Proof. intros F NF. exact setup_overwrites. Qed.
Print Assumptions C35_declared_values_are_replaced.

Theorem C35_refuted_fixed_parameter_keeps_its_value :
  exists (str : stream XQ) ps d ms o nc objs, setup_parallel_simulation str 0 ps d ms o None nc (fun _ => None) [] = Ok objs /\
    (forall k, exists u, s_unif str k = Fin u /\ (0 <= u <= 1)%Q) /\
    exists p, nth_error ps 1 = Some p /\ a_sample p = false /\ admits p (a_theta0 p) /\
      List.length objs = 2 /\ Forall (fun m => exists q, nth_error (m_params m) 1 = Some q /\ a_sample q = false /\ neq (a_theta0 q) (a_theta0 p) = false) objs.
Proof. exact fixed_parameter_moves. Qed.
Print Assumptions C35_refuted_fixed_parameter_keeps_its_value.

Theorem C35_refuted_user_point_within_infinite_limits :
  exists (p : param XQ) v, admits p v /\ a_sample p = true /\ a_min p = NInf /\ a_max p = PInf /\
    forall str d ms o rd l, setup_parallel_simulation str 0 [p] d ms o (Some [[v]]) 1 rd l = Err SysExit.
Proof. exact user_point_refused. Qed.
Print Assumptions C35_refuted_user_point_within_infinite_limits.

Example C35_case :
  Forall well_declared [mkparam "a" (Fin (-1)%R) NInf (Fin 2%R) (Fin 0%R) PInf true true; mkparam "b" (Fin 3%R) NInf PInf (Fin 0%R) PInf true true] /\
  uniforms (mkstream (fun _ => Fin 0%R) (fun k => Fin (/ INR (S k))%R)) /\
  Forall bounded pparams /\ Forall (fun r => List.length r = List.length pparams) upoints /\ Forall (Forall2 admits pparams) upoints.
Proof.
  split; [|split; [|exact upoints_in]].
  - constructor; [|constructor; [|constructor]]; eexists; (split; [reflexivity|]); (split; [left; reflexivity|]).
    + right. eexists. split; [reflexivity|]. Lra.lra.
    + left. reflexivity.
  - intros k. eexists. split; [reflexivity|].
    assert (1 <= INR (S k))%R by (apply (le_INR 1); lia). split; [apply Rlt_le, Rinv_0_lt_compat; Lra.lra|].
    rewrite <- Rinv_1. apply Rinv_le_contravar; Lra.lra.
Qed.

(** ** C36 *)

(** [news]: the file operations of each chain; [all]: those of all chains in any order the system may run them in.
    No file in the directory of chain [i] is touched by another chain. *)
Theorem C36_chains_do_not_collide :
  forall F (NF : Num F) (E : env F) str pos0 ps d ms o iv nc rd l objs c sched pos rs,
  setup_parallel_simulation str pos0 ps d ms o iv nc rd l = Ok objs ->
  run_parallel_simulation E objs c sched pos = Ok rs -> schedules (List.length objs) sched ->
  (1 <= c)%Z /\ List.length rs = List.length objs /\
  exists news, Forall2 (fun r new => m_fs r = l ++ new) rs news /\
    (forall i r new, nth_error rs i = Some r -> nth_error news i = Some new ->
       o_savedir (m_opts r) = (o_savedir o ++ "/chain_" ++ dec i)%string /\
       (exists m p, nth_error objs i = Some m /\ run_simulation E false (at_pos m p) = Ok r) /\
       Forall (fun op => op_dir op = o_savedir (m_opts r)) new /\
       forall p b, In (FJson p b) new -> p = (o_savedir (m_opts r), ("chain_" ++ dec i ++ ".json")%string, EmptyString)) /\
    NoDup (map (fun r => o_savedir (m_opts r)) rs) /\
    forall all, interleaved news all -> forall i new p, nth_error news i = Some new ->
      fst (fst p) = (o_savedir o ++ "/chain_" ++ dec i)%string -> on_file p all = on_file p new.
Proof. intros F NF E. exact (no_collision E). Qed.
Print Assumptions C36_chains_do_not_collide.

Theorem C36_number_of_workers : forall cpu n, (1 <= cpu)%Z ->
  (assign_number_of_cores cpu n <= cpu)%Z /\ (assign_number_of_cores cpu n <= n)%Z /\
  ((1 <= n)%Z -> (1 <= assign_number_of_cores cpu n)%Z) /\ ((1 <= n <= cpu)%Z -> assign_number_of_cores cpu n = n).
Proof. exact cores. Qed.
Print Assumptions C36_number_of_workers.

Example C36_case :
  setup_parallel_simulation demo_str 0 pparams demo_data demo_model (popts true 4) None 2 (fun _ => None) [] = Ok pobjs /\
  run_parallel_simulation demo_env pobjs 2 psched 6 = Ok pruns /\ schedules (List.length pobjs) psched /\
  Forall2 (fun r new => m_fs r = [] ++ new) pruns pnews /\ interleaved pnews pall /\ map (fun l => List.length l) pnews = [17; 17].
Proof.
  split; [exact pobjs_ok|]. split; [exact pruns_ok|]. split; [exact psched_ok|]. split; [exact pnews_ok|]. split; [exact pall_mixed|]. reflexivity.
Qed.

(** ** C37 *)

(** Finding: with two workers that have something to do, the first chains of both consume the same random numbers. *)
Theorem C37_first_chains_of_workers_share_their_numbers :
  forall F (NF : Num F) (E : env F) objs c sched pos rs a b i s j t,
  run_parallel_simulation E objs c sched pos = Ok rs -> schedules (List.length objs) sched ->
  a <> b -> nth_error sched a = Some (i :: s) -> nth_error sched b = Some (j :: t) ->
  i <> j /\ exists m m' r r', nth_error objs i = Some m /\ nth_error objs j = Some m' /\ nth_error rs i = Some r /\ nth_error rs j = Some r' /\
    run_simulation E false (at_pos m pos) = Ok r /\ run_simulation E false (at_pos m' pos) = Ok r'.
Proof. intros F NF E. exact (parallel_same_start E). Qed.
Print Assumptions C37_first_chains_of_workers_share_their_numbers.

Theorem C37_refuted_identical_chains :
  exists (E : env XQ) ps d ms o iv objs sched pos rs, setup_parallel_simulation (e_str E) 0 ps d ms o (Some iv) 2 (fun _ => None) [] = Ok objs /\
    run_parallel_simulation E objs 2 sched pos = Ok rs /\ schedules (List.length objs) sched /\ List.length sched = 2 /\
    exists r r', rs = [r; r'] /\ m_chain r = m_chain r' /\ List.length (m_chain r) = 4 /\ nth_error (m_chain r) 0 <> nth_error (m_chain r) 3.
Proof. exact twin_chains. Qed.
Print Assumptions C37_refuted_identical_chains.

(** Chains that the same worker runs: the draws of the one ([p] to [m_pos r]) end before those of the other begin, and each run
    depends on its own draws only. *)
Theorem C37_chains_of_one_worker_partial :
  forall F (NF : Num F) (E : env F) objs c sched pos rs w t a b i j,
  run_parallel_simulation E objs c sched pos = Ok rs -> schedules (List.length objs) sched ->
  nth_error sched w = Some t -> nth_error t a = Some i -> nth_error t b = Some j -> a < b ->
  exists m m' p p' r r', nth_error objs i = Some m /\ nth_error objs j = Some m' /\ nth_error rs i = Some r /\ nth_error rs j = Some r' /\
    run_simulation E false (at_pos m p) = Ok r /\ run_simulation E false (at_pos m' p') = Ok r' /\
    p <= m_pos r <= p' /\ p' <= m_pos r' /\
    (forall y, same_draws (e_str E) y p (m_pos r) -> run_simulation (with_stream E y) false (at_pos m p) = Ok r) /\
    (forall y, same_draws (e_str E) y p' (m_pos r') -> run_simulation (with_stream E y) false (at_pos m' p') = Ok r').
Proof. intros F NF E. exact (parallel_same_worker E). Qed.
Print Assumptions C37_chains_of_one_worker_partial.

Example C37_case :
  run_parallel_simulation demo_env pobjs 2 psched 6 = Ok pruns /\ schedules (List.length pobjs) psched /\
  map (fun r => m_pos r) pruns = [15; 15] /\
  run_parallel_simulation demo_env pobjs 1 psched1 6 = Ok pruns1 /\ schedules (List.length pobjs) psched1 /\
  map (fun r => m_pos r) pruns1 = [15; 24].
Proof.
  split; [exact pruns_ok|]. split; [exact psched_ok|]. split; [reflexivity|]. split; [exact pruns1_ok|]. split; [exact psched1_ok|]. reflexivity.
Qed.

(** ** C38 *)

(** [kept pct n chain part]: [part] is [chain] without its first [d] rows, [d] being [pct] percent of [n] rounded down.
    [labels parts]: for each part in turn, "Chain i" once for every row. *)
Theorem C38_combined_chain :
  forall F (NF : Num F) w pct (pres : list (nat * list (list F))), (0 <= pct)%Q -> Forall (fun pr => wide w (snd pr)) pres -> pres <> [] ->
  exists parts, Forall2 (fun pr part => kept pct (fst pr) (snd pr) part) pres parts /\
    generate_combined_chain_with_index pct pres = Ok (List.concat parts, labels parts) /\ generate_chain_list pct pres = parts.
Proof. intros F NF. exact combined. Qed.
Print Assumptions C38_combined_chain.

Theorem C38_parallel_run_combined :
  forall F (NF : Num F) (E : env F) str pos0 ps d ms o iv0 nc rd l objs c sched pos rs pct,
  setup_parallel_simulation str pos0 ps d ms o iv0 nc rd l = Ok objs ->
  run_parallel_simulation E objs c sched pos = Ok rs -> schedules (List.length objs) sched -> rs <> [] -> (0 <= pct)%Q ->
  exists pres parts, Forall2 (fun r pr => exists R, m_results r = Some R /\ pr = (rr_nsimu R, rr_chain R)) rs pres /\
    Forall2 (fun r part => kept pct (List.length (m_chain r)) (m_chain r) part) rs parts /\
    generate_combined_chain_with_index pct pres = Ok (List.concat parts, labels parts) /\ generate_chain_list pct pres = parts.
Proof. intros F NF E. exact (parallel_combined E). Qed.
Print Assumptions C38_parallel_run_combined.

Theorem C38_labels_differ : forall i j, ("Chain " ++ dec i)%string = ("Chain " ++ dec j)%string -> i = j.
Proof. exact label_inj. Qed.
Print Assumptions C38_labels_differ.

(** Finding: for a resumed chain the burn-in is a fraction of the number of rows of the last run only. *)
Theorem C38_refuted_for_resumed_chain :
  exists (E : env XQ) m m' m'' R, run_simulation E false m = Ok m' /\ run_simulation E true m' = Ok m'' /\ m_results m'' = Some R /\
    List.length (m_chain m'') = 11 /\
    generate_combined_chain_with_index 50 [(rr_nsimu R, m_chain m'')] = Ok (skipn 3 (m_chain m''), repeat "Chain 0"%string 8) /\
    ~ kept 50 (List.length (m_chain m'')) (m_chain m'') (skipn 3 (m_chain m'')).
Proof. exact resumed_burnin. Qed.
Print Assumptions C38_refuted_for_resumed_chain.

Example C38_case :
  generate_combined_chain_with_index 50 (map (fun r => (4, m_chain r)) pruns) =
    Ok (skipn 2 (nth 0 (map (fun r => m_chain r) pruns) []) ++ skipn 2 (nth 1 (map (fun r => m_chain r) pruns) []),
        ["Chain 0"; "Chain 0"; "Chain 1"; "Chain 1"]%string) /\
  Forall (fun r => wide 2 (m_chain r)) pruns.
Proof. split; [vm_compute; reflexivity|repeat constructor]. Qed.

(** ** C39 *)

(** A run whose json files do not hold the chains ([o_save_lightly]: the source sets this whenever logs are written) is
    loaded from its
    logs: [folders] are the directories of the chains, in string order. [saved R L]: [L] is the content of the results file written
    for the results [R]; [readable h5 l r]: the logs (binary if [h5], text otherwise) of [r] were written and, for binary ones, their blocks are
    read in the order of writing (C30). *)
Theorem C39_loading_from_logs_partial :
  forall F (NF : Num F) (E : env F) h5 str pos0 ps d ms o iv nc rd l objs c sched pos rs,
  setup_parallel_simulation str pos0 ps d ms o iv nc rd l = Ok objs ->
  run_parallel_simulation E objs c sched pos = Ok rs -> schedules (List.length objs) sched ->
  forall news all, Forall2 (fun r new => m_fs r = l ++ new) rs news -> interleaved news all ->
  forall dirs json, rs <> [] -> Permutation (filter (contains "chain_") dirs) (map chain_name (seq 0 (List.length rs))) ->
  (forall i r, nth_error rs i = Some r -> distinct_files r /\ readable h5 l r /\
     exists R L, m_results r = Some R /\ o_save_lightly (rr_opts R) = true /\ saved R L /\ json (chain_name i) = Some L) ->
  forall names : string * string * string * string, (forall r, In r rs -> names = (o_chainfile (m_opts r), o_sschainfile (m_opts r), o_s2chainfile (m_opts r), o_covchainfile (m_opts r))) ->
  let '(cf, ssf, s2f, covf) := names in
  exists folders pres, Permutation folders (map chain_name (seq 0 (List.length rs))) /\
    StronglySorted (fun x y => String.leb x y = true) folders /\
    load_parallel_simulation_results dirs json (fun f => read_in_savedir_files h5 (o_savedir o ++ "/" ++ f) cf ssf s2f covf all) = Ok pres /\
    Forall2 (fun f pr => exists i r, f = chain_name i /\ nth_error rs i = Some r /\
       lookup "chain"%string pr = Some (PMat (m_chain r)) /\ lookup "sschain"%string pr = Some (PMat (m_sschain r)) /\
       (forall s, m_s2chain r = Some s -> lookup "s2chain"%string pr = Some (PMat s))) folders pres.
Proof. intros F NF E. exact (load_logs E). Qed.
Print Assumptions C39_loading_from_logs_partial.

(** The other entries of the results are those of the json file. *)
Theorem C39_loading_keeps_other_entries_partial :
  forall F (NF : Num F) dirs (json : string -> option (pydict F)) read,
  let folders := check_parallel_directory_contents dirs in
  folders <> [] -> (forall f, In f folders -> exists L, json f = Some L /\ lookup "chain"%string L = None) ->
  exists pres, load_parallel_simulation_results dirs json read = Ok pres /\
    Forall2 (fun f pr => exists L, json f = Some L /\
      lookup "chain"%string pr = Some (PMat (fst (fst (read f)))) /\ lookup "sschain"%string pr = Some (PMat (snd (fst (read f)))) /\
      lookup "s2chain"%string pr = Some (PMat (fst (snd (read f)))) /\ lookup "covchain"%string pr = Some (PMat (snd (snd (read f)))) /\
      forall k, ~ In k ["chain"; "sschain"; "s2chain"; "covchain"]%string -> lookup k pr = option_map to_array (lookup k L)) folders pres.
Proof. intros F NF. exact load_light. Qed.
Print Assumptions C39_loading_keeps_other_entries_partial.

(** Finding: if the json files do hold the chains, loading always fails. *)
Theorem C39_full_results_files_cannot_be_loaded :
  forall F (NF : Num F) dirs (json : string -> option (pydict F)) read,
  let folders := check_parallel_directory_contents dirs in
  folders <> [] -> (forall f, In f folders -> exists r L, json f = Some L /\ saved r L /\ o_save_lightly (rr_opts r) = false) ->
  load_parallel_simulation_results dirs json read = Err UnboundLocal.
Proof.
  intros F NF dirs json read folders N H. apply load_full_fails; auto. intros f I. destruct (H f I) as (r & L & A & B & C).
  exists L. split; auto. exact (proj2 (saved_chain _ _ B) C).
Qed.
Print Assumptions C39_full_results_files_cannot_be_loaded.

Theorem C39_refuted_for_json_only_run :
  exists (E : env XQ) ps d ms o iv objs sched rs, setup_parallel_simulation (e_str E) 0 ps d ms o (Some iv) 2 (fun _ => None) [] = Ok objs /\
    run_parallel_simulation E objs 2 sched 6 = Ok rs /\ schedules (List.length objs) sched /\ List.length rs = 2 /\
    exists json, (forall i r, nth_error rs i = Some r -> exists R L, m_results r = Some R /\ o_save_lightly (rr_opts R) = false /\ saved R L /\ json (chain_name i) = Some L) /\
    forall read, load_parallel_simulation_results ["chain_0"; "chain_1"]%string json read = Err UnboundLocal.
Proof. exact full_results_fail. Qed.
Print Assumptions C39_refuted_for_json_only_run.

Example C39_case :
  (forall i r, nth_error pruns i = Some r -> distinct_files r /\ readable true [] r /\ readable false [] r /\
     exists R L, m_results r = Some R /\ o_save_lightly (rr_opts R) = true /\ saved R L /\ pjson pruns (chain_name i) = Some L) /\
  (forall r, In r pruns -> ("chainfile", "sschainfile", "s2chainfile", "covchainfile")%string = (o_chainfile (m_opts r), o_sschainfile (m_opts r), o_s2chainfile (m_opts r), o_covchainfile (m_opts r))) /\
  Permutation (filter (contains "chain_") ["chain_1"; "other"; "chain_0"]%string) (map chain_name (seq 0 2)) /\
  check_parallel_directory_contents (map chain_name (seq 0 11)) = map chain_name [0; 1; 10; 2; 3; 4; 5; 6; 7; 8; 9].
Proof.
  split; [exact pruns_readable|]. split; [intros r [<-|[<-|[]]]; reflexivity|]. split; [apply perm_swap|]. vm_compute. reflexivity.
Qed.
