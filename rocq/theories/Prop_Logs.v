(** Properties of log files, restarts, results files and settings dictionaries (C29, C30, C32 - C34, C49). *)

From Coq Require Import ZArith QArith Bool Lia List String.
From Verif Require Import Base Num Samplers Adapt Settings Simulator Demo RunSpec DemoRuns RunLift SessionFacts LogSpec LogFacts LogThms Names
  ChainFiles ChainFileFacts ReadOrder ResumeLogs RestartFacts Results ResultSpec ResultFacts ResultThms MergeFacts LogProps DemoLogs.
Import ListNotations.
Close Scope Q_scope.
Open Scope list_scope.
Open Scope nat_scope.

(** ** C29 *)

(** [bs] are the blocks; [firstn j new] is what a crash after [j] of the run's file operations leaves. In it, the
    log of any chain consists of whole blocks from the beginning, and when iteration [k] (counted from 0; it makes
    row [k + 1]) has begun, row [k] is at most [s] rows beyond what is stored. *)
Theorem C29_log_blocks :
  forall F (NF : Num F) (E : env F) m m', run_simulation E false m = Ok m' -> distinct_files m' ->
  let o := m_opts m' in let s := Z.to_nat (o_savesize o) in let n := o_nsimu o in
  1 <= s /\ Forall (fun c => List.length (snd c) = n) (chain_files m') /\
  exists new evs bs, m_fs m' = m_fs m ++ new /\ m_trace m' = rev evs ++ m_trace m /\ List.length evs = n - 1 /\
    tiles 0 n bs /\ small s bs /\
    (o_save_to_bin o = true ->
       log_lines (binlog (o_savedir o)) new = map label bs /\
       forall f M, In (f, M) (chain_files m') ->
         h5_sets (o_savedir o, f, "h5"%string) new = map (fun x => (label x, rows_of M x)) bs /\
         forall j, exists q, h5_sets (o_savedir o, f, "h5"%string) (firstn j new) = map (fun x => (label x, rows_of M x)) (firstn q bs) /\
           forall k e, nth_error evs k = Some e -> ev_files e <= List.length (m_fs m) + j -> k < (q + 1) * s) /\
    (o_save_to_txt o = true ->
       log_lines (txtlog (o_savedir o)) new = map label bs /\
       forall f M, In (f, M) (chain_files m') ->
         txt_rows (o_savedir o, f, "txt"%string) new = M /\
         forall j, exists c, c <= n /\ txt_rows (o_savedir o, f, "txt"%string) (firstn j new) = firstn c M /\
           forall k e, nth_error evs k = Some e -> ev_files e <= List.length (m_fs m) + j -> k + 1 <= c + s).
Proof. intros F NF E m m'. exact (log_blocks E m m'). Qed.
Print Assumptions C29_log_blocks.

Example C29_case : run_simulation demo_env false (demo 12 DRAM) = Ok dram12 /\ distinct_files dram12 /\
  o_save_to_bin (m_opts dram12) = true /\ o_save_to_txt (m_opts dram12) = true /\
  log_lines (txtlog "log"%string) (m_fs dram12) = [(0, 2); (3, 5); (6, 8); (9, 11)].
Proof. split; [exact dram12_ok|]. split; [apply demo_distinct; reflexivity|]. repeat split. Qed.

(** ** C30 *)

(** [same_digits (last_start s n) s]: the first row of the last block has as many decimal digits as that of the second. *)
Theorem C30_bin_log_reads_back_partial :
  forall F (NF : Num F) (E : env F) m m', run_simulation E false m = Ok m' -> distinct_files m' -> o_save_to_bin (m_opts m') = true ->
  let s := Z.to_nat (o_savesize (m_opts m')) in let n := o_nsimu (m_opts m') in
  n <= s \/ same_digits (last_start s n) s ->
  forall f M, In (f, M) (chain_files m') -> h5_sets (o_savedir (m_opts m'), f, "h5"%string) (m_fs m) = [] ->
  read_in_bin_file (h5_sets (o_savedir (m_opts m'), f, "h5"%string) (m_fs m')) = M.
Proof. intros F NF E m m'. exact (h5_back E m m'). Qed.
Print Assumptions C30_bin_log_reads_back_partial.

(** Otherwise the chain that is read differs, unless rows that begin later blocks repeat row [s]. *)
Theorem C30_longer_logs_read_wrong :
  forall F (NF : Num F) (E : env F) m m', run_simulation E false m = Ok m' -> distinct_files m' -> o_save_to_bin (m_opts m') = true ->
  let s := Z.to_nat (o_savesize (m_opts m')) in let n := o_nsimu (m_opts m') in
  forall f M, In (f, M) (chain_files m') -> h5_sets (o_savedir (m_opts m'), f, "h5"%string) (m_fs m) = [] ->
  s < n -> ~ same_digits (last_start s n) s ->
  (forall j, 2 <= j -> j * s < n -> nth_error M (j * s) <> nth_error M s) ->
  read_in_bin_file (h5_sets (o_savedir (m_opts m'), f, "h5"%string) (m_fs m')) <> M.
Proof. intros F NF E m m'. exact (h5_reads_wrong E m m'). Qed.
Print Assumptions C30_longer_logs_read_wrong.

Theorem C30_refuted_bin_log_out_of_order :
  exists (E : env XQ) m m', run_simulation E false m = Ok m' /\ distinct_files m' /\ m_fs m = [] /\ o_save_to_bin (m_opts m') = true /\
    In (o_chainfile (m_opts m'), m_chain m') (chain_files m') /\
    read_in_bin_file (h5_sets (o_savedir (m_opts m'), o_chainfile (m_opts m'), "h5"%string) (m_fs m')) <> m_chain m'.
Proof. exact bin_log_out_of_order. Qed.
Print Assumptions C30_refuted_bin_log_out_of_order.

Example C30_case :
  (run_simulation demo_env false (demo 12 DRAM) = Ok dram12 /\ distinct_files dram12 /\ o_save_to_bin (m_opts dram12) = true /\
   same_digits (last_start (Z.to_nat (o_savesize (m_opts dram12))) (o_nsimu (m_opts dram12))) (Z.to_nat (o_savesize (m_opts dram12))) /\
   m_fs (demo 12 DRAM) = []) /\
  (run_simulation demo_env false (demo 13 AM) = Ok am13 /\ distinct_files am13 /\ o_save_to_bin (m_opts am13) = true /\
   Z.to_nat (o_savesize (m_opts am13)) = 3 /\ o_nsimu (m_opts am13) = 13 /\ ~ same_digits (last_start 3 13) 3 /\
   (forall j, 2 <= j -> j * 3 < 13 -> nth_error (m_chain am13) (j * 3) <> nth_error (m_chain am13) 3)).
Proof.
  split.
  - split; [exact dram12_ok|]. split; [apply demo_distinct; reflexivity|]. split; [reflexivity|]. split; [exact same_digits_9_3|reflexivity].
  - split; [exact am13_ok|]. split; [apply demo_distinct; reflexivity|]. split; [reflexivity|]. split; [reflexivity|]. split; [reflexivity|].
    split; [exact other_digits_12_3|exact am13_rows_differ].
Qed.

(** ** C32 *)

(** The text log of a resumed run receives the rows of the first run once more, and none of its own. *)
Theorem C32_resumed_text_log_repeats_old_rows :
  forall F (NF : Num F) (E : env F) m m' m'', run_simulation E false m = Ok m' -> run_simulation E true m' = Ok m'' ->
  distinct_files m' -> o_save_to_txt (m_opts m') = true ->
  forall f M, In (f, M) (chain_files m') ->
  txt_rows (o_savedir (m_opts m'), f, "txt"%string) (m_fs m'') = txt_rows (o_savedir (m_opts m'), f, "txt"%string) (m_fs m') ++ M.
Proof. intros F NF E m m' m''. exact (resumed_text_log E m m' m''). Qed.
Print Assumptions C32_resumed_text_log_repeats_old_rows.

(** With binary logs a run cannot be resumed in the same directory. *)
Theorem C32_resuming_with_bin_log_fails :
  forall F (NF : Num F) (E : env F) m m', run_simulation E false m = Ok m' -> distinct_files m' -> o_save_to_bin (m_opts m') = true ->
  forall m'', run_simulation E true m' <> Ok m''.
Proof. intros F NF E m m'. exact (h5_resume_fails E m m'). Qed.
Print Assumptions C32_resuming_with_bin_log_fails.

Theorem C32_refuted_new_rows_not_logged :
  exists (E : env XQ) m m' m'', run_simulation E false m = Ok m' /\ run_simulation E true m' = Ok m'' /\ distinct_files m' /\ m_fs m = [] /\
    o_save_to_txt (m_opts m') = true /\
    txt_rows (o_savedir (m_opts m''), o_chainfile (m_opts m''), "txt"%string) (m_fs m'') <> m_chain m'' /\
    forall row, In row (skipn 6 (m_chain m'')) ->
      ~ In row (txt_rows (o_savedir (m_opts m''), o_chainfile (m_opts m''), "txt"%string) (m_fs m'')).
Proof. exact resumed_log_is_old. Qed.
Print Assumptions C32_refuted_new_rows_not_logged.

Example C32_case :
  (run_simulation demo_env false (demo_s2 6 DRAM) = Ok first6 /\ run_simulation demo_env true first6 = Ok resumed6 /\
   distinct_files first6 /\ o_save_to_txt (m_opts first6) = true) /\
  (run_simulation demo_env false (demo 12 DRAM) = Ok dram12 /\ distinct_files dram12 /\ o_save_to_bin (m_opts dram12) = true).
Proof.
  split.
  - split; [exact first6_ok|]. split; [exact resumed6_ok|]. split; [apply demo_distinct; reflexivity|reflexivity].
  - split; [exact dram12_ok|]. split; [apply demo_distinct; reflexivity|reflexivity].
Qed.

(** ** C33 *)

(** Every sampled parameter whose name is stored starts at the stored value; parameters that are fixed or not stored are
    left alone. *)
Theorem C33_restart_values :
  forall F (NF : Num F) (E : env F) m m' r, run_simulation E false m = Ok m' -> o_restart (m_opts m) = Some r ->
  Forall2 (restarted r) (m_params m) (m_params m').
Proof. intros F NF E m m' r. exact (restart_at_run E m m' r). Qed.
Print Assumptions C33_restart_values.

(** With the stored covariance of [k] sampled parameters, a run can only succeed when these come first in the
    parameter list; then the covariance in force is the stored one. *)
Theorem C33_restart_covariance_partial :
  forall F (NF : Num F) (E : env F) m m' r, run_simulation E false m = Ok m' -> o_restart (m_opts m) = Some r ->
  square_mat (List.length (sampled_params (m_params m))) (rs_qcov r) ->
  (forall i p, nth_error (m_params m) i = Some p -> (a_sample p = true <-> i < List.length (sampled_params (m_params m)))) /\
  exists evs e, m_trace m' = rev evs ++ m_trace m /\ nth_error evs 0 = Some e /\ c_qcov (ev_cov e) = rs_qcov r.
Proof. intros F NF E m m' r. exact (restart_covariance E m m' r). Qed.
Print Assumptions C33_restart_covariance_partial.

(** A restart from the results of another object with the same declarations continues at its last row. *)
Theorem C33_restart_at_last_row :
  forall F (NF : Num F) (E : env F) ps m1 r m2 m2', session E ps m1 -> m_results m1 = Some r -> m_status m1 = true ->
  NoDup (map (@a_name F) (sampled_params ps)) ->
  same_decls ps (m_params m2) -> o_restart (m_opts m2) = Some (restart_of r) -> run_simulation E false m2 = Ok m2' ->
  nth_error (m_chain m2') 0 = nth_error (m_chain m1) (m_index m1) /\ nth_error (m_chain m1) (m_index m1) <> None.
Proof. intros F NF E ps m1 r m2 m2'. exact (restart_roundtrip E ps m1 r m2 m2'). Qed.
Print Assumptions C33_restart_at_last_row.

Theorem C33_refuted_restart_fails_with_fixed_parameter_between :
  exists (E : env XQ) m m' r, run_simulation E false m = Ok m' /\ m_results m' = Some r /\ o_restart (m_opts m) = None /\
    forall n, run_simulation E false (restarted_from (m_params m) false false n (Some (restart_of r))) = Err IndexError.
Proof. exact restart_fails. Qed.
Print Assumptions C33_refuted_restart_fails_with_fixed_parameter_between.

Example C33_case :
  session demo_env front front4 /\ m_results front4 = Some front4_results /\ m_status front4 = true /\
  NoDup (map (@a_name XQ) (sampled_params front)) /\ same_decls front (m_params front_again) /\
  o_restart (m_opts front_again) = Some (restart_of front4_results) /\ run_simulation demo_env false front_again = Ok front_again3 /\
  square_mat (List.length (sampled_params (m_params front_again))) (rs_qcov (restart_of front4_results)) /\
  nth_error (m_chain front_again3) 0 <> nth_error (m_chain front4) 0.
Proof.
  split; [exact session_front4|]. split; [exact front4_has_results|]. split; [reflexivity|].
  split; [repeat constructor; cbn; intros H; repeat (destruct H as [H|H]; [discriminate|]); exact H|].
  split; [repeat constructor|]. split; [reflexivity|]. split; [exact front_again3_ok|].
  split; [repeat constructor|]. discriminate.
Qed.

(** ** C34 *)

(** [h] holds the dictionary objects after the export: the options (0), the model settings (1) and the results ([d]).
    The option and settings objects are unchanged; the results hold what the run produced; a file that is written
    has the documented name, and reading it gives back the results, without the chains when saved lightly. *)
Theorem C34_results_file_partial :
  forall F (NF : Num F) ox mx x (r : results F) h (d : nat) f, Forall wf (option_values ox) -> wf (mx_Nshape mx) ->
  results_and_export ox mx x r = Ok (h, d, f) ->
  let o := rr_opts r in
  exists D so sm,
  nth_error h 0 = Some (options_dict o ox) /\ nth_error h 1 = Some (model_dict (rr_model r) mx) /\ nth_error h d = Some D /\
  lookup "simulation_options"%string D = Some (PDict so) /\
  (forall k, lookup k so =
     if mem ["doram"; "waitbar"; "debug"; "dodram"; "maxmem"; "verbosity"; "RDR"; "stats"; "initqcovn"; "drscale";
             "maxiter"; "_SimulationOptions__options_set"; "skip"]%string k then None else lookup k (options_dict o ox)) /\
  lookup "model_settings"%string D = Some (PDict sm) /\
  (forall k, lookup k sm =
     if mem ["sos_function"; "prior_function"; "model_function"; "prior_update_function"; "prior_pars"]%string k
     then None else lookup k (model_dict (rr_model r) mx)) /\
  lookup "chain"%string D = Some (PMat (rr_chain r)) /\ lookup "sschain"%string D = Some (PMat (rr_sschain r)) /\
  lookup "s2chain"%string D = Some (pyopt PMat (rr_s2chain r)) /\
  match f with
  | None => o_save_to_json o = false
  | Some (p, j) =>
      o_save_to_json o = true /\
      p = path_join (o_savedir o) (match o_results_filename o with
                                   | Some f => f | None => (ox_datestr ox ++ "_mcmc_simulation.json")%string end) /\
      exists L, load_json_object j = Ok L /\ read_restart L = Ok (restart_of r) /\
        forall k, if o_save_lightly o && mem ["chain"; "s2chain"; "sschain"]%string k then lookup k L = None
                  else (lookup k D = None -> lookup k L = None) /\
                       (forall v, lookup k D = Some v -> exists w, lookup k L = Some w /\ reads_as v w)
  end.
Proof. intros F NF. exact results_file. Qed.
Print Assumptions C34_results_file_partial.

(** The export succeeds. *)
Theorem C34_results_file_written :
  forall F (NF : Num F) ox mx x (r : results F), Forall plain (option_values ox) -> plain (mx_Nshape mx) ->
  exists h (d : nat) f, results_and_export ox mx x r = Ok (h, d, f).
Proof. intros F NF. exact results_file_written. Qed.
Print Assumptions C34_results_file_written.

(** Not all covariance inputs are left out: the user's initial covariance is stored. *)
Theorem C34_initial_covariance_is_stored :
  forall F (NF : Num F) ox mx x (r : results F) h (d : nat) f, Forall wf (option_values ox) -> wf (mx_Nshape mx) ->
  results_and_export ox mx x r = Ok (h, d, f) ->
  exists D so, nth_error h d = Some D /\ lookup "simulation_options"%string D = Some (PDict so) /\
    lookup "qcov"%string so = Some (match o_qcov (rr_opts r) with Some q => PMat q | None => PNone end).
Proof. intros F NF. exact stored_covariance. Qed.
Print Assumptions C34_initial_covariance_is_stored.

Example C34_case : Forall wf (option_values ox) /\ wf (mx_Nshape mx) /\ Forall plain (option_values ox) /\ plain (mx_Nshape mx) /\
  mx_sos mx = PFun "sos" /\ o_save_to_json (rr_opts front4_results) = true /\ o_save_lightly (rr_opts front4_results) = true /\
  exists h d f, results_and_export ox mx rx front4_results = Ok (h, d, f).
Proof.
  destruct ox_wf, ox_plain. repeat (split; [first [assumption|reflexivity]|]). apply results_file_written; auto.
Qed.

(** ** C49 *)

Theorem C49_settings_are_merged :
  forall F (NF : Num F) (d : pydict F) u, wf u ->
  (matching d u <-> exists s, check_settings d u = Ok s) /\ (forall s, check_settings d u = Ok s -> merged d u s).
Proof. intros F NF. exact check_settings_spec. Qed.
Print Assumptions C49_settings_are_merged.

Example C49_case :
  let d : pydict XQ := [("fig", PDict [("dpi", PInt 100); ("size", PNone)]); ("label", PStr "x")]%string in
  let u : pyval XQ := PDict [("fig", PDict [("dpi", PInt 300)]); ("new", PInt 1)]%string in
  wf u /\ matching d u /\
  check_settings d u = Ok [("fig", PDict [("dpi", PInt 300); ("size", PNone)]); ("label", PStr "x"); ("new", PInt 1)]%string.
Proof.
  cbv zeta. assert (W : wf (F:=XQ) (PDict [("fig", PDict [("dpi", PInt 300)]); ("new", PInt 1)]%string)).
  { apply wf_dict.
    - repeat constructor; cbn; intros H; repeat (destruct H as [H|H]; [discriminate|]); exact H.
    - repeat constructor; cbn; try (intros; discriminate); tauto. }
  split; [exact W|]. split; [|reflexivity]. apply check_settings_spec; auto. eexists. reflexivity.
Qed.
