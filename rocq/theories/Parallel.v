(** Model of pymcmcstat/ParallelMCMC.py and of the functions of chain/ChainProcessing.py that read
    the results of a parallel run. *)

From Coq Require Import ZArith QArith Bool Lia List String.
From Verif Require Import Base Num Samplers Adapt Settings Simulator Names ChainFiles Results.
Import ListNotations.
Close Scope Q_scope.
Open Scope list_scope.
Open Scope nat_scope.
Open Scope res_scope.

Section Parallel.
Context {F : Type} `{NF : Num F}.

(** ** Setting up the chains *)

(** ParallelMCMC.py 193.  [-np.inf] *)
Definition nninf : F := nsub n0 ninf.

(** ParallelMCMC.py 172-199 (get_parameter_features), one parameter: an infinite limit is replaced by
    theta0 -/+ 100*abs(theta0). *)
Definition low_lim (p : param F) : F :=
  if neq (a_min p) nninf then nsub (a_theta0 p) (nmul (nQ 100) (nabs (a_theta0 p))) else a_min p.
(** ParallelMCMC.py 172-199 *)
Definition upp_lim (p : param F) : F :=
  if neq (a_max p) ninf then nadd (a_theta0 p) (nmul (nQ 100) (nabs (a_theta0 p))) else a_max p.

(** ParallelMCMC.py 237-253: [low_lim + (upp_lim - low_lim)*u] with [u] of shape (num_chain, npar) drawn from position
    [pos] of the random stream. *)
Definition generate_initial_values (str : stream F) (pos num_chain npar : nat) (low upp : list F) : list (list F) :=
  map (fun i => map (fun j => nadd (nth j low n0)
                                   (nmul (nsub (nth j upp n0) (nth j low n0)) (s_unif str (pos + (i * npar + j)))))
                    (seq 0 npar)) (seq 0 num_chain).

(** ParallelMCMC.py 257-283: the number of rows counts; surplus columns are deleted (np.delete leaves an array with too few
    columns alone). *)
Definition check_shape_of_users_initial_values (iv : list (list F)) (npar : nat) : nat * list (list F) :=
  (List.length iv, map (firstn npar) iv).

(** ParallelMCMC.py 287-308.  Every row is compared with the limits; with fewer columns than parameters numpy cannot compare
    unless there is one column (or one parameter), and then line 82 runs out of columns. *)
Definition check_users_initial_values_wrt_limits (iv : list (list F)) (low upp : list F) : res (list (list F)) :=
  if existsb (fun r => List.length r <? List.length low) iv then
    if existsb (fun r => (List.length r =? 1) || (List.length low =? 1)) iv then Err IndexError else Err ValueError
  else if existsb (fun r => is_sample_outside_bounds r low upp) iv then Err SysExit else Ok iv.

(** ParallelMCMC.py 203-233: (initial values, number of chains, random draws used). *)
Definition check_initial_values (str : stream F) (pos : nat) (initial_values : option (list (list F))) (num_chain npar : nat)
    (low upp : list F) : res (list (list F) * nat * nat) :=
  match initial_values with
  | None => Ok (generate_initial_values str pos num_chain npar low upp, num_chain, num_chain * npar)
  | Some iv =>
      let (m, iv) := check_shape_of_users_initial_values iv npar in
      let* iv := check_users_initial_values_wrt_limits iv low upp in
      Ok (iv, m, 0)
  end.

(** ParallelMCMC.py 312-325 *)
Definition check_options_output (o : simopts F) : simopts F :=
  mkopts (o_nsimu o) (o_method o) (o_adaptint o) (o_ntry o) (o_dodram o) (o_doram o) (o_adascale o)
    (o_printint o) (o_lastadapt o) (o_burnintime o) (o_qcov o) (o_initqcovn o) (o_updatesigma o)
    (o_qcov_adjust o) (o_burnin_scale o) (o_alphatarget o) (o_etaparam o) (o_drscale o) (o_RDR o)
    (o_savesize o) (o_chainfile o) (o_sschainfile o) (o_s2chainfile o) (o_covchainfile o)
    (o_savedir o) (if negb (o_save_to_txt o) && negb (o_save_to_bin o) && negb (o_save_to_json o) then true else o_save_to_bin o)
    (o_save_to_txt o) (o_save_to_json o) (o_save_lightly o) (o_results_filename o) (o_restart o).

(** ParallelMCMC.py 72-79: the options of chain [ii].  [restart_dir ii] is the content of the restart file of chain [ii]
    when a restart directory was given and the file exists (lines 413-428). *)
Definition chain_name (ii : nat) : string := ("chain_" ++ dec ii)%string.
(** ParallelMCMC.py 72-79, 413-428 *)
Definition chain_options (o : simopts F) (parallel_dir : string) (r : option (restart F)) (ii : nat) : simopts F :=
  mkopts (o_nsimu o) (o_method o) (o_adaptint o) (o_ntry o) (o_dodram o) (o_doram o) (o_adascale o)
    (o_printint o) (o_lastadapt o) (o_burnintime o) (o_qcov o) (o_initqcovn o) (o_updatesigma o)
    (o_qcov_adjust o) (o_burnin_scale o) (o_alphatarget o) (o_etaparam o) (o_drscale o) (o_RDR o)
    (o_savesize o) (o_chainfile o) (o_sschainfile o) (o_s2chainfile o) (o_covchainfile o)
    (parallel_dir ++ "/" ++ chain_name ii)%string (o_save_to_bin o) (o_save_to_txt o) (o_save_to_json o) (o_save_lightly o)
    (Some (chain_name ii ++ ".json")%string) r.

(** ParallelMCMC.py 83: theta0 of every parameter, sampled or not. *)
Definition set_theta0 (p : param F) (v : F) : param F :=
  mkparam (a_name p) v (a_min p) (a_max p) (a_mu p) (a_sigma p) (a_sample p) (a_adapt p).
(** ParallelMCMC.py 81-83 *)
Definition chain_params (ps : list (param F)) (row : list F) : list (param F) := map2 set_theta0 ps row.

(** ParallelMCMC.py 357-372 *)
Definition assign_number_of_cores (cpu_count num_cores : Z) : Z :=
  if (cpu_count <? num_cores)%Z then cpu_count else num_cores.

(** ParallelMCMC.py 34-83.  Every chain gets its own copies.  [MCMC()] reseeds the global random state each time; the state
    the workers inherit is position [pos'] of the stream used after it. *)
Definition setup_parallel_simulation (str : stream F) (pos : nat) (ps : list (param F)) (d : data F) (ms : modset F) (o : simopts F)
    (initial_values : option (list (list F))) (num_chain : nat) (restart_dir : nat -> option (restart F)) (l : fs F)
  : res (list (mcmc F)) :=
  let o := check_options_output o in
  let* (iv, n, _) := check_initial_values str pos initial_values num_chain (List.length ps) (map low_lim ps) (map upp_lim ps) in
  Ok (map (fun ii => new_mcmc (chain_params ps (nth ii iv [])) d ms (chain_options o (o_savedir o) (restart_dir ii) ii) 0 l) (seq 0 n)).

(** ** Running them *)

Variable E : env F.

(** ParallelMCMC.py 105-106 (forked workers inherit the random state) *)
Definition at_pos (m : mcmc F) (pos : nat) : mcmc F :=
  mkmcmc (m_params m) (m_data m) (m_model m) (m_opts m) (m_RDR m) (m_status m) (m_chain m) (m_sschain m)
         (m_s2chain m) (m_index m) (m_chains m) pos (m_calls m) (m_fs m) (m_results m) (m_trace m).

(** ParallelMCMC.py 341-353 in one worker process: the chains [todo] one after the other, each going on with the random state
    the one before left. *)
Fixpoint run_worker (objs : list (mcmc F)) (todo : list nat) (pos : nat) : res (list (nat * mcmc F)) :=
  match todo with
  | [] => Ok []
  | i :: t =>
      let* m := of_option IndexError (nth_error objs i) in
      let* m' := run_simulation E false (at_pos m pos) in
      let* r := run_worker objs t (m_pos m') in
      Ok ((i, m') :: r)
  end.

(** ParallelMCMC.py 85-114.  [Pool] forks [num_cores] processes (Linux), which all inherit the random state of the parent;
    [schedule] says which chains each of them gets (the distribution is up to the operating system).  The results come back in the order
    of the chains; an exception in any worker is raised again. *)
Definition run_parallel_simulation (objs : list (mcmc F)) (num_cores : Z) (schedule : list (list nat)) (pos : nat)
  : res (list (mcmc F)) :=
  if (num_cores <? 1)%Z then Err ValueError
  else
    let* parts := mapM (fun todo => run_worker objs todo pos) schedule in
    mapM (fun i => of_option IndexError
                     (option_map snd (find (fun e => fst e =? i) (List.concat parts)))) (seq 0 (List.length objs)).

(** ** Loading the results (ParallelMCMC.py 376-409 and the same function in chain/ChainProcessing.py 100-133) *)

(** ParallelMCMC.py 394-395, chain/ChainProcessing.py 118-119.  [np.array] of a list read from a json file; lists of strings
    or of unequal rows are left as they are. *)
Definition to_array (v : pyval F) : pyval F :=
  match v with
  | PList l =>
      match mapM (fun x => match x with PInt z => Ok z | _ => Err TypeError end) l with
      | Ok z => PArrZ z
      | Err _ => match as_floats v with
                 | Ok x => PArr x
                 | Err _ => match as_rows v with Ok m => PMat m | Err _ => v end
                 end
      end
  | _ => v
  end.

(** chain/ChainProcessing.py 136-178 *)
Definition logs : Type := (list (list F) * list (list F)) * (list (list F) * list (list F)).

(** ParallelMCMC.py 376-409, chain/ChainProcessing.py 100-133, 181-226.  [json folder] is the content of
    <savedir>/<folder>/<folder>.json if there is such a file; [read folder] what
    read_in_savedir_files returns for that directory.  [dirs] are the directories in [savedir]. *)
Definition load_parallel_simulation_results (dirs : list string) (json : string -> option (pydict F)) (read : string -> logs)
  : res (list (pydict F)) :=
  let folders := check_parallel_directory_contents dirs in
  let* pres := mapM (fun f => of_option FileNotFound (json f)) folders in
  let pres := map (fun pr => map (fun e => (fst e, to_array (snd e))) pr) pres in
  let* pr := of_option UnboundLocal (last (map Some pres) None) in
  if existsb (fun k => String.eqb k "chain"%string) (map fst pr) then Err UnboundLocal   (* out *)
  else
    let out := map read folders in
    Ok (map2 (fun pr o => setkey "covchain"%string (PMat (snd (snd o)))
                         (setkey "s2chain"%string (PMat (fst (snd o)))
                         (setkey "sschain"%string (PMat (snd (fst o)))
                         (setkey "chain"%string (PMat (fst (fst o))) pr)))) pres out).
End Parallel.
