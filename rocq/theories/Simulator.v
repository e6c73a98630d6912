(** Model of MCMC.py: initialisation, the main loop, logging, restart, results. *)

From Coq Require Import ZArith QArith Bool Lia List String.
From Verif Require Import Base Num Samplers Adapt Settings.
Import ListNotations.
Open Scope list_scope.
Open Scope nat_scope.
Open Scope res_scope.

(** ** Files

    A file is named by (directory, base name, extension).  Effects on files are recorded in order;
    the contents of a file are obtained by replaying them ([txt_rows], [h5_sets], [log_lines] below). *)
(** chain/ChainProcessing.py 326-333 *)
Definition path : Type := string * string * string.

(** chain/ChainProcessing.py 326-333 *)
Definition path_eqb (p q : path) : bool :=
  let '(a, b, c) := p in let '(a', b', c') := q in
  String.eqb a a' && String.eqb b b' && String.eqb c c'.

Section Simulator.
Context {F : Type} `{NF : Num F}.

(** chain/ChainProcessing.py 336-350, structures/ResultsStructure.py 45-78: - [FLog p a b]: a line "time a b" appended to
    the log index file (ChainProcessing.py 336-338);
    - [FH5 p a b rows]: a new dataset named "nsimu_a_b" in an h5 file (341-344);
    - [FTxt p rows]: rows appended to a text file (347-350);
    - [FJson p light]: the results dictionary, in full or without the chains, dumped to a file
      (ResultsStructure.py 45-78; the name is "" when it would be made from the date). *)
Inductive fop : Type :=
| FLog (p : path) (a b : nat)
| FH5 (p : path) (a b : nat) (rows : list (list F))
| FTxt (p : path) (rows : list (list F))
| FJson (p : path) (light : bool).

(** chain/ChainProcessing.py 336-350, structures/ResultsStructure.py 104-117 *)
Definition fs : Type := list fop.

(** chain/ChainProcessing.py 347-350.  Contents of files after a sequence of operations. *)
Definition txt_rows (p : path) (l : fs) : list (list F) :=
  List.concat (map (fun op => match op with
                         | FTxt q rows => if path_eqb p q then rows else []
                         | _ => []
                         end) l).
(** chain/ChainProcessing.py 341-344 *)
Definition h5_sets (p : path) (l : fs) : list (nat * nat * list (list F)) :=
  List.concat (map (fun op => match op with
                         | FH5 q a b rows => if path_eqb p q then [(a, b, rows)] else []
                         | _ => []
                         end) l).
(** chain/ChainProcessing.py 336-338 *)
Definition log_lines (p : path) (l : fs) : list (nat * nat) :=
  List.concat (map (fun op => match op with
                         | FLog q a b => if path_eqb p q then [(a, b)] else []
                         | _ => []
                         end) l).

(** chain/ChainProcessing.py 341-344: h5py refuses to create a dataset that exists. *)
Definition h5_put (p : path) (a b : nat) (rows : list (list F)) (l : fs) : res fs :=
  if existsb (fun e => match e with (a', b', _) => (a =? a') && (b =? b') end) (h5_sets p l)
  then Err ValueError
  else Ok (l ++ [FH5 p a b rows]).

(** MCMC.py 501-525: every chain of the list, one after the other.  [b] is the excluded end.
    [h5 = false] stands for the 'txt' extension. *)
Fixpoint save_chains (h5 : bool) (dir : string) (a b : nat)
    (chains : list (string * list (list F))) (l : fs) : res fs :=
  match chains with
  | [] => Ok l
  | (file, mtx) :: t =>
      let rows := slice a b mtx in
      let* l' := (if h5 then h5_put (dir, file, "h5"%string) a (b - 1) rows l
                  else Ok (l ++ [FTxt (dir, file, "txt"%string) rows])) in
      save_chains h5 dir a b t l'
  end.

(** MCMC.py 474 *)
Definition binlog (dir : string) : path := (dir, "binlogfile"%string, "txt"%string).
(** MCMC.py 487 *)
Definition txtlog (dir : string) : path := (dir, "txtlogfile"%string, "txt"%string).

(** MCMC.py 458-498 with append_to_log=True, covmtx=False. *)
Definition save_to_log_file (o : simopts F) (chains : list (string * list (list F))) (a b : nat) (l : fs)
  : res fs :=
  let dir := o_savedir o in
  let* l1 := (if o_save_to_bin o
              then save_chains true dir a b chains (l ++ [FLog (binlog dir) a (b - 1)])
              else Ok l) in
  if o_save_to_txt o
  then save_chains false dir a b chains (l1 ++ [FLog (txtlog dir) a (b - 1)])
  else Ok l1.

(** MCMC.py 458-498, 528-555 with append_to_log=False, covmtx=True. *)
Definition save_covmtx (o : simopts F) (m : list (list F)) (a b : nat) (l : fs) : res fs :=
  let dir := o_savedir o in
  let* l1 := (if o_save_to_bin o then h5_put (dir, o_covchainfile o, "h5"%string) a (b - 1) m l
              else Ok l) in
  if o_save_to_txt o then Ok (l1 ++ [FTxt (dir, o_covchainfile o, "txt"%string) m]) else Ok l1.

(** ** The object *)

(** MCMC.py 246-253.  What an entry of the list [__chains] refers to: the current chain array,
    or an array object that is no longer the current one. *)
Inductive chref : Type := RefChain | RefSS | RefS2 | Frozen (m : list (list F)).

(** MCMC.py 414-455, structures/ResultsStructure.py 139-172 *)
Record results : Type := mkresults {
  rr_theta : list F;
  rr_parind : list nat;
  rr_total_rejected : F;
  rr_outside : F;
  rr_R : list (list F);
  rr_qcov : list (list F);
  rr_cov : option (list (list F));
  rr_mean : option (list F);
  rr_names : list string;
  rr_allnames : list string;
  rr_lower : list F;
  rr_upper : list F;
  rr_nsimu : nat;
  rr_iacce : option (list Z);
  rr_opts : simopts F;
  rr_model : modset F;
  rr_chain : list (list F);
  rr_sschain : list (list F);
  rr_s2chain : option (list (list F))
}.

(** MCMC.py 297-387 (ghost).  One entry per completed iteration, for stating properties: factors in force and random
    position before the step; stage at which a candidate was accepted (0: none,
    1: Metropolis, j >= 2: j-th try); the outbound flag; number of file operations before the step. *)
Record event : Type := mkev {
  ev_cov : covst F;
  ev_pos : nat;
  ev_stage : nat;
  ev_outb : bool;
  ev_files : nat
}.

(** MCMC.py 68-81 *)
Record mcmc : Type := mkmcmc {
  m_params : list (param F);
  m_data : data F;
  m_model : modset F;
  m_opts : simopts F;
  m_RDR : rdrval F;
  m_status : bool;
  m_chain : list (list F);
  m_sschain : list (list F);
  m_s2chain : option (list (list F));
  m_index : nat;
  m_chains : list (string * chref);
  m_pos : nat;
  m_calls : list (list F);
  m_fs : fs;
  m_results : option results;
  m_trace : list event           (** newest first; not part of the program *)
}.

Variable E : env F.

(** ** Initialisation (lines 172-223) *)
(** MCMC.py 172-223 *)
Record initrec : Type := mkinit {
  i_opts : simopts F;
  i_model : modset F;
  i_op : opened F;
  i_cov : covst F;
  i_set : pset F;
  i_nsos : nat;
  i_iacce : list nat;
  i_io : io F
}.

(** MCMC.py 172-223 *)
Definition initialize_simulation (ps : list (param F)) (d : data F) (ms : modset F) (o : simopts F)
    (old_RDR : rdrval F) (pos : nat) (calls : list (list F)) : res initrec :=
  let o := check_dependent_simulation_options o
             (match ms_N0 ms with Some _ => true | None => false end) in
  let* ms := check_dependent_model_settings ms d in
  let op := openparameterstructure ps in
  let* _ := check_parameter_limits op in
  let* _ := check_initial_values op in
  let op := check_prior_sigma op in
  let theta0 := sel (op_initial op) (op_parind op) in
  let* cov := initialize_covariance E (o_method o) (o_ntry o) (o_drscale o) (o_RDR o) (o_qcov o)
                (o_adascale o) (o_initqcovn o) (op_sigma op) (op_initial op) (op_parind op)
                (op_no_adapt op) old_RDR theta0 in
  let V := view op in
  let (ss, s1) := evaluate_sos_function E V theta0 (mkio pos (op_initial op) calls) in
  let prior := evaluate_prior E V theta0 in
  let nsos := List.length ss in
  let sigma2 := match ms_sigma2 ms with Some s => s | None => [] end in
  let* ms' := check_wrt_nsos ms nsos in
  Ok (mkinit o ms' op cov (mkpset theta0 ss prior sigma2 None) nsos
             (if 1 <? o_ntry o then repeat 0 (o_ntry o) else []) s1).

(** ** Loop state *)
(** MCMC.py 288-302 *)
Record rstate : Type := mkst {
  r_index : nat;          (** [__chain_index] *)
  r_iiadapt : nat;
  r_savecount : nat;
  r_lastbin : nat;
  r_old : pset F;         (** [__old_set] *)
  r_rej : nat;            (** rejected['total'] *)
  r_rejin : nat;          (** rejected['in_adaptation_interval'] *)
  r_rejout : nat;         (** rejected['outside_bounds'] *)
  r_chain : list (list F);
  r_ss : list (list F);
  r_s2 : option (list (list F));
  r_cov : covst F;
  r_sigma2 : list F;      (** model_settings.sigma2 *)
  r_S20 : list F;         (** model_settings.S20 *)
  r_iacce : list nat;
  r_io : io F;
  r_fs : fs;
  r_trace : list event
}.

(** MCMC.py 282-411.  Everything that stays fixed during the loop. *)
Record rconst : Type := mkrc {
  k_opts : simopts F;
  k_view : pview F;
  k_nsos : nat;
  k_N0 : list F;
  k_N : list F;
  k_alias : bool;
  k_chains : list (string * chref)
}.

(** MCMC.py 309-329.  Result of the sampling part of an iteration:
    (stage accepted or 0, new_set, outbound, first-stage normal draws, iacce, io).
    [accept] is [stage <> 0]. *)
Definition sampled : Type := nat * pset F * bool * list F * list nat * io F.

(** MCMC.py 319-329.  [_RDR] may not exist (AttributeError) or be None (subscripting raises TypeError at the first try).
    [invR] None is passed as the empty list: the only difference is the kind of error. *)
Definition delayed_rejection_call (K : rconst) (cov : covst F) (old new : pset F) (iacce : list nat) (s : io F)
  : res (drstep (F:=F)) :=
  match c_RDR cov with
  | RUnset => Err AttributeError
  | RNone => Err TypeError
  | RSome l =>
      run_delayed_rejection E (k_view K) l (match c_invR cov with Some i => i | None => [] end)
        (o_ntry (k_opts K)) old new iacce s
  end.

(** MCMC.py 309-329 *)
Definition sample_step (K : rconst) (st : rstate) : res sampled :=
  let* (acc, new, outb, z, s1) := run_metropolis_step E (k_view K) (c_R (r_cov st)) (r_old st) (r_io st) in
  if (1 <? o_ntry (k_opts K)) && negb acc then
    let* (acc', out, outb', iacce, path, s2) :=
      delayed_rejection_call K (r_cov st) (r_old st) new (r_iacce st) s1 in
    Ok (if acc' then List.length path - 1 else 0, out, outb', z, iacce, s2)
  else Ok (if acc then 1 else 0, new, outb, z, r_iacce st, s1).

(** MCMC.py 298-302, 331-333, 558-589 *)
Definition update_chain (K : rconst) (st : rstate) (smp : sampled) : res rstate :=
  let '(stage, new, outb, z, iacce, s) := smp in
  let idx := S (r_index st) in
  let acc := negb (stage =? 0) in
  let cur := if acc then new else r_old st in
  let* row := fit_row (v_npar (k_view K)) (p_theta cur) in
  let* chain := write idx row (r_chain st) in
  let* ssrow := fit_row (k_nsos K) (p_ss cur) in
  let* ss := write idx ssrow (r_ss st) in
  Ok (mkst idx (S (r_iiadapt st)) (S (r_savecount st)) (r_lastbin st) cur
           (if acc then r_rej st else S (r_rej st))
           (if acc then r_rejin st else S (r_rejin st))
           (if acc then r_rejout st else if outb then S (r_rejout st) else r_rejout st)
           chain ss (r_s2 st) (r_cov st) (r_sigma2 st) (r_S20 st) iacce s (r_fs st)
           (mkev (r_cov st) (io_pos (r_io st)) stage outb (List.length (r_fs st)) :: r_trace st)).

(** MCMC.py 344-359.  [alpha] and [u] come from the sampling part. *)
Definition adapt_step (K : rconst) (isimu : nat) (u : list F) (alpha : option F) (st : rstate) : res rstate :=
  let o := k_opts K in
  if ((0 <? o_adaptint o) && (Z.of_nat (r_iiadapt st) =? o_adaptint o))%Z then
    let* cov := run_adaptation E (r_cov st) (ado_of o) isimu (r_iiadapt st) (r_rejin st) (r_chain st)
                  (r_index st) u (v_npar (k_view K)) alpha in
    Ok (mkst (r_index st) 0 (r_savecount st) (r_lastbin st) (r_old st) (r_rej st) 0 (r_rejout st)
             (r_chain st) (r_ss st) (r_s2 st) cov (r_sigma2 st) (r_S20 st) (r_iacce st) (r_io st)
             (r_fs st) (r_trace st))
  else Ok st.

(** procedures/ErrorVarianceEstimator.py 24-63: component [jj] reads N0, S20, N and writes sigma2
    in place; when S20 is the same array as sigma2 the write is seen through S20. *)
Fixpoint update_error_variance (alias : bool) (N0v N sos : list F) (jj n : nat)
    (sigma2 S20 : list F) (s : io F) : res (list F * list F * io F) :=
  match n with
  | O => Ok (sigma2, S20, s)
  | S m =>
      let* n0v := of_option IndexError (nth_error N0v jj) in
      let* nv := of_option IndexError (nth_error N jj) in
      let* s20 := of_option IndexError (nth_error S20 jj) in
      let* sj := of_option IndexError (nth_error sos jj) in
      let* (v, s1) := draw_sigma2 E n0v s20 nv sj s in
      let* sigma2' := write jj v sigma2 in
      let S20' := if alias then set_nth jj v S20 else S20 in
      update_error_variance alias N0v N sos (S jj) m sigma2' S20' s1
  end.

(** MCMC.py 361-365.  [__s2chain] is None if updatesigma was off when the chains were made
    (item assignment on None raises TypeError). *)
Definition sigma_step (K : rconst) (st : rstate) : res rstate :=
  if o_updatesigma (k_opts K) then
    let ss := p_ss (r_old st) in
    let* (sigma2, S20, s) :=
      update_error_variance (k_alias K) (k_N0 K) (k_N K) ss 0 (List.length ss)
        (r_sigma2 st) (r_S20 st) (r_io st) in
    let* row := fit_row (k_nsos K) sigma2 in
    let* s2 := of_option TypeError (r_s2 st) in
    let* s2' := write (r_index st) row s2 in
    let old := mkpset (p_theta (r_old st)) (p_ss (r_old st)) (p_prior (r_old st)) sigma2
                      (p_alpha (r_old st)) in
    Ok (mkst (r_index st) (r_iiadapt st) (r_savecount st) (r_lastbin st) old (r_rej st) (r_rejin st)
             (r_rejout st) (r_chain st) (r_ss st) (Some s2') (r_cov st) sigma2 S20 (r_iacce st) s
             (r_fs st) (r_trace st))
  else Ok st.

(** MCMC.py 246-253, 517-525.  The arrays the log list refers to. *)
Definition resolve (st : rstate) (r : chref) : list (list F) :=
  match r with
  | RefChain => r_chain st
  | RefSS => r_ss st
  | RefS2 => match r_s2 st with Some m => m | None => [] end
  | Frozen m => m
  end.
(** MCMC.py 379, 398 *)
Definition logged (K : rconst) (st : rstate) : list (string * list (list F)) :=
  map (fun e => (fst e, resolve st (snd e))) (k_chains K).

(** MCMC.py 383, 400 *)
Definition proposal_cov (st : rstate) : list (list F) :=
  matmul (transpose (c_R (r_cov st))) (c_R (r_cov st)).

(** MCMC.py 376-387 *)
Definition save_step (K : rconst) (isimu : nat) (st : rstate) : res rstate :=
  let o := k_opts K in
  if (Z.of_nat (r_savecount st) =? o_savesize o)%Z then
    let a := isimu - Z.to_nat (o_savesize o) in
    let* l1 := save_to_log_file o (logged K st) a isimu (r_fs st) in
    let* l2 := save_covmtx o (proposal_cov st) a isimu l1 in
    Ok (mkst (r_index st) (r_iiadapt st) 0 isimu (r_old st) (r_rej st) (r_rejin st) (r_rejout st)
             (r_chain st) (r_ss st) (r_s2 st) (r_cov st) (r_sigma2 st) (r_S20 st) (r_iacce st) (r_io st)
             l2 (r_trace st))
  else Ok st.

(** MCMC.py 298-387.  One iteration.  Custom samplers are added in Custom.v, printing and the progress bar in Display.v. *)
Definition step (K : rconst) (isimu : nat) (st : rstate) : res rstate :=
  let* smp := sample_step K st in
  let '(stage, new, outb, z, iacce, s) := smp in
  let* st1 := update_chain K st smp in
  let* st2 := adapt_step K isimu z (p_alpha new) st1 in
  let* st3 := sigma_step K st2 in
  save_step K isimu st3.

(** MCMC.py 297 *)
Fixpoint iterate (K : rconst) (is : list nat) (st : rstate) : res rstate :=
  match is with
  | [] => Ok st
  | i :: t => let* st' := step K i st in iterate K t st'
  end.

(** MCMC.py 282-411: the loop and the final save.  With nsimu = 1 the loop body never runs and
    [isimu] is unbound at line 398. *)
Definition execute (K : rconst) (st0 : rstate) : res rstate :=
  let n := o_nsimu (k_opts K) in
  let* st := iterate K (seq 1 (n - 1)) st0 in
  if n <=? 1 then Err UnboundLocal
  else
    let isimu := n - 1 in
    let* l1 := save_to_log_file (k_opts K) (logged K st) (r_lastbin st) (S isimu) (r_fs st) in
    let* l2 := save_covmtx (k_opts K) (proposal_cov st) (r_lastbin st) isimu l1 in
    Ok (mkst (r_index st) (r_iiadapt st) (r_savecount st) (r_lastbin st) (r_old st) (r_rej st) (r_rejin st)
             (r_rejout st) (r_chain st) (r_ss st) (r_s2 st) (r_cov st) (r_sigma2 st) (r_S20 st)
             (r_iacce st) (r_io st) l2 (r_trace st)).

(** ** Results (lines 414-455; ResultsStructure.py 139-172, 210-233) *)

(** structures/ResultsStructure.py 224: iacce[0] = nsimu - total_rejected - sum(iacce[1:]) *)
Definition final_iacce (nsimu rej : nat) (iacce : list nat) : list Z :=
  match map Z.of_nat iacce with
  | [] => []
  | _ :: t => (Z.of_nat nsimu - Z.of_nat rej - fold_right Z.add 0 t)%Z :: t
  end.

(** MCMC.py 414-455, structures/ResultsStructure.py 139-172, 210-233 *)
Definition generate_results (I : initrec) (ms : modset F) (st : rstate) : results :=
  let o := i_opts I in
  let op := i_op I in
  let n := o_nsimu o in
  let frac k := nmul (nnat k) (ninv (nnat n)) in
  mkresults
    (scatter (op_value op) (op_parind op) (p_theta (r_old st)))
    (op_parind op)
    (frac (r_rej st)) (frac (r_rejout st))
    (c_R (r_cov st)) (proposal_cov st) (c_covchain (r_cov st)) (c_meanchain (r_cov st))
    (map (fun i => nth i (op_names op) EmptyString) (op_parind op)) (op_names op)
    (sel (op_lower op) (op_parind op)) (sel (op_upper op) (op_parind op))
    n
    (if 1 <? o_ntry o then Some (final_iacce n (r_rej st) (r_iacce st)) else None)
    o ms (r_chain st) (r_ss st) (r_s2 st).

(** ** Setup (lines 130-169, 226-279) *)
(** MCMC.py 240-251, 270-276 *)
Definition zeros (n m : nat) : list (list F) := repeat (repeat n0 m) n.

(** MCMC.py 226-255: (chain, sschain, s2chain, list of logged arrays).  With nsimu = 0 the
    first assignment is out of range. *)
Definition initialize_chains (I : initrec) (sigma2 : list F)
  : res (list (list F) * list (list F) * option (list (list F)) * list (string * chref)) :=
  let o := i_opts I in
  let n := o_nsimu o in
  let npar := List.length (op_parind (i_op I)) in
  let* row := fit_row npar (p_theta (i_set I)) in
  let* chain := write 0 row (zeros n npar) in
  let* ssrow := fit_row (i_nsos I) (p_ss (i_set I)) in
  let* ss := write 0 ssrow (zeros n (i_nsos I)) in
  let base := [(o_chainfile o, RefChain); (o_sschainfile o, RefSS)] in
  if o_updatesigma o then
    let* s2row := fit_row (i_nsos I) sigma2 in
    let* s2 := write 0 s2row (zeros n (i_nsos I)) in
    Ok (chain, ss, Some s2, base ++ [(o_s2chainfile o, RefS2)])
  else Ok (chain, ss, None, base).

(** MCMC.py 270-277.  [np.concatenate((a, zeros([n, w])), axis=0)]: the widths must agree.
    (A zero-row block is concatenated as well.) *)
Definition extend (a : list (list F)) (n w : nat) : res (list (list F)) :=
  if ncols a =? w then Ok (a ++ zeros n w) else Err ValueError.

(** MCMC.py 246-253, 273-277.  [__chains] keeps the old array objects when the chains are expanded. *)
Definition freeze (m : mcmc) (r : chref) : chref :=
  match r with
  | RefChain => Frozen (m_chain m)
  | RefSS => Frozen (m_sschain m)
  | RefS2 => Frozen (match m_s2chain m with Some s => s | None => [] end)
  | Frozen x => Frozen x
  end.

(** MCMC.py 258-279.  [np.concatenate] with [None] raises ValueError. *)
Definition expand_chains (m : mcmc) (I : initrec)
  : res (list (list F) * list (list F) * option (list (list F)) * list (string * chref)) :=
  let o := i_opts I in
  let n := o_nsimu o - 1 in
  let npar := List.length (op_parind (i_op I)) in
  let chains := map (fun e => (fst e, freeze m (snd e))) (m_chains m) in
  let* chain := extend (m_chain m) n npar in
  let* ss := extend (m_sschain m) n (i_nsos I) in
  if o_updatesigma o then
    let* s2 := of_option ValueError (m_s2chain m) in
    let* s2' := extend s2 n (i_nsos I) in
    Ok (chain, ss, Some s2', chains)
  else Ok (chain, ss, None, chains).

(** MCMC.py 277 *)
Definition lst {A} (x : option (list A)) : list A := match x with Some l => l | None => [] end.

(** MCMC.py 288-295 *)
Definition start_state (I : initrec) (index : nat) (chain ss : list (list F))
    (s2 : option (list (list F))) (l : fs) : rstate :=
  mkst index 0 0 0 (i_set I) 0 0 0 chain ss s2 (i_cov I) (lst (ms_sigma2 (i_model I)))
       (ms_S20 (i_model I)) (i_iacce I) (i_io I) l [].

(** MCMC.py 282-295 *)
Definition make_const (I : initrec) (chains : list (string * chref)) : rconst :=
  mkrc (i_opts I) (view (i_op I)) (i_nsos I) (lst (ms_N0 (i_model I))) (lst (ms_N (i_model I)))
       (ms_alias (i_model I)) chains.

(** MCMC.py 108-127 after the chains have been prepared; the json export is line 115-123. *)
Definition run_prepared (m : mcmc) (ps : list (param F)) (I : initrec) (index : nat)
    (arrays : list (list F) * list (list F) * option (list (list F)) * list (string * chref))
  : res mcmc :=
  let '(chain, ss, s2, chains) := arrays in
  let K := make_const I chains in
  let* st := execute K (start_state I index chain ss s2 (m_fs m)) in
  let ms := mkms (Some (r_sigma2 st)) (ms_N (i_model I)) (ms_N0 (i_model I)) (r_S20 st)
                 (ms_nbatch (i_model I)) (ms_alias (i_model I)) in
  let R := generate_results I ms st in
  let o := i_opts I in
  let l := if o_save_to_json o
           then r_fs st ++ [FJson (o_savedir o,
                                   match o_results_filename o with Some f => f | None => EmptyString end,
                                   EmptyString) (o_save_lightly o)]
           else r_fs st in
  Ok (mkmcmc ps (m_data m) ms o (c_RDR (r_cov st)) true (r_chain st) (r_ss st) (r_s2 st)
             (r_index st) chains (io_pos (r_io st)) (io_calls (r_io st)) l (Some R)
             (r_trace st ++ m_trace m)).

(** MCMC.py 145, structures/ResultsStructure.py 152-163.  The restart view of an in-memory results dictionary. *)
Definition restart_of (r : results) : restart F :=
  mkrestart (rr_names r) (rr_parind r) (rr_theta r) (rr_qcov r).

(** MCMC.py 84-169: run_simulation. *)
Definition run_simulation (use_prev : bool) (m : mcmc) : res mcmc :=
  if use_prev then
    match m_status m, m_results m with
    | true, Some r =>
        let* ps := results_to_params (restart_of r) (m_params m) in
        let* ini := initialize_simulation ps (m_data m) (m_model m) (m_opts m) (m_RDR m) (m_pos m) (m_calls m) in
        let* arrays := expand_chains m ini in
        run_prepared m ps ini (m_index m) arrays
    | _, _ => Err SysExit
    end
  else
    let* (ps, o) := (match o_restart (m_opts m) with
                     | None => Ok (m_params m, m_opts m)
                     | Some r => let* ps := results_to_params r (m_params m) in
                                 Ok (ps, set_qcov (m_opts m) (rs_qcov r))
                     end) in
    let* ini := initialize_simulation ps (m_data m) (m_model m) o (m_RDR m) (m_pos m) (m_calls m) in
    let* arrays := initialize_chains ini (lst (ms_sigma2 (i_model ini))) in
    run_prepared m ps ini 0 arrays.

(** MCMC.py 68-81.  A fresh object with the user's settings filled in. *)
Definition new_mcmc (ps : list (param F)) (d : data F) (ms : modset F) (o : simopts F) (seed_pos : nat)
    (l : fs) : mcmc :=
  mkmcmc ps d ms o RUnset false [] [] None 0 [] seed_pos [] l None [].

End Simulator.

Arguments fop F : clear implicits.
Arguments fs F : clear implicits.
Arguments chref F : clear implicits.
Arguments results F : clear implicits.
Arguments event F : clear implicits.
Arguments mcmc F : clear implicits.
Arguments initrec F : clear implicits.
Arguments rstate F : clear implicits.
Arguments rconst F : clear implicits.
Arguments sampled F : clear implicits.
