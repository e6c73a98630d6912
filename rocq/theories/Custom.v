(** Model of runs with custom samplers: MCMC.py 74, 219-223, 309-329, 367-396, 406-408 and the call of the user's
    sum-of-squares function with their output (procedures/SumOfSquares.py 53-60).

    A custom sampler is an object of the user with the methods [setup] and [update].  It may draw random numbers, may
    change the parameter set it is given, and may have chains that are saved with the chains of the run. *)

From Coq Require Import ZArith QArith Bool Lia List String.
From Verif Require Import Base Num Samplers Adapt Settings Simulator.
Import ListNotations.
Open Scope list_scope.
Open Scope nat_scope.
Open Scope res_scope.

Section Custom.
Context {F : Type} `{NF : Num F}.
Context {St Out : Type}.

(** MCMC.py 219-223, 367-374, 388-396.  [St] is the state of a custom sampler, [Out] what it returns.  Both methods are
    given the position in the random stream and return the next one; [update] gets [accept], [isimu] and [current_set], and
    returns the set as it leaves it. *)
Record sampler : Type := mksampler {
  cs_setup : nat -> St -> Out * nat * St;
  cs_update : bool -> nat -> pset F -> nat -> St -> Out * pset F * nat * St;
  cs_save_chain : bool;
  cs_chains : St -> list (string * list (list F))
}.

(** procedures/SumOfSquares.py 55-66.  The user's function with the argument [custom] ([None]: TypeError raised), and without.
    A model function (style 4, 61-62) is never given [custom]: [u_custom] does not depend on it then. *)
Record usersos : Type := mkusersos {
  u_custom : option (list Out) -> list F -> option (list F);
  u_plain : list F -> list F
}.
(** procedures/SumOfSquares.py 53-60 *)
Definition sos_call (u : usersos) (custom : option (list Out)) (v : list F) : list F :=
  match u_custom u custom v with Some ss => ss | None => u_plain u v end.

(** procedures/SumOfSquares.py 43-68: the environment in which the function is called with the argument [custom]. *)
Definition with_custom (E : env F) (u : usersos) (custom : option (list Out)) : env F :=
  mkenv (sos_call u custom) (e_prior E) (e_str E) (e_chol E) (e_inv E) (e_fuel E).

(** MCMC.py 219-223 *)
Fixpoint setup_all (l : list sampler) (sts : list St) (pos : nat) : list Out * nat * list St :=
  match l, sts with
  | cs :: l', st :: sts' =>
      let '(o, pos, st) := cs_setup cs pos st in
      let '(os, pos, sts) := setup_all l' sts' pos in
      (o :: os, pos, st :: sts)
  | _, _ => ([], pos, sts)
  end.

(** MCMC.py 367-374 *)
Fixpoint update_all (l : list sampler) (sts : list St) (accept : bool) (isimu : nat) (cur : pset F) (pos : nat)
  : list Out * pset F * nat * list St :=
  match l, sts with
  | cs :: l', st :: sts' =>
      let '(o, cur, pos, st) := cs_update cs accept isimu cur pos st in
      let '(os, cur, pos, sts) := update_all l' sts' accept isimu cur pos in
      (o :: os, cur, pos, st :: sts)
  | _, _ => ([], cur, pos, sts)
  end.

(** MCMC.py 458-498 with append_to_log=False, covmtx=False *)
Definition save_custom_chains (o : simopts F) (chains : list (string * list (list F))) (a b : nat) (l : fs F) : res (fs F) :=
  let* l1 := (if o_save_to_bin o then save_chains true (o_savedir o) a b chains l else Ok l) in
  if o_save_to_txt o then save_chains false (o_savedir o) a b chains l1 else Ok l1.

(** MCMC.py 388-396, 405-408 *)
Fixpoint save_custom (o : simopts F) (l : list sampler) (sts : list St) (a b : nat) (f : fs F) : res (fs F) :=
  match l, sts with
  | cs :: l', st :: sts' =>
      let* f := (if cs_save_chain cs then save_custom_chains o (cs_chains cs st) a b f else Ok f) in
      save_custom o l' sts' a b f
  | _, _ => Ok f
  end.

(** MCMC.py 367-374 (ghost): a call of the [update] methods: iteration, accept, current set before, outputs. *)
Record ucall : Type := mkucall { uc_isimu : nat; uc_accept : bool; uc_set : pset F; uc_out : list Out }.

(** MCMC.py 282-411.  State of the loop, states of the samplers, [custom_sampler_output], calls made (newest first, ghost). *)
Record cstate : Type := mkcst { c_run : rstate F; c_sts : list St; c_out : list Out; c_calls : list ucall }.

(** MCMC.py 367-374: the current set and the random position after the calls of the samplers *)
Definition after_update (st : rstate F) (cur : pset F) (pos : nat) : rstate F :=
  mkst (r_index st) (r_iiadapt st) (r_savecount st) (r_lastbin st) cur (r_rej st) (r_rejin st) (r_rejout st)
       (r_chain st) (r_ss st) (r_s2 st) (r_cov st) (r_sigma2 st) (r_S20 st) (r_iacce st)
       (mkio pos (io_value (r_io st)) (io_calls (r_io st))) (r_fs st) (r_trace st).
(** MCMC.py 390-396, 405-408 *)
Definition with_files (st : rstate F) (f : fs F) : rstate F :=
  mkst (r_index st) (r_iiadapt st) (r_savecount st) (r_lastbin st) (r_old st) (r_rej st) (r_rejin st) (r_rejout st)
       (r_chain st) (r_ss st) (r_s2 st) (r_cov st) (r_sigma2 st) (r_S20 st) (r_iacce st) (r_io st) f (r_trace st).

Variable E : env F.
Variable u : usersos.
Variable samplers : list sampler.

(** MCMC.py 298-396.  One iteration. *)
Definition cstep (K : rconst F) (isimu : nat) (c : cstate) : res cstate :=
  let E' := with_custom E u (Some (c_out c)) in
  let* smp := sample_step E' K (c_run c) in
  let '(stage, new, outb, z, iacce, s) := smp in
  let* st1 := update_chain K (c_run c) smp in
  let* st2 := adapt_step E' K isimu z (p_alpha new) st1 in
  let* st3 := sigma_step E' K st2 in
  let '(out, cur, pos, sts) := update_all samplers (c_sts c) (negb (stage =? 0)) isimu (r_old st3) (io_pos (r_io st3)) in
  let call := mkucall isimu (negb (stage =? 0)) (r_old st3) out in
  let st4 := after_update st3 cur pos in
  let* st5 := save_step K isimu st4 in
  let o := k_opts K in
  let* f := (if (Z.of_nat (r_savecount st4) =? o_savesize o)%Z
             then save_custom o samplers sts (isimu - Z.to_nat (o_savesize o)) isimu (r_fs st5)
             else Ok (r_fs st5)) in
  Ok (mkcst (with_files st5 f) sts out (call :: c_calls c)).

(** MCMC.py 297 *)
Fixpoint citerate (K : rconst F) (is : list nat) (c : cstate) : res cstate :=
  match is with
  | [] => Ok c
  | i :: t => let* c' := cstep K i c in citerate K t c'
  end.

(** MCMC.py 282-411 *)
Definition cexecute (K : rconst F) (c0 : cstate) : res cstate :=
  let o := k_opts K in
  let n := o_nsimu o in
  let* c := citerate K (seq 1 (n - 1)) c0 in
  if n <=? 1 then Err UnboundLocal
  else
    let st := c_run c in
    let isimu := n - 1 in
    let* l1 := save_to_log_file o (logged K st) (r_lastbin st) (S isimu) (r_fs st) in
    let* l2 := save_covmtx o (proposal_cov st) (r_lastbin st) isimu l1 in
    let* l3 := save_custom o samplers (c_sts c) (r_lastbin st) (S isimu) l2 in
    Ok (mkcst (with_files st l3) (c_sts c) (c_out c) (c_calls c)).

(** MCMC.py 108-127 as [Simulator.run_prepared]; the samplers are set up at the end of the initialisation (219-223) *)
Definition crun_prepared (m : mcmc F) (ps : list (param F)) (I : initrec F) (index : nat)
    (arrays : list (list F) * list (list F) * option (list (list F)) * list (string * chref F)) (outs : list Out) (sts : list St)
  : res (mcmc F * cstate) :=
  let '(chain, ss, s2, chains) := arrays in
  let K := make_const I chains in
  let* c := cexecute K (mkcst (start_state I index chain ss s2 (m_fs m)) sts outs []) in
  let st := c_run c in
  let ms := mkms (Some (r_sigma2 st)) (ms_N (i_model I)) (ms_N0 (i_model I)) (r_S20 st)
                 (ms_nbatch (i_model I)) (ms_alias (i_model I)) in
  let R := generate_results I ms st in
  let o := i_opts I in
  let l := if o_save_to_json o
           then r_fs st ++ [FJson (o_savedir o,
                                   match o_results_filename o with Some f => f | None => EmptyString end,
                                   EmptyString) (o_save_lightly o)]
           else r_fs st in
  Ok (mkmcmc ps (m_data m) ms o (c_RDR (r_cov st)) true (r_chain st) (r_ss st) (r_s2 st)
             (r_index st) chains (io_pos (r_io st)) (io_calls (r_io st)) l (Some R)
             (r_trace st ++ m_trace m), c).

(** MCMC.py 219-223: the random position after the samplers have been set up *)
Definition at_pos (I : initrec F) (pos : nat) : initrec F :=
  mkinit (i_opts I) (i_model I) (i_op I) (i_cov I) (i_set I) (i_nsos I) (i_iacce I)
         (mkio pos (io_value (i_io I)) (io_calls (i_io I))).

(** MCMC.py 84-223: run_simulation with custom samplers in the states [sts].  The sum of squares of the starting values is
    asked for without [custom] (line 205, before the samplers are set up). *)
Definition crun_simulation (use_prev : bool) (m : mcmc F) (sts : list St) : res (mcmc F * cstate) :=
  let E0 := with_custom E u None in
  if use_prev then
    match m_status m, m_results m with
    | true, Some r =>
        let* ps := results_to_params (restart_of r) (m_params m) in
        let* ini := initialize_simulation E0 ps (m_data m) (m_model m) (m_opts m) (m_RDR m) (m_pos m) (m_calls m) in
        let '(outs, pos, sts) := setup_all samplers sts (io_pos (i_io ini)) in
        let* arrays := expand_chains m ini in
        crun_prepared m ps (at_pos ini pos) (m_index m) arrays outs sts
    | _, _ => Err SysExit
    end
  else
    let* (ps, o) := (match o_restart (m_opts m) with
                     | None => Ok (m_params m, m_opts m)
                     | Some r => let* ps := results_to_params r (m_params m) in
                                 Ok (ps, set_qcov (m_opts m) (rs_qcov r))
                     end) in
    let* ini := initialize_simulation E0 ps (m_data m) (m_model m) o (m_RDR m) (m_pos m) (m_calls m) in
    let '(outs, pos, sts) := setup_all samplers sts (io_pos (i_io ini)) in
    let* arrays := initialize_chains ini (lst (ms_sigma2 (i_model ini))) in
    crun_prepared m ps (at_pos ini pos) 0 arrays outs sts.

End Custom.

Arguments sampler F St Out : clear implicits.
Arguments usersos F Out : clear implicits.
Arguments ucall F Out : clear implicits.
Arguments cstate F St Out : clear implicits.
