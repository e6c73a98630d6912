(** Model of what a run shows on the screen: the rejection statistics (MCMC.py 335-342, 638-663) and the progress bar
    (MCMC.py 101-102, 303-305; utilities/progressbar.py 9-61).

    The loop of Simulator.v is repeated with these two parts in place.  The clock is an arbitrary sequence of readings.
    Not modelled: how a line gets on the screen (progressbar.py 64-118), the other messages and the listing of the
    settings (MCMC.py 105-107, 307, 592-634), and the rounding of the seconds to one decimal. *)

From Coq Require Import ZArith QArith Bool Lia List String Ascii Arith.
From Verif Require Import Base Num Samplers Adapt Settings Simulator Names.
Import ListNotations.
Close Scope Q_scope.
Open Scope list_scope.
Open Scope nat_scope.
Open Scope res_scope.

(** ** Progress bar *)

(** utilities/progressbar.py 60-61 *)
Definition replace_at (dstr new : list ascii) (start stop : nat) : list ascii := firstn start dstr ++ new ++ skipn stop dstr.

(** utilities/progressbar.py 17-18, 49-57: the text between the brackets for [100*i/n] percent, the quotients taken exactly.
    [' ' * k] is empty for negative [k].  (Were the figure longer than the bar, [loc] would be negative; it takes 10^37
    percent for that.) *)
Definition bar_text (i n : nat) : list ascii :=
  let all_full := 40 - 2 in
  let num_hashes := i * all_full / n in
  let bar := repeat "-"%char num_hashes ++ repeat " "%char (all_full - num_hashes) in
  let info := map digit_char (digits (100 * i / n)) ++ ["%"%char] in
  let loc := (List.length bar - List.length info) / 2 in
  replace_at bar info loc (loc + List.length info).

(** utilities/progressbar.py 44-47: text between the brackets, "%i of %i", seconds *)
Record display : Type := mkdisplay { d_text : list ascii; d_number : nat; d_total : nat; d_seconds : Q }.

(** utilities/progressbar.py 11-15, 33-39; [b_shown] is what has been displayed so far *)
Record progress : Type := mkprogress { b_iterations : nat; b_last : Q; b_reads : nat; b_shown : list display }.

(** utilities/progressbar.py 17-18, 41-47: a total of 0 raises ZeroDivisionError *)
Definition animate (i : nat) (elapsed : Q) (b : progress) : res (list display) :=
  if b_iterations b =? 0 then Err ZeroDivision
  else Ok (b_shown b ++ [mkdisplay (bar_text i (b_iterations b)) i (b_iterations b) elapsed]).

(** utilities/progressbar.py 20-28.  [clock k] is the time since the start read by the k-th call of update. *)
Definition update_bar (clock : nat -> Q) (i : nat) (b : progress) : res progress :=
  let elapsed := clock (b_reads b) in
  let i := i + 1 in
  if negb (Qle_bool (elapsed - b_last b) (1#2))%Q then
    let* s := animate (i + 1) elapsed b in Ok (mkprogress (b_iterations b) elapsed (S (b_reads b)) s)
  else if i =? b_iterations b then
    let* s := animate i elapsed b in Ok (mkprogress (b_iterations b) (b_last b) (S (b_reads b)) s)
  else Ok (mkprogress (b_iterations b) (b_last b) (S (b_reads b)) (b_shown b)).

(** utilities/progressbar.py 11-15, 33-39, 93-118 *)
Definition progress_bar (clock : nat -> Q) (iters : nat) : res progress := update_bar clock 0 (mkprogress iters 0 0 []).

Section Display.
Context {F : Type} `{NF : Num F}.
Variable E : env F.

(** ** Rejection statistics *)

(** MCMC.py 661-663: iteration, and the three percentages *)
Record line : Type := mkline { l_isimu : nat; l_total : F; l_interval : F; l_outside : F }.

(** MCMC.py 662-663: [k*n**(-1)*100] *)
Definition percent (k n : nat) : F := nmul (nmul (nnat k) (ninv (nnat n))) (nQ 100).

(** MCMC.py 638-663; [0**(-1)] raises ZeroDivisionError.  The text is made whatever the verbosity *)
Definition print_rejection_statistics (rej rejin rejout isimu iiadapt : nat) (verbosity : Z) : res (list line) :=
  if (isimu =? 0) || (iiadapt =? 0) then Err ZeroDivision
  else
    let l := mkline isimu (percent rej isimu) (percent rejin iiadapt) (percent rejout isimu) in
    Ok (if (2 <=? verbosity)%Z then [l] else []).

(** ** The loop with display *)

(** MCMC.py 101-102, 288-305, 335-342: options that only concern the display, and what has been shown *)
Record screen : Type := mkscreen { s_iiprint : nat; s_lines : list line; s_bar : option progress }.

(** MCMC.py 303-305 *)
Definition bar_step (clock : nat -> Q) (isimu : nat) (sc : screen) : res screen :=
  match s_bar sc with
  | None => Ok (mkscreen (S (s_iiprint sc)) (s_lines sc) None)
  | Some b => let* b' := update_bar clock isimu b in Ok (mkscreen (S (s_iiprint sc)) (s_lines sc) (Some b'))
  end.

(** MCMC.py 335-342 *)
Definition print_step (K : rconst F) (verbosity : Z) (isimu : nat) (st : rstate F) (sc : screen) : res screen :=
  match o_printint (k_opts K) with
  | None => Ok sc
  | Some p =>
      if (negb (p =? 0) && (Z.of_nat (s_iiprint sc) =? p))%Z then
        let* l := print_rejection_statistics (r_rej st) (r_rejin st) (r_rejout st) isimu (r_iiadapt st) verbosity in
        Ok (mkscreen 0 (s_lines sc ++ l) (s_bar sc))
      else Ok sc
  end.

(** MCMC.py 298-387 *)
Definition step_shown (K : rconst F) (verbosity : Z) (clock : nat -> Q) (isimu : nat) (st : rstate F) (sc : screen)
  : res (rstate F * screen) :=
  let* sc1 := bar_step clock isimu sc in
  let* smp := sample_step E K st in
  let '(stage, new, outb, z, iacce, s) := smp in
  let* st1 := update_chain K st smp in
  let* sc2 := print_step K verbosity isimu st1 sc1 in
  let* st2 := adapt_step E K isimu z (p_alpha new) st1 in
  let* st3 := sigma_step E K st2 in
  let* st4 := save_step K isimu st3 in
  Ok (st4, sc2).

(** MCMC.py 297 *)
Fixpoint iterate_shown (K : rconst F) (verbosity : Z) (clock : nat -> Q) (is : list nat) (st : rstate F) (sc : screen)
  : res (rstate F * screen) :=
  match is with
  | [] => Ok (st, sc)
  | i :: t => let* (st', sc') := step_shown K verbosity clock i st sc in iterate_shown K verbosity clock t st' sc'
  end.

(** MCMC.py 282-411 *)
Definition execute_shown (K : rconst F) (verbosity : Z) (clock : nat -> Q) (st0 : rstate F) (sc0 : screen)
  : res (rstate F * screen) :=
  let n := o_nsimu (k_opts K) in
  let* (st, sc) := iterate_shown K verbosity clock (seq 1 (n - 1)) st0 sc0 in
  if n <=? 1 then Err UnboundLocal
  else
    let isimu := n - 1 in
    let* l1 := save_to_log_file (k_opts K) (logged K st) (r_lastbin st) (S isimu) (r_fs st) in
    let* l2 := save_covmtx (k_opts K) (proposal_cov st) (r_lastbin st) isimu l1 in
    Ok (mkst (r_index st) (r_iiadapt st) (r_savecount st) (r_lastbin st) (r_old st) (r_rej st) (r_rejin st)
             (r_rejout st) (r_chain st) (r_ss st) (r_s2 st) (r_cov st) (r_sigma2 st) (r_S20 st)
             (r_iacce st) (r_io st) l2 (r_trace st), sc).

(** MCMC.py 101-102, 288-295 *)
Definition blank (waitbar : bool) (clock : nat -> Q) (n : nat) : res screen :=
  if waitbar then let* b := progress_bar clock n in Ok (mkscreen 0 [] (Some b)) else Ok (mkscreen 0 [] None).

(** MCMC.py 101-127 after the chains have been prepared *)
Definition run_prepared_shown (waitbar : bool) (verbosity : Z) (clock : nat -> Q) (m : mcmc F) (ps : list (param F))
    (I : initrec F) (index : nat)
    (arrays : list (list F) * list (list F) * option (list (list F)) * list (string * chref F))
  : res (mcmc F * screen) :=
  let* sc0 := blank waitbar clock (o_nsimu (i_opts I)) in
  let '(chain, ss, s2, chains) := arrays in
  let K := make_const I chains in
  let* (st, sc) := execute_shown K verbosity clock (start_state I index chain ss s2 (m_fs m)) sc0 in
  let ms := mkms (Some (r_sigma2 st)) (ms_N (i_model I)) (ms_N0 (i_model I)) (r_S20 st)
                 (ms_nbatch (i_model I)) (ms_alias (i_model I)) in
  let R := generate_results I ms st in
  let o := i_opts I in
  let l := if o_save_to_json o
           then r_fs st ++ [FJson (o_savedir o,
                                   match o_results_filename o with Some f => f | None => EmptyString end,
                                   EmptyString) (o_save_lightly o)]
           else r_fs st in
  Ok (mkmcmc ps (m_data m) ms o (c_RDR (r_cov st)) true (r_chain st) (r_ss st) (r_s2 st)
             (r_index st) chains (io_pos (r_io st)) (io_calls (r_io st)) l (Some R)
             (r_trace st ++ m_trace m), sc).

(** MCMC.py 84-169: run_simulation *)
Definition run_simulation_shown (waitbar : bool) (verbosity : Z) (clock : nat -> Q) (use_prev : bool) (m : mcmc F)
  : res (mcmc F * screen) :=
  if use_prev then
    match m_status m, m_results m with
    | true, Some r =>
        let* ps := results_to_params (restart_of r) (m_params m) in
        let* ini := initialize_simulation E ps (m_data m) (m_model m) (m_opts m) (m_RDR m) (m_pos m) (m_calls m) in
        let* arrays := expand_chains m ini in
        run_prepared_shown waitbar verbosity clock m ps ini (m_index m) arrays
    | _, _ => Err SysExit
    end
  else
    let* (ps, o) := (match o_restart (m_opts m) with
                     | None => Ok (m_params m, m_opts m)
                     | Some r => let* ps := results_to_params r (m_params m) in
                                 Ok (ps, set_qcov (m_opts m) (rs_qcov r))
                     end) in
    let* ini := initialize_simulation E ps (m_data m) (m_model m) o (m_RDR m) (m_pos m) (m_calls m) in
    let* arrays := initialize_chains ini (lst (ms_sigma2 (i_model ini))) in
    run_prepared_shown waitbar verbosity clock m ps ini 0 arrays.

End Display.
Arguments line F : clear implicits.
Arguments screen F : clear implicits.
