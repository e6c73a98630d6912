(** Executed cases for log files, restarts and results files. *)

From Coq Require Import ZArith QArith Bool Lia List String.
From Verif Require Import Base Num Samplers Adapt Settings Simulator Demo RunSpec DemoRuns LogSpec LogFacts LogThms Names ChainFiles ChainFileFacts
  ReadOrder RestartFacts Results ResultSpec ResultThms.
Import ListNotations.
Close Scope Q_scope.
Open Scope list_scope.
Open Scope nat_scope.

(** ** Binary log with blocks of 3 rows: 13 rows have a block that begins at row 12. *)

Definition am13 : mcmc XQ := Eval vm_compute in run_of (run_simulation demo_env false (demo 13 AM)) (demo 13 AM).
Lemma am13_ok : run_simulation demo_env false (demo 13 AM) = Ok am13.
Proof. vm_compute. reflexivity. Qed.

Lemma demo_distinct (m : mcmc XQ) : o_chainfile (m_opts m) = "chainfile"%string -> o_sschainfile (m_opts m) = "sschainfile"%string ->
  o_s2chainfile (m_opts m) = "s2chainfile"%string -> o_covchainfile (m_opts m) = "covchainfile"%string -> distinct_files m.
Proof.
  intros A B C D. unfold distinct_files. rewrite A, B, C, D.
  repeat constructor; cbn; intros H; repeat (destruct H as [H|H]; [discriminate|]); exact H.
Qed.

Lemma same_digits_9_3 : same_digits (last_start 3 12) 3.
Proof. change (last_start 3 12) with 9. intros [|k]; cbn [Nat.pow]; [lia|]. pose proof (pow10_pos k). lia. Qed.
Lemma other_digits_12_3 : ~ same_digits (last_start 3 13) 3.
Proof. change (last_start 3 13) with 12. intros H. specialize (H 1). cbn in H. lia. Qed.

Lemma am13_rows_differ : forall j, 2 <= j -> j * 3 < 13 -> nth_error (m_chain am13) (j * 3) <> nth_error (m_chain am13) 3.
Proof.
  intros j A B. assert (X : j = 2 \/ j = 3 \/ j = 4) by lia. destruct X as [-> | [-> | ->]]; vm_compute; discriminate.
Qed.

(** Reading the log gives the rows of the last block too early. *)
Lemma bin_log_out_of_order :
  exists (E : env XQ) m m', run_simulation E false m = Ok m' /\ distinct_files m' /\ m_fs m = [] /\ o_save_to_bin (m_opts m') = true /\
    In (o_chainfile (m_opts m'), m_chain m') (chain_files m') /\
    read_in_bin_file (h5_sets (o_savedir (m_opts m'), o_chainfile (m_opts m'), "h5"%string) (m_fs m')) <> m_chain m'.
Proof.
  exists demo_env, (demo 13 AM), am13. split; [exact am13_ok|]. split; [apply demo_distinct; reflexivity|].
  split; [reflexivity|]. split; [reflexivity|]. split; [left; reflexivity|]. vm_compute. discriminate.
Qed.

(** ** Text log of a resumed run *)

Lemma resumed_log_is_old :
  exists (E : env XQ) m m' m'', run_simulation E false m = Ok m' /\ run_simulation E true m' = Ok m'' /\ distinct_files m' /\ m_fs m = [] /\
    o_save_to_txt (m_opts m') = true /\
    txt_rows (o_savedir (m_opts m''), o_chainfile (m_opts m''), "txt"%string) (m_fs m'') <> m_chain m'' /\
    forall row, In row (skipn 6 (m_chain m'')) ->
      ~ In row (txt_rows (o_savedir (m_opts m''), o_chainfile (m_opts m''), "txt"%string) (m_fs m'')).
Proof.
  exists demo_env, (demo_s2 6 DRAM), first6, resumed6. split; [exact first6_ok|]. split; [exact resumed6_ok|].
  split; [apply demo_distinct; reflexivity|]. split; [reflexivity|]. split; [reflexivity|].
  split; [vm_compute; discriminate|].
  set (l := txt_rows _ _). vm_compute in l. subst l. set (c := skipn _ _). vm_compute in c. subst c.
  intros row I J. cbn [In] in I, J.
  repeat (destruct I as [<-|I]; [repeat (destruct J as [J|J]; [discriminate J|]); exact J|]). exact I.
Qed.

(** ** Restart from a file *)

Definition front : list (param XQ) :=
  [par "a" (1 # 2) (1 # 4) (3 # 4) true; par "b" (-1 # 2) (-51 # 100) 1 true; par "c" 5 0 1 false].
Definition raw_restart (json light : bool) (nsimu : nat) (r : option (restart XQ)) : rawopts XQ :=
  mkraw nsimu AM (Some 2%Z) None None None None 0%Z 0%Z None None false (Fin (1 # 1000)%Q) (Fin 10%Q)
        (Fin (234 # 1000)%Q) (Fin (7 # 10)%Q) [Fin 5%Q; Fin 4%Q; Fin 3%Q] None 3%Z
        "chainfile" "sschainfile" "s2chainfile" "covchainfile" (Some "log"%string) false true json light None r.
Definition restarted_from (ps : list (param XQ)) (json light : bool) (nsimu : nat) (r : option (restart XQ)) : mcmc XQ :=
  new_mcmc ps demo_data demo_model (define_simulation_options (raw_restart json light nsimu r) "20260101_000000") 0 [].

Definition front4 : mcmc XQ := Eval vm_compute in
  run_of (run_simulation demo_env false (restarted_from front true true 4 None)) (demo 4 AM).
Lemma front4_ok : run_simulation demo_env false (restarted_from front true true 4 None) = Ok front4.
Proof. vm_compute. reflexivity. Qed.
Lemma session_front4 : session demo_env front front4.
Proof.
  exists demo_data, demo_model, (define_simulation_options (raw_restart true true 4 None) "20260101_000000"), 0, [], [Run false].
  cbn [acts act]. change (new_mcmc front demo_data demo_model (define_simulation_options (raw_restart true true 4 None) "20260101_000000") 0 [])
    with (restarted_from front true true 4 None).
  rewrite front4_ok. reflexivity.
Qed.
Definition front4_results : results XQ := Eval vm_compute in
  match m_results front4 with Some r => r | None => mkresults [] [] n0 n0 [] [] None None [] [] [] [] 0 None (m_opts front4) (m_model front4) [] [] None end.
Lemma front4_has_results : m_results front4 = Some front4_results.
Proof. reflexivity. Qed.

Definition front_again : mcmc XQ := restarted_from front false false 3 (Some (restart_of front4_results)).
Definition front_again3 : mcmc XQ := Eval vm_compute in run_of (run_simulation demo_env false front_again) front_again.
Lemma front_again3_ok : run_simulation demo_env false front_again = Ok front_again3.
Proof. vm_compute. reflexivity. Qed.

(** The same with the fixed parameter between the sampled ones. *)
Definition mid4 : mcmc XQ := Eval vm_compute in
  run_of (run_simulation demo_env false (restarted_from demo_params true false 4 None)) (demo 4 AM).
Lemma mid4_ok : run_simulation demo_env false (restarted_from demo_params true false 4 None) = Ok mid4.
Proof. vm_compute. reflexivity. Qed.
Lemma restart_fails :
  exists (E : env XQ) m m' r, run_simulation E false m = Ok m' /\ m_results m' = Some r /\ o_restart (m_opts m) = None /\
    forall n, run_simulation E false (restarted_from (m_params m) false false n (Some (restart_of r))) = Err IndexError.
Proof.
  exists demo_env, (restarted_from demo_params true false 4 None), mid4. eexists. split; [exact mid4_ok|]. split; [reflexivity|].
  split; [reflexivity|]. intros n. vm_compute. reflexivity.
Qed.

(** ** The results file of a run *)

Definition ox : optextra XQ := mkoptx (PInt 0) true (PInt 0) (PInt 0) (PInt 0) (PInt 1) "run" "20260101_000000" 1 PNone PNone None.
Definition mx : modextra XQ := mkmodx (PFun "sos") PNone 1 PNone PNone PNone (PList [PArr [Fin 4%Q]]) 1.
Definition rx : resextra XQ := mkresx [0%Z; 0%Z] (Fin 1%Q) (Fin 1%Q) [] [] [] 0%Z [Fin 0%Q] [PInf].

Lemma ox_plain : Forall plain (option_values ox) /\ plain (mx_Nshape mx).
Proof. split; repeat constructor. Qed.
Lemma ox_wf : Forall wf (option_values ox) /\ wf (mx_Nshape mx).
Proof. split; repeat (constructor; try (intros; discriminate)). Qed.
