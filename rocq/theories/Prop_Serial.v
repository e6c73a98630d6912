(** Property theorem C72: loading the results of a serial run. *)

From Coq Require Import ZArith QArith Bool Lia List String.
From Verif Require Import Base Num Samplers Adapt Settings Simulator SamplerFacts RunSpec LogSpec LogThms LogProps Names ChainFiles ChainFileFacts ReadOrder
  Results ResultSpec ResultFacts ResultThms Parallel LoadFacts Serial SerialFacts Demo DemoRuns DemoLogs DemoParallel.
Import ListNotations.
Close Scope Q_scope.
Open Scope list_scope.
Open Scope nat_scope.
Open Scope res_scope.

(** A results file without the chains: these come from the logs. *)
Theorem C72_chains_from_logs_partial :
  forall F (NF : Num F) (E : env F) h5 m m' R L f items jf json,
  run_simulation E false m = Ok m' -> distinct_files m' -> readable_run h5 m m' ->
  m_results m' = Some R -> o_save_lightly (rr_opts R) = true -> saved R L -> only_json f items -> json f = Some L ->
  exists d, load_serial_simulation_results items jf json (logs_of h5 m') = Ok d /\
    lookup "chain"%string d = Some (PMat (m_chain m')) /\ lookup "sschain"%string d = Some (PMat (m_sschain m')) /\
    (forall s, m_s2chain m' = Some s -> lookup "s2chain"%string d = Some (PMat s)) /\
    forall k, ~ In k ["chain"; "sschain"; "s2chain"; "covchain"]%string -> lookup k d = option_map to_array (lookup k L).
Proof. intros F NF. exact serial_from_logs. Qed.
Print Assumptions C72_chains_from_logs_partial.

(** A complete results file, also of a resumed run; the logs do not matter. *)
Theorem C72_chains_from_results_file :
  forall F (NF : Num F) (E : env F) ps m R L f items jf json out, session E ps m -> m_status m = true ->
  m_results m = Some R -> o_save_lightly (rr_opts R) = false -> saved R L -> only_json f items -> json f = Some L ->
  exists d, load_serial_simulation_results items jf json out = Ok d /\
    lookup "chain"%string d = Some (PMat (m_chain m)) /\ lookup "sschain"%string d = Some (PMat (m_sschain m)) /\
    lookup "s2chain"%string d = Some (pyopt PMat (m_s2chain m)) /\
    forall k, lookup k d = option_map to_array (lookup k L).
Proof. intros F NF. exact serial_from_json. Qed.
Print Assumptions C72_chains_from_results_file.

(** No results file at all: the dictionary consists of what the logs hold. *)
Theorem C72_logs_only :
  forall F (NF : Num F) items json (out : logs (F := F)), (forall a, ~ In (a ++ ".json")%string items) ->
  exists d, load_serial_simulation_results items None json out = Ok d /\
    Permutation.Permutation d [("chain", PMat (fst (fst out))); ("sschain", PMat (snd (fst out)));
                               ("s2chain", PMat (fst (snd out))); ("covchain", PMat (snd (snd out)))]%string.
Proof.
  intros F NF items json out H. unfold load_serial_simulation_results, results_file_to_load.
  destruct (find (ends_with ".json") items) as [g|] eqn:G.
  - apply find_some in G as [G1 G2]. apply ends_with_iff in G2 as (a & ->). now apply H in G1.
  - eexists. split; [reflexivity|]. cbn. apply Permutation.Permutation_refl.
Qed.
Print Assumptions C72_logs_only.

(** Finding: if there is any results file in the directory, the file asked for is not looked at. *)
Theorem C72_file_asked_for_is_ignored :
  forall F (NF : Num F) items jf jf' (json : string -> option (pydict F)) out a, In (a ++ ".json")%string items ->
  load_serial_simulation_results items jf json out = load_serial_simulation_results items jf' json out.
Proof.
  intros F NF items jf jf' json out a I. unfold load_serial_simulation_results, results_file_to_load.
  destruct (find (ends_with ".json") items) as [g|] eqn:G; [reflexivity|].
  exfalso. apply (find_none _ _ G) in I. assert (ends_with ".json" (a ++ ".json") = true) by (apply ends_with_iff; eauto). congruence.
Qed.
Print Assumptions C72_file_asked_for_is_ignored.

(** Concrete runs without logs. *)
Definition full_run (nsimu : nat) : mcmc XQ :=
  new_mcmc demo_params demo_data demo_model (define_simulation_options
    (mkraw nsimu AM (Some 2%Z) None None None None 0%Z 0%Z None None false (Fin (1 # 1000)%Q) (Fin 10%Q)
        (Fin (234 # 1000)%Q) (Fin (7 # 10)%Q) [Fin 5%Q; Fin 4%Q; Fin 3%Q] None 3%Z
        "chainfile" "sschainfile" "s2chainfile" "covchainfile" (Some "log"%string) false false true false None None) "20260101_000000") 0 [].
Definition full3 : mcmc XQ := Eval vm_compute in run_of (run_simulation demo_env false (full_run 3)) (demo 4 AM).
Lemma full3_ok : run_simulation demo_env false (full_run 3) = Ok full3.
Proof. vm_compute. reflexivity. Qed.
Definition full4 : mcmc XQ := Eval vm_compute in run_of (run_simulation demo_env false (full_run 4)) (demo 4 AM).
Lemma full4_ok : run_simulation demo_env false (full_run 4) = Ok full4.
Proof. vm_compute. reflexivity. Qed.

Lemma fresh_session ps o m' : run_simulation demo_env false (new_mcmc ps demo_data demo_model o 0 []) = Ok m' -> session demo_env ps m'.
Proof. intros H. exists demo_data, demo_model, o, 0, [], [Run false]. cbn [acts act]. rewrite H. reflexivity. Qed.

Lemma stored_saved m R : m_results m = Some R -> (exists h d p j L, results_and_export ox mx rx R = Ok (h, d, Some (p, j)) /\ load_json_object j = Ok L /\ stored m = L) ->
  saved R (stored m).
Proof. intros H (h & d & p & j & L & A & B & ->). exists ox, mx, rx, h, d, p, j. split; [apply ox_wf|]. split; [apply ox_wf|]. split; assumption. Qed.

(** Two runs with their results in one directory: asking for the second gives the first. *)
Theorem C72_refuted_file_asked_for_is_loaded :
  exists (E : env XQ) ps1 m1 R1 L1 ps2 m2 R2 L2 f1 f2 json out d,
    session E ps1 m1 /\ m_results m1 = Some R1 /\ saved R1 L1 /\ session E ps2 m2 /\ m_results m2 = Some R2 /\ saved R2 L2 /\
    f1 <> f2 /\ json f1 = Some L1 /\ json f2 = Some L2 /\
    load_serial_simulation_results [f1; f2] (Some f2) json out = Ok d /\
    lookup "chain"%string d = Some (PMat (m_chain m1)) /\ m_chain m1 <> m_chain m2.
Proof.
  exists demo_env, demo_params, full3. eexists. exists (stored full3), demo_params, full4. eexists. exists (stored full4), "a.json"%string, "b.json"%string.
  exists (fun f => if String.eqb f "a.json" then Some (stored full3) else if String.eqb f "b.json" then Some (stored full4) else None).
  exists (([], []), ([], [])). eexists.
  split; [exact (fresh_session _ _ _ full3_ok)|]. split; [reflexivity|].
  split; [apply stored_saved; [reflexivity|]; do 5 eexists; split; [vm_compute; reflexivity|]; split; [vm_compute; reflexivity|reflexivity]|].
  split; [exact (fresh_session _ _ _ full4_ok)|]. split; [reflexivity|].
  split; [apply stored_saved; [reflexivity|]; do 5 eexists; split; [vm_compute; reflexivity|]; split; [vm_compute; reflexivity|reflexivity]|].
  split; [discriminate|]. split; [reflexivity|]. split; [reflexivity|]. split; [vm_compute; reflexivity|]. split; [reflexivity|].
  intros H. apply (f_equal (@List.length _)) in H. discriminate H.
Qed.
Print Assumptions C72_refuted_file_asked_for_is_loaded.

Example C72_case :
  (run_simulation demo_env false (restarted_from front true true 4 None) = Ok front4 /\ distinct_files front4 /\
   readable_run false (restarted_from front true true 4 None) front4 /\ m_results front4 = Some front4_results /\
   o_save_lightly (rr_opts front4_results) = true /\ saved front4_results (stored front4)) /\
  (session demo_env demo_params full4 /\ m_status full4 = true /\ exists R, m_results full4 = Some R /\
   o_save_lightly (rr_opts R) = false /\ saved R (stored full4)) /\
  only_json "20260101_mcmc_simulation.json" ["chainfile.txt"; "20260101_mcmc_simulation.json"; "json.txt"]%string.
Proof.
  split; [|split].
  - split; [exact front4_ok|]. split; [repeat constructor; cbn; intros H; repeat (destruct H as [H|H]; [discriminate|]); exact H|].
    split; [split; [reflexivity|]; reflexivity|]. split; [reflexivity|]. split; [reflexivity|].
    apply stored_saved; [reflexivity|]; do 5 eexists; split; [vm_compute; reflexivity|]; split; [vm_compute; reflexivity|reflexivity].
  - split; [exact (fresh_session _ _ _ full4_ok)|]. split; [reflexivity|]. eexists. split; [reflexivity|]. split; [reflexivity|].
    apply stored_saved; [reflexivity|]; do 5 eexists; split; [vm_compute; reflexivity|]; split; [vm_compute; reflexivity|reflexivity].
  - split; [cbn; auto|]. split; [exists "20260101_mcmc_simulation"%string; reflexivity|].
    intros a I. assert (K : ends_with ".json" (a ++ ".json") = true) by (apply ends_with_iff; eauto).
    cbn [In] in I. destruct I as [I|[I|[I|[]]]]; rewrite <- I in K; [discriminate K|symmetry; exact I|discriminate K].
Qed.
