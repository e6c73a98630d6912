(** Parallel runs on rationals. *)

From Coq Require Import ZArith QArith Bool Lia List String Permutation Sorted.
From Verif Require Import Base Num Samplers Adapt Settings Simulator Demo DemoRuns DemoLogs LogSpec LogProps SamplerFacts Names ChainFiles ReadOrder Results ResultSpec
  Parallel ParallelSpec StreamLocal ParallelFacts LoadFacts ParallelReal.
Import ListNotations.
Close Scope Q_scope.
Open Scope list_scope.
Open Scope nat_scope.

Definition pparams : list (param XQ) :=
  [par "a" (1 # 2) (1 # 4) (3 # 4) true; par "c" (1 # 2) 0 1 false; par "b" (-1 # 2) (-51 # 100) 1 true].
Definition popts (logs : bool) (nsimu : nat) : simopts XQ :=
  define_simulation_options (mkraw nsimu AM (Some 2%Z) None None None None 0%Z 0%Z None None false (Fin (1 # 1000)%Q) (Fin 10%Q)
        (Fin (234 # 1000)%Q) (Fin (7 # 10)%Q) [Fin 5%Q; Fin 4%Q; Fin 3%Q] None 2%Z
        "chainfile" "sschainfile" "s2chainfile" "covchainfile" (Some "par"%string) logs logs true false None None) "20260101_000000".

Definition get {A} (r : res (list A)) : list A := match r with Ok x => x | Err _ => [] end.

Definition pobjs : list (mcmc XQ) := Eval vm_compute in
  get (setup_parallel_simulation demo_str 0 pparams demo_data demo_model (popts true 4) None 2 (fun _ => None) []).
Lemma pobjs_ok : setup_parallel_simulation demo_str 0 pparams demo_data demo_model (popts true 4) None 2 (fun _ => None) [] = Ok pobjs.
Proof. vm_compute. reflexivity. Qed.

Definition psched : list (list nat) := [[0]; [1]].
Lemma psched_ok : schedules 2 psched.
Proof.
  split; [reflexivity|]. repeat constructor; intros [|[|i]] [|[|j]] a b A B L; cbn in A, B; try discriminate; lia.
Qed.
Definition psched1 : list (list nat) := [[0; 1]].
Lemma psched1_ok : schedules 2 psched1.
Proof.
  split; [reflexivity|]. repeat constructor; intros [|[|[|i]]] [|[|[|j]]] a b A B L; cbn in A, B; try discriminate; inversion A; inversion B; lia.
Qed.

Definition pruns : list (mcmc XQ) := Eval vm_compute in get (run_parallel_simulation demo_env pobjs 2 psched 6).
Lemma pruns_ok : run_parallel_simulation demo_env pobjs 2 psched 6 = Ok pruns.
Proof. vm_compute. reflexivity. Qed.
Definition pruns1 : list (mcmc XQ) := Eval vm_compute in get (run_parallel_simulation demo_env pobjs 1 psched1 6).
Lemma pruns1_ok : run_parallel_simulation demo_env pobjs 1 psched1 6 = Ok pruns1.
Proof. vm_compute. reflexivity. Qed.

(** ** Starting points *)

(** The fixed parameter of [pparams] starts at 1/2 by declaration, and somewhere else in each chain. *)
Lemma fixed_parameter_moves :
  exists (str : stream XQ) ps d ms o nc objs, setup_parallel_simulation str 0 ps d ms o None nc (fun _ => None) [] = Ok objs /\
    (forall k, exists u, s_unif str k = Fin u /\ (0 <= u <= 1)%Q) /\
    exists p, nth_error ps 1 = Some p /\ a_sample p = false /\ admits p (a_theta0 p) /\
      List.length objs = 2 /\ Forall (fun m => exists q, nth_error (m_params m) 1 = Some q /\ a_sample q = false /\ neq (a_theta0 q) (a_theta0 p) = false) objs.
Proof.
  exists demo_str, pparams, demo_data, demo_model, (popts true 4), 2, pobjs. split; [exact pobjs_ok|]. split.
  { intros k. cbn [s_unif demo_str]. unfold demo_unif. eexists. split; [reflexivity|]. rewrite Qred_correct.
    pose proof (Z.mod_pos_bound ((Z.of_nat (3 * k + 1) * 7919 + 13) * (Z.of_nat (3 * k + 1) + 31)) 1009 ltac:(lia)) as B.
    unfold lcg. split; unfold Qle; cbn [Qnum Qden]; lia. }
  eexists. split; [reflexivity|]. split; [reflexivity|]. split; [split; reflexivity|]. split; [reflexivity|].
  repeat constructor; (eexists; split; [reflexivity|]; split; [reflexivity|]; vm_compute; reflexivity).
Qed.

(** A parameter without limits that starts at 1: the point 200 is refused. *)
Lemma user_point_refused :
  exists (p : param XQ) v, admits p v /\ a_sample p = true /\ a_min p = NInf /\ a_max p = PInf /\
    forall str d ms o rd l, setup_parallel_simulation str 0 [p] d ms o (Some [[v]]) 1 rd l = Err SysExit.
Proof.
  exists (mkparam "a" (Fin 1%Q) NInf PInf (Fin 0%Q) PInf true true), (Fin 200%Q).
  split; [split; reflexivity|]. split; [reflexivity|]. split; [reflexivity|]. split; [reflexivity|]. intros. reflexivity.
Qed.

(** Points given by the user. *)
Definition upoints : list (list XQ) := [[Fin (1 # 2)%Q; Fin (1 # 2)%Q; Fin 0%Q]; [Fin (1 # 2)%Q; Fin (1 # 2)%Q; Fin 0%Q]].
Lemma upoints_in : Forall bounded pparams /\ Forall (fun r => List.length r = List.length pparams) upoints /\ Forall (Forall2 admits pparams) upoints.
Proof. repeat split; repeat constructor. Qed.

(** ** Two workers, the same random numbers *)

Definition twins : list (mcmc XQ) := Eval vm_compute in
  get (setup_parallel_simulation demo_str 0 pparams demo_data demo_model (popts false 4) (Some upoints) 2 (fun _ => None) []).
Lemma twins_ok : setup_parallel_simulation demo_str 0 pparams demo_data demo_model (popts false 4) (Some upoints) 2 (fun _ => None) [] = Ok twins.
Proof. vm_compute. reflexivity. Qed.
Definition twin_runs : list (mcmc XQ) := Eval vm_compute in get (run_parallel_simulation demo_env twins 2 psched 6).
Lemma twin_runs_ok : run_parallel_simulation demo_env twins 2 psched 6 = Ok twin_runs.
Proof. vm_compute. reflexivity. Qed.

Lemma twin_chains :
  exists (E : env XQ) ps d ms o iv objs sched pos rs, setup_parallel_simulation (e_str E) 0 ps d ms o (Some iv) 2 (fun _ => None) [] = Ok objs /\
    run_parallel_simulation E objs 2 sched pos = Ok rs /\ schedules (List.length objs) sched /\ List.length sched = 2 /\
    exists r r', rs = [r; r'] /\ m_chain r = m_chain r' /\ List.length (m_chain r) = 4 /\ nth_error (m_chain r) 0 <> nth_error (m_chain r) 3.
Proof.
  exists demo_env, pparams, demo_data, demo_model, (popts false 4), upoints, twins, psched, 6, twin_runs.
  split; [exact twins_ok|]. split; [exact twin_runs_ok|]. split; [exact psched_ok|]. split; [reflexivity|].
  eexists _, _. split; [reflexivity|]. split; [reflexivity|]. split; [reflexivity|]. vm_compute. discriminate.
Qed.

(** ** Combining a chain that was resumed: 6 rows were asked for each time, the burn-in of 50 percent drops 3 of 11. *)
Lemma resumed_burnin :
  exists (E : env XQ) m m' m'' R, run_simulation E false m = Ok m' /\ run_simulation E true m' = Ok m'' /\ m_results m'' = Some R /\
    List.length (m_chain m'') = 11 /\
    generate_combined_chain_with_index 50 [(rr_nsimu R, m_chain m'')] = Ok (skipn 3 (m_chain m''), repeat "Chain 0"%string 8) /\
    ~ kept 50 (List.length (m_chain m'')) (m_chain m'') (skipn 3 (m_chain m'')).
Proof.
  exists demo_env, (demo_s2 6 DRAM), first6, resumed6. eexists. split; [exact first6_ok|]. split; [exact resumed6_ok|]. split; [reflexivity|].
  split; [reflexivity|]. split; [vm_compute; reflexivity|]. intros (d & A & B & C).
  assert (d = 5) as ->.
  { assert (X : List.length (m_chain resumed6) = 11) by reflexivity. rewrite X in A, B. unfold Qle, Qlt in A, B. cbn [Qnum Qden Qmult inject_Z] in A, B. lia. }
  apply (f_equal (@List.length _)) in C. rewrite !skipn_length in C. vm_compute in C. discriminate.
Qed.

(** ** Loading *)

Lemma interleaved_concat {A} (ls : list (list A)) : interleaved ls (List.concat ls).
Proof.
  assert (G : forall pre, Forall (fun x => x = []) pre -> interleaved (pre ++ ls) (List.concat ls)).
  { induction ls as [|x ls IH]; intros pre P; cbn [List.concat].
    - constructor. now rewrite app_nil_r.
    - induction x as [|y x IHx]; cbn [app].
      + replace (pre ++ [] :: ls) with ((pre ++ [[]]) ++ ls) by (rewrite <- app_assoc; reflexivity). apply IH. apply Forall_app. auto.
      + constructor. exact IHx. }
  apply (G []). constructor.
Qed.

(** Two chains whose operations are mixed. *)
Lemma interleaved_two {A} (x x' y y' : list A) : interleaved [x ++ x'; y ++ y'] (x ++ y ++ x' ++ y').
Proof.
  induction x as [|a x IH]; cbn [app]; [|apply (inter_cons [] a); exact IH].
  induction y as [|b y IH]; cbn [app]; [|apply (inter_cons [x'] b); exact IH].
  replace (x' ++ y') with (List.concat [x'; y']) by (cbn; now rewrite app_nil_r). apply interleaved_concat.
Qed.

Definition pnews : list (fs XQ) := Eval vm_compute in map (fun m => m_fs m) pruns.
Definition pall : fs XQ := Eval vm_compute in
  firstn 6 (nth 0 pnews []) ++ firstn 7 (nth 1 pnews []) ++ skipn 6 (nth 0 pnews []) ++ skipn 7 (nth 1 pnews []).
Lemma pall_mixed : interleaved pnews pall.
Proof.
  exact (interleaved_two (firstn 6 (nth 0 pnews [])) (skipn 6 (nth 0 pnews [])) (firstn 7 (nth 1 pnews [])) (skipn 7 (nth 1 pnews []))).
Qed.
Lemma pnews_ok : Forall2 (fun r new => m_fs r = [] ++ new) pruns pnews.
Proof. repeat constructor. Qed.

(** The json files. *)
Definition stored (m : mcmc XQ) : pydict XQ :=
  match m_results m with
  | Some R => match results_and_export ox mx rx R with
              | Ok (_, _, Some (_, j)) => match load_json_object j with Ok L => L | Err _ => [] end
              | _ => []
              end
  | None => []
  end.
Definition pjson (rs : list (mcmc XQ)) (f : string) : option (pydict XQ) :=
  match find (fun i => String.eqb (chain_name i) f) (seq 0 (List.length rs)) with
  | Some i => option_map stored (nth_error rs i)
  | None => None
  end.

Lemma pruns_readable : forall i r, nth_error pruns i = Some r -> distinct_files r /\ readable true [] r /\ readable false [] r /\
     exists R L, m_results r = Some R /\ o_save_lightly (rr_opts R) = true /\ saved R L /\ pjson pruns (chain_name i) = Some L.
Proof.
  assert (D : forall m, In m pruns -> distinct_files m).
  { intros m I. cbn [In pruns] in I. destruct I as [<-|[<-|[]]]; repeat constructor; cbn; intros H; repeat (destruct H as [H|H]; [discriminate|]); exact H. }
  intros i r H. split; [apply D; eapply nth_error_In; eauto|].
  assert (R : forall m, In m pruns -> readable true [] m /\ readable false [] m).
  { intros m I. cbn [In pruns] in I. destruct I as [<-|[<-|[]]]; (split; [split; [reflexivity|]; split; [right; intros k; change (10 ^ k <= 2 <-> 10 ^ k <= 2); reflexivity|reflexivity]|reflexivity]). }
  destruct (R r) as [R1 R2]; [eapply nth_error_In; eauto|]. split; auto. split; auto. clear D R R1 R2.
  destruct i as [|[|i]]; [| |destruct i; discriminate]; injection H as <-; 
    (eexists; eexists; split; [reflexivity|]; split; [reflexivity|]; split; [|vm_compute; reflexivity];
     exists ox, mx, rx; eexists; eexists; eexists; eexists; split; [apply ox_wf|]; split; [apply ox_wf|]; split; [vm_compute; reflexivity|vm_compute; reflexivity]).
Qed.

(** The same run saved with the chains in the json files cannot be loaded. *)
Lemma full_results_fail :
  exists (E : env XQ) ps d ms o iv objs sched rs, setup_parallel_simulation (e_str E) 0 ps d ms o (Some iv) 2 (fun _ => None) [] = Ok objs /\
    run_parallel_simulation E objs 2 sched 6 = Ok rs /\ schedules (List.length objs) sched /\ List.length rs = 2 /\
    exists json, (forall i r, nth_error rs i = Some r -> exists R L, m_results r = Some R /\ o_save_lightly (rr_opts R) = false /\ saved R L /\ json (chain_name i) = Some L) /\
    forall read, load_parallel_simulation_results ["chain_0"; "chain_1"]%string json read = Err UnboundLocal.
Proof.
  exists demo_env, pparams, demo_data, demo_model, (popts false 4), upoints, twins, psched, twin_runs.
  split; [exact twins_ok|]. split; [exact twin_runs_ok|]. split; [exact psched_ok|]. split; [reflexivity|].
  assert (X : forall i r, nth_error twin_runs i = Some r -> exists R L, m_results r = Some R /\ o_save_lightly (rr_opts R) = false /\ saved R L /\ pjson twin_runs (chain_name i) = Some L).
  { intros i r H. destruct i as [|[|i]]; [| |destruct i; discriminate]; injection H as <-; 
    (eexists; eexists; split; [reflexivity|]; split; [reflexivity|]; split; [|vm_compute; reflexivity];
     exists ox, mx, rx; eexists; eexists; eexists; eexists; split; [apply ox_wf|]; split; [apply ox_wf|]; split; [vm_compute; reflexivity|vm_compute; reflexivity]). }
  exists (pjson twin_runs). split; [exact X|]. intros read. apply load_full_fails; [discriminate|].
  intros f I. assert (Y : exists i r, nth_error twin_runs i = Some r /\ f = chain_name i).
  { cbn in I. destruct I as [<-|[<-|[]]]; [exists 0|exists 1]; eexists; split; reflexivity. }
  destruct Y as (i & r & Y & ->). apply X in Y as (R & L & _ & Y1 & Y2 & Y3). exists L. split; auto. exact (proj2 (saved_chain _ _ Y2) Y1).
Qed.
