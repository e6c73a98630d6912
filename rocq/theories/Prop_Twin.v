(** Properties C61, C62 and C63: two runs that differ in their length or in what they print and write; a run in two parts.

    [F] is any number type with any arithmetic.  [sampling_of], [same_object] and [same_actions] are in TwinSpec.v. *)

From Coq Require Import ZArith QArith Bool Lia List String Reals.
From Verif Require Import Base Num Samplers Adapt Settings Simulator RunSpec SessionFacts TwinSpec TwinFacts SplitFacts Demo DemoRuns.
Import ListNotations.
Close Scope Q_scope.
Close Scope R_scope.
Open Scope list_scope.
Open Scope nat_scope.

(** ** C61 *)

(** The same object is run with two sets of options that agree on the sampling method, for [n1] and for [n2 >= n1]
    simulations.  The shorter run's arrays are the beginnings of the longer run's arrays, and the iterations of the
    shorter run (newest first) are the oldest iterations of the longer one. *)
Theorem C61_longer_run_begins_with_shorter :
  forall (F : Type) (NF : Num F) (E : env F) ps m o1 o2 resumed m1 m2,
  session E ps m -> sampling_of o1 = sampling_of o2 -> o_nsimu o1 <= o_nsimu o2 ->
  run_simulation E resumed (with_opts m o1) = Ok m1 -> run_simulation E resumed (with_opts m o2) = Ok m2 ->
  let k := List.length (m_chain m1) in
  k = (if resumed then List.length (m_chain m) - 1 else 0) + o_nsimu o1 /\
  m_chain m1 = firstn k (m_chain m2) /\ m_sschain m1 = firstn k (m_sschain m2) /\
  m_s2chain m1 = option_map (firstn k) (m_s2chain m2) /\
  exists later, map what_happened (m_trace m2) = later ++ map what_happened (m_trace m1).
Proof.
  intros F NF E ps m o1 o2 b m1 m2 HS Ho Hn H1 H2 k.
  assert (S1 : session E ps (with_opts m o1)) by (eapply session_act; [exact HS|]; exact (eq_refl : act E (SetOptions o1) m = _)).
  assert (S2 : session E ps (with_opts m o2)) by (eapply session_act; [exact HS|]; exact (eq_refl : act E (SetOptions o2) m = _)).
  assert (SO : same_object (with_opts m o1) (with_opts m o2)) by (split; auto).
  destruct (run_prefix E ps b _ _ _ _ S1 S2 SO Hn H1 H2) as (A1 & A2 & A3 & A4 & A5).
  split; [|auto]. unfold k. rewrite A4. cbn [with_opts m_index m_opts].
  assert (2 <= o_nsimu o1).
  { pose proof (RunLift.run_facts _ _ _ _ H1) as (x1 & x2 & x3 & x4 & x5 & x6 & X). cbv zeta in X.
    cbn [with_opts m_opts] in X. tauto. }
  destruct b; [|lia].
  assert (St : m_status m = true).
  { unfold run_simulation in H1. cbn [with_opts m_status] in H1. destruct (m_status m); [reflexivity|discriminate]. }
  destruct (mi_len _ _ _ (session_minv _ _ _ HS) St) as (L & _). rewrite L. lia.
Qed.
Print Assumptions C61_longer_run_begins_with_shorter.

(** If the longer run ends normally, so does the shorter one, unless writing a binary log fails. *)
Theorem C61_shorter_run_ends :
  forall (F : Type) (NF : Num F) (E : env F) ps m o1 o2 resumed m2,
  session E ps m -> sampling_of o1 = sampling_of o2 -> 2 <= o_nsimu o1 <= o_nsimu o2 -> o_save_to_bin o1 = false ->
  run_simulation E resumed (with_opts m o2) = Ok m2 -> exists m1, run_simulation E resumed (with_opts m o1) = Ok m1.
Proof.
  intros F NF E ps m o1 o2 b m2 HS Ho Hn Hb H2.
  assert (S2 : session E ps (with_opts m o2)) by (eapply session_act; [exact HS|]; exact (eq_refl : act E (SetOptions o2) m = _)).
  eapply (run_twin_ok E ps b (with_opts m o2) (with_opts m o1)); eauto. split; auto.
Qed.
Print Assumptions C61_shorter_run_ends.

(** A resumed run of 4 simulations with delayed rejection and estimation of the error variance, and one of 7. *)
Example C61_case :
  session demo_env demo_params first6 /\
  sampling_of (demo_opts_s2 4 DRAM) = sampling_of (demo_opts_s2 7 DRAM) /\
  match run_simulation demo_env true (with_opts first6 (demo_opts_s2 4 DRAM)),
        run_simulation demo_env true (with_opts first6 (demo_opts_s2 7 DRAM)) with
  | Ok m1, Ok m2 => List.length (m_chain m1) = 9 /\ List.length (m_chain m2) = 12 /\
                    option_map (@List.length _) (m_s2chain m1) = Some 9
  | _, _ => False
  end.
Proof. split; [exact session_first6|]. split; [reflexivity|]. vm_compute. auto. Qed.

(** ** C62 *)

(** Two objects with the same declarations go through the same actions; the options they are given agree on the
    sampling method and the number of simulations and may differ in everything else (logs, names, directories,
    json, printing, [lastadapt]), and the files already there may differ.  Then the objects agree in chains,
    variances, random stream, calls of the user's function, iterations, and all numbers in the results. *)
Theorem C62_logging_does_not_influence_sampling :
  forall (F : Type) (NF : Num F) (E : env F) ps d ms o1 o2 pos f1 f2 l1 l2 m1 m2,
  sampling_of o1 = sampling_of o2 -> o_nsimu o1 = o_nsimu o2 -> same_actions l1 l2 ->
  acts E l1 (new_mcmc ps d ms o1 pos f1) = Ok m1 -> acts E l2 (new_mcmc ps d ms o2 pos f2) = Ok m2 ->
  same_object m1 m2.
Proof.
  intros F NF E ps d ms o1 o2 pos f1 f2 l1 l2 m1 m2 Ho Hn HA H1 H2.
  refine (proj1 (acts_same E ps l1 l2 HA _ _ _ _ _ _ _ _ H1 H2)); auto.
  - exists d, ms, o1, pos, f1, []. reflexivity.
  - exists d, ms, o2, pos, f2, []. reflexivity.
  - split; auto.
Qed.
Print Assumptions C62_logging_does_not_influence_sampling.

(** Switching off binary logs (and changing names, directories and the other options of that kind) never makes a
    run fail. *)
Theorem C62_run_without_binary_log_ends :
  forall (F : Type) (NF : Num F) (E : env F) ps m o1 o2 resumed m1,
  session E ps m -> sampling_of o1 = sampling_of o2 -> o_nsimu o1 = o_nsimu o2 -> o_save_to_bin o2 = false ->
  run_simulation E resumed (with_opts m o1) = Ok m1 ->
  exists m2, run_simulation E resumed (with_opts m o2) = Ok m2 /\ same_object m1 m2.
Proof.
  intros F NF E ps m o1 o2 b m1 HS Ho Hn Hb H1.
  assert (S1 : session E ps (with_opts m o1)) by (eapply session_act; [exact HS|]; exact (eq_refl : act E (SetOptions o1) m = _)).
  assert (S2 : session E ps (with_opts m o2)) by (eapply session_act; [exact HS|]; exact (eq_refl : act E (SetOptions o2) m = _)).
  assert (SO : same_object (with_opts m o1) (with_opts m o2)) by (split; auto).
  assert (2 <= o_nsimu o1).
  { pose proof (RunLift.run_facts _ _ _ _ H1) as (x1 & x2 & x3 & x4 & x5 & x6 & X). cbv zeta in X.
    cbn [with_opts m_opts] in X. tauto. }
  destruct (run_twin_ok E ps b (with_opts m o1) (with_opts m o2) m1 S1 SO) as (m2 & H2); auto.
  { cbn [with_opts m_opts]. lia. }
  exists m2. split; [exact H2|].
  exact (proj1 (run_same E ps b _ _ _ _ S1 S2 SO Hn H1 H2)).
Qed.
Print Assumptions C62_run_without_binary_log_ends.

(** A run and a resumed run, once with text logs every 3 iterations, once with no logs and a file already there. *)
Definition quiet (n : nat) : simopts XQ :=
  define_simulation_options (demo_raw true false false n DRAM) "20270101_111111".
Example C62_case :
  sampling_of (demo_opts_s2 5 DRAM) = sampling_of (quiet 5) /\ o_nsimu (demo_opts_s2 5 DRAM) = o_nsimu (quiet 5) /\
  same_actions [Run false; SetOptions (demo_opts_s2 4 DRAM); Run true] [Run false; SetOptions (quiet 4); Run true] /\
  match acts demo_env [Run false; SetOptions (demo_opts_s2 4 DRAM); Run true]
          (new_mcmc demo_params demo_data demo_model (demo_opts_s2 5 DRAM) 0 []),
        acts demo_env [Run false; SetOptions (quiet 4); Run true]
          (new_mcmc demo_params demo_data demo_model (quiet 5) 0 [FJson ("x", "y", "json")%string true]) with
  | Ok m1, Ok m2 => 10 <= List.length (m_fs m1) /\ List.length (m_fs m2) = 1 /\ List.length (m_chain m2) = 8
  | _, _ => False
  end.
Proof.
  split; [reflexivity|]. split; [reflexivity|]. split; [repeat constructor|]. vm_compute.
  split; [|auto]. repeat constructor.
Qed.

(** ** C63 *)

(** An object is run for [n1] simulations and continued for [n2] with the options the first run left (but for the
    length, logs and printing).  Another copy of the object is run for [n1 + n2 - 1] simulations.  Without adaptation,
    with a covariance given by the user (or by a restart file) and with estimation of the error variance, the two end
    with the same samples, sums of squares, variances and position in the random stream, and every iteration had the
    same outcome.  Not covered: runs with the default covariance (refuted below) or with adaptation, which starts
    anew in the continuation; runs without estimation of the variance cannot be continued (C27).
    [settled] holds after every run on real numbers with settings of consistent sizes (C27_model_settings_stable_partial). *)
Theorem C63_resumed_run_is_one_run_partial :
  forall (F : Type) (NF : Num F) (E : env F) ps b m o1 o2 o3 m1 m2 m3 n,
  session E ps m -> NoDup (map (@a_name F) (sampled_params ps)) ->
  run_simulation E b (with_opts m o1) = Ok m1 ->
  run_simulation E true (with_opts m1 o2) = Ok m2 ->
  run_simulation E b (with_opts m o3) = Ok m3 ->
  sampling_of o1 = sampling_of o3 -> sampling_of o2 = sampling_of (m_opts m1) -> o_nsimu o3 = o_nsimu o1 + o_nsimu o2 - 1 ->
  (o_adaptint (m_opts m1) <= 0)%Z -> o_qcov (m_opts m1) <> None -> o_updatesigma (m_opts m1) = true ->
  (forall p, In p (m_params m1) -> nisnan (a_theta0 p) = false) ->
  (forall r v, m_results m1 = Some r -> In v (rr_theta r) -> nisnan v = false) ->
  (forall v, List.length (e_sos E v) = n) -> settled m1 n ->
  m_chain m3 = m_chain m2 /\ m_sschain m3 = m_sschain m2 /\ m_s2chain m3 = m_s2chain m2 /\ m_pos m3 = m_pos m2 /\
  ms_sigma2 (m_model m3) = ms_sigma2 (m_model m2) /\ ms_S20 (m_model m3) = ms_S20 (m_model m2) /\
  map (@brief F) (m_trace m3) = map (@brief F) (m_trace m2).
Proof.
  intros F NF E ps b m o1 o2 o3 m1 m2 m3 n HS HN H1 H2 H3 A1 A2 A3 A4 A5 A6 A7 A8 A9 (ms & B1 & B2).
  eapply (run_split E ps b m o1 o2 o3 m1 m2 m3 ms n); eauto.
Qed.
Print Assumptions C63_resumed_run_is_one_run_partial.

Definition split_opts (me : method) (q : option (list (list XQ))) (n : nat) : simopts XQ :=
  define_simulation_options
    (mkraw n me (Some 2%Z) None None None None 0%Z 0%Z q None true (Fin (1 # 1000)%Q) (Fin 10%Q)
        (Fin (234 # 1000)%Q) (Fin (7 # 10)%Q) [Fin 5%Q; Fin 4%Q; Fin 3%Q] None 3%Z
        "chainfile" "sschainfile" "s2chainfile" "covchainfile" (Some "log"%string) false true false false None None)
    "20260101_000000".
Definition split_cov : option (list (list XQ)) :=
  Some [[Fin (1 # 4)%Q; Fin 0%Q; Fin 0%Q]; [Fin 0%Q; Fin 1%Q; Fin 0%Q]; [Fin 0%Q; Fin 0%Q; Fin (1 # 9)%Q]].
Definition split_new : mcmc XQ := new_mcmc demo_params demo_data demo_model (split_opts DR None 2) 0 [].
Definition whole (me : method) (q : option (list (list XQ))) (n : nat) : res (mcmc XQ) :=
  run_simulation demo_env false (with_opts split_new (split_opts me q n)).
Definition split3 : mcmc XQ := Eval vm_compute in run_of (whole DR split_cov 3) split_new.

(** 3 simulations continued by 4, against 6: delayed rejection, one first-stage and two second-stage acceptances,
    two candidates out of bounds. *)
Example C63_case :
  session demo_env demo_params split_new /\ NoDup (map (@a_name XQ) (sampled_params demo_params)) /\
  sampling_of (split_opts DR split_cov 4) = sampling_of (m_opts split3) /\
  (o_adaptint (m_opts split3) <= 0)%Z /\ o_qcov (m_opts split3) <> None /\ o_updatesigma (m_opts split3) = true /\
  (forall p, In p (m_params split3) -> nisnan (a_theta0 p) = false) /\
  (forall r v, m_results split3 = Some r -> In v (rr_theta r) -> nisnan v = false) /\
  (forall v, List.length (e_sos demo_env v) = 1) /\ settled split3 1 /\
  whole DR split_cov 3 = Ok split3 /\
  match run_simulation demo_env true (with_opts split3 (split_opts DR split_cov 4)), whole DR split_cov 6 with
  | Ok m2, Ok m3 => m_chain m3 = m_chain m2 /\ map (@ev_stage XQ) (m_trace m3) = [2; 2; 0; 0; 1] /\ List.length (m_chain m3) = 6
  | _, _ => False
  end.
Proof.
  split; [exists demo_data, demo_model, (split_opts DR None 2), 0, [], []; reflexivity|].
  split; [vm_compute; repeat constructor; simpl; intuition discriminate|].
  split; [reflexivity|]. split; [vm_compute; discriminate|]. split; [discriminate|]. split; [reflexivity|].
  split; [apply Forall_forall; vm_compute; repeat constructor|].
  split; [intros r v Hr; revert v; apply Forall_forall; injection Hr as <-; vm_compute; repeat constructor|].
  split; [reflexivity|]. split; [eexists; split; vm_compute; reflexivity|].
  split; [vm_compute; reflexivity|]. vm_compute. auto.
Qed.

(** The default covariance is made from the starting values, and a continued run starts elsewhere. *)
Theorem C63_refuted_default_covariance :
  exists (E : env XQ) ps m o1 o2 o3 m1 m2 m3, session E ps m /\ sampling_of o1 = sampling_of o3 /\ sampling_of o2 = sampling_of (m_opts m1) /\
    o_nsimu o3 = o_nsimu o1 + o_nsimu o2 - 1 /\ o_adaptint (m_opts m1) = 0%Z /\ o_updatesigma (m_opts m1) = true /\ settled m1 1 /\
    run_simulation E false (with_opts m o1) = Ok m1 /\ run_simulation E true (with_opts m1 o2) = Ok m2 /\
    run_simulation E false (with_opts m o3) = Ok m3 /\ m_chain m3 <> m_chain m2.
Proof.
  exists demo_env, demo_params, split_new, (split_opts DR None 3), (split_opts DR None 2), (split_opts DR None 4).
  do 3 eexists. split; [exists demo_data, demo_model, (split_opts DR None 2), 0, [], []; reflexivity|].
  split; [reflexivity|].
  assert (W : forall (A B C D G H K L M : Prop), K -> L -> M -> A -> B -> C -> D -> G -> H -> A /\ B /\ C /\ D /\ G /\ K /\ L /\ M /\ H) by tauto.
  apply W; [vm_compute; reflexivity|vm_compute; reflexivity|vm_compute; reflexivity|reflexivity|reflexivity|reflexivity|reflexivity| |vm_compute; discriminate].
  eexists. split; vm_compute; reflexivity.
Qed.
Print Assumptions C63_refuted_default_covariance.

(** Adaptation starts anew in a continued run: its factors are those of the given covariance again. *)
Theorem C63_refuted_adaptation :
  exists (E : env XQ) ps m o1 o2 o3 m1 m2 m3, session E ps m /\ sampling_of o1 = sampling_of o3 /\ sampling_of o2 = sampling_of (m_opts m1) /\
    o_nsimu o3 = o_nsimu o1 + o_nsimu o2 - 1 /\ o_qcov (m_opts m1) <> None /\ o_updatesigma (m_opts m1) = true /\ settled m1 1 /\
    run_simulation E false (with_opts m o1) = Ok m1 /\ run_simulation E true (with_opts m1 o2) = Ok m2 /\
    run_simulation E false (with_opts m o3) = Ok m3 /\ m_chain m3 <> m_chain m2.
Proof.
  exists demo_env, demo_params, split_new, (split_opts AM split_cov 4), (split_opts AM split_cov 3), (split_opts AM split_cov 6).
  do 3 eexists. split; [exists demo_data, demo_model, (split_opts DR None 2), 0, [], []; reflexivity|].
  split; [reflexivity|].
  assert (W : forall (A B C D G H K L M : Prop), K -> L -> M -> A -> B -> C -> D -> G -> H -> A /\ B /\ C /\ D /\ G /\ K /\ L /\ M /\ H) by tauto.
  apply W; [vm_compute; reflexivity|vm_compute; reflexivity|vm_compute; reflexivity|reflexivity|reflexivity|discriminate|reflexivity| |vm_compute; discriminate].
  eexists. split; vm_compute; reflexivity.
Qed.
Print Assumptions C63_refuted_adaptation.
