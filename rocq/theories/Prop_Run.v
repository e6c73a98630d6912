(** Properties C01-C08 and C31: what a run of the simulator produces.

    [F] is any number type with any arithmetic ([Num F] has operations and no laws), so the theorems
    hold whatever the rounding.  [session E ps m] says that [m] is the state of an object that was
    created with parameters [ps] and then went through any sequence of changed settings, fresh runs and
    resumed runs that did not raise, for any user functions, random stream and linear algebra
    routines [E].  The vocabulary is in RunSpec.v. *)

From Coq Require Import ZArith QArith Bool Lia List String Reals.
From Verif Require Import Base Num Samplers Adapt Settings Simulator RunSpec RunThms Demo DemoRuns.
Import ListNotations.
Close Scope Q_scope.
Close Scope R_scope.
Open Scope list_scope.
Open Scope nat_scope.

(** ** C01 *)

(** Every row has one entry per sampled parameter; none is below the minimum or above the maximum. *)
Theorem C01_samples_within_limits :
  forall (F : Type) (NF : Num F) (E : env F) ps m,
  session E ps m -> forall row, In row (m_chain m) -> inside ps row.
Proof. intros F NF E ps m HS row. exact (rows_inside E ps m row HS). Qed.
Print Assumptions C01_samples_within_limits.

(** Read over the extended reals: a number that is not NaN lies between the limits. *)
Theorem C01_samples_within_limits_real :
  forall (E : env XR) ps m,
  session E ps m -> forall row, In row (m_chain m) ->
  Forall2 (fun p t => nisnan t = false -> nisnan (a_min p) = false -> nisnan (a_max p) = false ->
                      nle (a_min p) t = true /\ nle t (a_max p) = true) (sampled_params ps) row.
Proof. intros E ps m HS row HI. exact (inside_R ps row (rows_inside E ps m row HS HI)). Qed.
Print Assumptions C01_samples_within_limits_real.

Example C01_case : session demo_env demo_params dram12 /\ List.length (m_chain dram12) = 12.
Proof. split; [exact session_dram12|vm_compute; reflexivity]. Qed.

(** ** C02 *)

(** Every vector the sum-of-squares function was called with, before, during and after the loop, has
    the declared values at the fixed parameters and values within the limits at the others. *)
Theorem C02_user_functions_see_admissible_vectors :
  forall (F : Type) (NF : Num F) (E : env F) ps m,
  session E ps m -> forall v, In v (m_calls m) -> admissible ps v.
Proof. intros F NF E ps m HS v. exact (calls_admissible E ps m v HS). Qed.
Print Assumptions C02_user_functions_see_admissible_vectors.

(** The executed session called the function 12 times for 11 rows. *)
Example C02_case : session demo_env demo_params resumed6 /\ List.length (m_chain resumed6) = 11 /\
  List.length (m_calls resumed6) = 12.
Proof. split; [exact session_resumed6|vm_compute; split; reflexivity]. Qed.

(** ** C03 *)

(** The sum-of-squares chain is the sum-of-squares function of the rows of the chain, provided the
    function returns a constant number of components on admissible vectors. *)
Theorem C03_sschain_is_ss_of_chain :
  forall (F : Type) (NF : Num F) (E : env F) ps m,
  (forall v w, admissible ps v -> admissible ps w -> List.length (e_sos E v) = List.length (e_sos E w)) ->
  session E ps m -> m_sschain m = map (fun row => e_sos E (fill ps row)) (m_chain m).
Proof. intros F NF E ps m HC HS. exact (sschain_rows E ps m HC HS). Qed.
Print Assumptions C03_sschain_is_ss_of_chain.

Example C03_case : session demo_env demo_params resumed6 /\
  (forall v w, List.length (e_sos demo_env v) = List.length (e_sos demo_env w)) /\
  m_sschain resumed6 = map (fun row => e_sos demo_env (fill demo_params row)) (m_chain resumed6).
Proof. split; [exact session_resumed6|]. split; [reflexivity|vm_compute; reflexivity]. Qed.

(** ** C04 *)

(** Every run that does not raise has a course: its iterations, one event each, explain row by row how
    the chain was built ([follows]), starting from the stored rows if the run is resumed. *)
Theorem C04_rows_follow_from_proposals :
  forall (F : Type) (NF : Num F) (E : env F) ps resumed m m',
  session E ps m ->
  (resumed = true -> NoDup (map (@a_name F) (sampled_params ps))) ->
  run_simulation E resumed m = Ok m' ->
  exists start evs, course E ps resumed m m' start evs.
Proof. intros F NF E ps b m m' HS HN HR. exact (course_of_run E ps b m m' HS HN HR). Qed.
Print Assumptions C04_rows_follow_from_proposals.

Example C04_case : session demo_env demo_params first6 /\
  NoDup (map (@a_name XQ) (sampled_params demo_params)) /\
  run_simulation demo_env true first6 = Ok resumed6 /\
  map fst (stages dram12) = [1; 0; 1; 1; 1; 0; 1; 1; 2; 2; 2].
Proof.
  split; [exact session_first6|]. split; [|split; [exact resumed6_ok|exact dram12_stages]].
  vm_compute. repeat constructor; simpl; intuition discriminate.
Qed.

(** ** C05 *)

(** The reported rejection fractions are the counted fractions of the events of the course. *)
Theorem C05_rejection_counters :
  forall (F : Type) (NF : Num F) (E : env F) ps resumed m m',
  session E ps m ->
  (resumed = true -> NoDup (map (@a_name F) (sampled_params ps))) ->
  run_simulation E resumed m = Ok m' ->
  exists start evs r, course E ps resumed m m' start evs /\ m_results m' = Some r /\
    let n := o_nsimu (m_opts m) in
    let rejected := count rejected_ev evs in
    let outside := count (fun e => rejected_ev e && ev_outb e) evs in
    rr_total_rejected r = nmul (nnat rejected) (ninv (nnat n)) /\
    rr_outside r = nmul (nnat outside) (ninv (nnat n)) /\
    outside <= rejected /\ rejected <= n - 1.
Proof. intros F NF E ps b m m' HS HN HR. exact (counters E ps b m m' HS HN HR). Qed.
Print Assumptions C05_rejection_counters.

(** In exact arithmetic these fractions are the integer counts over nsimu. *)
Theorem C05_fraction_exact : forall k n, 1 <= n ->
  nmul (@nnat XR _ k) (ninv (nnat n)) = Fin (INR k / INR n)%R.
Proof. exact fraction_R. Qed.
Print Assumptions C05_fraction_exact.

Example C05_case : run_simulation demo_env false (demo 12 AM) = Ok am12 /\
  stages am12 =
  [(1, false); (0, true); (1, false); (1, false); (1, false); (1, false); (0, false); (0, false);
   (1, false); (0, true); (1, false)].
Proof. split; [exact am12_ok|exact am12_stages]. Qed.

(** ** C06 *)

(** The acceptance counts of delayed rejection: entry j >= 1 counts the acceptances at stage j+1;
    entry 0 counts the first-stage acceptances and the initial point; with the rejections they add up
    to nsimu. *)
Theorem C06_delayed_rejection_counts :
  forall (F : Type) (NF : Num F) (E : env F) ps resumed m m',
  session E ps m ->
  (resumed = true -> NoDup (map (@a_name F) (sampled_params ps))) ->
  run_simulation E resumed m = Ok m' -> 1 < o_ntry (m_opts m) ->
  exists start evs r iacce, course E ps resumed m m' start evs /\ m_results m' = Some r /\
    rr_iacce r = Some iacce /\
    List.length iacce = o_ntry (m_opts m) /\
    (forall j, 1 <= j < o_ntry (m_opts m) ->
       nth_error iacce j = Some (Z.of_nat (count (accepted_at (S j)) evs))) /\
    nth_error iacce 0 = Some (Z.of_nat (S (count (accepted_at 1) evs))) /\
    (fold_right Z.add 0 iacce + Z.of_nat (count rejected_ev evs) = Z.of_nat (o_nsimu (m_opts m)))%Z.
Proof. intros F NF E ps b m m' HS HN HR HT. exact (iacce_closes E ps b m m' HS HN HR HT). Qed.
Print Assumptions C06_delayed_rejection_counts.

Example C06_case : run_simulation demo_env false (demo 12 DRAM) = Ok dram12 /\ 1 < o_ntry (m_opts (demo 12 DRAM)) /\
  option_map (@rr_iacce XQ) (m_results dram12) = Some (Some [7; 3]%Z).
Proof. split; [exact dram12_ok|]. vm_compute. split; [repeat constructor|reflexivity]. Qed.

(** ** C07 *)

Theorem C07_final_theta :
  forall (F : Type) (NF : Num F) (E : env F) ps m,
  session E ps m -> m_status m = true ->
  exists r row, m_results m = Some r /\ nth_error (m_chain m) (List.length (m_chain m) - 1) = Some row /\
    rr_theta r = fill ps row /\
    rr_names r = map (@a_name F) (sampled_params ps) /\
    rr_lower r = map (@a_min F) (sampled_params ps) /\ rr_upper r = map (@a_max F) (sampled_params ps) /\
    List.length row = List.length (sampled_params ps) /\
    rr_chain r = m_chain m /\ rr_sschain r = m_sschain m /\ rr_s2chain r = m_s2chain m.
Proof. intros F NF E ps m HS HT. exact (final_theta E ps m HS HT). Qed.
Print Assumptions C07_final_theta.

Example C07_case : session demo_env demo_params resumed6 /\ m_status resumed6 = true /\
  map (@a_sample XQ) demo_params = [true; false; true].
Proof. split; [exact session_resumed6|]. vm_compute. split; reflexivity. Qed.

(** ** C08 *)

(** A fresh run that does not raise returns nsimu rows in every chain, row 0 being the initial point
    (the rows in between are accounted for by C04). *)
Theorem C08_run_yields_nsimu_rows :
  forall (F : Type) (NF : Num F) (E : env F) ps m m',
  session E ps m -> run_simulation E false m = Ok m' ->
  List.length (m_chain m') = o_nsimu (m_opts m) /\ List.length (m_sschain m') = o_nsimu (m_opts m) /\
  (forall s2, m_s2chain m' = Some s2 -> List.length s2 = o_nsimu (m_opts m)) /\
  nth_error (m_chain m') 0 = Some (map (@a_theta0 F) (sampled_params (m_params m'))) /\
  2 <= o_nsimu (m_opts m).
Proof. intros F NF E ps m m' HS HR. exact (fresh_run_rows E ps m m' HS HR). Qed.
Print Assumptions C08_run_yields_nsimu_rows.

(** Finding: with nsimu <= 1 the run always raises (the loop variable is read after a loop that has no
    iteration), so nsimu = 1 is not usable. *)
Theorem C08_single_simulation_raises :
  forall (F : Type) (NF : Num F) (E : env F) resumed m m',
  o_nsimu (m_opts m) <= 1 -> run_simulation E resumed m <> Ok m'.
Proof. intros F NF E b m m' H. exact (single_raises E b m m' H). Qed.
Print Assumptions C08_single_simulation_raises.

Example C08_case : run_simulation demo_env false (demo_s2 6 DRAM) = Ok first6 /\
  option_map (@List.length _) (m_s2chain first6) = Some 6.
Proof. split; [exact first6_ok|vm_compute; reflexivity]. Qed.

(** ** C31 *)

(** A resumed run needs a previous run, keeps every stored row as a prefix of every chain, appends
    nsimu - 1 rows, and its first new row is built from the last stored row ([course] starts there). *)
Theorem C31_resumed_run_extends :
  forall (F : Type) (NF : Num F) (E : env F) ps m m',
  session E ps m -> NoDup (map (@a_name F) (sampled_params ps)) ->
  run_simulation E true m = Ok m' ->
  m_status m = true /\
  (exists new, m_chain m' = m_chain m ++ new /\ List.length new = o_nsimu (m_opts m) - 1) /\
  (exists new, m_sschain m' = m_sschain m ++ new /\ List.length new = o_nsimu (m_opts m) - 1) /\
  (forall s2', m_s2chain m' = Some s2' -> exists s2 new, m_s2chain m = Some s2 /\ s2' = s2 ++ new /\
       List.length new = o_nsimu (m_opts m) - 1) /\
  exists evs, course E ps true m m' (List.length (m_chain m) - 1) evs.
Proof. intros F NF E ps m m' HS HN HR. exact (resumed_extends E ps m m' HS HN HR). Qed.
Print Assumptions C31_resumed_run_extends.

Example C31_case : session demo_env demo_params first6 /\
  NoDup (map (@a_name XQ) (sampled_params demo_params)) /\
  run_simulation demo_env true first6 = Ok resumed6 /\
  List.length (m_chain first6) = 6 /\ List.length (m_chain resumed6) = 11.
Proof.
  split; [exact session_first6|]. split; [|split; [exact resumed6_ok|vm_compute; split; reflexivity]].
  vm_compute. repeat constructor; simpl; intuition discriminate.
Qed.
