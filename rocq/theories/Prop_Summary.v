(** Properties of the summary of a chain: C58 (integrated autocorrelation time), C59 (summary), C60 (acceptance figures). *)

From Coq Require Import ZArith QArith Bool Lia List Reals Lra String Arith Qreals Permutation Sorted.
From Verif Require Import Base Num Samplers Adapt Settings Simulator ChainFiles Results ChainStats PlotUtil Summary RVec StatsSpec GewekeReal
  RunSpec ResultSpec DemoRealRun Dft SummaryFacts SummaryThms.
Import ListNotations.
Close Scope Q_scope.
Open Scope list_scope.
Open Scope R_scope.

(** ** C58 *)

(** [is_dft fft]: the transform used is the discrete Fourier transform.  [act x m]: 1 + 2 * (sum of the circular
    autocorrelations at lags 1 to m-1); [enough x m]: the window [m] is longer than three times that estimate plus one.
    The value returned is the estimate for the shortest such window, which exists and is no longer than the chain. *)
Theorem C58_autocorrelation_time :
  forall fft x, is_dft fft -> (2 <= List.length x)%nat -> (exists a b, In a x /\ In b x /\ a <> b) ->
  exists m, (1 <= m <= List.length x)%nat /\ enough x m /\ (forall j, (1 <= j < m)%nat -> ~ enough x j) /\
    iact_column fft (List.length x) (fin x) = (Fin (act x m), m).
Proof.
  intros fft x H L (a & b & A & B & N). apply iact_value; auto. apply autocov_0_iff.
  apply (In_nth _ _ 0) in A as (s & S1 & <-). apply (In_nth _ _ 0) in B as (t & T1 & <-). eauto.
Qed.
Print Assumptions C58_autocorrelation_time.

Theorem C58_constant_chain :
  forall fft x c, is_dft fft -> (2 <= List.length x)%nat -> (forall v, In v x -> v = c) ->
  iact_column fft (List.length x) (fin x) = (Fin 0, O).
Proof.
  intros fft x c H L C. apply iact_constant; auto. destruct (autocov_0_nonneg x) as [P|P]; auto. exfalso.
  apply autocov_0_iff in P as (s & t & S1 & T1 & N). apply N. transitivity c; [|symmetry]; apply C; now apply nth_In.
Qed.
Print Assumptions C58_constant_chain.

(** Other units or another origin for the parameter: same time and window. *)
Theorem C58_units :
  forall fft x c d, is_dft fft -> (2 <= List.length x)%nat -> c <> 0 ->
  iact_column fft (List.length x) (fin (map (fun v => c * v + d) x)) = iact_column fft (List.length x) (fin x).
Proof. intros fft x c d H L C. exact (iact_affine fft x c d H L C). Qed.
Print Assumptions C58_units.

(** One value for each column. *)
Theorem C58_each_parameter :
  forall fft npar chain, (2 <= List.length chain)%nat ->
  integrated_autocorrelation_time fft npar (finm chain) =
  let r := map (fun j => iact_column fft (List.length chain) (fin (Rcol j chain))) (seq 0 npar) in Ok (map fst r, map snd r).
Proof. intros fft npar chain L. rewrite (iact_list fft (List.length chain)) by auto. cbv zeta. now rewrite !map_map. Qed.
Print Assumptions C58_each_parameter.

(** Two values: the autocorrelations are 1 and -1, the time 1 for window 1 is too long (3*1+1 >= 1), and the window 2 gives -1. *)
Example C58_case : is_dft dft /\ (2 <= List.length [0; 2])%nat /\ (exists a b, In a [0; 2] /\ In b [0; 2] /\ a <> b) /\
  ~ enough [0; 2] 1 /\ enough [0; 2] 2 /\ act [0; 2] 2 = -1 /\ (forall v, In v [3; 3] -> v = 3).
Proof.
  assert (M : Rmean [0; 2] = 1) by (unfold Rmean; cbn; lra).
  assert (A0 : autocov [0; 2] 0 = 2) by (unfold autocov; rewrite M; cbn; lra).
  assert (A1 : autocov [0; 2] 1 = -2) by (unfold autocov; rewrite M; cbn; lra).
  assert (R0 : autocor [0; 2] 0 = 1) by (unfold autocor; rewrite A0; lra).
  assert (R1 : autocor [0; 2] 1 = -1) by (unfold autocor; rewrite A1, A0; lra).
  assert (T1 : act [0; 2] 1 = 1) by (unfold act; cbn [Sum]; rewrite R0; lra).
  assert (T2 : act [0; 2] 2 = -1) by (unfold act; cbn [Sum]; rewrite R0, R1; lra).
  split; [apply dft_is_dft|]. split; [cbn; lia|]. split; [exists 0, 2; cbn; repeat split; auto; lra|].
  unfold enough. rewrite T1, T2. cbn [INR]. repeat split; try lra. intros v [<-|[<-|[]]]; reflexivity.
Qed.

(** ** C59 *)

(** [first]: the first tenth of the rows, [last]: the last half; [parts]: batches of b rows. *)
Theorem C59_summary :
  forall fft cdf npar first mid last results, is_dft fft ->
  let chain := first ++ mid ++ last in let n := List.length chain in let b := Nat.max 10 (n / 20) in
  (40 <= n)%nat -> List.length first = (n / 10)%nat -> List.length last = (n / 2)%nat -> labelled npar results ->
  forall fg, acceptance_info (finm chain) results = Ok fg ->
  exists parts rest tau m, cut b chain parts rest /\ List.length parts = (n / b)%nat /\
    let bm := map (fun j => batch_error (map (fun p => Rmean (Rcol j p)) parts) (Rmean (Rcol j chain)) b) (seq 0 npar) in
    let z := map (fun j => ndiv (Fin (Rmean (Rcol j first) - Rmean (Rcol j last))) (Fin (sqrt (gvar j first last)))) (seq 0 npar) in
    chainstats fft (fun nw => fin (hann nw)) cdf npar (finm chain) results =
    Ok (mkstats (fin (map (fun j => Rmean (Rcol j chain)) (seq 0 npar)))
                (fin (map (fun j => sqrt (Rsum (map (fun v => (v - Rmean (Rcol j chain))²) (Rcol j chain)) / INR n)) (seq 0 npar)))
                (fin bm) (fin (map (fun s => s / sqrt (INR n)) bm)) z (map (fun v => nmul (nnat 2) (nsub n1 (cdf (nabs v)))) z)
                (fin tau) m fg) /\
    List.length tau = npar /\ List.length m = npar /\
    forall j, (j < npar)%nat -> iact_column fft n (fin (Rcol j chain)) = (Fin (nth j tau 0), nth j m O).
Proof. intros fft cdf npar first mid last results H. exact (chainstats_value fft cdf H npar first mid last results). Qed.
Print Assumptions C59_summary.

(** Chains of less than 40 rows have no summary. *)
Theorem C59_short_chains :
  forall F (NF : Num F) fft hanning cdf npar (chain : list (list F)) results, (0 < npar)%nat -> (exists g, names_of results = Ok g) ->
  ((List.length chain < 20)%nat -> chainstats fft hanning cdf npar chain results = Err SysExit) /\
  ((20 <= List.length chain < 40)%nat -> chainstats fft hanning cdf npar chain results = Err ZeroDivision).
Proof. intros F NF. exact chainstats_short. Qed.
Print Assumptions C59_short_chains.

(** Nor has a chain with less columns than the results have names (columns selected from a chain). *)
Theorem C59_refuted_selected_columns :
  forall F (NF : Num F) fft hanning cdf npar (chain : list (list F)) results g, names_of results = Ok (Some g) ->
  (0 < npar)%nat -> (npar < List.length g)%nat -> (40 <= List.length chain)%nat ->
  chainstats fft hanning cdf npar chain results = Err IndexError.
Proof. intros F NF. exact chainstats_names. Qed.
Print Assumptions C59_refuted_selected_columns.

Example C59_case : let chain := repeat [1; 2] 4 ++ repeat [3; 3] 16 ++ repeat [5; 0] 20 in let n := List.length chain in
  let results : option (pydict XR) := Some [("names", PList [PStr "a"]); ("iacce", PArrZ [30; 7]%Z); ("nsimu", PInt 40)]%string in
  (40 <= n)%nat /\ List.length (repeat [1; 2] 4) = (n / 10)%nat /\ List.length (repeat [5; 0] 20) = (n / 2)%nat /\ labelled 2 results /\
  exists u, acceptance_info (finm chain) results = Ok (mkfigures (Some ([30; 7], 37, 40)%Z) u 40).
Proof.
  cbv zeta. repeat split; try (cbn; lia).
  - exists (Some ["a"]%string). split; [reflexivity|]. cbn. lia.
  - eexists. reflexivity.
Qed.

(** ** C60 *)

(** After a fresh run with delayed rejection: the figures shown for the results are the acceptances at each stage (the
    initial point counted at stage 1), and the number of different values in the first column is no larger than their sum. *)
Theorem C60_acceptance_figures_partial :
  forall (E : env XR) ps m m' chain ox mx x,
  session E ps m -> run_simulation E false m = Ok m' -> (1 < o_ntry (m_opts m))%nat -> m_chain m' = finm chain ->
  Forall wf (option_values ox) -> wf (mx_Nshape mx) ->
  exists r iacce, m_results m' = Some r /\ rr_iacce r = Some iacce /\
    let n := o_nsimu (m_opts m) in
    forall h (d : nat) f, results_and_export ox mx x r = Ok (h, d, f) ->
    exists D u, nth_error h d = Some D /\
      acceptance_info (m_chain m') (Some D) = Ok (mkfigures (Some (iacce, fold_right Z.add 0%Z iacce, Z.of_nat n)) u n) /\
      different (Rcol 0 chain) u /\ (1 <= u)%nat /\ (Z.of_nat u <= fold_right Z.add 0 iacce <= Z.of_nat n)%Z /\
      names_of (Some D) = Ok (Some (rr_names r)).
Proof.
  intros E ps m m' chain ox mx x H1 H2 H3 H4 H5 H6. destruct (figures_exported E ps m m' chain ox mx x H1 H2 H3 H4 H5 H6) as (r & i & R1 & R2 & H).
  exists r, i. split; auto. split; auto. intros n h d f X. destruct (H h d f X) as (D & u & A1 & A2 & A3 & A4 & A5 & A6 & _).
  exists D, u. repeat (split; [assumption|]). assumption.
Qed.
Print Assumptions C60_acceptance_figures_partial.

(** With the same results read back from their file, there are no figures: AttributeError. *)
Theorem C60_refuted_results_from_file :
  forall (E : env XR) ps m m' chain ox mx x,
  session E ps m -> run_simulation E false m = Ok m' -> (1 < o_ntry (m_opts m))%nat -> m_chain m' = finm chain ->
  Forall wf (option_values ox) -> wf (mx_Nshape mx) ->
  exists r, m_results m' = Some r /\
    forall h (d : nat) p j, results_and_export ox mx x r = Ok (h, d, Some (p, j)) ->
    exists L, load_json_object j = Ok L /\ acceptance_info (m_chain m') (Some L) = Err AttributeError.
Proof.
  intros E ps m m' chain ox mx x H1 H2 H3 H4 H5 H6. destruct (figures_exported E ps m m' chain ox mx x H1 H2 H3 H4 H5 H6) as (r & i & R1 & R2 & H).
  exists r. split; auto. intros h d p j X. destruct (H h d _ X) as (D & u & _ & _ & _ & _ & _ & _ & A). exact A.
Qed.
Print Assumptions C60_refuted_results_from_file.

(** Without results, or without acceptances in them: the different values of the first column and the number of rows. *)
Theorem C60_chain_only :
  forall chain (D : option (pydict XR)), (forall d, D = Some d -> lookup "iacce"%string d = None) ->
  exists u, acceptance_info (finm chain) D = Ok (mkfigures None u (List.length chain)) /\ different (Rcol 0 chain) u.
Proof.
  intros chain D H. exists (unique_size (fin (Rcol 0 chain))). split; [|apply unique_size_fin].
  unfold acceptance_info. replace (List.length (finm chain)) with (List.length chain) by (unfold finm; now rewrite map_length).
  rewrite col_fin. destruct D as [d|]; [|reflexivity]. now rewrite (H d eq_refl).
Qed.
Print Assumptions C60_chain_only.

Definition ox_r : optextra XR := mkoptx (PInt 0) true (PInt 0) (PInt 0) (PInt 0) (PInt 1) "run" "20260101_000000" 1 PNone PNone None.
Definition mx_r : modextra XR := mkmodx (PFun "sos") PNone 1 PNone PNone PNone (PList [PArr [Fin 4]]) 1.
Example C60_case : session flat_env flat_params (flat DR) /\ (1 < o_ntry (m_opts (flat DR)))%nat /\
  (exists m' chain, run_simulation flat_env false (flat DR) = Ok m' /\ m_chain m' = finm chain) /\
  Forall wf (option_values ox_r) /\ wf (mx_Nshape mx_r) /\ different [0; 1; 1; 0; 2] 3.
Proof.
  split; [exists flat_data, flat_model; eexists _, _, _, []; reflexivity|]. split; [cbn; lia|]. split.
  { assert (X : exists m' a b c d, run_simulation flat_env false (flat DR) = Ok m' /\ m_chain m' = finm [[a]; [b]; [c]; [d]])
      by (do 5 eexists; split; [run_flat DR|reflexivity]).
    destruct X as (m' & a & b & c & d & X). eauto. }
  split; [repeat (constructor; try (intros; discriminate))|]. split; [repeat (constructor; try (intros; discriminate))|].
  exists [0; 1; 2]. split; [repeat constructor; cbn; lra|]. split; [cbn; tauto|reflexivity].
Qed.
