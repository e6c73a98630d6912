(** The log-file, restart and export lemmas in the form in which the properties state them. *)

From Coq Require Import ZArith QArith Bool Lia List String.
From Verif Require Import Base Num Samplers SamplerFacts Adapt Settings Simulator RunSpec RunFacts RunLift SettingsFacts SessionFacts ResumeFacts
  LogSpec LogFacts LogThms Names ChainFiles ChainFileFacts ReadOrder ResumeLogs RestartFacts Results ResultSpec ResultFacts ResultThms.
Import ListNotations.
Close Scope Q_scope.
Open Scope list_scope.
Open Scope nat_scope.
Open Scope res_scope.

Section P.
Context {F : Type} `{NF : Num F}.
Variable E : env F.

Lemma distinct_arrays (m : mcmc F) : distinct_files m -> NoDup (map fst (chain_files m) ++ [o_covchainfile (m_opts m)]).
Proof.
  unfold chain_files, distinct_files. intros D.
  destruct (m_s2chain m); cbn [map fst app]; auto. inversion D as [|? ? D1 D2]; inversion D2 as [|? ? D3 D4]; inversion D4 as [|? ? D5 D6]; subst.
  constructor; [cbn in *; tauto|]. constructor; [cbn in *; tauto|]. auto.
Qed.

Lemma log_blocks m m' : run_simulation E false m = Ok m' -> distinct_files m' ->
  let o := m_opts m' in let s := Z.to_nat (o_savesize o) in let n := o_nsimu o in
  1 <= s /\ Forall (fun c => List.length (snd c) = n) (chain_files m') /\
  exists new evs bs, m_fs m' = m_fs m ++ new /\ m_trace m' = rev evs ++ m_trace m /\ List.length evs = n - 1 /\
    tiles 0 n bs /\ small s bs /\
    (o_save_to_bin o = true ->
       log_lines (binlog (o_savedir o)) new = map label bs /\
       forall f M, In (f, M) (chain_files m') ->
         h5_sets (o_savedir o, f, "h5"%string) new = map (fun x => (label x, rows_of M x)) bs /\
         forall j, exists q, h5_sets (o_savedir o, f, "h5"%string) (firstn j new) = map (fun x => (label x, rows_of M x)) (firstn q bs) /\
           forall k e, nth_error evs k = Some e -> ev_files e <= List.length (m_fs m) + j -> k < (q + 1) * s) /\
    (o_save_to_txt o = true ->
       log_lines (txtlog (o_savedir o)) new = map label bs /\
       forall f M, In (f, M) (chain_files m') ->
         txt_rows (o_savedir o, f, "txt"%string) new = M /\
         forall j, exists c, c <= n /\ txt_rows (o_savedir o, f, "txt"%string) (firstn j new) = firstn c M /\
           forall k e, nth_error evs k = Some e -> ev_files e <= List.length (m_fs m) + j -> k + 1 <= c + s).
Proof.
  intros H D o s n. pose proof (log_contents E _ _ _ H (distinct_arrays _ D)) as L. cbv zeta in L. fold o in L. fold s in L. fold n in L.
  cbn [log_arrays] in L. destruct L as (Hs & Hn & HL & new & evs & bs & L1 & L2 & L3 & T & S & _ & LB & LT).
  specialize (HL eq_refl). split; [auto|]. split; [auto|]. exists new, evs, bs. repeat (split; [assumption|]).
  intros X. destruct (LT X) as [Y Z]. split; [exact Y|]. intros f M I. destruct (Z _ _ I) as [Z1 Z2]. split; [|exact Z2].
  rewrite Z1. apply firstn_all2. rewrite Forall_forall in HL. specialize (HL _ I). cbn in HL. lia.
Qed.

Lemma h5_back m m' : run_simulation E false m = Ok m' -> distinct_files m' -> o_save_to_bin (m_opts m') = true ->
  let s := Z.to_nat (o_savesize (m_opts m')) in let n := o_nsimu (m_opts m') in
  n <= s \/ same_digits (last_start s n) s ->
  forall f M, In (f, M) (chain_files m') -> h5_sets (o_savedir (m_opts m'), f, "h5"%string) (m_fs m) = [] ->
  read_in_bin_file (h5_sets (o_savedir (m_opts m'), f, "h5"%string) (m_fs m')) = M.
Proof.
  intros H D B s n S f M I Z. pose proof (log_contents E _ _ _ H (distinct_arrays _ D)) as L. cbv zeta in L. destruct L as (Hs & Hn & _).
  eapply h5_reads_back; eauto. apply sorted_names; auto. fold n in Hn |- *. lia.
Qed.

(** [__chains] after a fresh run. *)
Lemma fresh_chains m m' m'' : run_simulation E false m = Ok m' -> log_arrays true m' m'' = chain_files m'.
Proof.
  intros H. unfold log_arrays, chain_files. apply run_model in H as (ini & ms1 & st0 & st & chains & H). cbv zeta in H.
  destruct H as (_ & _ & _ & _ & _ & H3 & H4 & H5 & H6 & H7 & _ & _ & _ & H8 & H9 & H10 & H11 & _ & _ & _ & _ & H15 & _). rewrite H15, H3.
  destruct H7. clear - H4 rc_s2len H11.
  unfold initialize_chains in H4. peel H4. peel H4. peel H4. peel H4. destruct (o_updatesigma (i_opts ini)).
  - peel H4. peel H4. match type of H4 with Ok (_, _, ?y, _) = _ => assert (r_s2 st0 = y) as X by congruence end.
    match type of H4 with Ok (_, _, _, ?c) = _ => assert (chains = c) as -> by congruence end.
    rewrite X in rc_s2len. destruct (m_s2chain m') eqn:Y; [reflexivity|]. rewrite <- H11 in rc_s2len. discriminate.
  - match type of H4 with Ok (_, _, ?y, _) = _ => assert (r_s2 st0 = y) as X by congruence end.
    match type of H4 with Ok (_, _, _, ?c) = _ => assert (chains = c) as -> by congruence end.
    rewrite X in rc_s2len. destruct (m_s2chain m') eqn:Y; [|reflexivity]. rewrite <- H11 in rc_s2len. discriminate.
Qed.

(** The text log of a resumed run receives the rows of the run before it once more. *)
Lemma resumed_text_log m m' m'' : run_simulation E false m = Ok m' -> run_simulation E true m' = Ok m'' ->
  distinct_files m' -> o_save_to_txt (m_opts m') = true ->
  forall f M, In (f, M) (chain_files m') ->
  txt_rows (o_savedir (m_opts m'), f, "txt"%string) (m_fs m'') = txt_rows (o_savedir (m_opts m'), f, "txt"%string) (m_fs m') ++ M.
Proof.
  intros H H' D T f M I.
  assert (OPT : o_covchainfile (m_opts m'') = o_covchainfile (m_opts m') /\ o_nsimu (m_opts m'') = o_nsimu (m_opts m') /\
                o_savedir (m_opts m'') = o_savedir (m_opts m') /\ o_save_to_txt (m_opts m'') = o_save_to_txt (m_opts m')).
  { pose proof H' as X. apply run_model in X as (ini & ms1 & st0 & st & chains & X). cbv zeta in X.
    destruct X as (_ & _ & _ & _ & X1 & _). rewrite X1. repeat split. }
  destruct OPT as (O1 & O2 & O3 & O4).
  pose proof (log_contents E true _ _ H') as L. cbv zeta in L. rewrite (fresh_chains _ _ m'' H), O1, O2, O3, O4 in L.
  destruct (L (distinct_arrays _ D)) as (_ & _ & _ & new & evs & bs & L1 & _ & _ & _ & _ & _ & _ & L2).
  destruct (L2 T) as [_ L3]. destruct (L3 _ _ I) as [L4 _]. rewrite L1. unfold txt_rows in *. rewrite map_app, concat_app, L4. f_equal.
  pose proof (log_blocks _ _ H D) as LB. cbv zeta in LB. destruct LB as (_ & HL & _). rewrite Forall_forall in HL. specialize (HL _ I). cbn in HL.
  apply firstn_all2. lia.
Qed.

Lemma restart_at_run m m' r : run_simulation E false m = Ok m' -> o_restart (m_opts m) = Some r ->
  Forall2 (restarted r) (m_params m) (m_params m').
Proof.
  intros H HR. apply run_facts in H as (ps & ini & st0 & st & ms & ch & H). cbv zeta in H.
  destruct H as (_ & _ & RP & _ & _ & _ & _ & _ & _ & _ & _ & PP & _). rewrite HR in RP. rewrite PP. now apply restart_params.
Qed.

(** The user's covariance is stored with the options. *)
Lemma stored_covariance ox mx x (r : results F) h (d : nat) f : Forall wf (option_values ox) -> wf (mx_Nshape mx) ->
  results_and_export ox mx x r = Ok (h, d, f) ->
  exists D so, nth_error h d = Some D /\ lookup "simulation_options"%string D = Some (PDict so) /\
    lookup "qcov"%string so = Some (match o_qcov (rr_opts r) with Some q => PMat q | None => PNone end).
Proof.
  intros W1 W2 H. apply results_file in H; auto. cbv zeta in H. destruct H as (D & so & sm & _ & _ & H1 & H2 & H3 & _).
  exists D, so. split; [auto|]. split; [auto|]. rewrite H3. reflexivity.
Qed.
End P.
