(** C99: with one try, the method is only a name. *)

From Coq Require Import ZArith QArith Bool Lia List String.
From Verif Require Import Base Num Samplers Adapt Settings Simulator RunSpec ScaleSpec SwitchSpec SwitchFacts Demo.
Import ListNotations.
Close Scope Q_scope.
Open Scope list_scope.
Open Scope nat_scope.

(** Two sessions with the same actions, whose options differ only in the method and in what concerns further tries. *)
Theorem C99_one_try :
  forall (F : Type) (NF : Num F) (E : env F) ps d ms o o' pos l acs acs', same_switches o o' -> Forall2 same_action acs acs' ->
  unless_singular E same_but_name (acts E acs (new_mcmc ps d ms o pos l)) (acts E acs' (new_mcmc ps d ms o' pos l)).
Proof.
  intros F NF E ps d ms o o' pos l acs acs' HO HA. apply acts_same; [exact HA|]. constructor; cbn; auto.
Qed.
Print Assumptions C99_one_try.

(** If the one that prepares further tries ends normally, so does the other. *)
Theorem C99_ends_normally :
  forall (F : Type) (NF : Num F) (E : env F) ps d ms o o' pos l acs acs' m', same_switches o o' -> Forall2 same_action acs acs' ->
  acts E acs' (new_mcmc ps d ms o' pos l) = Ok m' ->
  exists m, acts E acs (new_mcmc ps d ms o pos l) = Ok m /\ same_but_name m m'.
Proof.
  intros F NF E ps d ms o o' pos l acs acs' m' HO HA H. pose proof (C99_one_try F NF E ps d ms o o' pos l acs acs' HO HA) as X. rewrite H in X.
  destruct (acts E acs _) as [m|]; [|contradiction]. eauto.
Qed.
Print Assumptions C99_ends_normally.

(** If the library returns an inverse whenever it is asked, the outcomes are the same, failures included. *)
Theorem C99_with_inverses :
  forall (F : Type) (NF : Num F) (E : env F) ps d ms o o' pos l acs acs', same_switches o o' -> Forall2 same_action acs acs' ->
  (forall A, e_inv E A <> None) ->
  outcomes same_but_name (acts E acs (new_mcmc ps d ms o pos l)) (acts E acs' (new_mcmc ps d ms o' pos l)).
Proof.
  intros F NF E ps d ms o o' pos l acs acs' HO HA HI. pose proof (C99_one_try F NF E ps d ms o o' pos l acs acs' HO HA) as X.
  destruct (acts E acs _) as [m|e], (acts E acs' _) as [m'|e']; cbn in *; auto; destruct X as [X|[_ [A X]]] || destruct X as [_ [A X]]; try (now destruct (HI A)); auto.
Qed.
Print Assumptions C99_with_inverses.

(** The arguments of the user with another method, number of tries and scales. *)
Definition asked {F : Type} (m : method) (ntry : option nat) (drscale : list F) (w : rawopts F) : rawopts F :=
  mkraw (w_nsimu w) m (w_adaptint w) ntry (w_doram w) (w_adascale w) (w_printint w) (w_lastadapt w) (w_burnintime w) (w_qcov w) (w_initqcovn w)
    (w_updatesigma w) (w_qcov_adjust w) (w_burnin_scale w) (w_alphatarget w) (w_etaparam w) drscale (w_RDR w) (w_savesize w) (w_chainfile w) (w_sschainfile w)
    (w_s2chainfile w) (w_covchainfile w) (w_savedir w) (w_save_to_bin w) (w_save_to_txt w) (w_save_to_json w) (w_save_lightly w) (w_results_filename w) (w_restart w).

(** Which methods these are: am and dram with one try, mh and dr with one try, and all four if the adaptation interval is 0. *)
Theorem C99_methods :
  forall (F : Type) (NF : Num F) (w : rawopts F) date m m' t drscale drscale',
  (m, m') = (AM, DRAM) \/ (m, m') = (MH, DR) \/ (w_adaptint w = Some 0%Z /\ ((m, m') = (MH, AM) \/ (m, m') = (AM, MH) \/ (m, m') = (MH, DRAM) \/ (m, m') = (AM, DR) \/ (m, m') = (DR, DRAM) \/ (m, m') = (DRAM, DR))) ->
  t = Some 1 \/ t = None /\ ~ with_tries m -> w_RDR w = None ->
  same_switches (define_simulation_options (asked m t drscale w) date) (define_simulation_options (asked m' (Some 1) drscale' w) date).
Proof.
  intros F NF w date m m' t ds ds' Hm Ht HR. unfold same_switches.
  assert (T : match t with None => method_ntry m | Some n => n end = 1).
  { destruct Ht as [->|[-> Ht]]; [reflexivity|]. destruct m; try reflexivity; exfalso; apply Ht; unfold with_tries; auto. }
  unfold define_simulation_options, named, asked. cbn [w_nsimu w_method w_adaptint w_ntry w_doram w_adascale w_printint w_lastadapt w_burnintime w_qcov w_initqcovn w_updatesigma w_qcov_adjust w_burnin_scale w_alphatarget w_etaparam w_drscale w_RDR w_savesize w_chainfile w_sschainfile w_s2chainfile w_covchainfile w_savedir w_save_to_bin w_save_to_txt w_save_to_json w_save_lightly w_results_filename w_restart o_nsimu o_method o_adaptint o_ntry o_dodram o_doram o_adascale o_printint o_lastadapt o_burnintime o_qcov o_initqcovn o_updatesigma o_qcov_adjust o_burnin_scale o_alphatarget o_etaparam o_drscale o_RDR o_savesize o_chainfile o_sschainfile o_s2chainfile o_covchainfile o_savedir o_save_to_bin o_save_to_txt o_save_to_json o_save_lightly o_results_filename o_restart].
  rewrite T. unfold with_tries.
  destruct Hm as [Hm|[Hm|[HA [Hm|[Hm|[Hm|[Hm|[Hm|Hm]]]]]]]]; inversion Hm; subst; rewrite ?HA; cbn;
    (split; [destruct (w_adaptint w); reflexivity|split; [lia|split; [exact HR|intuition discriminate]]]).
Qed.
Print Assumptions C99_methods.

(** The demonstration with the adaptation interval 4, one try and scales that are never used: a run with am and one with dram, both continued. *)
Definition raw99 : rawopts XQ := demo_raw true false true 6 AM.
Definition am99 : simopts XQ := define_simulation_options (asked AM None (w_drscale raw99) raw99) "20260101_000000".
Definition dram99 : simopts XQ := define_simulation_options (asked DRAM (Some 1) [Fin 2%Q] raw99) "20260101_000000".
Definition start99 (o : simopts XQ) : mcmc XQ := new_mcmc demo_params demo_data demo_model o 0 [].
Definition acs99 : list (action XQ) := [Run false; Run true].
Definition end99 (o : simopts XQ) : mcmc XQ := match acts demo_env acs99 (start99 o) with Ok m => m | Err _ => start99 o end.
Definition ended_am : mcmc XQ := Eval vm_compute in end99 am99.
Definition ended_dram : mcmc XQ := Eval vm_compute in end99 dram99.

Example C99_case :
  same_switches am99 dram99 /\ Forall2 same_action acs99 acs99 /\
  acts demo_env acs99 (start99 am99) = Ok ended_am /\ acts demo_env acs99 (start99 dram99) = Ok ended_dram /\
  o_method am99 <> o_method dram99 /\ map (fun e => c_RDR (ev_cov e)) (m_trace ended_am) <> map (fun e => c_RDR (ev_cov e)) (m_trace ended_dram) /\
  map (fun e => c_last (ev_cov e)) (m_trace ended_am) = [4; 0; 0; 0; 0; 4; 0; 0; 0; 0].
Proof.
  split; [apply C99_methods; [now left|right; split; [reflexivity|intros [X|X]; discriminate X]|reflexivity]|].
  split; [repeat constructor|].
  split; [vm_compute; reflexivity|]. split; [vm_compute; reflexivity|].
  split; [discriminate|]. split; [vm_compute; discriminate|]. vm_compute; reflexivity.
Qed.
