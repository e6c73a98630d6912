(** C100: settings of the adaptation that are not in use have no influence. *)

From Coq Require Import ZArith QArith Bool Lia List String.
From Verif Require Import Base Num Samplers Adapt Settings Simulator RunSpec ScaleSpec SwitchSpec SwitchFacts IdleSpec IdleFacts Demo Prop_Switch.
Import ListNotations.
Close Scope Q_scope.
Open Scope list_scope.
Open Scope nat_scope.

(** Two sessions with the same actions, whose options differ only in settings that are not in use: the outcomes are the same, failures included. *)
Theorem C100_idle :
  forall (F : Type) (NF : Num F) (E : env F) ps d ms o o' pos l acs acs', idle o o' -> Forall2 idle_action acs acs' ->
  outcomes same_but_idle (acts E acs (new_mcmc ps d ms o pos l)) (acts E acs' (new_mcmc ps d ms o' pos l)).
Proof.
  intros F NF E ps d ms o o' pos l acs acs' HO HA. apply acts_idle; [exact HA|]. constructor; cbn; auto.
Qed.
Print Assumptions C100_idle.

(** The arguments of the user with other settings of the adaptation. *)
Definition adapting {F : Type} (last burn : Z) (scale adj target eta : F) (w : rawopts F) : rawopts F :=
  mkraw (w_nsimu w) (w_method w) (w_adaptint w) (w_ntry w) (w_doram w) (w_adascale w) (w_printint w) last burn (w_qcov w) (w_initqcovn w)
    (w_updatesigma w) adj scale target eta (w_drscale w) (w_RDR w) (w_savesize w) (w_chainfile w) (w_sschainfile w)
    (w_s2chainfile w) (w_covchainfile w) (w_savedir w) (w_save_to_bin w) (w_save_to_txt w) (w_save_to_json w) (w_save_lightly w) (w_results_filename w) (w_restart w).

(** An interval that no run reaches: am is mh and dram is dr, for any number of tries, and no other setting of the adaptation matters. *)
Theorem C100_short_runs :
  forall (F : Type) (NF : Num F) (w : rawopts F) date m m' t last burn (scale adj target eta : F),
  (m, m') = (AM, MH) \/ (m, m') = (DRAM, DR) ->
  (Z.of_nat (w_nsimu w) <= match w_adaptint w with Some a => a | None => 100 end)%Z ->
  idle (define_simulation_options (asked m (Some t) (w_drscale w) w) date)
       (define_simulation_options (adapting last burn scale adj target eta (asked m' (Some t) (w_drscale w) w)) date).
Proof.
  intros F NF w date m m' t last burn scale adj target eta Hm HI. unfold idle, never_adapts, with_tries.
  destruct Hm as [Hm|Hm]; inversion Hm; subst; cbn; (split; [reflexivity|]); (split; [intuition discriminate|]); left;
    destruct (w_adaptint w); cbn in *; lia.
Qed.
Print Assumptions C100_short_runs.

(** In any run: the last adaptation has no effect; the scale of the burn-in has none if the burn-in is not longer than the interval;
    target and exponent have none unless the adaptation is robust. *)
Theorem C100_adapting :
  forall (F : Type) (NF : Num F) (w : rawopts F) date last (scale target eta : F),
  scale = w_burnin_scale w \/ (w_method w <> MH /\ w_method w <> DR /\ exists a, w_adaptint w = Some a /\ (w_burnintime w <= a)%Z) ->
  (target = w_alphatarget w /\ eta = w_etaparam w) \/ w_doram w = Some false \/ (w_doram w = None /\ w_method w <> RAM) ->
  idle (define_simulation_options w date) (define_simulation_options (adapting last (w_burnintime w) scale (w_qcov_adjust w) target eta w) date).
Proof.
  intros F NF w date last scale target eta HS HT. unfold idle, same_adaptation. cbn. split; [reflexivity|]. split; [tauto|]. right.
  repeat (split; [reflexivity|]). split.
  - destruct HS as [->|(H1 & H2 & a & -> & Ha)]; [now left|]. right. destruct (w_method w); congruence || exact Ha.
  - destruct HT as [[-> ->]|[->|[-> H]]]; [now left|now right|]. right. destruct (w_method w); congruence || reflexivity.
Qed.
Print Assumptions C100_adapting.

(** The demonstration with am and the interval 4, once with a last adaptation before it and other numbers for burn-in and robust adaptation;
    then a continued run that is too short for an adaptation, once with am and once with mh. *)
Definition one100 : simopts XQ := define_simulation_options raw99 "20260101_000000".
Definition other100 : simopts XQ :=
  define_simulation_options (adapting 2%Z (w_burnintime raw99) (Fin 3%Q) (w_qcov_adjust raw99) (Fin (1 # 2)%Q) (Fin 1%Q) raw99) "20260101_000000".
Definition raw100 : rawopts XQ := demo_raw true false true 3 AM.
Definition short100 : simopts XQ := define_simulation_options (asked AM (Some 1) (w_drscale raw100) raw100) "20260101_000000".
Definition plain100 : simopts XQ :=
  define_simulation_options (adapting 1%Z 7%Z (Fin 3%Q) (Fin 1%Q) (Fin (1 # 2)%Q) (Fin 1%Q) (asked MH (Some 1) (w_drscale raw100) raw100)) "20260101_000000".
Definition acs100 (o : simopts XQ) : list (action XQ) := [Run false; SetOptions o; Run true].
Definition end100 (o p : simopts XQ) : mcmc XQ := match acts demo_env (acs100 p) (start99 o) with Ok m => m | Err _ => start99 o end.
Definition ended_one : mcmc XQ := Eval vm_compute in end100 one100 short100.
Definition ended_other : mcmc XQ := Eval vm_compute in end100 other100 plain100.

Example C100_case :
  idle one100 other100 /\ Forall2 idle_action (acs100 short100) (acs100 plain100) /\
  acts demo_env (acs100 short100) (start99 one100) = Ok ended_one /\ acts demo_env (acs100 plain100) (start99 other100) = Ok ended_other /\
  o_lastadapt one100 <> o_lastadapt other100 /\ o_method short100 <> o_method plain100 /\
  map (fun e => c_last (ev_cov e)) (m_trace ended_one) = [0; 0; 4; 0; 0; 0; 0].
Proof.
  split; [apply C100_adapting; [right; repeat split; try discriminate; exists 4%Z; split; [reflexivity|discriminate]|right; right; split; [reflexivity|discriminate]]|].
  split; [constructor; [reflexivity|]; constructor; [apply C100_short_runs; [now left|discriminate]|]; constructor; [reflexivity|constructor]|].
  split; [vm_compute; reflexivity|]. split; [vm_compute; reflexivity|].
  split; [discriminate|]. split; [discriminate|]. vm_compute; reflexivity.
Qed.
