(** Parameters that are not sampled: the iterations of a run, and sessions. *)

From Coq Require Import ZArith QArith Bool Lia List String.
From Verif Require Import Base Num Samplers Adapt Settings Simulator SamplerFacts RunSpec RunFacts RunLift SettingsFacts ScaleSpec ScaleFacts FixedSpec FixedFacts.
Import ListNotations.
Close Scope Q_scope.
Open Scope list_scope.
Open Scope nat_scope.
Open Scope res_scope.

Section Run.
Context {F : Type} `{NF : Num F}.
Variable ps0 : list (param F).
Variable E : env F.
Notation E' := (closed_env ps0 E).
Notation pi := (flatnonzero (map (@a_sample F) ps0)).
Notation k := (List.length (sampled_params ps0)).
Hypothesis Hk : 0 < k.

(** ** Input and output *)
Record iorel (s s' : io F) : Prop := {
  ir_pos : io_pos s' = io_pos s;
  ir_len : List.length (io_value s') = k;
  ir_value : io_value s = fill ps0 (io_value s');
  ir_lens : Forall (fun t => List.length t = k) (io_calls s');
  ir_calls : io_calls s = map (fill ps0) (io_calls s')
}.
Definition vrel (V V' : pview F) : Prop :=
  v_parind V = pi /\ v_npar V = k /\ V' = mkpview k (seq 0 k) (v_lower V) (v_upper V) (v_mu V) (v_sigma V).

Lemma put_all v t : List.length v = k -> List.length t = k -> scatter (fill ps0 v) pi t = fill ps0 t.
Proof.
  intros L1 L2. rewrite <- (scatter_fill ps0 v), <- (scatter_fill ps0 t). apply scatter_twice.
  - apply flatnonzero_NoDup.
  - now rewrite parind_length.
  - now rewrite parind_length.
  - intros i Hi. rewrite map_length. now apply pos_bound.
Qed.
Lemma sos_same V V' t s s' : vrel V V' -> iorel s s' -> List.length t = k ->
  fst (evaluate_sos_function E' V' t s') = fst (evaluate_sos_function E V t s) /\
  iorel (snd (evaluate_sos_function E V t s)) (snd (evaluate_sos_function E' V' t s')).
Proof.
  intros (HP & _ & ->) [P L VA LC CA] Lt. unfold evaluate_sos_function. cbn [fst snd v_parind closed_env e_sos].
  assert (X : scatter (io_value s') (seq 0 k) t = t) by (rewrite <- L; apply scatter_all; congruence). rewrite X, HP, VA, (put_all _ _ L Lt).
  split; [reflexivity|]. constructor; cbn [io_pos io_value io_calls]; auto. cbn [map]. now rewrite CA.
Qed.
Lemma randn_same n s s' : iorel s s' -> fst (randn E' n s') = fst (randn E n s) /\ iorel (snd (randn E n s)) (snd (randn E' n s')).
Proof. intros [P L VA LC CA]. unfold randn. cbn [fst snd closed_env e_str]. rewrite P. split; [reflexivity|]. constructor; auto. Qed.
Lemma rand_same s s' : iorel s s' -> fst (rand E' s') = fst (rand E s) /\ iorel (snd (rand E s)) (snd (rand E' s')).
Proof. intros [P L VA LC CA]. unfold rand. cbn [fst snd closed_env e_str]. rewrite P. split; [reflexivity|]. constructor; cbn [io_pos io_value io_calls]; auto. Qed.

Definition with_io {A} (x y : A * io F) : Prop := fst y = fst x /\ iorel (snd x) (snd y).
Lemma candidate_same n old R s s' : iorel s s' ->
  outcomes (fun x y => with_io x y /\ List.length (fst (fst x)) = n) (sample_candidate E n old R s) (sample_candidate E' n old R s').
Proof.
  intros H. pose proof (sample_candidate_facts E n old R s) as SF. unfold sample_candidate in *. destruct (is_square n R && (List.length old =? n)); [|reflexivity].
  destruct (randn_same n s s' H) as [A B]. destruct (randn E n s) as [z s1], (randn E' n s') as [z' s1']. cbn [fst snd] in A, B. subst z'. cbn [outcomes].
  split; [split; [reflexivity|exact B]|]. cbn [fst]. destruct (SF _ _ _ eq_refl) as (_ & _ & L1 & L2 & _). congruence.
Qed.
Lemma metropolis_same V V' R old s s' : vrel V V' -> iorel s s' ->
  outcomes with_io (run_metropolis_step E V R old s) (run_metropolis_step E' V' R old s').
Proof.
  intros HV H. pose proof HV as (HP & HN & HV'). unfold run_metropolis_step. replace (v_npar V') with (v_npar V) by (rewrite HV'; cbn; congruence).
  eapply out_bind; [apply candidate_same; exact H|]. intros [[t z] s1] [[t' z'] s1'] [[A B] L]. cbn [fst snd] in A, B, L. injection A as -> ->. rewrite HN in L.
  replace (v_lower V') with (v_lower V) by (rewrite HV'; reflexivity). replace (v_upper V') with (v_upper V) by (rewrite HV'; reflexivity).
  destruct (is_sample_outside_bounds _ _ _); [cbn; now split|].
  replace (evaluate_prior E' V' t) with (evaluate_prior E V t) by (rewrite HV'; reflexivity).
  destruct (sos_same V V' t s1 s1' HV B L) as [C D]. destruct (evaluate_sos_function E V t s1) as [ss s2], (evaluate_sos_function E' V' t s1') as [ss' s2']. cbn [fst snd] in C, D. subst ss'.
  apply out_same. intros l1 _. apply out_same. intros l2 _. unfold log_posterior_ratio_acceptance_test.
  destruct (rand_same s2 s2' D) as [X Y]. destruct (rand E s2) as [u s3], (rand E' s2') as [u' s3']. cbn [fst snd] in X, Y. subst u'. cbn. now split.
Qed.
Lemma dr_same V V' RDR invR old new n : vrel V V' -> forall itry path iacce cur s s', iorel s s' ->
  outcomes with_io (dr_loop E V RDR invR old new n itry path iacce cur s) (dr_loop E' V' RDR invR old new n itry path iacce cur s').
Proof.
  intros HV. pose proof HV as (HP & HN & HV'). induction n as [|n IH]; intros itry path iacce cur s s' H; cbn [dr_loop]; [destruct cur as [[a b] c]; cbn; now split|].
  apply out_same. intros P _. replace (v_npar V') with (v_npar V) by (rewrite HV'; cbn; congruence).
  eapply out_bind; [apply candidate_same; exact H|]. intros [[t z] s1] [[t' z'] s1'] [[A B] L]. cbn [fst snd] in A, B, L. injection A as -> ->. rewrite HN in L.
  replace (v_lower V') with (v_lower V) by (rewrite HV'; reflexivity). replace (v_upper V') with (v_upper V) by (rewrite HV'; reflexivity).
  destruct (is_sample_outside_bounds _ _ _); [now apply IH|].
  replace (evaluate_prior E' V' t) with (evaluate_prior E V t) by (rewrite HV'; reflexivity).
  destruct (sos_same V V' t s1 s1' HV B L) as [C D]. destruct (evaluate_sos_function E V t s1) as [ss s2], (evaluate_sos_function E' V' t s1') as [ss' s2']. cbn [fst snd] in C, D. subst ss'.
  apply out_same. intros alpha _. unfold posterior_ratio_acceptance_test.
  destruct (rand_same s2 s2' D) as [X Y]. destruct (rand E s2) as [u s3], (rand E' s2') as [u' s3']. cbn [fst snd] in X, Y. subst u'.
  destruct (nle n1 alpha).
  - apply out_same. intros cnt _. cbn. now split.
  - apply out_same. intros cnt _. destruct (nlt u alpha); [cbn; now split|]. now apply IH.
Qed.

(** ** The error variance *)
Lemma draw_same f : forall c s s', iorel s s' -> outcomes with_io (draw_v E f c s) (draw_v E' f c s').
Proof.
  induction f as [|f IH]; intros c s s' H; cbn [draw_v]; [reflexivity|]. destruct (randn_same 1 s s' H) as [A B].
  destruct (randn E 1 s) as [z s1], (randn E' 1 s') as [z' s1']. cbn [fst snd] in A, B. subst z'. destruct (nlt n0 _); [cbn; now split|]. now apply IH.
Qed.
Lemma gamma_same f : forall c g s s', iorel s s' -> outcomes with_io (gamma_mt_loop E f c g s) (gamma_mt_loop E' f c g s').
Proof.
  induction f as [|f IH]; intros c g s s' H; cbn [gamma_mt_loop]; [reflexivity|]. eapply out_bind; [apply draw_same; exact H|].
  intros [[x v] s1] [[x' v'] s1'] [A B]. cbn [fst snd] in A, B. injection A as -> ->. destruct (rand_same s1 s1' B) as [X Y].
  destruct (rand E s1) as [u s2], (rand E' s1') as [u' s2']. cbn [fst snd] in X, Y. subst u'. destruct (nlt _ _); [cbn; now split|]. destruct (nlt _ _); [cbn; now split|]. now apply IH.
Qed.
Lemma ge1_same a b s s' : iorel s s' -> outcomes with_io (gammar_ge1 E a b s) (gammar_ge1 E' a b s').
Proof.
  intros H. unfold gammar_ge1. change (e_fuel E') with (e_fuel E). eapply out_bind; [apply gamma_same; exact H|].
  intros [v s1] [v' s1'] [A B]. cbn [fst snd] in A, B. subst v'. cbn. now split.
Qed.
Lemma sigma2_same a1 a2 a3 a4 s s' : iorel s s' -> outcomes with_io (draw_sigma2 E a1 a2 a3 a4 s) (draw_sigma2 E' a1 a2 a3 a4 s').
Proof.
  intros H. unfold draw_sigma2, gammar. eapply out_bind with (R := with_io).
  - destruct (nle _ _); [cbn; now split|]. unfold gammar_mt1. destruct (nlt _ _); [|now apply ge1_same].
    eapply out_bind; [apply ge1_same; exact H|]. intros [v s1] [v' s1'] [A B]. cbn [fst snd] in A, B. subst v'.
    destruct (rand_same s1 s1' B) as [X Y]. destruct (rand E s1) as [u s2], (rand E' s1') as [u' s2']. cbn [fst snd] in X, Y. subst u'. cbn. now split.
  - intros [v s1] [v' s1'] [A B]. cbn [fst snd] in A, B. subst v'. cbn. now split.
Qed.
Lemma variance_same alias N0 N sos : forall n jj s2 s0 s s', iorel s s' ->
  outcomes with_io (update_error_variance E alias N0 N sos jj n s2 s0 s) (update_error_variance E' alias N0 N sos jj n s2 s0 s').
Proof.
  induction n as [|n IH]; intros jj s2 s0 s s' H; cbn [update_error_variance]; [cbn; now split|]. do 4 (apply out_same; intros ? _).
  eapply out_bind; [apply sigma2_same; exact H|]. intros [v s1] [v' s1'] [A B]. cbn [fst snd] in A, B. subst v'. apply out_same. intros w _. now apply IH.
Qed.

(** ** The loop *)
Definition srel (s s' : rstate F) : Prop :=
  iorel (r_io s) (r_io s') /\
  s' = mkst (r_index s) (r_iiadapt s) (r_savecount s) (r_lastbin s) (r_old s) (r_rej s) (r_rejin s) (r_rejout s) (r_chain s) (r_ss s) (r_s2 s) (r_cov s)
            (r_sigma2 s) (r_S20 s) (r_iacce s) (r_io s') (r_fs s) (r_trace s).
Definition krel (K K' : rconst F) : Prop :=
  vrel (k_view K) (k_view K') /\ options_kept ps0 (k_opts K) (k_opts K') /\
  K' = mkrc (k_opts K') (k_view K') (k_nsos K) (k_N0 K) (k_N K) (k_alias K) (k_chains K).
Ltac fields := cbn [r_index r_iiadapt r_savecount r_lastbin r_rej r_rejin r_rejout r_chain r_cov r_iacce r_io r_trace r_old r_ss r_s2 r_sigma2 r_S20 r_fs
  k_opts k_view k_nsos k_N0 k_N k_alias k_chains].
Ltac options := cbn [with_covariance o_nsimu o_method o_adaptint o_ntry o_dodram o_doram o_adascale o_printint o_lastadapt o_burnintime o_initqcovn o_updatesigma
  o_qcov_adjust o_burnin_scale o_alphatarget o_etaparam o_drscale o_RDR o_savesize o_chainfile o_sschainfile o_s2chainfile o_covchainfile o_savedir
  o_save_to_bin o_save_to_txt o_save_to_json o_save_lightly o_results_filename o_restart].

Lemma sample_same K K' s s' : krel K K' -> srel s s' -> outcomes with_io (sample_step E K s) (sample_step E' K' s').
Proof.
  intros (HV & (_ & _ & HO) & HK) [HI HS]. unfold sample_step. rewrite HS, HK. fields.
  eapply out_bind; [apply metropolis_same; [exact HV|exact HI]|]. intros [[[[acc new] outb] z] s1] [[[[acc' new'] outb'] z'] s1'] [A B]. cbn [fst snd] in A, B. injection A as -> -> -> ->.
  replace (o_ntry (k_opts K')) with (o_ntry (k_opts K)) by (rewrite HO; reflexivity).
  destruct ((1 <? o_ntry (k_opts K)) && negb acc); [|cbn; now split].
  eapply out_bind with (R := with_io).
  - unfold delayed_rejection_call. fields. destruct (c_RDR (r_cov s)) as [| |l]; try reflexivity. unfold run_delayed_rejection.
    replace (o_ntry (k_opts K')) with (o_ntry (k_opts K)) by (rewrite HO; reflexivity). now apply dr_same.
  - intros [[[[[a1 o1] b1] i1] p1] t1] [[[[[a2 o2] b2] i2] p2] t2] [C D]. cbn [fst snd] in C, D. injection C as -> -> -> -> ->. cbn. now split.
Qed.
Lemma update_same K K' s s' x y : krel K K' -> srel s s' -> with_io x y -> outcomes srel (update_chain K s x) (update_chain K' s' y).
Proof.
  intros (HV & _ & HK) [HI HS] [A B]. destruct x as [[[[[st new] outb] z] ia] t], y as [[[[[st' new'] outb'] z'] ia'] t']. cbn [fst snd] in A, B. injection A as -> -> -> -> ->.
  unfold update_chain. rewrite HS, HK. fields. replace (v_npar (k_view K')) with (v_npar (k_view K)) by (destruct HV as (_ & X & ->); exact X).
  do 4 (apply out_same; intros ? _). cbn [outcomes]. unfold srel. fields. split; [exact B|]. now rewrite (ir_pos _ _ HI).
Qed.
Lemma adapt_same K K' i u al s s' : krel K K' -> srel s s' -> outcomes srel (adapt_step E K i u al s) (adapt_step E' K' i u al s').
Proof.
  intros (HV & (_ & _ & HO) & HK) [HI HS]. unfold adapt_step. rewrite HS, HK. fields. replace (v_npar (k_view K')) with (v_npar (k_view K)) by (destruct HV as (_ & X & ->); exact X).
  replace (o_adaptint (k_opts K')) with (o_adaptint (k_opts K)) by (rewrite HO; reflexivity).
  replace (ado_of (k_opts K')) with (ado_of (k_opts K)) by (rewrite HO; reflexivity). change (run_adaptation E') with (run_adaptation E).
  destruct (_ && _)%bool; [|cbn; split; [exact HI|reflexivity]]. apply out_same. intros c _. cbn [outcomes]. unfold srel. fields. now split.
Qed.
Lemma sigma_same K K' s s' : krel K K' -> srel s s' -> outcomes srel (sigma_step E K s) (sigma_step E' K' s').
Proof.
  intros (HV & (_ & _ & HO) & HK) [HI HS]. unfold sigma_step. rewrite HS, HK. fields. replace (o_updatesigma (k_opts K')) with (o_updatesigma (k_opts K)) by (rewrite HO; reflexivity).
  destruct (o_updatesigma (k_opts K)); [|cbn; split; [exact HI|reflexivity]].
  eapply out_bind; [apply variance_same; exact HI|]. intros [[x y] t] [[x' y'] t'] [A B]. cbn [fst snd] in A, B. injection A as -> ->.
  do 3 (apply out_same; intros ? _). cbn [outcomes]. unfold srel. fields. now split.
Qed.
Lemma save_opts o q c a b l : save_to_log_file (with_covariance o q) c a b l = save_to_log_file (F := F) o c a b l.
Proof. reflexivity. Qed.
Lemma cov_opts o q c a b l : save_covmtx (with_covariance o q) c a b l = save_covmtx (F := F) o c a b l.
Proof. reflexivity. Qed.
Lemma save_same K K' i s s' : krel K K' -> srel s s' -> outcomes srel (save_step K i s) (save_step K' i s').
Proof.
  intros (HV & (_ & _ & HO) & HK) [HI HS]. unfold save_step, logged, proposal_cov. rewrite HS, HK. fields.
  replace (o_savesize (k_opts K')) with (o_savesize (k_opts K)) by (rewrite HO; reflexivity).
  destruct (_ =? _)%Z; [|cbn; split; [exact HI|reflexivity]]. rewrite HO.
  change (map (fun e => (fst e, resolve (mkst (r_index s) (r_iiadapt s) (r_savecount s) (r_lastbin s) (r_old s) (r_rej s) (r_rejin s) (r_rejout s) (r_chain s) (r_ss s) (r_s2 s) (r_cov s)
            (r_sigma2 s) (r_S20 s) (r_iacce s) (r_io s') (r_fs s) (r_trace s)) (snd e))) (k_chains K)) with (map (fun e => (fst e, resolve s (snd e))) (k_chains K)).
  rewrite save_opts. apply out_same. intros l _. rewrite cov_opts. apply out_same. intros l2 _. cbn [outcomes]. unfold srel. fields. now split.
Qed.
Lemma step_same K K' i s s' : krel K K' -> srel s s' -> outcomes srel (step E K i s) (step E' K' i s').
Proof.
  intros HK H. unfold step. eapply out_bind; [apply sample_same; [exact HK|exact H]|]. intros x y Hxy.
  destruct x as [[[[[st new] outb] z] ia] t], y as [[[[[st' new'] outb'] z'] ia'] t']. pose proof Hxy as [A _]. cbn [fst] in A. injection A as -> -> -> -> ->.
  eapply out_bind; [apply update_same; [exact HK|exact H|exact Hxy]|]. intros s1 s1' H1.
  eapply out_bind; [apply adapt_same; [exact HK|exact H1]|]. intros s2 s2' H2.
  eapply out_bind; [apply sigma_same; [exact HK|exact H2]|]. intros s3 s3' H3. now apply save_same.
Qed.
Lemma iterate_same K K' l : krel K K' -> forall s s', srel s s' -> outcomes srel (iterate E K l s) (iterate E' K' l s').
Proof.
  intros HK. induction l as [|i l IH]; intros s s' H; cbn [iterate]; [exact H|]. eapply out_bind; [apply step_same; [exact HK|exact H]|]. intros u v Huv. now apply IH.
Qed.
Lemma execute_same K K' s s' : krel K K' -> srel s s' -> outcomes srel (execute E K s) (execute E' K' s').
Proof.
  intros HK H. unfold execute. replace (o_nsimu (k_opts K')) with (o_nsimu (k_opts K)) by (destruct HK as (_ & (_ & _ & ->) & _); reflexivity).
  eapply out_bind; [apply iterate_same; [exact HK|exact H]|]. intros t t' [HI HS]. destruct (_ <=? 1); [reflexivity|]. destruct HK as (HV & (_ & _ & HO) & HK).
  unfold logged, proposal_cov. rewrite HS, HK. fields. rewrite HO.
  change (map (fun e => (fst e, resolve (mkst (r_index t) (r_iiadapt t) (r_savecount t) (r_lastbin t) (r_old t) (r_rej t) (r_rejin t) (r_rejout t) (r_chain t) (r_ss t) (r_s2 t) (r_cov t)
            (r_sigma2 t) (r_S20 t) (r_iacce t) (r_io t') (r_fs t) (r_trace t)) (snd e))) (k_chains K)) with (map (fun e => (fst e, resolve t (snd e))) (k_chains K)).
  rewrite save_opts. apply out_same. intros l _. rewrite cov_opts. apply out_same. intros l2 _. cbn [outcomes]. unfold srel. fields. now split.
Qed.
End Run.
