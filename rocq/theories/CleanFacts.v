(** Runs that cannot end in an AttributeError or a TypeError. *)

From Coq Require Import ZArith QArith Bool Lia List String.
From Verif Require Import Base Num Samplers Adapt Settings Simulator SamplerFacts RunSpec RunFacts RunLift NaNRun AdaptRun.
Import ListNotations.
Open Scope list_scope.
Open Scope nat_scope.
Open Scope res_scope.

(** An outcome that is not an internal attribute or type error. *)
Definition sound {A} (r : res A) : Prop := r <> Err AttributeError /\ r <> Err TypeError.

Lemma sound_ok {A} (a : A) : sound (Ok a).
Proof. split; discriminate. Qed.
Lemma sound_err {A} e : e <> AttributeError -> e <> TypeError -> sound (@Err A e).
Proof. intros H1 H2. split; congruence. Qed.
Lemma sound_bind {A B} (m : res A) (k : A -> res B) : sound m -> (forall a, m = Ok a -> sound (k a)) -> sound (bind m k).
Proof. destruct m; simpl; intros H1 H2; auto. destruct H1. apply sound_err; congruence. Qed.
Lemma sound_option {A} e (o : option A) : e <> AttributeError -> e <> TypeError -> sound (of_option e o).
Proof. destruct o; simpl; intros; [apply sound_ok|apply sound_err; auto]. Qed.
Lemma sound_write {A} i (v : A) l : sound (write i v l).
Proof. unfold write. destruct (_ <? _); [apply sound_ok|apply sound_err; discriminate]. Qed.

Ltac snd1 :=
  match goal with
  | |- sound (Ok _) => apply sound_ok
  | |- sound (Err _) => apply sound_err; discriminate
  | |- sound (bind _ _) => apply sound_bind; [|intros]
  | |- sound (of_option _ _) => apply sound_option; discriminate
  | |- sound (write _ _ _) => apply sound_write
  | |- sound (let '(_, _) := ?x in _) => destruct x
  | |- sound (if ?x then _ else _) => destruct x eqn:?
  | |- sound (match ?x with _ => _ end) => destruct x eqn:?
  end.
Ltac snd := repeat snd1.

Section Clean.
Context {F : Type} `{NF : Num F}.
Variable E : env F.

Lemma sound_fit n (x : list F) : sound (fit_row n x).
Proof. unfold fit_row. snd. Qed.
Lemma fit_length n (x row : list F) : fit_row n x = Ok row -> List.length row = n.
Proof.
  unfold fit_row. destruct (Nat.eqb_spec (List.length x) n); [intros H; inv H; auto|].
  destruct x as [|a [|b t]]; intros H; inv H. apply repeat_length.
Qed.
Lemma sound_loglik (a b : list F) : sound (loglik a b).
Proof.
  unfold loglik. apply sound_bind; [|intros; apply sound_ok].
  unfold bcast2. snd.
Qed.
Lemma sound_sample n x (R : mat) s : sound (sample_candidate E n x R s).
Proof. unfold sample_candidate. snd. Qed.

Lemma sound_metropolis V R old s : sound (run_metropolis_step E V R old s).
Proof.
  unfold run_metropolis_step. apply sound_bind; [apply sound_sample|]. intros [[newpar z] s1] _.
  snd; apply sound_loglik.
Qed.
Lemma metropolis_alpha V R old s acc new outb z s1 :
  run_metropolis_step E V R old s = Ok (acc, new, outb, z, s1) -> p_alpha new <> None.
Proof.
  unfold run_metropolis_step. intros H. peel H. destruct a as [[newpar z'] s']. destruct (is_sample_outside_bounds _ _ _).
  - inv H. discriminate.
  - destruct (evaluate_sos_function _ _ _ _). peel H. peel H. destruct (log_posterior_ratio_acceptance_test _ _ _). inv H. discriminate.
Qed.

Lemma sound_exponent path invR : sound (alpha_exponent path invR).
Proof.
  unfold alpha_exponent. apply sound_bind; [snd|]. intros. apply sound_bind; [snd|]. intros.
  apply sound_bind; [apply sound_loglik|]. intros. apply sound_bind; [apply sound_loglik|]. intros.
  match goal with |- sound (fold_left ?f ?l ?i) => assert (H3 : sound i) by apply sound_ok; revert H3; generalize i end.
  generalize (range (List.length path - 1)). intros l. induction l as [|kk t IH]; intros i Hi; simpl; auto.
  apply IH. apply sound_bind; auto. intros. unfold nth_stage_log_proposal_ratio, extract_state_elements. snd.
Qed.
Lemma sound_alpha fuel invR : forall path, sound (alphafun fuel invR path).
Proof.
  induction fuel as [|f IH]; intros path; cbn [alphafun]; [snd|]. apply sound_bind.
  - generalize (range (List.length path - 1 - 1)). intros l. generalize (@n1 F _) at 1. generalize (@n1 F _).
    induction l as [|kk t IHl]; intros a2 a1; cbn [alpha_loop]; [snd|].
    apply sound_bind; [apply IH|]. intros. apply sound_bind; [apply IH|]. intros. destruct (neq _ _); [snd|apply IHl].
  - intros [[a1 a2]|] _; [|snd]. apply sound_bind; [apply sound_exponent|]. intros. snd.
Qed.
Lemma sound_dr V RDR invR old new n : forall itry path iacce cur s, sound (dr_loop E V RDR invR old new n itry path iacce cur s).
Proof.
  induction n as [|n IH]; intros itry path iacce [[a o] b] s; simpl; [snd|].
  apply sound_bind; [snd|]. intros. apply sound_bind; [apply sound_sample|]. intros [[th z] s1] _.
  destruct (is_sample_outside_bounds _ _ _); [apply IH|].
  apply sound_bind; [apply sound_alpha|]. intros.
  destruct (posterior_ratio_acceptance_test _ _ _). apply sound_bind; [snd|]. intros.
  destruct b0; [snd|apply IH].
Qed.

Lemma sound_drfac drscale n : forall ii (P iP : mat), sound (dr_factors (F:=F) drscale n ii P iP).
Proof.
  induction n as [|n IH]; intros; simpl; [snd|]. apply sound_bind; [unfold drscale_at; snd|]. intros.
  apply sound_bind; [apply IH|]. intros [t1 t2] _. snd.
Qed.
Lemma sound_upd_dr R ntry drscale : sound (update_delayed_rejection E R ntry drscale).
Proof.
  unfold update_delayed_rejection. destruct (_ <? _); [|snd]. apply sound_bind; [snd|]. intros.
  apply sound_bind; [apply sound_drfac|]. intros [t1 t2] _. snd.
Qed.
Lemma upd_dr_some R ntry drscale d : 1 < ntry -> update_delayed_rejection E R ntry drscale = Ok d -> d <> None.
Proof.
  unfold update_delayed_rejection. intros H. apply Nat.ltb_lt in H. rewrite H. intros H'. peel H'. peel H'. destruct a0. inv H'. discriminate.
Qed.

(** ** One adaptation *)
Lemma update_some x w old : x <> [] -> ncols x <> 0 -> update_covariance_mean_sum (F:=F) x w old <> None.
Proof.
  intros H1 H2. unfold update_covariance_mean_sum. destruct x as [|a t]; [congruence|].
  apply Nat.eqb_neq in H2. rewrite H2. simpl. destruct old; discriminate.
Qed.

Lemma sound_adapt c o i ii rj ch ci u n al :
  (ao_doram o = true -> al <> None) ->
  slice (c_last c) ci ch <> [] -> ncols (slice (c_last c) ci ch) <> 0 ->
  sound (run_adaptation E c o i ii rj ch ci u n al).
Proof.
  intros H1 H2 H3. unfold run_adaptation. destruct (_ <? _)%Z; [apply sound_ok|].
  pose proof (update_some _ [n1] (cov_stats c) H2 H3) as HU. destruct (update_covariance_mean_sum _ _ _) as [[[x y] z]|]; [|congruence].
  apply sound_bind.
  - destruct (ao_doram o); [|apply sound_ok]. destruct al; [apply sound_ok|]. exfalso. apply H1; auto.
  - intros. apply sound_bind; [apply sound_upd_dr|]. intros. apply sound_ok.
Qed.

Lemma adapt_result c o i ii rj ch ci u n al c' :
  run_adaptation E c o i ii rj ch ci u n al = Ok c' ->
  (c_last c' = c_last c \/ c_last c' = i) /\
  (1 < ao_ntry o -> (ao_burnintime o <= Z.of_nat i)%Z -> exists l, c_RDR c' = RSome l).
Proof.
  unfold run_adaptation. destruct (Z.ltb_spec (Z.of_nat i) (ao_burnintime o)).
  - intros H'. inv H'. simpl. split; auto. intros; lia.
  - intros H'. peel H'. peel H'. inv H'. simpl. split; auto. intros Hn _. apply upd_dr_some in E1; auto.
    destruct a0 as [[l ?]|]; [eauto|congruence].
Qed.

(** ** The rest of an iteration *)
Lemma sound_draw_v fuel : forall c s, sound (draw_v E fuel c s).
Proof. induction fuel as [|f IH]; intros; simpl; [snd|]. destruct (nlt _ _); [snd|apply IH]. Qed.
Lemma sound_gamma fuel : forall c d s, sound (gamma_mt_loop E fuel c d s).
Proof.
  induction fuel as [|f IH]; intros; [simpl; snd|]. cbn [gamma_mt_loop].
  apply sound_bind; [apply sound_draw_v|]. intros [[x v] s1] _. cbn [rand]. destruct (nlt _ _); [snd|]. destruct (nlt _ _); [snd|apply IH].
Qed.
Lemma sound_sigma2 a b c d s : sound (draw_sigma2 E a b c d s).
Proof.
  assert (G : forall x y s', sound (gammar_ge1 E x y s')).
  { intros. unfold gammar_ge1. apply sound_bind; [apply sound_gamma|]. intros [v s1] _. snd. }
  unfold draw_sigma2, gammar, gammar_mt1. apply sound_bind; [|intros [y s1] _; snd].
  destruct (nle _ _); [snd|]. destruct (nlt _ _); [|apply G]. apply sound_bind; [apply G|]. intros [y s1] _. snd.
Qed.
Lemma sound_variance al N0v N sos n : forall jj sg S20 s, sound (update_error_variance E al N0v N sos jj n sg S20 s).
Proof.
  induction n as [|n IH]; intros; cbn [update_error_variance]; [snd|].
  apply sound_bind; [snd|]; intros. apply sound_bind; [snd|]; intros. apply sound_bind; [snd|]; intros.
  apply sound_bind; [snd|]; intros. apply sound_bind; [apply sound_sigma2|]. intros [v s1] _.
  apply sound_bind; [snd|]; intros. apply IH.
Qed.
Lemma sound_h5 p a b (rows : list (list F)) l : sound (h5_put p a b rows l).
Proof. unfold h5_put. snd. Qed.
Lemma sound_savechains h5 dir a b chains : forall l : fs F, sound (save_chains h5 dir a b chains l).
Proof.
  induction chains as [|[f m] t IH]; intros; cbn [save_chains]; [snd|]. apply sound_bind; [|intros; apply IH].
  destruct h5; [apply sound_h5|snd].
Qed.
Lemma sound_tolog (o : simopts F) chains a b l : sound (save_to_log_file o chains a b l).
Proof.
  unfold save_to_log_file. apply sound_bind; [destruct (o_save_to_bin o); [apply sound_savechains|snd]|].
  intros. destruct (o_save_to_txt o); [apply sound_savechains|snd].
Qed.
Lemma sound_covmtx (o : simopts F) m a b l : sound (save_covmtx o m a b l).
Proof.
  unfold save_covmtx. apply sound_bind; [destruct (o_save_to_bin o); [apply sound_h5|snd]|].
  intros. snd.
Qed.

Section Loop.
Variable K : rconst F.
Let o := k_opts K.

(** Conditions under which nothing can go wrong. *)
Definition safe_options : Prop :=
  o_ntry o <= 1 \/ (uses_dr_setup (o_method o) = true /\ o_doram o = false /\ (o_burnintime o <= o_adaptint o)%Z).

Definition cinv (i : nat) (st : rstate F) : Prop :=
  (o_updatesigma o = true -> r_s2 st <> None) /\
  (1 < o_ntry o -> exists l, c_RDR (r_cov st) = RSome l) /\
  1 <= i /\ i - 1 <= r_index st /\ c_last (r_cov st) <= r_index st /\ r_iiadapt st <= i - 1 /\
  Forall (fun row => List.length row = v_npar (k_view K)) (r_chain st).

Hypothesis Hsafe : safe_options.
Hypothesis Hpar : 0 < v_npar (k_view K).

Lemma head_slice {A} a b (l : list A) P : Forall P l -> a < b -> b < List.length l ->
  exists x t, slice a b l = x :: t /\ P x.
Proof.
  intros HF H1 H2. rewrite slice_firstn. destruct (skipn a (firstn b l)) as [|x t] eqn:Hs.
  - assert (List.length (skipn a (firstn b l)) = 0) by now rewrite Hs. rewrite skipn_length, firstn_length in H. lia.
  - exists x, t. split; auto. rewrite Forall_forall in HF. apply HF.
    rewrite <- (firstn_skipn b l). apply in_or_app. left. rewrite <- (firstn_skipn a (firstn b l)). apply in_or_app. right.
    rewrite Hs. left. auto.
Qed.

Lemma sound_step i st : cinv i st -> sound (step E K i st) /\ forall st', step E K i st = Ok st' -> cinv (S i) st'.
Proof.
  intros (C1 & C2 & C3 & C4 & C5 & C6 & C7).
  assert (HS : sound (sample_step E K st)).
  { unfold sample_step. apply sound_bind; [apply sound_metropolis|]. intros [[[[acc new] outb] z] s1] _.
    destruct (_ && _) eqn:Hb; [|snd]. apply andb_true_iff in Hb as [Hb _]. apply Nat.ltb_lt in Hb.
    destruct (C2 Hb) as [l Hl]. apply sound_bind.
    - unfold delayed_rejection_call. rewrite Hl. apply sound_dr.
    - intros [[[[[? ?] ?] ?] ?] ?] _. snd. }
  assert (HA : forall stage new outb z iacce s, sample_step E K st = Ok (stage, new, outb, z, iacce, s) ->
     o_doram o = true -> p_alpha new <> None).
  { intros stage new outb z iacce s H Hd. unfold sample_step in H. peel H. destruct a as [[[[acc nw] ob] zz] s1].
    destruct Hsafe as [Hn|(_ & Hn & _)]; [|congruence].
    replace (1 <? o_ntry (k_opts K)) with false in H by (symmetry; apply Nat.ltb_ge; exact Hn). cbn [andb] in H. inv H.
    eapply metropolis_alpha; eauto. }
  assert (HU : forall smp, sound (update_chain K st smp)).
  { intros [[[[[stage new] outb] z] iacce] s]. unfold update_chain.
    apply sound_bind; [apply sound_fit|]; intros. apply sound_bind; [snd|]; intros.
    apply sound_bind; [apply sound_fit|]; intros. apply sound_bind; [snd|]; intros. snd. }
  assert (HC : forall smp st1, update_chain K st smp = Ok st1 ->
     r_s2 st1 = r_s2 st /\ r_cov st1 = r_cov st /\ r_index st1 = S (r_index st) /\ r_iiadapt st1 = S (r_iiadapt st) /\
     S (r_index st) < List.length (r_chain st1) /\ Forall (fun row => List.length row = v_npar (k_view K)) (r_chain st1)).
  { intros [[[[[stage new] outb] z] iacce] s] st1 H. unfold update_chain in H. peel H. peel H. peel H. peel H. inv H. cbn.
    apply write_ok in E1 as [L1 ->]. rewrite set_nth_length. repeat split; auto.
    apply Forall_set_nth; auto. eapply fit_length; eauto. }
  assert (HAD : forall smp z al st1, update_chain K st smp = Ok st1 -> (o_doram o = true -> al <> None) ->
     sound (adapt_step E K i z al st1) /\
     forall st2, adapt_step E K i z al st1 = Ok st2 -> cinv (S i) st2).
  { intros smp z al st1 H Hal. apply HC in H as (D1 & D2 & D3 & D4 & D5 & D6).
    unfold adapt_step. fold o. destruct (_ && _)%Z eqn:Hb.
    - apply andb_true_iff in Hb as [Hb1 Hb2]. apply Z.ltb_lt in Hb1. apply Z.eqb_eq in Hb2.
      destruct (head_slice (c_last (r_cov st1)) (r_index st1) (r_chain st1) _ D6) as (x & t & Hx & Hl); [rewrite D2, D3; lia|lia|].
      assert (HR : sound (run_adaptation E (r_cov st1) (ado_of o) i (r_iiadapt st1) (r_rejin st1) (r_chain st1) (r_index st1) z
                            (v_npar (k_view K)) al)).
      { apply sound_adapt; auto; rewrite Hx; [discriminate|]. unfold ncols. simpl. lia. }
      split.
      + apply sound_bind; auto. intros. snd.
      + intros st2 H2. peel H2. inv H2. unfold cinv. cbn [r_s2 r_cov r_index r_iiadapt r_chain]. apply adapt_result in E0 as [A1 A2]. cbn [ado_of ao_ntry ao_burnintime] in A2.
        split; [intros; rewrite D1; auto|]. split.
        { intros Hn. apply A2; auto. destruct Hsafe as [Hs|(_ & _ & Hs)]; [exfalso; apply (Nat.lt_irrefl 1); eapply Nat.lt_le_trans; eauto|]. fold o in Hs. fold o. lia. }
        split; [lia|]. split; [rewrite D3; lia|]. split; [rewrite D3; destruct A1 as [-> | ->]; [rewrite D2; lia|lia]|].
        split; [lia|auto].
    - split; [snd|]. intros st2 H2. inv H2. unfold cinv. rewrite D1, D2, D3, D4.
      split; [auto|]. split; [auto|]. split; [lia|]. split; [lia|]. split; [lia|]. split; [lia|auto]. }
  assert (HSI : forall st2, cinv (S i) st2 -> sound (sigma_step E K st2) /\
     forall st3, sigma_step E K st2 = Ok st3 -> cinv (S i) st3).
  { intros st2 (B1 & B2 & B3 & B4 & B5 & B6 & B7). unfold sigma_step. fold o. destruct (o_updatesigma o) eqn:Hu.
    - split.
      + apply sound_bind; [apply sound_variance|]. intros [[sg s20] s] _. apply sound_bind; [apply sound_fit|]. intros.
        destruct (r_s2 st2); [|exfalso; apply B1; auto]. cbn [of_option bind]. apply sound_bind; [apply sound_write|]. intros. apply sound_ok.
      + intros st3 H3. peel H3. destruct a as [[sg s20] s]. peel H3. peel H3. peel H3. inv H3. unfold cinv. cbn [r_s2 r_cov r_index r_iiadapt r_chain].
        split; [discriminate|]. auto 12.
    - split; [snd|]. intros st3 H3. inv H3. split; [intros; congruence|auto 12]. }
  assert (HSV : forall st3, cinv (S i) st3 -> sound (save_step K i st3) /\
     forall st4, save_step K i st3 = Ok st4 -> cinv (S i) st4).
  { intros st3 B. unfold save_step. destruct (_ =? _)%Z.
    - split.
      + apply sound_bind; [apply sound_tolog|]. intros. apply sound_bind; [apply sound_covmtx|]. intros. snd.
      + intros st4 H4. peel H4. peel H4. inv H4. exact B.
    - split; [snd|]. intros st4 H4. inv H4. auto. }
  split.
  - unfold step. apply sound_bind; auto. intros [[[[[stage new] outb] z] iacce] s] Hs.
    apply sound_bind; auto. intros st1 H1. destruct (HAD _ z (p_alpha new) _ H1 (HA _ _ _ _ _ _ Hs)) as [G1 G2].
    apply sound_bind; auto. intros st2 H2. destruct (HSI _ (G2 _ H2)) as [G3 G4].
    apply sound_bind; auto. intros st3 H3. apply HSV. auto.
  - intros st' H. unfold step in H. peel H. destruct a as [[[[[stage new] outb] z] iacce] s]. peel H. peel H. peel H.
    destruct (HAD _ z (p_alpha new) _ E1 (HA _ _ _ _ _ _ E0)) as [_ G2].
    destruct (HSI _ (G2 _ E2)) as [_ G3]. destruct (HSV _ (G3 _ E3)) as [_ G4]. auto.
Qed.

Lemma sound_iterate n : forall a st, cinv a st -> sound (iterate E K (seq a n) st).
Proof.
  induction n as [|n IH]; intros a st H; simpl; [snd|]. destruct (sound_step _ _ H) as [S1 S2].
  apply sound_bind; auto.
Qed.
Lemma sound_execute st : cinv 1 st -> sound (execute E K st).
Proof.
  intros H. unfold execute. apply sound_bind; [apply sound_iterate; auto|]. intros. destruct (_ <=? 1); [snd|].
  apply sound_bind; [apply sound_tolog|]. intros. apply sound_bind; [apply sound_covmtx|]. intros. snd.
Qed.
End Loop.

(** ** Set-up *)
Lemma sound_gather {A} (x : list A) ix : sound (gather x ix).
Proof. induction ix as [|i t IH]; simpl; [snd|]. apply sound_bind; [snd|]. intros. apply sound_bind; auto. intros. snd. Qed.
Lemma sound_submat (x : mat) ix : sound (submat (F:=F) x ix).
Proof.
  unfold submat. apply sound_bind; [apply sound_gather|]. intros rows _.
  match goal with |- sound (?f rows) => idtac | |- _ => idtac end.
  induction rows as [|r t IH]; simpl; [snd|]. apply sound_bind; [apply sound_gather|]. intros. apply sound_bind; auto. intros. snd.
Qed.

Lemma sound_setup_loop drscale n : forall ii P, sound (setup_RDR_loop E drscale n ii P).
Proof.
  induction n as [|n IH]; intros; simpl; [snd|]. apply sound_bind; [unfold drscale_at; snd|]. intros.
  apply sound_bind; [snd|]. intros. apply sound_bind; [apply IH|]. intros [t1 t2] _. snd.
Qed.
Lemma sound_invert n : forall l, sound (invert_all E n l).
Proof.
  induction n as [|n IH]; intros [|P t]; simpl; snd. apply IH.
Qed.
Lemma sound_init_cov meth ntry drscale urdr q ada iq sg v pi na ordr th :
  sound (initialize_covariance E meth ntry drscale urdr q ada iq sg v pi na ordr th).
Proof.
  unfold initialize_covariance. apply sound_bind.
  - unfold setup_R_matrix. destruct (_ =? 1).
    + apply sound_bind; [apply sound_submat|]. intros. snd.
    + apply sound_bind; [apply sound_submat|]. intros. snd.
  - intros [R sub] _. apply sound_bind; [|intros [[R' rdr] inv] _; snd].
    destruct (uses_dr_setup meth); [|snd]. apply sound_bind; [|intros [[? ?] ?] _; snd].
    unfold setup_RDR_matrix. destruct urdr; apply sound_bind; try (intros); snd; [apply sound_invert|apply sound_setup_loop].
Qed.
Lemma init_cov_rdr meth ntry drscale urdr q ada iq sg v pi na ordr th c :
  initialize_covariance E meth ntry drscale urdr q ada iq sg v pi na ordr th = Ok c ->
  uses_dr_setup meth = true -> exists l, c_RDR c = RSome l.
Proof.
  unfold initialize_covariance. intros H Hm. rewrite Hm in H. peel H. destruct a. peel H. destruct a as [[R' rdr] inv]. peel E1.
  destruct a as [[? ?] ?]. inv E1. inv H. cbn. eauto.
Qed.

Lemma sound_dms ms d : sound (check_dependent_model_settings (F:=F) ms d).
Proof. unfold check_dependent_model_settings, check_number_of_observations. snd. Qed.
Lemma sound_nsos ms n : sound (check_wrt_nsos (F:=F) ms n).
Proof. unfold check_wrt_nsos, check_size_of_setting, check_size_of_observations. snd. Qed.

Lemma sound_init ps d ms o rdr pos calls : sound (initialize_simulation E ps d ms o rdr pos calls).
Proof.
  unfold initialize_simulation. apply sound_bind; [apply sound_dms|]. intros.
  apply sound_bind; [unfold check_parameter_limits; snd|]. intros.
  apply sound_bind; [unfold check_initial_values; snd|]. intros.
  apply sound_bind; [apply sound_init_cov|]. intros.
  destruct (evaluate_sos_function _ _ _ _). apply sound_bind; [apply sound_nsos|]. intros. snd.
Qed.

Lemma sound_rtp names theta parind : forall ii (ps : list (param F)), sound (results_to_params_loop ii names theta parind ps).
Proof. induction parind as [|p t IH]; intros; simpl; [snd|]. apply sound_bind; [snd|]. intros. apply sound_bind; [snd|]. intros. apply IH. Qed.

(** ** Fresh runs *)
Lemma sound_prepared m ps ini idx arrays :
  cinv (make_const ini (snd arrays)) 1 (start_state ini idx (fst (fst (fst arrays))) (snd (fst (fst arrays))) (snd (fst arrays)) (m_fs m)) ->
  safe_options (make_const ini (snd arrays)) -> 0 < v_npar (view (i_op ini)) ->
  sound (run_prepared E m ps ini idx arrays).
Proof.
  destruct arrays as [[[chain ss] s2] chains]. cbn [fst snd]. intros H1 H2 H3. unfold run_prepared.
  apply sound_bind; [apply sound_execute; auto|]. intros. snd.
Qed.

Definition safe_set (o : simopts F) : Prop :=
  o_ntry o <= 1 \/ (uses_dr_setup (o_method o) = true /\ o_doram o = false /\ (o_burnintime o <= o_adaptint o)%Z).

Lemma sound_fresh m :
  safe_set (m_opts m) -> (exists p, In p (m_params m) /\ a_sample p = true) ->
  sound (run_simulation E false m).
Proof.
  intros Hs Hp. unfold run_simulation.
  apply sound_bind.
  { destruct (o_restart _); [|snd]. apply sound_bind; [apply sound_rtp|]. intros. snd. }
  intros [ps o] H0. apply sound_bind; [apply sound_init|]. intros ini H1.
  apply sound_bind.
  { unfold initialize_chains. apply sound_bind; [apply sound_fit|]; intros. apply sound_bind; [snd|]; intros.
    apply sound_bind; [apply sound_fit|]; intros. apply sound_bind; [snd|]; intros. destruct (o_updatesigma _); [|snd].
    apply sound_bind; [apply sound_fit|]; intros. apply sound_bind; [snd|]; intros. snd. }
  intros [[[chain ss] s2] chains] H2.
  assert (Ho : safe_set o /\ same_decls (m_params m) ps).
  { destruct (o_restart (m_opts m)); [|inv H0; split; auto; apply same_decls_refl].
    peel H0. inv H0. split; [exact Hs|]. eapply results_to_params_same; eauto. }
  destruct Ho as [Ho Hd].
  pose proof (init_facts E _ _ _ _ _ _ _ _ H1) as (F1 & F2 & F3 & F4 & F5 & F6 & F7 & F8 & F9 & F10 & F11).
  destruct (init_cov E _ _ _ _ _ _ _ _ H1) as [F12 [g F13]].
  destruct (opview_facts ps) as (A & B & C & D).
  assert (Hnp : v_npar (view (i_op ini)) = List.length (sampled_params ps)) by (rewrite F1; exact B).
  assert (Hpos : 0 < List.length (sampled_params ps)).
  { rewrite <- (same_decls_sampled _ _ Hd). destruct Hp as (p & P1 & P2). unfold sampled_params.
    assert (In p (filter (fun p => a_sample p) (m_params m))) by now apply filter_In.
    destruct (filter _ _); [contradiction|simpl; lia]. }
  assert (Hsafe : safe_set (i_opts ini)) by (rewrite F13; exact Ho).
  apply sound_prepared; cbn [fst snd]; auto; [|lia].
  unfold cinv. cbn [start_state r_s2 r_cov r_index r_iiadapt r_chain make_const k_opts k_view].
  apply initialize_chains_facts in H2 as HI; auto.
  2:{ rewrite F4, map_length. rewrite <- Hnp. reflexivity. }
  destruct HI as (G1 & G2 & G3 & G4 & G5 & G6 & _).
  split; [intros Hu; rewrite Hu in G6; destruct s2; [discriminate|discriminate G6]|].
  split. { intros Hn. eapply init_cov_rdr; eauto. rewrite F13 in Hn. cbn in Hn. destruct Ho as [Ho|[Ho _]]; [lia|auto]. }
  apply init_cov_stats in F12 as (F12 & _). rewrite F12.
  do 4 (split; [lia|]). unfold initialize_chains in H2. peel H2. peel H2. peel H2. peel H2.
  assert (chain = a0) as -> by (destruct (o_updatesigma _); [peel H2; peel H2|]; congruence).
  apply write_ok in E1 as [_ ->]. apply Forall_set_nth.
  - apply Forall_forall. intros x Hx. unfold zeros in Hx. apply repeat_spec in Hx. subst x. apply repeat_length.
  - eapply fit_length; eauto.
Qed.

Lemma sound_resumed m :
  safe_set (m_opts m) -> (exists p, In p (m_params m) /\ a_sample p = true) ->
  (forall row, In row (m_chain m) -> List.length row = ncols (m_chain m)) ->
  sound (run_simulation E true m).
Proof.
  intros Hs Hp Hw. unfold run_simulation. destruct (m_status m); [|snd]. destruct (m_results m) as [r|]; [|snd].
  apply sound_bind; [apply sound_rtp|]. intros ps H0. apply sound_bind; [apply sound_init|]. intros ini H1.
  apply sound_bind.
  { unfold expand_chains, extend. apply sound_bind; [destruct (_ =? _); snd|]; intros.
    apply sound_bind; [destruct (_ =? _); snd|]; intros. destruct (o_updatesigma _); [|snd].
    apply sound_bind; [snd|]; intros. apply sound_bind; [destruct (_ =? _); snd|]; intros. snd. }
  intros [[[chain ss] s2] chains] H2.
  assert (Hd : same_decls (m_params m) ps) by (eapply results_to_params_same; eauto).
  pose proof (init_facts E _ _ _ _ _ _ _ _ H1) as (F1 & F2 & F3 & F4 & F5 & F6 & F7 & F8 & F9 & F10 & F11).
  destruct (init_cov E _ _ _ _ _ _ _ _ H1) as [F12 [g F13]].
  destruct (opview_facts ps) as (A & B & C & D).
  assert (Hnp : v_npar (view (i_op ini)) = List.length (sampled_params ps)) by (rewrite F1; exact B).
  assert (Hpos : 0 < List.length (sampled_params ps)).
  { rewrite <- (same_decls_sampled _ _ Hd). destruct Hp as (p & P1 & P2). unfold sampled_params.
    assert (In p (filter (fun p => a_sample p) (m_params m))) by now apply filter_In.
    destruct (filter _ _); [contradiction|simpl; lia]. }
  assert (Hsafe : safe_set (i_opts ini)) by (rewrite F13; exact Hs).
  apply sound_prepared; cbn [fst snd]; auto; [|lia].
  unfold cinv. cbn [start_state r_s2 r_cov r_index r_iiadapt r_chain make_const k_opts k_view].
  pose proof (expand_chains_facts _ _ _ _ _ _ H2) as HI. cbv zeta in HI. destruct HI as (G1 & G2 & G3 & _).
  split; [intros Hu; rewrite Hu in G3; destruct G3 as (old & _ & ->); discriminate|].
  split. { intros Hn. eapply init_cov_rdr; eauto. rewrite F13 in Hn. cbn in Hn. destruct Hs as [Ho|[Ho _]]; [lia|auto]. }
  apply init_cov_stats in F12 as (F12 & _). rewrite F12.
  do 4 (split; [lia|]). unfold expand_chains in H2. peel H2. unfold extend in E0. destruct (_ =? _) eqn:Ew in E0; [|discriminate].
  apply Nat.eqb_eq in Ew. rewrite G1. apply Forall_app. split.
  - apply Forall_forall. intros row Hrow. rewrite (Hw _ Hrow), Ew. reflexivity.
  - apply Forall_forall. intros x Hx. unfold zeros in Hx. apply repeat_spec in Hx. subst x. rewrite repeat_length. reflexivity.
Qed.
End Clean.
