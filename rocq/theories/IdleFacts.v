(** Sessions in which settings that have no use differ. *)

From Coq Require Import ZArith QArith Bool Lia List String.
From Verif Require Import Base Num Samplers Adapt Settings Simulator RunSpec ScaleSpec SwitchSpec SwitchFacts IdleSpec.
Import ListNotations.
Close Scope Q_scope.
Open Scope list_scope.
Open Scope nat_scope.
Open Scope res_scope.

Section Idle.
Context {F : Type} `{NF : Num F}.
Variable E : env F.

(** ** Outcomes *)
Lemma both_bind {A B C D} (R : A -> B -> Prop) (S : C -> D -> Prop) x y f g :
  outcomes R x y -> (forall a b, R a b -> outcomes S (f a) (g b)) -> outcomes S (bind x f) (bind y g).
Proof. intros H K. destruct x, y; cbn in *; auto; contradiction. Qed.
Lemma both_same {A C D} (S : C -> D -> Prop) (x : res A) f g : (forall a, x = Ok a -> outcomes S (f a) (g a)) -> outcomes S (bind x f) (bind x g).
Proof. intros K. destruct x; cbn; auto. Qed.

(** ** Options *)
Lemma idle_checked (o o' : simopts F) b : idle o o' ->
  idle (check_dependent_simulation_options o b) (check_dependent_simulation_options o' b).
Proof. intros (H & H1 & H2). split; [rewrite H; reflexivity|]. split; [exact H1|exact H2]. Qed.
Lemma idle_qcov (o o' : simopts F) q : idle o o' -> idle (set_qcov o q) (set_qcov o' q).
Proof. intros (H & H1 & H2). split; [rewrite H; reflexivity|]. split; [exact H1|exact H2]. Qed.
Lemma idle_fields (o o' : simopts F) : idle o o' ->
  (o_nsimu o', o_ntry o', o_adascale o', o_drscale o', o_savesize o', (o_qcov o', o_initqcovn o', o_updatesigma o', o_RDR o', o_restart o')) =
  (o_nsimu o, o_ntry o, o_adascale o, o_drscale o, o_savesize o, (o_qcov o, o_initqcovn o, o_updatesigma o, o_RDR o, o_restart o)).
Proof. intros (-> & _). reflexivity. Qed.
Ltac fields HO := pose proof (idle_fields _ _ HO) as X; inversion X as [[X1 X2 X3 X4 X5 X6 X7 X8 X9 X10]]; clear X.
Lemma idle_setup (o o' : simopts F) : idle o o' -> uses_dr_setup (o_method o') = uses_dr_setup (o_method o).
Proof.
  intros (_ & H & _). rewrite <- !tries_setup in H. destruct (uses_dr_setup (o_method o)), (uses_dr_setup (o_method o')); auto; destruct H as [H H']; [now rewrite H'|now rewrite H].
Qed.

(** ** The loop *)
Definition kidle (K K' : rconst F) : Prop :=
  idle (k_opts K) (k_opts K') /\ k_view K' = k_view K /\ k_nsos K' = k_nsos K /\ k_N0 K' = k_N0 K /\ k_N K' = k_N K /\ k_alias K' = k_alias K /\ k_chains K' = k_chains K.

Lemma adaptation_idle o o' c i ia rej ch ix u n al : idle o o' -> same_adaptation o o' -> (o_adaptint o <= Z.of_nat i)%Z ->
  run_adaptation E c (ado_of o') i ia rej ch ix u n al = run_adaptation E c (ado_of o) i ia rej ch ix u n al.
Proof.
  intros HO (H1 & H2 & H3 & H4 & H5 & H6) Hi. fields HO. unfold run_adaptation, ado_of.
  cbn [ao_burnintime ao_burnin_scale ao_ntry ao_drscale ao_alphatarget ao_etaparam ao_qcov_adjust ao_doram]. rewrite H2, H3, H4, X2, X4.
  destruct (Z.ltb_spec (Z.of_nat i) (o_burnintime o)) as [B|B].
  - destruct H5 as [->|H5]; [reflexivity|lia].
  - destruct H6 as [[-> ->]| ->]; reflexivity.
Qed.
Lemma adapt_idle K K' i u al t : kidle K K' -> r_iiadapt t <= i -> i < o_nsimu (k_opts K) -> adapt_step E K' i u al t = adapt_step E K i u al t.
Proof.
  intros (HO & HV & _) Hi Hn. unfold adapt_step. rewrite HV. fields HO. pose proof HO as (_ & _ & [[N N']|A]).
  - unfold never_adapts in *. rewrite X1 in N'.
    replace ((0 <? o_adaptint (k_opts K)) && (Z.of_nat (r_iiadapt t) =? o_adaptint (k_opts K)))%Z with false by lia.
    replace ((0 <? o_adaptint (k_opts K')) && (Z.of_nat (r_iiadapt t) =? o_adaptint (k_opts K')))%Z with false by lia. reflexivity.
  - rewrite (proj1 A). destruct ((0 <? o_adaptint (k_opts K)) && (Z.of_nat (r_iiadapt t) =? o_adaptint (k_opts K)))%Z eqn:D; [|reflexivity].
    rewrite (adaptation_idle _ _ _ _ _ _ _ _ _ _ _ HO A) by lia. reflexivity.
Qed.
Lemma sample_idle K K' t : kidle K K' -> sample_step E K' t = sample_step E K t.
Proof. intros (HO & HV & _). fields HO. unfold sample_step, delayed_rejection_call. rewrite HV, X2. reflexivity. Qed.
Lemma update_idle K K' t x : kidle K K' -> update_chain K' t x = update_chain K t x.
Proof. intros (HO & HV & HS & _). unfold update_chain. rewrite HV, HS. reflexivity. Qed.
Lemma sigma_idle K K' t : kidle K K' -> sigma_step E K' t = sigma_step E K t.
Proof. intros (HO & HV & HS & HN0 & HN & HA & _). fields HO. unfold sigma_step. rewrite X8, HS, HN0, HN, HA. reflexivity. Qed.
Lemma log_idle (o o' : simopts F) ch a b l : idle o o' -> save_to_log_file o' ch a b l = save_to_log_file o ch a b (l : fs F).
Proof. intros (-> & _). reflexivity. Qed.
Lemma covmtx_idle (o o' : simopts F) m a b l : idle o o' -> save_covmtx o' m a b l = save_covmtx o m a b (l : fs F).
Proof. intros (-> & _). reflexivity. Qed.
Lemma logged_idle K K' t : kidle K K' -> logged K' t = logged K t.
Proof. intros (_ & _ & _ & _ & _ & _ & HC). unfold logged. rewrite HC. reflexivity. Qed.
Lemma save_idle K K' i t : kidle K K' -> save_step K' i t = save_step K i t.
Proof.
  intros HK. pose proof HK as (HO & _). fields HO. unfold save_step. rewrite X5, (logged_idle _ _ _ HK). destruct (_ =? _)%Z; [|reflexivity].
  rewrite (log_idle _ _ _ _ _ _ HO). destruct (save_to_log_file _ _ _ _ _); [|reflexivity]. cbn [bind]. now rewrite (covmtx_idle _ _ _ _ _ _ HO).
Qed.

(** Iterations since the last adaptation. *)
Lemma update_count (K : rconst F) t x t' : update_chain K t x = Ok t' -> r_iiadapt t' = S (r_iiadapt t).
Proof.
  destruct x as [[[[[st new] outb] z] ia] u]. unfold update_chain. destruct (fit_row _ _); [|discriminate]. cbn [bind].
  destruct (write _ _ _); [|discriminate]. cbn [bind]. destruct (fit_row _ _); [|discriminate]. cbn [bind]. destruct (write _ _ _); [|discriminate]. cbn [bind].
  intros H. inversion H. reflexivity.
Qed.
Lemma adapt_count K i u al t t' : adapt_step E K i u al t = Ok t' -> r_iiadapt t' <= r_iiadapt t.
Proof.
  unfold adapt_step. destruct (_ && _)%bool; [|intros H; inversion H; auto]. destruct (run_adaptation _ _ _ _ _ _ _ _ _ _ _); [|discriminate]. cbn [bind].
  intros H. inversion H. cbn. lia.
Qed.
Lemma sigma_count K t t' : sigma_step E K t = Ok t' -> r_iiadapt t' = r_iiadapt t.
Proof.
  unfold sigma_step. destruct (o_updatesigma _); [|intros H; inversion H; auto]. destruct (update_error_variance _ _ _ _ _ _ _ _ _ _) as [[[a b] s]|]; [|discriminate]. cbn [bind].
  destruct (fit_row _ _); [|discriminate]. cbn [bind]. destruct (of_option _ _); [|discriminate]. cbn [bind]. destruct (write _ _ _); [|discriminate]. cbn [bind].
  intros H. inversion H. reflexivity.
Qed.
Lemma save_count (K : rconst F) i t t' : save_step K i t = Ok t' -> r_iiadapt t' = r_iiadapt t.
Proof.
  unfold save_step. destruct (_ =? _)%Z; [|intros H; inversion H; auto]. destruct (save_to_log_file _ _ _ _ _); [|discriminate]. cbn [bind].
  destruct (save_covmtx _ _ _ _ _); [|discriminate]. cbn [bind]. intros H. inversion H. reflexivity.
Qed.
Lemma step_idle K K' i t : kidle K K' -> r_iiadapt t < i -> i < o_nsimu (k_opts K) ->
  step E K' i t = step E K i t /\ forall t', step E K i t = Ok t' -> r_iiadapt t' <= i.
Proof.
  intros HK Hi Hn. unfold step. rewrite (sample_idle _ _ _ HK). destruct (sample_step E K t) as [smp|]; [|split; [reflexivity|discriminate]]. cbn [bind].
  destruct smp as [[[[[st new] outb] z] ia] s]. rewrite (update_idle _ _ _ _ HK).
  destruct (update_chain K t _) as [t1|] eqn:U; [|split; [reflexivity|discriminate]]. cbn [bind]. apply update_count in U.
  rewrite (adapt_idle _ _ _ _ _ _ HK) by lia. destruct (adapt_step _ _ _ _ _ _) as [t2|] eqn:A; [|split; [reflexivity|discriminate]]. cbn [bind]. apply adapt_count in A.
  rewrite (sigma_idle _ _ _ HK). destruct (sigma_step _ _ _) as [t3|] eqn:G; [|split; [reflexivity|discriminate]]. cbn [bind]. apply sigma_count in G.
  rewrite (save_idle _ _ _ _ HK). split; [reflexivity|]. intros t' S. apply save_count in S. lia.
Qed.
Lemma iterate_idle K K' : kidle K K' -> forall n i t, r_iiadapt t < i -> i + n <= o_nsimu (k_opts K) -> iterate E K' (seq i n) t = iterate E K (seq i n) t.
Proof.
  intros HK. induction n as [|n IH]; intros i t Hi Hn; cbn [seq iterate]; [reflexivity|].
  destruct (step_idle K K' i t HK Hi) as [-> S]; [lia|]. destruct (step E K i t) as [t'|]; [|reflexivity]. cbn [bind]. apply IH; [|lia]. specialize (S t' eq_refl). lia.
Qed.
Lemma execute_idle K K' t : kidle K K' -> r_iiadapt t = 0 -> execute E K' t = execute E K t.
Proof.
  intros HK Ht. pose proof HK as (HO & _). fields HO. unfold execute. rewrite X1.
  destruct (o_nsimu (k_opts K)) as [|n] eqn:N; [reflexivity|].
  rewrite (iterate_idle _ _ HK) by lia. destruct (iterate _ _ _ _) as [t'|]; [|reflexivity]. cbn [bind].
  rewrite (logged_idle _ _ _ HK), (log_idle _ _ _ _ _ _ HO). destruct (_ <=? _); [reflexivity|].
  destruct (save_to_log_file _ _ _ _ _); [|reflexivity]. cbn [bind]. now rewrite (covmtx_idle _ _ _ _ _ _ HO).
Qed.

(** ** Runs and sessions *)
Definition iidle (I I' : initrec F) : Prop :=
  idle (i_opts I) (i_opts I') /\ i_model I' = i_model I /\ i_op I' = i_op I /\ i_cov I' = i_cov I /\ i_set I' = i_set I /\
  i_nsos I' = i_nsos I /\ i_iacce I' = i_iacce I /\ i_io I' = i_io I.
Lemma init_idle ps d ms o o' rdr pos calls : idle o o' ->
  outcomes iidle (initialize_simulation E ps d ms o rdr pos calls) (initialize_simulation E ps d ms o' rdr pos calls).
Proof.
  intros H. unfold initialize_simulation. apply both_same. intros m1 _. apply both_same. intros _ _. apply both_same. intros _ _.
  set (b := match ms_N0 ms with Some _ => true | None => false end). pose proof (idle_checked _ _ b H) as HC.
  set (q := check_dependent_simulation_options o b) in *. set (q' := check_dependent_simulation_options o' b) in *. clearbody q q'. fields HC.
  rewrite X2, X3, X4, X6, X7, X9. unfold initialize_covariance. rewrite (idle_setup _ _ HC).
  apply both_same. intros c _. destruct (evaluate_sos_function E _ _ _) as [ss s1]. apply both_same. intros m2 _.
  cbn [outcomes]. unfold iidle. cbn [i_opts i_model i_op i_cov i_set i_nsos i_iacce i_io].
  repeat (split; [exact HC || reflexivity|]). reflexivity.
Qed.
Lemma chains_idle I I' s2 : iidle I I' -> initialize_chains I' s2 = initialize_chains I s2.
Proof. intros ((HO & _) & Hm & Hp & Hc & Hs & Hn & _). unfold initialize_chains. rewrite HO, Hp, Hs, Hn. reflexivity. Qed.
Lemma expand_idle m m' I I' : same_but_idle m m' -> iidle I I' -> expand_chains m' I' = expand_chains m I.
Proof.
  intros H ((HO & _) & Hm & Hp & Hc & Hs & Hn & _). unfold expand_chains.
  rewrite HO, Hp, Hn, (si_chain _ _ H), (si_sschain _ _ H), (si_s2chain _ _ H), (si_chains _ _ H).
  replace (map (fun e => (fst e, freeze m' (snd e))) (m_chains m)) with (map (fun e => (fst e, freeze m (snd e))) (m_chains m)); [reflexivity|].
  apply map_ext. intros [n r]. cbn [fst snd]. f_equal. destruct r; cbn [freeze]; f_equal; symmetry; [apply (si_chain _ _ H)|apply (si_sschain _ _ H)|now rewrite (si_s2chain _ _ H)].
Qed.
Lemma prepared_idle m m' ps I I' i x : same_but_idle m m' -> iidle I I' ->
  outcomes same_but_idle (run_prepared E m ps I i x) (run_prepared E m' ps I' i x).
Proof.
  intros H (HO & Hm & Hp & Hc & Hs & Hn & Hi & Hio). destruct x as [[[ch ss] s2] l]. unfold run_prepared.
  replace (start_state I' i ch ss s2 (m_fs m')) with (start_state I i ch ss s2 (m_fs m)) by (unfold start_state; rewrite Hi, Hio, Hm, Hs, Hc, (si_fs _ _ H); reflexivity).
  rewrite (execute_idle (make_const I l) (make_const I' l)); [|unfold kidle, make_const; cbn [k_opts k_view k_nsos k_N0 k_N k_alias k_chains]; rewrite Hp, Hn, Hm; repeat (split; [exact HO || reflexivity|]); reflexivity|reflexivity].
  apply both_same. intros t _. cbn [outcomes]. constructor;
      cbn [m_params m_data m_model m_opts m_RDR m_status m_chain m_sschain m_s2chain m_index m_chains m_pos m_calls m_fs m_results m_trace]; auto; try congruence.
  - apply (si_data _ _ H).
  - destruct HO as (-> & _). reflexivity.
  - cbn [option_map]. f_equal. unfold outcome_of, generate_results. cbn [rr_theta rr_parind rr_total_rejected rr_outside rr_R rr_qcov rr_cov rr_mean rr_names rr_allnames rr_lower rr_upper rr_nsimu rr_iacce rr_chain rr_model rr_sschain rr_s2chain].
    rewrite Hp, Hm. destruct HO as (-> & _). reflexivity.
  - now rewrite (si_trace _ _ H).
Qed.
Lemma run_idle u m m' : same_but_idle m m' -> outcomes same_but_idle (run_simulation E u m) (run_simulation E u m').
Proof.
  intros H. unfold run_simulation. rewrite (si_params _ _ H), (si_data _ _ H), (si_model _ _ H), (si_status _ _ H), (si_index _ _ H), (si_pos _ _ H), (si_calls _ _ H), (si_RDR _ _ H).
  pose proof (si_opts _ _ H) as HO. destruct u.
  - destruct (m_status m); [|cbn; auto]. pose proof (si_results _ _ H) as X. destruct (m_results m) as [r|], (m_results m') as [r'|]; cbn in X; try discriminate; [|cbn; auto].
    replace (restart_of r') with (restart_of r) by (unfold outcome_of in X; unfold restart_of; congruence).
    apply both_same. intros ps _. eapply both_bind; [apply init_idle; exact HO|]. intros I I' HI. rewrite (expand_idle _ _ _ _ H HI). apply both_same. intros x _. now apply prepared_idle.
  - replace (o_restart (m_opts m')) with (o_restart (m_opts m)) by (destruct HO as (-> & _); reflexivity).
    apply both_bind with (R := fun a b => fst b = fst a /\ idle (snd a) (snd b)).
    + destruct (o_restart (m_opts m)); [|cbn; auto]. apply both_same. intros ps _. cbn [outcomes fst snd]. split; [reflexivity|]. now apply idle_qcov.
    + intros [ps o] [ps' o'] [X HO']. cbn [fst snd] in *. subst ps'. eapply both_bind; [apply init_idle; exact HO'|]. intros I I' HI.
      replace (i_model I') with (i_model I) by (symmetry; apply HI). rewrite (chains_idle _ _ _ HI). apply both_same. intros x _. now apply prepared_idle.
Qed.
Lemma acts_idle l l' : Forall2 idle_action l l' -> forall m m', same_but_idle m m' -> outcomes same_but_idle (acts E l m) (acts E l' m').
Proof.
  induction 1 as [|a a' l l' Ha Hl IH]; intros m m' H; cbn [acts]; [exact H|].
  eapply both_bind with (R := same_but_idle); [|intros u v Huv; now apply IH].
  destruct a, a'; try contradiction; cbn [idle_action] in Ha; cbn [act].
  - cbn. destruct H. constructor; cbn; auto.
  - subst. cbn. destruct H. constructor; cbn; auto.
  - subst. now apply run_idle.
Qed.
End Idle.
