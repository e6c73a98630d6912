(** Runs with the same posterior: the loop and whole runs. *)

From Coq Require Import ZArith QArith Bool Lia List String Reals Lra.
From Verif Require Import Base Num Samplers Adapt Settings Simulator SamplerFacts SettingsFacts RunSpec RunFacts RunLift RVec FixedSpec FixedFacts ScaleNum ScaleSpec PostSpec PostFacts.
Import ListNotations.
Close Scope Q_scope.
Close Scope R_scope.
Open Scope list_scope.
Open Scope nat_scope.
Open Scope res_scope.

(** ** Arrays *)
Lemma write_length {A} i (v w : A) l m : List.length m = List.length l ->
  outcomes (fun a c => List.length c = List.length a) (write i v l) (write i w m).
Proof.
  intros H. unfold write. rewrite H. destruct (_ <? _); [|reflexivity]. cbn. revert i m H. induction l as [|x l IH]; intros [|i] [|y m] H; try discriminate; cbn in *; auto.
Qed.
Lemma fit_length n (x y : list XR) : List.length y = List.length x -> outcomes (fun a c => List.length c = List.length a) (fit_row n x) (fit_row n y).
Proof.
  intros H. unfold fit_row. rewrite H. destruct (_ =? _); [exact H|]. destruct x as [|a [|c x]], y as [|b [|d y]]; try discriminate; cbn; try reflexivity.
  now rewrite !repeat_length.
Qed.

(** ** Files *)
Section Files.
Variable f : string.
Notation orel := (Forall2 (same_op f)).
Lemma op_refl x : same_op f x x.
Proof. destruct x; cbn; unfold same_table; auto. Qed.
Lemma orel_refl l : orel l l.
Proof. induction l; constructor; auto using op_refl. Qed.
Lemma orel_length l l' : orel l l' -> List.length l' = List.length l.
Proof. induction 1; cbn; congruence. Qed.
Lemma snoc_same l l' x y : orel l l' -> same_op f x y -> orel (l ++ [x]) (l' ++ [y]).
Proof. intros H1 H2. apply Forall2_app; [exact H1|]. constructor; [exact H2|constructor]. Qed.
Lemma table_slice p a b x y : same_table f p x y -> same_table f p (slice a b x) (slice a b y).
Proof. intros [->|[H1 H2]]; [now left|right]. split; [exact H1|]. unfold slice. now rewrite !firstn_length, !skipn_length, H2. Qed.
Lemma sets_exist p a b l l' : orel l l' ->
  existsb (fun e => match e with (a', b', _) => (a =? a') && (b =? b') end) (h5_sets p l') =
  existsb (fun e => match e with (a', b', _) => (a =? a') && (b =? b') end) (h5_sets p l).
Proof.
  unfold h5_sets. intros H. induction H as [|x y l l' H1 H2 IH]; cbn [map List.concat]; [reflexivity|].
  rewrite !existsb_app, IH. f_equal. destruct x, y; cbn in H1; try contradiction; try reflexivity.
  destruct H1 as (-> & -> & -> & _). destruct (path_eqb _ _); reflexivity.
Qed.
Lemma put_same p a b r r' l l' : orel l l' -> same_table f p r r' -> outcomes orel (h5_put p a b r l) (h5_put p a b r' l').
Proof.
  intros H R. unfold h5_put. rewrite (sets_exist p a b l l' H). destruct (existsb _ _); [reflexivity|].
  cbn. apply Forall2_app; [exact H|]. constructor; [|constructor]. cbn. auto.
Qed.
Definition named (x y : string * list (list XR)) : Prop := fst y = fst x /\ (snd y = snd x \/ fst x = f /\ List.length (snd y) = List.length (snd x)).
Lemma save_same h5 dir a b ch ch' : Forall2 named ch ch' -> forall l l', orel l l' ->
  outcomes orel (save_chains h5 dir a b ch l) (save_chains h5 dir a b ch' l').
Proof.
  induction 1 as [|[g m] [g' m'] ch ch' [H1 H2] H3 IH]; intros l l' H; cbn [save_chains]; [exact H|].
  cbn [fst snd] in H1, H2. subst g'. apply out_bind with (R := orel).
  - destruct h5; [apply put_same; [exact H|now apply table_slice]|]. cbn. apply snoc_same; [exact H|]. cbn. split; [reflexivity|now apply table_slice].
  - intros u v Huv. now apply IH.
Qed.
Lemma log_same o ch ch' a b l l' : Forall2 named ch ch' -> orel l l' ->
  outcomes orel (save_to_log_file o ch a b l) (save_to_log_file o ch' a b l').
Proof.
  intros Hc H. unfold save_to_log_file. apply out_bind with (R := orel).
  - destruct (o_save_to_bin o); [|exact H]. apply save_same; [exact Hc|]. apply snoc_same; [exact H|]. cbn. auto.
  - intros u v Huv. destruct (o_save_to_txt o); [|exact Huv]. apply save_same; [exact Hc|]. apply snoc_same; [exact Huv|]. cbn. auto.
Qed.
Lemma covmtx_same o m a b l l' : orel l l' -> outcomes orel (save_covmtx o m a b l) (save_covmtx o m a b l').
Proof.
  intros H. unfold save_covmtx. apply out_bind with (R := orel).
  - destruct (o_save_to_bin o); [|exact H]. apply put_same; [exact H|now left].
  - intros u v Huv. destruct (o_save_to_txt o); [|exact Huv]. cbn. apply snoc_same; [exact Huv|]. cbn. split; [reflexivity|now left].
Qed.
End Files.

Section Post.
Variable ps : list (param XR).
Variables s c : R.
Variables E E' : env XR.
Hypothesis HP : same_posterior ps s c E E'.
Notation vok := (vok ps).
Notation iok := (iok ps).
Notation weak := (weak s c).
Notation strict := (strict s c).
Notation drel := (drel ps s c).

Lemma env_form : E' = mkenv (e_sos E') (e_prior E') (e_str E) (e_chol E) (e_inv E) (e_fuel E).
Proof. rewrite <- (sp_str _ _ _ _ _ HP), <- (sp_chol _ _ _ _ _ HP), <- (sp_inv _ _ _ _ _ HP), <- (sp_fuel _ _ _ _ _ HP). now destruct E'. Qed.
Lemma adapt_env : run_adaptation E' = run_adaptation E.
Proof. rewrite env_form. reflexivity. Qed.
Lemma cov_env : initialize_covariance E' = initialize_covariance E.
Proof. rewrite env_form. reflexivity. Qed.

(** ** The loop *)
Record kok (K : rconst XR) : Prop := {
  ko_view : vok (k_view K);
  ko_sigma : o_updatesigma (k_opts K) = false;
  ko_chains : Forall (fun e => snd e = RefSS -> fst e = o_sschainfile (k_opts K)) (k_chains K)
}.
Record srel (f : string) (t t' : rstate XR) : Prop := {
  sr_plain : (r_index t', r_iiadapt t', r_savecount t', r_lastbin t', (r_rej t', r_rejin t', r_rejout t'), r_chain t', r_cov t', (r_iacce t', r_io t', r_trace t'), (r_s2 t', r_sigma2 t', r_S20 t')) =
             (r_index t, r_iiadapt t, r_savecount t, r_lastbin t, (r_rej t, r_rejin t, r_rejout t), r_chain t, r_cov t, (r_iacce t, r_io t, r_trace t), (r_s2 t, r_sigma2 t, r_S20 t));
  sr_old : strict (r_old t) (r_old t');
  sr_ss : List.length (r_ss t') = List.length (r_ss t);
  sr_io : iok (r_io t);
  sr_fs : Forall2 (same_op f) (r_fs t) (r_fs t')
}.
Definition smrel (x y : sampled XR) : Prop :=
  let '(stage, new, outb, z, iacce, t) := x in let '(stage', new', outb', z', iacce', t') := y in
  stage' = stage /\ outb' = outb /\ z' = z /\ iacce' = iacce /\ t' = t /\ iok t /\ weak new new' /\ (stage <> 0 -> strict new new').

Lemma sample_same f K t t' : kok K -> srel f t t' -> outcomes smrel (sample_step E K t) (sample_step E' K t').
Proof.
  intros HK [P O SS HI Fs]. inversion P as [[P1 P2 P3 P4 P5 P6 P7 P8 P9 P10 P11 P12 P13 P14 P15]]. clear P.
  unfold sample_step. rewrite P9, P11, P10.
  eapply out_bind; [apply (metropolis_same ps s c E E' HP); [apply HK|exact HI|exact O]|].
  intros [[[[acc new] outb] z] s1] [[[[acc' new'] outb'] z'] s1'] (-> & -> & -> & -> & I1 & W & Sa).
  destruct ((1 <? o_ntry (k_opts K)) && negb acc).
  - eapply out_bind with (R := drel).
    + unfold delayed_rejection_call. destruct (c_RDR (r_cov t)); try reflexivity. unfold run_delayed_rejection.
      apply (dr_same ps s c E E' HP); [apply HK|exact O|apply W|apply W|exact I1| |exact O].
      constructor; [now apply strict_weak|]. constructor; [exact W|constructor].
    + intros [[[[[a1 o1] b1] i1] p1] t1] [[[[[a2 o2] b2] i2] p2] t2] (-> & -> & -> & -> & I2 & Hp & Ho). cbn. rewrite Hp.
      repeat (split; [reflexivity|]). split; [exact I2|]. split; [now apply strict_weak|intros _; exact Ho].
  - cbn. repeat (split; [reflexivity|]). split; [exact I1|]. split; [exact W|]. destruct acc; [intros _; now apply Sa|intros X; now destruct X].
Qed.
Lemma update_same f K t t' x y : srel f t t' -> smrel x y -> outcomes (srel f) (update_chain K t x) (update_chain K t' y).
Proof.
  intros [P O SS HI Fs] H. inversion P as [[P1 P2 P3 P4 P5 P6 P7 P8 P9 P10 P11 P12 P13 P14 P15]]. clear P.
  destruct x as [[[[[st new] outb] z] ia] u], y as [[[[[st' new'] outb'] z'] ia'] u']. destruct H as (-> & -> & -> & -> & -> & I1 & W & Sa).
  unfold update_chain. rewrite P1, P2, P3, P4, P5, P6, P7, P8, P9, P11, P12, P13, P14, P15.
  set (cur := if negb (st =? 0) then new else r_old t). set (cur' := if negb (st =? 0) then new' else r_old t').
  assert (C : strict cur cur').
  { unfold cur, cur'. destruct (st =? 0) eqn:X; cbn; [exact O|]. apply Sa. now apply Nat.eqb_neq. }
  pose proof C as [(T & _ & _ & _ & L) _]. rewrite T. apply out_same. intros row _. apply out_same. intros ch _.
  eapply out_bind; [apply fit_length; exact L|]. intros r1 r2 _. eapply out_bind; [apply write_length; exact SS|]. intros w1 w2 Hw.
  cbn. constructor; cbn [r_index r_iiadapt r_savecount r_lastbin r_rej r_rejin r_rejout r_chain r_cov r_iacce r_io r_trace r_old r_ss r_s2 r_sigma2 r_S20 r_fs]; auto.
  now rewrite (orel_length _ _ _ Fs).
Qed.
Lemma adapt_same f K i u al t t' : srel f t t' -> outcomes (srel f) (adapt_step E K i u al t) (adapt_step E' K i u al t').
Proof.
  intros H. pose proof H as [P O SS HI Fs]. inversion P as [[P1 P2 P3 P4 P5 P6 P7 P8 P9 P10 P11 P12 P13 P14 P15]]. clear P.
  unfold adapt_step. rewrite P2. destruct (_ && _)%bool; [|exact H].
  rewrite P1, P3, P4, P5, P6, P7, P8, P9, P10, P11, P12, P13, P14, P15, adapt_env. apply out_same. intros cv _. cbn.
  constructor; cbn [r_index r_iiadapt r_savecount r_lastbin r_rej r_rejin r_rejout r_chain r_cov r_iacce r_io r_trace r_old r_ss r_s2 r_sigma2 r_S20 r_fs]; auto.
Qed.
Lemma sigma_same f K t t' : kok K -> srel f t t' -> outcomes (srel f) (sigma_step E K t) (sigma_step E' K t').
Proof. intros HK H. unfold sigma_step. rewrite (ko_sigma _ HK). exact H. Qed.
Lemma logged_same K t t' : kok K -> srel (o_sschainfile (k_opts K)) t t' -> Forall2 (named (o_sschainfile (k_opts K))) (logged K t) (logged K t').
Proof.
  intros HK [P O SS HI Fs]. inversion P as [[P1 P2 P3 P4 P5 P6 P7 P8 P9 P10 P11 P12 P13 P14 P15]]. unfold logged.
  pose proof (ko_chains _ HK) as X. induction X as [|[g r] l H1 H2 IH]; cbn [map]; constructor; [|exact IH]. split; [reflexivity|]. cbn [fst snd] in *.
  destruct r; cbn [resolve]; [left; exact P8|right; auto|left; now rewrite P13|now left].
Qed.
Lemma save_step_same K i t t' : kok K -> srel (o_sschainfile (k_opts K)) t t' -> outcomes (srel (o_sschainfile (k_opts K))) (save_step K i t) (save_step K i t').
Proof.
  intros HK H. pose proof H as [P O SS HI Fs]. inversion P as [[P1 P2 P3 P4 P5 P6 P7 P8 P9 P10 P11 P12 P13 P14 P15]]. clear P.
  unfold save_step. rewrite P3. destruct (_ =? _)%Z; [|exact H].
  eapply out_bind; [apply log_same; [now apply logged_same|exact Fs]|]. intros l1 l1' Hl.
  replace (proposal_cov t') with (proposal_cov t) by (unfold proposal_cov; now rewrite P9).
  eapply out_bind; [apply covmtx_same; exact Hl|]. intros l2 l2' Hl2. rewrite P1, P2, P5, P6, P7, P8, P9, P10, P11, P12, P13, P14, P15.
  cbn. constructor; cbn [r_index r_iiadapt r_savecount r_lastbin r_rej r_rejin r_rejout r_chain r_cov r_iacce r_io r_trace r_old r_ss r_s2 r_sigma2 r_S20 r_fs]; auto.
Qed.
Lemma step_same K i t t' : kok K -> srel (o_sschainfile (k_opts K)) t t' -> outcomes (srel (o_sschainfile (k_opts K))) (step E K i t) (step E' K i t').
Proof.
  intros HK H. unfold step. eapply out_bind; [apply (sample_same _ K _ _ HK H)|]. intros x y Hxy.
  destruct x as [[[[[st new] outb] z] ia] u], y as [[[[[st' new'] outb'] z'] ia'] u']. pose proof Hxy as (-> & -> & -> & -> & -> & _ & W & _).
  eapply out_bind; [apply (update_same _ _ _ _ _ _ H Hxy)|]. intros s1 s1' H1.
  replace (p_alpha new') with (p_alpha new) by (symmetry; apply W).
  eapply out_bind; [apply (adapt_same _ _ _ _ _ _ _ H1)|]. intros s2 s2' H2.
  eapply out_bind; [apply (sigma_same _ _ _ _ HK H2)|]. intros s3 s3' H3. now apply save_step_same.
Qed.
Lemma iterate_same K is : kok K -> forall t t', srel (o_sschainfile (k_opts K)) t t' -> outcomes (srel (o_sschainfile (k_opts K))) (iterate E K is t) (iterate E' K is t').
Proof.
  intros HK. induction is as [|i is IH]; intros t t' H; cbn [iterate]; [exact H|].
  eapply out_bind; [apply step_same; [exact HK|exact H]|]. intros u v Huv. now apply IH.
Qed.
Lemma execute_same K t t' : kok K -> srel (o_sschainfile (k_opts K)) t t' -> outcomes (srel (o_sschainfile (k_opts K))) (execute E K t) (execute E' K t').
Proof.
  intros HK H. unfold execute.
  eapply out_bind; [apply iterate_same; [exact HK|exact H]|]. intros u u' Hu. destruct (_ <=? _); [reflexivity|].
  pose proof Hu as [P O SS HI Fs]. inversion P as [[P1 P2 P3 P4 P5 P6 P7 P8 P9 P10 P11 P12 P13 P14 P15]]. clear P.
  rewrite P4. eapply out_bind; [apply log_same; [now apply logged_same|exact Fs]|]. intros l1 l1' Hl.
  replace (proposal_cov u') with (proposal_cov u) by (unfold proposal_cov; now rewrite P9).
  eapply out_bind; [apply covmtx_same; exact Hl|]. intros l2 l2' Hl2. rewrite P1, P2, P3, P5, P6, P7, P8, P9, P10, P11, P12, P13, P14, P15.
  cbn. constructor; cbn [r_index r_iiadapt r_savecount r_lastbin r_rej r_rejin r_rejout r_chain r_cov r_iacce r_io r_trace r_old r_ss r_s2 r_sigma2 r_S20 r_fs]; auto.
Qed.

(** ** The start of a run *)
Lemma sel_kept (f : param XR -> XR) : sel (map f ps) (flatnonzero (map (@a_sample XR) ps)) = map f (sampled_params ps).
Proof. unfold sel. rewrite (kept_at n0 ps (map f ps)) by apply map_length. apply kept_map. Qed.
Lemma view_ok : vok (view (check_prior_sigma (openparameterstructure ps))).
Proof.
  unfold PostFacts.vok. cbn [view check_prior_sigma openparameterstructure setup_adaptation_indices v_parind v_npar v_mu v_sigma op_parind op_mu op_sigma].
  split; [reflexivity|]. split; [reflexivity|]. rewrite map_map, !sel_kept. split; apply map_ext; intros p.
  - unfold setup_prior_mu, prior_mean. destruct (a_mu p); reflexivity.
  - unfold setup_prior_sigma, prior_width. rewrite XR_n0. destruct (a_sigma p) as [w| | |]; try reflexivity.
    destruct (neq (Fin w) (Fin 0%R)) eqn:X.
    + assert (w = 0%R) as ->. { revert X. cbn. unfold Reqb. destruct (Req_EM_T w 0); [auto|discriminate]. }
      destruct (Rle_dec 0 0) as [_|N]; [reflexivity|]. exfalso. apply N. apply Rle_refl.
    + cbn [nle Num_X xle]. destruct (Rle_dec w 0) as [Y|Y].
      * change (ale w 0%R) with (Rleb w 0). replace (Rleb w 0) with true; [reflexivity|]. symmetry. now apply RVec.Rleb_true.
      * change (ale w 0%R) with (Rleb w 0). destruct (Rleb w 0) eqn:Z; [|reflexivity]. apply RVec.Rleb_true in Z. contradiction.
Qed.

Definition irel (I I' : initrec XR) : Prop :=
  i_opts I' = i_opts I /\ i_model I' = i_model I /\ i_op I' = i_op I /\ i_cov I' = i_cov I /\ strict (i_set I) (i_set I') /\
  i_nsos I' = i_nsos I /\ i_iacce I' = i_iacce I /\ i_io I' = i_io I /\ iok (i_io I) /\ i_op I = check_prior_sigma (openparameterstructure ps).
Lemma init_same d ms o rdr pos calls : ms_sigma2 ms = Some [Fin s] ->
  outcomes irel (initialize_simulation E ps d ms o rdr pos calls) (initialize_simulation E' ps d ms o rdr pos calls).
Proof.
  intros Hs. unfold initialize_simulation. apply out_same. intros m1 Hm. apply out_same. intros _ _. apply out_same. intros _ _.
  rewrite cov_env. apply out_same. intros cov _. set (op := check_prior_sigma _).
  assert (Hs1 : ms_sigma2 m1 = Some [Fin s]).
  { unfold check_dependent_model_settings in Hm. destruct (match ms_N ms with Some _ => _ | None => _ end); [|discriminate]. cbn [bind] in Hm. rewrite Hs in Hm.
    destruct (ms_N0 ms); destruct (existsb _ _) in Hm; inversion Hm; reflexivity. }
  pose proof view_ok as HV. fold op in HV.
  assert (HI : iok (mkio pos (op_initial op) calls)) by (unfold PostFacts.iok; apply map_length).
  pose proof (eval_same ps s c E E' HP (view op) (sel (op_initial op) (op_parind op)) _ HV HI) as X.
  specialize (X ltac:(unfold sel; now rewrite map_length)).
  destruct (evaluate_sos_function E (view op) _ _) as [ss u]. destruct (evaluate_sos_function E' (view op) _ _) as [ss' u'].
  destruct X as (-> & I1 & W). specialize (W None None eq_refl). pose proof W as [(_ & _ & _ & _ & L) _]. cbn [p_ss] in L. rewrite L.
  apply out_same. intros m2 _. rewrite Hs1. cbn. unfold irel. cbn [i_opts i_model i_op i_cov i_set i_nsos i_iacce i_io].
  repeat (split; [reflexivity || assumption|]). reflexivity.
Qed.
Definition arel (x y : list (list XR) * list (list XR) * option (list (list XR)) * list (string * chref XR)) : Prop :=
  let '(ch, ss, s2, l) := x in let '(ch', ss', s2', l') := y in ch' = ch /\ List.length ss' = List.length ss /\ s2' = s2 /\ l' = l.
Lemma chains_same I I' s2 : irel I I' -> outcomes arel (initialize_chains I s2) (initialize_chains I' s2).
Proof.
  intros (Ho & Hm & Hp & Hc & [(T & _ & _ & _ & L) _] & Hn & _). unfold initialize_chains. rewrite Ho, Hp, T, Hn.
  apply out_same. intros row _. apply out_same. intros ch _. eapply out_bind; [apply fit_length; exact L|]. intros r1 r2 _.
  eapply out_bind; [apply write_length; reflexivity|]. intros w1 w2 Hw.
  destruct (o_updatesigma (i_opts I)).
  - apply out_same. intros q1 _. apply out_same. intros v1 _. cbn. auto.
  - cbn. auto.
Qed.
Lemma chains_named (I : initrec XR) s2 x : initialize_chains I s2 = Ok x -> Forall (fun e => snd e = RefSS -> fst e = o_sschainfile (i_opts I)) (snd x).
Proof.
  unfold initialize_chains. intros H. destruct (fit_row _ (p_theta _)); [|discriminate]. cbn [bind] in H. destruct (write _ _ _); [|discriminate]. cbn [bind] in H.
  destruct (fit_row _ (p_ss _)); [|discriminate]. cbn [bind] in H. destruct (write _ _ _); [|discriminate]. cbn [bind] in H. destruct (o_updatesigma (i_opts I)).
  - destruct (fit_row _ s2); [|discriminate]. cbn [bind] in H. destruct (write _ _ _); [|discriminate]. inversion H; subst. cbn. repeat constructor; cbn; congruence.
  - inversion H; subst. cbn. repeat constructor; cbn; congruence.
Qed.
Lemma prepared_same m qs I I' i x y : irel I I' -> arel x y ->
  o_updatesigma (i_opts I) = false -> Forall (fun e => snd e = RefSS -> fst e = o_sschainfile (i_opts I)) (snd x) ->
  outcomes same_course (run_prepared E m qs I i x) (run_prepared E' m qs I' i y).
Proof.
  intros (Ho & Hm & Hp & Hc & Hst & Hn & Hi & Hio & Hok & Hop) Ha U1 U2. destruct x as [[[ch ss] s2] l], y as [[[ch' ss'] s2'] l']. destruct Ha as (-> & Hl & -> & ->).
  unfold run_prepared. replace (make_const I' l) with (make_const I l) by (unfold make_const; now rewrite Ho, Hp, Hn, Hm). eapply out_bind.
  - apply (execute_same (make_const I l)).
    + constructor; unfold make_const; cbn [k_opts k_view]; auto. rewrite Hop. apply view_ok.
    + unfold start_state. rewrite Hc, Hi, Hio, Hm.
      constructor; cbn [r_index r_iiadapt r_savecount r_lastbin r_rej r_rejin r_rejout r_chain r_cov r_iacce r_io r_trace r_old r_ss r_s2 r_sigma2 r_S20 r_fs]; auto using orel_refl.
  - intros t t' [P O SS HI Fs]. inversion P as [[P1 P2 P3 P4 P5 P6 P7 P8 P9 P10 P11 P12 P13 P14 P15]]. clear P.
    cbn. rewrite Ho, Hm. constructor;
      cbn [m_params m_data m_model m_opts m_RDR m_status m_chain m_sschain m_s2chain m_index m_chains m_pos m_calls m_fs m_results m_trace]; try congruence.
    + change (k_opts (make_const I l)) with (i_opts I) in Fs. destruct (o_save_to_json (i_opts I)); [|exact Fs]. apply snoc_same; [exact Fs|apply op_refl].
    + cbn [option_map]. f_equal. unfold course_of, generate_results. cbn [rr_theta rr_parind rr_total_rejected rr_outside rr_R rr_qcov rr_cov rr_mean rr_names rr_allnames rr_lower rr_upper rr_nsimu rr_iacce rr_opts rr_chain rr_model rr_s2chain].
      replace (proposal_cov t') with (proposal_cov t) by (unfold proposal_cov; now rewrite P9). destruct O as [(T & _) _].
      now rewrite Ho, Hp, T, P5, P7, P8, P9, P10, P13, P14, P15.
Qed.

Lemma run_same m : m_params m = ps -> ms_sigma2 (m_model m) = Some [Fin s] -> ms_N0 (m_model m) = None ->
  o_updatesigma (m_opts m) = false -> o_restart (m_opts m) = None ->
  outcomes same_course (run_simulation E false m) (run_simulation E' false m).
Proof.
  intros Hps Hs HN U1 HR. unfold run_simulation. rewrite HR, Hps. cbn [bind].
  pose proof (init_same (m_data m) (m_model m) (m_opts m) (m_RDR m) (m_pos m) (m_calls m) Hs) as X.
  destruct (initialize_simulation E ps _ _ _ _ _ _) as [I|] eqn:HI, (initialize_simulation E' ps _ _ _ _ _ _) as [I'|]; cbn in X; try contradiction; [|subst; reflexivity].
  cbn [bind]. destruct (init_model E _ _ _ _ _ _ _ _ HI) as (_ & _ & _ & _ & HO). rewrite HN in HO.
  replace (i_model I') with (i_model I) by (symmetry; apply X).
  pose proof (chains_same I I' (lst (ms_sigma2 (i_model I))) X) as Y. pose proof (chains_named I (lst (ms_sigma2 (i_model I)))) as Z.
  destruct (initialize_chains I _) as [x|], (initialize_chains I' _) as [y|]; cbn in Y; try contradiction; [|subst; reflexivity]. cbn [bind].
  apply prepared_same; try assumption; [rewrite HO; assumption|]. now apply Z.
Qed.
End Post.
