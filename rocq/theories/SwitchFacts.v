(** Sessions with one try under different names of methods. *)

From Coq Require Import ZArith QArith Bool Lia List String.
From Verif Require Import Base Num Samplers Adapt Settings Simulator RunSpec SwitchSpec.
Import ListNotations.
Close Scope Q_scope.
Open Scope list_scope.
Open Scope nat_scope.
Open Scope res_scope.

Section Switch.
Context {F : Type} `{NF : Num F}.
Variable E : env F.
Notation agree := (unless_singular E).

(** ** Outcomes *)
Lemma agree_bind {A B C D} (R : A -> B -> Prop) (S : C -> D -> Prop) x y f g :
  agree R x y -> (forall a b, R a b -> agree S (f a) (g b)) -> agree S (bind x f) (bind y g).
Proof.
  intros H K. destruct x, y; cbn in *; auto; [|contradiction]. destruct (f a); cbn; auto.
Qed.
Lemma agree_same {A C D} (S : C -> D -> Prop) (x : res A) f g : (forall a, x = Ok a -> agree S (f a) (g a)) -> agree S (bind x f) (bind x g).
Proof. intros K. destruct x; cbn; auto. Qed.
Lemma agree_eq {A} (x : res A) : agree eq x x.
Proof. destruct x; cbn; auto. Qed.

(** ** Options *)
Lemma tries_setup m : uses_dr_setup m = true <-> with_tries m.
Proof. unfold with_tries. destruct m; cbn; split; intros H; try discriminate; auto; destruct H; discriminate. Qed.
Lemma switches_checked (o o' : simopts F) b : same_switches o o' ->
  same_switches (check_dependent_simulation_options o b) (check_dependent_simulation_options o' b).
Proof. intros (H & H1 & H2 & H3). split; [|split; [exact H1|split; [exact H2|exact H3]]]. rewrite H. reflexivity. Qed.
Lemma switches_qcov (o o' : simopts F) q : same_switches o o' -> same_switches (set_qcov o q) (set_qcov o' q).
Proof. intros (H & H1 & H2 & H3). split; [|split; [exact H1|split; [exact H2|exact H3]]]. rewrite H. reflexivity. Qed.
Lemma switches_fields (o o' : simopts F) : same_switches o o' ->
  (o_nsimu o', o_adaptint o', o_ntry o', o_doram o', o_adascale o', o_burnintime o', (o_qcov o', o_initqcovn o', o_updatesigma o', o_RDR o', o_restart o')) =
  (o_nsimu o, o_adaptint o, o_ntry o, o_doram o, o_adascale o, o_burnintime o, (o_qcov o, o_initqcovn o, o_updatesigma o, o_RDR o, o_restart o)).
Proof. intros (-> & _). reflexivity. Qed.

(** ** Adaptation *)
Notation same_first := (fun a b : covst F => first_try b = first_try a).
Lemma single_try (o : simopts F) (R : list (list F)) : o_ntry o <= 1 -> forall drscale, update_delayed_rejection E R (o_ntry o) drscale = Ok None.
Proof. intros H d. unfold update_delayed_rejection. destruct (Nat.ltb_spec 1 (o_ntry o)); [lia|reflexivity]. Qed.
Lemma adaptation_same o o' c c' i ia rej ch ix u n al : same_switches o o' -> first_try c' = first_try c ->
  agree same_first (run_adaptation E c (ado_of o) i ia rej ch ix u n al) (run_adaptation E c' (ado_of o') i ia rej ch ix u n al).
Proof.
  intros H P. pose proof (proj1 (proj2 H)) as Hn. destruct H as (H & _). unfold first_try in P. inversion P as [[P1 P2 P3 P4 P5 P6 P7 P8]]. clear P.
  unfold run_adaptation. rewrite H. unfold ado_of. cbn [named o_burnintime o_burnin_scale o_ntry o_drscale o_alphatarget o_etaparam o_qcov_adjust o_doram ao_burnintime ao_burnin_scale ao_ntry ao_drscale ao_alphatarget ao_etaparam ao_qcov_adjust ao_doram].
  unfold cov_stats. rewrite P1, P2, P3, P4, P5, P6, P7, P8. destruct (_ <? _)%Z; [reflexivity|].
  apply agree_same. intros up _. rewrite !single_try by exact Hn. reflexivity.
Qed.
Lemma covariance_same o o' sg va pi na rdr rdr' th : same_switches o o' ->
  agree same_first
    (initialize_covariance E (o_method o) (o_ntry o) (o_drscale o) (o_RDR o) (o_qcov o) (o_adascale o) (o_initqcovn o) sg va pi na rdr th)
    (initialize_covariance E (o_method o') (o_ntry o') (o_drscale o') (o_RDR o') (o_qcov o') (o_adascale o') (o_initqcovn o') sg va pi na rdr' th).
Proof.
  intros H. pose proof (switches_fields _ _ H) as X. inversion X as [[X1 X2 X3 X4 X5 X6 X7 X8 X9 X10 X11]]. clear X.
  destruct H as (_ & Hn & HR & HT). rewrite X3, X5, X7, X8, X10, HR. unfold initialize_covariance. apply agree_same. intros [R sub] _.
  replace (o_ntry o - 1) with 0 by lia.
  assert (D : forall d, setup_RDR_matrix E R (o_ntry o) d None = let* iR := of_option LinAlgError (e_inv E R) in Ok (R, [R], [iR])).
  { intros d. unfold setup_RDR_matrix. replace (o_ntry o - 1) with 0 by lia. reflexivity. }
  rewrite !D. clear D. destruct (uses_dr_setup (o_method o)) eqn:U.
  - replace (uses_dr_setup (o_method o')) with true by (symmetry; apply tries_setup, HT; now apply tries_setup).
    destruct (e_inv E R); cbn; auto.
  - destruct (uses_dr_setup (o_method o')); [|reflexivity]. destruct (e_inv E R) eqn:I; cbn; [reflexivity|]. split; eauto.
Qed.

(** ** The loop *)
Record srel (t t' : rstate F) : Prop := {
  sr_plain : (r_index t', r_iiadapt t', r_savecount t', r_lastbin t', (r_rej t', r_rejin t', r_rejout t'), (r_chain t', r_ss t', r_s2 t'), (r_iacce t', r_io t', r_old t'), (r_sigma2 t', r_S20 t', r_fs t')) =
             (r_index t, r_iiadapt t, r_savecount t, r_lastbin t, (r_rej t, r_rejin t, r_rejout t), (r_chain t, r_ss t, r_s2 t), (r_iacce t, r_io t, r_old t), (r_sigma2 t, r_S20 t, r_fs t));
  sr_cov : first_try (r_cov t') = first_try (r_cov t);
  sr_trace : map iteration (r_trace t') = map iteration (r_trace t)
}.
Definition krel (K K' : rconst F) : Prop :=
  same_switches (k_opts K) (k_opts K') /\ k_view K' = k_view K /\ k_nsos K' = k_nsos K /\ k_N0 K' = k_N0 K /\ k_N K' = k_N K /\ k_alias K' = k_alias K /\ k_chains K' = k_chains K.
Ltac fields := cbn [r_index r_iiadapt r_savecount r_lastbin r_rej r_rejin r_rejout r_chain r_cov r_iacce r_io r_trace r_old r_ss r_s2 r_sigma2 r_S20 r_fs].
Ltac open P := inversion P as [[P1 P2 P3 P4 P5 P6 P7 P8 P9 P10 P11 P12 P13 P14 P15 P16]]; clear P.

Lemma first_R c c' : first_try c' = first_try c -> @c_R F c' = c_R c.
Proof. unfold first_try. intros H. inversion H. reflexivity. Qed.
Lemma sample_same K K' t t' : krel K K' -> srel t t' -> sample_step E K' t' = sample_step E K t.
Proof.
  intros (HO & HV & _) [P C T]. open P. unfold sample_step. rewrite HV, P11, P12, P13, (first_R _ _ C).
  pose proof (switches_fields _ _ HO) as X. inversion X as [[X1 X2 X3 X4 X5 X6 X7 X8 X9 X10 X11]]. rewrite X3.
  destruct HO as (_ & Hn & _). destruct (Nat.ltb_spec 1 (o_ntry (k_opts K))); [lia|]. reflexivity.
Qed.
Lemma update_same K K' t t' x : krel K K' -> srel t t' -> agree srel (update_chain K t x) (update_chain K' t' x).
Proof.
  intros (HO & HV & HS & _) [P C T]. open P. destruct x as [[[[[st new] outb] z] ia] u].
  unfold update_chain. rewrite HV, HS, P1, P2, P3, P4, P5, P6, P7, P8, P9, P10, P12, P13, P14, P15, P16.
  apply agree_same. intros row _. apply agree_same. intros ch _. apply agree_same. intros sr _. apply agree_same. intros ss _.
  cbn. constructor; fields; auto. cbn [map]. f_equal; [|exact T]. unfold iteration. cbn [ev_cov ev_pos ev_stage ev_outb ev_files]. now rewrite C.
Qed.
Lemma adapt_same K K' i u al t t' : krel K K' -> srel t t' -> agree srel (adapt_step E K i u al t) (adapt_step E K' i u al t').
Proof.
  intros (HO & HV & _) H. pose proof H as [P C T]. open P. unfold adapt_step.
  pose proof (switches_fields _ _ HO) as X. inversion X as [[X1 X2 X3 X4 X5 X6 X7 X8 X9 X10 X11]]. rewrite X2, P2, HV. destruct (_ && _)%bool; [|exact H].
  rewrite P1, P3, P4, P5, P6, P7, P8, P9, P10, P11, P12, P13, P14, P15, P16.
  eapply agree_bind; [apply adaptation_same; [exact HO|exact C]|]. intros c c' Hc. cbn. constructor; fields; auto.
Qed.
Lemma sigma_same K K' t t' : krel K K' -> srel t t' -> agree srel (sigma_step E K t) (sigma_step E K' t').
Proof.
  intros (HO & HV & HS & HN0 & HN & HA & _) H. pose proof H as [P C T]. open P. unfold sigma_step.
  pose proof (switches_fields _ _ HO) as X. inversion X as [[X1 X2 X3 X4 X5 X6 X7 X8 X9 X10 X11]]. rewrite X9. clear X. destruct (o_updatesigma (k_opts K)); [|exact H].
  rewrite HS, HN0, HN, HA, P13, P14, P15, P12. apply agree_same. intros [[a b] d] _. apply agree_same. intros row _. rewrite P10. apply agree_same. intros s2 _.
  rewrite P1. apply agree_same. intros w _. rewrite P2, P3, P4, P5, P6, P7, P8, P9, P11, P16. cbn. constructor; fields; auto.
Qed.
Lemma logged_same K K' t t' : krel K K' -> srel t t' -> logged K' t' = logged K t.
Proof.
  intros (_ & _ & _ & _ & _ & _ & HC) [P C T]. open P. unfold logged. rewrite HC. apply map_ext. intros [n r]. cbn [fst snd]. f_equal.
  destruct r; cbn [resolve]; [exact P8|exact P9|now rewrite P10|reflexivity].
Qed.
Lemma log_same (o o' : simopts F) ch a b l : same_switches o o' -> save_to_log_file o' ch a b l = save_to_log_file o ch a b (l : fs F).
Proof. intros (-> & _). reflexivity. Qed.
Lemma covmtx_same (o o' : simopts F) m a b l : same_switches o o' -> save_covmtx o' m a b l = save_covmtx o m a b (l : fs F).
Proof. intros (-> & _). reflexivity. Qed.
Lemma savesize_same (o o' : simopts F) : same_switches o o' -> o_savesize o' = o_savesize o.
Proof. intros (-> & _). reflexivity. Qed.
Lemma proposal_same t t' : srel t t' -> proposal_cov t' = proposal_cov t.
Proof. intros [P C T]. unfold proposal_cov. now rewrite (first_R _ _ C). Qed.
Lemma save_step_same K K' i t t' : krel K K' -> srel t t' -> agree srel (save_step K i t) (save_step K' i t').
Proof.
  intros HK H. pose proof HK as (HO & _). pose proof H as [P C T]. open P. unfold save_step. rewrite (savesize_same _ _ HO), P3. destruct (_ =? _)%Z; [|exact H].
  rewrite (logged_same _ _ _ _ HK H), (log_same _ _ _ _ _ _ HO), P16. apply agree_same. intros l1 _.
  rewrite (proposal_same _ _ H), (covmtx_same _ _ _ _ _ _ HO). apply agree_same. intros l2 _.
  rewrite P1, P2, P5, P6, P7, P8, P9, P10, P11, P12, P13, P14, P15. cbn. constructor; fields; auto.
Qed.
Lemma step_same K K' i t t' : krel K K' -> srel t t' -> agree srel (step E K i t) (step E K' i t').
Proof.
  intros HK H. unfold step. rewrite (sample_same _ _ _ _ HK H). apply agree_same. intros [[[[[st new] outb] z] ia] u] _.
  eapply agree_bind; [apply update_same; [exact HK|exact H]|]. intros s1 s1' H1.
  eapply agree_bind; [apply adapt_same; [exact HK|exact H1]|]. intros s2 s2' H2.
  eapply agree_bind; [apply sigma_same; [exact HK|exact H2]|]. intros s3 s3' H3. now apply save_step_same.
Qed.
Lemma iterate_same K K' is : krel K K' -> forall t t', srel t t' -> agree srel (iterate E K is t) (iterate E K' is t').
Proof.
  intros HK. induction is as [|i is IH]; intros t t' H; cbn [iterate]; [exact H|].
  eapply agree_bind; [apply step_same; [exact HK|exact H]|]. intros u v Huv. now apply IH.
Qed.
Lemma execute_same K K' t t' : krel K K' -> srel t t' -> agree srel (execute E K t) (execute E K' t').
Proof.
  intros HK H. pose proof HK as (HO & _). unfold execute. replace (o_nsimu (k_opts K')) with (o_nsimu (k_opts K)) by (destruct HO as (-> & _); reflexivity).
  eapply agree_bind; [apply iterate_same; [exact HK|exact H]|]. intros u u' Hu. destruct (_ <=? _); [cbn; auto|].
  pose proof Hu as [P C T]. open P. rewrite (logged_same _ _ _ _ HK Hu), (log_same _ _ _ _ _ _ HO), P4, P16. apply agree_same. intros l1 _.
  rewrite (proposal_same _ _ Hu), (covmtx_same _ _ _ _ _ _ HO). apply agree_same. intros l2 _.
  rewrite P1, P2, P3, P5, P6, P7, P8, P9, P10, P11, P12, P13, P14, P15. cbn. constructor; fields; auto.
Qed.

(** ** Runs and sessions *)
Definition irel (I I' : initrec F) : Prop :=
  same_switches (i_opts I) (i_opts I') /\ i_model I' = i_model I /\ i_op I' = i_op I /\ first_try (i_cov I') = first_try (i_cov I) /\ i_set I' = i_set I /\
  i_nsos I' = i_nsos I /\ i_iacce I' = i_iacce I /\ i_io I' = i_io I.
Lemma init_same ps d ms o o' rdr rdr' pos calls : same_switches o o' ->
  agree irel (initialize_simulation E ps d ms o rdr pos calls) (initialize_simulation E ps d ms o' rdr' pos calls).
Proof.
  intros H. unfold initialize_simulation. apply agree_same. intros m1 _. apply agree_same. intros _ _. apply agree_same. intros _ _.
  set (b := match ms_N0 ms with Some _ => true | None => false end). pose proof (switches_checked _ _ b H) as HC.
  eapply agree_bind; [apply covariance_same; exact HC|]. intros c c' Hc.
  destruct (evaluate_sos_function E _ _ _) as [ss s1]. apply agree_same. intros m2 _.
  cbn [unless_singular]. unfold irel. cbn [i_opts i_model i_op i_cov i_set i_nsos i_iacce i_io].
  replace (o_ntry (check_dependent_simulation_options o' b)) with (o_ntry (check_dependent_simulation_options o b)) by (destruct HC as (-> & _); reflexivity).
  repeat (split; [exact HC || exact Hc || reflexivity|]). reflexivity.
Qed.
Lemma chains_same I I' s2 : irel I I' -> initialize_chains I' s2 = initialize_chains I s2.
Proof. intros ((HO & _) & Hm & Hp & Hc & Hs & Hn & _). unfold initialize_chains. rewrite HO, Hp, Hs, Hn. reflexivity. Qed.
Lemma expand_same m m' I I' : same_but_name m m' -> irel I I' -> expand_chains m' I' = expand_chains m I.
Proof.
  intros H ((HO & _) & Hm & Hp & Hc & Hs & Hn & _). unfold expand_chains.
  rewrite HO, Hp, Hn, (sn_chain _ _ H), (sn_sschain _ _ H), (sn_s2chain _ _ H), (sn_chains _ _ H).
  replace (map (fun e => (fst e, freeze m' (snd e))) (m_chains m)) with (map (fun e => (fst e, freeze m (snd e))) (m_chains m)); [reflexivity|].
  apply map_ext. intros [n r]. cbn [fst snd]. f_equal. destruct r; cbn [freeze]; f_equal; symmetry; [apply (sn_chain _ _ H)|apply (sn_sschain _ _ H)|now rewrite (sn_s2chain _ _ H)].
Qed.
Lemma prepared_same m m' ps I I' i x : same_but_name m m' -> irel I I' ->
  agree same_but_name (run_prepared E m ps I i x) (run_prepared E m' ps I' i x).
Proof.
  intros H (HO & Hm & Hp & Hc & Hs & Hn & Hi & Hio). destruct x as [[[ch ss] s2] l]. unfold run_prepared. eapply agree_bind.
  - apply execute_same.
    + unfold krel, make_const. cbn [k_opts k_view k_nsos k_N0 k_N k_alias k_chains]. rewrite Hp, Hn, Hm. repeat (split; [exact HO || reflexivity|]). reflexivity.
    + unfold start_state. rewrite Hi, Hio, Hm, Hs, (sn_fs _ _ H). constructor; fields; auto.
  - intros t t' Ht. pose proof Ht as [P C T]. open P. cbn [unless_singular]. constructor;
      cbn [m_params m_data m_model m_opts m_RDR m_status m_chain m_sschain m_s2chain m_index m_chains m_pos m_calls m_fs m_results m_trace]; auto; try congruence.
    + apply (sn_data _ _ H).
    + destruct HO as (-> & _). rewrite P16. reflexivity.
    + cbn [option_map]. f_equal. unfold outcome_of, generate_results. cbn [rr_theta rr_parind rr_total_rejected rr_outside rr_R rr_qcov rr_cov rr_mean rr_names rr_allnames rr_lower rr_upper rr_nsimu rr_iacce rr_chain rr_model rr_sschain rr_s2chain].
      rewrite (proposal_same _ _ Ht), Hp, Hm. unfold first_try in C. inversion C as [[C1 C2 C3 C4 C5 C6 C7 C8]]. rewrite C1, C5, C6, P5, P7, P8, P9, P10, P11, P13, P14, P15.
      destruct HO as (-> & _). reflexivity.
    + rewrite !map_app, T, (sn_trace _ _ H). reflexivity.
Qed.
Lemma run_same u m m' : same_but_name m m' -> agree same_but_name (run_simulation E u m) (run_simulation E u m').
Proof.
  intros H. unfold run_simulation. rewrite (sn_params _ _ H), (sn_data _ _ H), (sn_model _ _ H), (sn_status _ _ H), (sn_index _ _ H), (sn_pos _ _ H), (sn_calls _ _ H).
  pose proof (sn_opts _ _ H) as HO. destruct u.
  - destruct (m_status m); [|cbn; auto]. pose proof (sn_results _ _ H) as X. destruct (m_results m) as [r|], (m_results m') as [r'|]; cbn in X; try discriminate; [|cbn; auto].
    replace (restart_of r') with (restart_of r) by (unfold outcome_of in X; unfold restart_of; congruence).
    apply agree_same. intros ps _. eapply agree_bind; [apply init_same; exact HO|]. intros I I' HI. rewrite (expand_same _ _ _ _ H HI). apply agree_same. intros x _. now apply prepared_same.
  - replace (o_restart (m_opts m')) with (o_restart (m_opts m)) by (destruct HO as (-> & _); reflexivity).
    apply agree_bind with (R := fun a b => fst b = fst a /\ same_switches (snd a) (snd b)).
    + destruct (o_restart (m_opts m)); [|cbn; auto]. apply agree_same. intros ps _. cbn [unless_singular fst snd]. split; [reflexivity|]. now apply switches_qcov.
    + intros [ps o] [ps' o'] [X HO']. cbn [fst snd] in *. subst ps'. eapply agree_bind; [apply init_same; exact HO'|]. intros I I' HI.
      replace (i_model I') with (i_model I) by (symmetry; apply HI). rewrite (chains_same _ _ _ HI). apply agree_same. intros x _. now apply prepared_same.
Qed.
Lemma acts_same l l' : Forall2 same_action l l' -> forall m m', same_but_name m m' -> agree same_but_name (acts E l m) (acts E l' m').
Proof.
  induction 1 as [|a a' l l' Ha Hl IH]; intros m m' H; cbn [acts]; [exact H|].
  eapply agree_bind with (R := same_but_name); [|intros u v Huv; now apply IH].
  destruct a, a'; try contradiction; cbn [same_action] in Ha; cbn [act].
  - cbn. destruct H. constructor; cbn; auto.
  - subst. cbn. destruct H. constructor; cbn; auto.
  - subst. now apply run_same.
Qed.
End Switch.
