(** A session in other units: the loop, the files, and whole sequences of user actions. *)

From Coq Require Import ZArith QArith Bool Lia List String Reals.
From Verif Require Import Base Num Samplers Adapt Settings Simulator SamplerFacts RunSpec ScaleNum ScaleSpec ScaleFacts.
Import ListNotations.
Close Scope Q_scope.
Close Scope R_scope.
Open Scope list_scope.
Open Scope nat_scope.
Open Scope res_scope.

Section Scale.
Variables k b : R.
Hypothesis Hk : (0 < k)%R.
Variable E : env XR.
Hypothesis Hsos : forall v, e_sos E v <> [].
Notation E' := (rescaled_env k b E).
Notation "$ v" := (map (sc k) v) (at level 9).
Notation "$$ v" := (map (map (sc k)) v) (at level 9).
Notation weak := (weak k b).
Notation strict := (strict k b).

(** ** Arrays *)
Lemma set_map {A B} (f : A -> B) i v l : set_nth i (f v) (map f l) = map f (set_nth i v l).
Proof. revert i. induction l; intros [|i]; cbn; [reflexivity..|]. now rewrite IHl. Qed.
Lemma write_map {A B} (f : A -> B) i v l : outcomes (fun a c => c = map f a) (write i v l) (write i (f v) (map f l)).
Proof. unfold write. rewrite map_length. destruct (_ <? _); cbn; [now rewrite set_map|reflexivity]. Qed.
Lemma fit_sc n x : outcomes (fun a c => c = $ a) (fit_row n x) (fit_row n ($ x)).
Proof.
  unfold fit_row. rewrite map_length. destruct (_ =? _); [reflexivity|]. destruct x as [|a [|c x]]; cbn; try reflexivity.
  induction n as [|n IH]; cbn; [reflexivity|]. now rewrite IH.
Qed.
Lemma write_len {A} i (v : A) l l' : write i v l = Ok l' -> List.length l' = List.length l.
Proof.
  unfold write. destruct (_ <? _); [|discriminate]. intros H. inversion H; subst. clear H. revert i. induction l; intros [|i]; cbn; auto.
Qed.

(** ** Files *)
Notation orel := (Forall2 (rescaled_op k)).
Lemma rows_slice a c x y : rescaled_rows k x y -> rescaled_rows k (slice a c x) (slice a c y).
Proof.
  intros [->| ->]; [now left|right]. unfold slice. now rewrite skipn_map, firstn_map.
Qed.
Lemma sets_exist p a c l l' : orel l l' ->
  existsb (fun e => match e with (a', b', _) => (a =? a') && (c =? b') end) (h5_sets p l') =
  existsb (fun e => match e with (a', b', _) => (a =? a') && (c =? b') end) (h5_sets p l).
Proof.
  unfold h5_sets. intros H. induction H as [|x y l l' H1 H2 IH]; cbn [map List.concat]; [reflexivity|].
  rewrite !existsb_app, IH. f_equal. destruct x, y; cbn in H1; try contradiction; try reflexivity.
  destruct H1 as (-> & -> & -> & _). destruct (path_eqb _ _); reflexivity.
Qed.
Lemma put_same p a c r r' l l' : orel l l' -> rescaled_rows k r r' -> outcomes orel (h5_put p a c r l) (h5_put p a c r' l').
Proof.
  intros H R. unfold h5_put. rewrite (sets_exist p a c l l' H). destruct (existsb _ _); [reflexivity|].
  cbn. apply Forall2_app; [exact H|]. constructor; [|constructor]. cbn. auto.
Qed.
Lemma snoc_same l l' x y : orel l l' -> rescaled_op k x y -> orel (l ++ [x]) (l' ++ [y]).
Proof. intros H1 H2. apply Forall2_app; [exact H1|]. constructor; [exact H2|constructor]. Qed.

Definition named (x y : string * list (list XR)) : Prop := fst x = fst y /\ rescaled_rows k (snd x) (snd y).
Lemma save_same h5 dir a c ch ch' : Forall2 named ch ch' -> forall l l', orel l l' ->
  outcomes orel (save_chains h5 dir a c ch l) (save_chains h5 dir a c ch' l').
Proof.
  induction 1 as [|[f m] [f' m'] ch ch' [H1 H2] H3 IH]; intros l l' H; cbn [save_chains]; [exact H|].
  cbn [fst snd] in H1, H2. subst f'. apply out_bind with (R := orel).
  - destruct h5; [apply put_same; [exact H|now apply rows_slice]|]. cbn. apply snoc_same; [exact H|]. cbn. split; [reflexivity|now apply rows_slice].
  - intros u v Huv. now apply IH.
Qed.
Lemma log_same o ch ch' a c l l' : Forall2 named ch ch' -> orel l l' ->
  outcomes orel (save_to_log_file o ch a c l) (save_to_log_file o ch' a c l').
Proof.
  intros Hc H. unfold save_to_log_file. apply out_bind with (R := orel).
  - destruct (o_save_to_bin o); [|exact H]. apply save_same; [exact Hc|]. apply snoc_same; [exact H|]. cbn. auto.
  - intros u v Huv. destruct (o_save_to_txt o); [|exact Huv]. apply save_same; [exact Hc|]. apply snoc_same; [exact Huv|]. cbn. auto.
Qed.
Lemma cov_same o m a c l l' : orel l l' -> outcomes orel (save_covmtx o m a c l) (save_covmtx o m a c l').
Proof.
  intros H. unfold save_covmtx. apply out_bind with (R := orel).
  - destruct (o_save_to_bin o); [|exact H]. apply put_same; [exact H|now left].
  - intros u v Huv. destruct (o_save_to_txt o); [|exact Huv]. cbn. apply snoc_same; [exact Huv|]. cbn. split; [reflexivity|now left].
Qed.

(** ** The loop *)
Record srel (s s' : rstate XR) : Prop := {
  sr_plain : (r_index s', r_iiadapt s', r_savecount s', r_lastbin s', (r_rej s', r_rejin s', r_rejout s'), r_chain s', r_cov s', (r_iacce s', r_io s', r_trace s')) =
             (r_index s, r_iiadapt s, r_savecount s, r_lastbin s, (r_rej s, r_rejin s, r_rejout s), r_chain s, r_cov s, (r_iacce s, r_io s, r_trace s));
  sr_old : strict (r_old s) (r_old s');
  sr_ss : r_ss s' = $$ (r_ss s);
  sr_s2 : r_s2 s' = option_map (map (map (sc k))) (r_s2 s);
  sr_sigma2 : r_sigma2 s' = $ (r_sigma2 s) /\ r_sigma2 s <> [];
  sr_S20 : r_S20 s' = $ (r_S20 s);
  sr_fs : orel (r_fs s) (r_fs s')
}.
Definition krel (K K' : rconst XR) : Prop :=
  K' = mkrc (k_opts K) (k_view K) (k_nsos K) (k_N0 K) (k_N K) (k_alias K) (k_chains K') /\ Forall2 (rescaled_ref k) (k_chains K) (k_chains K').

Definition smrel (x y : sampled XR) : Prop :=
  let '(stage, new, outb, z, iacce, s) := x in let '(stage', new', outb', z', iacce', s') := y in
  stage' = stage /\ outb' = outb /\ z' = z /\ iacce' = iacce /\ s' = s /\ weak new new' /\ (stage <> 0 -> strict new new').


Lemma sample_same K K' s s' : krel K K' -> srel s s' -> outcomes smrel (sample_step E K s) (sample_step E' K' s').
Proof.
  intros [HK _] [P O SS S2 [Sg Ne] S0 Fs]. inversion P as [[P1 P2 P3 P4 P5 P6 P7 P8 P9 P10 P11 P12]]. clear P.
  unfold sample_step. rewrite HK. cbn [k_view k_opts]. rewrite P9, P11, P10.
  eapply out_bind; [now apply (metropolis_same k b Hk E)|].
  intros [[[[acc new] outb] z] s1] [[[[acc' new'] outb'] z'] s1'] (-> & -> & -> & -> & W & Sa).
  destruct ((1 <? o_ntry (k_opts K)) && negb acc).
  - eapply out_bind with (R := drel k b).
    + unfold delayed_rejection_call. cbn [k_view k_opts]. destruct (c_RDR (r_cov s)); try reflexivity. unfold run_delayed_rejection.
      apply (dr_same k b Hk E); [exact O|apply W|apply W| |exact O]. constructor; [apply O|]. constructor; [exact W|constructor].
    + intros [[[[[a1 o1] b1] i1] p1] t1] [[[[[a2 o2] b2] i2] p2] t2] (-> & -> & -> & -> & Hp & Ho). cbn. rewrite (len_weak k b _ _ Hp).
      repeat (split; [reflexivity|]). split; [apply Ho|intros _; exact Ho].
  - cbn. repeat (split; [reflexivity|]). split; [exact W|]. destruct acc; [intros _; now apply Sa|intros X; now destruct X].
Qed.

Lemma update_same K K' s s' x y : krel K K' -> srel s s' -> smrel x y -> outcomes srel (update_chain K s x) (update_chain K' s' y).
Proof.
  intros [HK _] [P O SS S2 [Sg Ne] S0 Fs] H. inversion P as [[P1 P2 P3 P4 P5 P6 P7 P8 P9 P10 P11 P12]]. clear P.
  destruct x as [[[[[st new] outb] z] ia] t], y as [[[[[st' new'] outb'] z'] ia'] t']. destruct H as (-> & -> & -> & -> & -> & W & Sa).
  unfold update_chain. rewrite HK. cbn [k_view k_nsos]. rewrite P1, P2, P3, P4, P5, P6, P7, P8, P9, P11, P12, SS, S2, Sg, S0.
  set (cur := if negb (st =? 0) then new else r_old s). set (cur' := if negb (st =? 0) then new' else r_old s').
  assert (C : strict cur cur').
  { unfold cur, cur'. destruct (st =? 0) eqn:X; cbn; [exact O|]. apply Sa. now apply Nat.eqb_neq. }
  destruct C as [(T & Cs & Rest) Cp]. rewrite T, Cs. apply out_same. intros row _. apply out_same. intros ch _.
  eapply out_bind; [apply fit_sc|]. intros r1 r2 ->. eapply out_bind; [apply (write_map (map (sc k)))|]. intros w1 w2 ->.
  cbn. constructor; cbn [r_index r_iiadapt r_savecount r_lastbin r_rej r_rejin r_rejout r_chain r_cov r_iacce r_io r_trace r_old r_ss r_s2 r_sigma2 r_S20 r_fs]; auto.
  - replace (List.length (r_fs s')) with (List.length (r_fs s)); [reflexivity|]. clear -Fs. induction Fs; cbn; congruence.
  - split; [|exact Cp]. split; [exact T|]. split; [exact Cs|exact Rest].
Qed.
Lemma adapt_same K K' i u al s s' : krel K K' -> srel s s' -> outcomes srel (adapt_step E K i u al s) (adapt_step E' K' i u al s').
Proof.
  intros [HK _] H. pose proof H as [P O SS S2 [Sg Ne] S0 Fs]. inversion P as [[P1 P2 P3 P4 P5 P6 P7 P8 P9 P10 P11 P12]]. clear P.
  unfold adapt_step. rewrite HK. cbn [k_view k_opts]. rewrite P2. destruct (_ && _)%bool; [|exact H].
  rewrite P1, P3, P4, P5, P6, P7, P8, P9, P10, P11, P12, SS, S2, Sg, S0. change (run_adaptation E') with (run_adaptation E). apply out_same. intros c _. cbn.
  constructor; cbn [r_index r_iiadapt r_savecount r_lastbin r_rej r_rejin r_rejout r_chain r_cov r_iacce r_io r_trace r_old r_ss r_s2 r_sigma2 r_S20 r_fs]; auto.
Qed.
Lemma variance_len alias N0 N sos : forall n jj s2 s0 s x y t, update_error_variance E alias N0 N sos jj n s2 s0 s = Ok (x, y, t) -> List.length x = List.length s2.
Proof.
  induction n as [|n IH]; intros jj s2 s0 s x y t H; cbn [update_error_variance] in H; [inversion H; reflexivity|].
  destruct (nth_error N0 jj); [|discriminate]. cbn [of_option bind] in H. destruct (nth_error N jj); [|discriminate]. cbn [of_option bind] in H.
  destruct (nth_error s0 jj); [|discriminate]. cbn [of_option bind] in H. destruct (nth_error sos jj); [|discriminate]. cbn [of_option bind] in H.
  destruct (draw_sigma2 _ _ _ _ _ _) as [[v s1]|]; [|discriminate]. cbn [bind] in H.
  destruct (write jj v s2) eqn:W; [|discriminate]. cbn [bind] in H. rewrite (IH _ _ _ _ _ _ _ H). now apply write_len in W.
Qed.
Lemma sigma_same K K' s s' : krel K K' -> srel s s' -> outcomes srel (sigma_step E K s) (sigma_step E' K' s').
Proof.
  intros [HK _] H. pose proof H as [P O SS S2 [Sg Ne] S0 Fs]. inversion P as [[P1 P2 P3 P4 P5 P6 P7 P8 P9 P10 P11 P12]]. clear P.
  unfold sigma_step. rewrite HK. cbn [k_nsos k_opts k_alias k_N0 k_N]. destruct (o_updatesigma _); [|exact H].
  destruct O as [(T & Os & Og & Oa & On & _) Op].
  rewrite Os, map_length, Sg, S0, P11. pose proof (variance_same k b Hk E (k_alias K) (k_N0 K) (k_N K) (p_ss (r_old s)) (List.length (p_ss (r_old s))) 0 (r_sigma2 s) (r_S20 s) (r_io s)) as V.
  pose proof (variance_len (k_alias K) (k_N0 K) (k_N K) (p_ss (r_old s)) (List.length (p_ss (r_old s))) 0 (r_sigma2 s) (r_S20 s) (r_io s)) as L.
  destruct (update_error_variance E _ _ _ _ _ _ _ _ _) as [[[x y] t]|], (update_error_variance E' _ _ _ _ _ _ _ _ _) as [[[x' y'] t']|]; cbn in V; try contradiction; [|subst; reflexivity].
  destruct V as (-> & -> & ->). specialize (L _ _ _ eq_refl). cbn [bind].
  assert (Nx : x <> []) by (destruct x; [|discriminate]; destruct (r_sigma2 s); [congruence|discriminate]).
  eapply out_bind; [apply fit_sc|]. intros r1 r2 ->. rewrite S2. destruct (r_s2 s) as [m|]; [|reflexivity]. cbn [option_map of_option bind].
  rewrite P1. eapply out_bind; [apply (write_map (map (sc k)))|]. intros w1 w2 ->. rewrite P2, P3, P4, P5, P6, P7, P8, P9, P10, P12, SS, T, Oa.
  cbn. constructor; cbn [r_index r_iiadapt r_savecount r_lastbin r_rej r_rejin r_rejout r_chain r_cov r_iacce r_io r_trace r_old r_ss r_s2 r_sigma2 r_S20 r_fs]; auto.
  split; [|exact Op]. unfold ScaleFacts.weak. cbn [p_theta p_ss p_sigma2 p_alpha p_prior]. repeat (split; [reflexivity || assumption|]). left. exact Op.
Qed.
Lemma logged_same K K' s s' : krel K K' -> srel s s' -> Forall2 named (logged K s) (logged K' s').
Proof.
  intros [_ HC] [P O SS S2 _ _ _]. inversion P as [[P1 P2 P3 P4 P5 P6 P7 P8 P9 P10 P11 P12]]. unfold logged.
  induction HC as [|[n r] [n' r'] l l' [H1 H2] H3 IH]; cbn [map]; constructor; [|exact IH]. cbn [fst snd] in *. split; [exact H1|]. cbn [snd].
  destruct r, r'; try contradiction; cbn [resolve].
  - left. exact P8.
  - right. exact SS.
  - right. rewrite S2. destruct (r_s2 s); reflexivity.
  - exact H2.
Qed.
Lemma save_step_same K K' i s s' : krel K K' -> srel s s' -> outcomes srel (save_step K i s) (save_step K' i s').
Proof.
  intros HK0 H. pose proof (logged_same K K' s s' HK0 H) as HL. destruct HK0 as [HK _]. pose proof H as [P O SS S2 [Sg Ne] S0 Fs].
  inversion P as [[P1 P2 P3 P4 P5 P6 P7 P8 P9 P10 P11 P12]]. clear P. unfold save_step.
  replace (k_opts K') with (k_opts K) by (rewrite HK; reflexivity). rewrite P3. destruct (_ =? _)%Z; [|exact H].
  eapply out_bind; [apply log_same; [exact HL|exact Fs]|]. intros l l' Hl.
  replace (proposal_cov s') with (proposal_cov s) by (unfold proposal_cov; now rewrite P9).
  eapply out_bind; [apply cov_same; exact Hl|]. intros u v Huv. rewrite P1, P2, P5, P6, P7, P8, P9, P10, P11, P12, SS, S2, Sg, S0.
  cbn. constructor; cbn [r_index r_iiadapt r_savecount r_lastbin r_rej r_rejin r_rejout r_chain r_cov r_iacce r_io r_trace r_old r_ss r_s2 r_sigma2 r_S20 r_fs]; auto.
Qed.
Lemma step_same K K' i s s' : krel K K' -> srel s s' -> outcomes srel (step E K i s) (step E' K' i s').
Proof.
  intros HK H. unfold step. eapply out_bind; [apply sample_same; [exact HK|exact H]|]. intros x y Hxy.
  destruct x as [[[[[st new] outb] z] ia] t], y as [[[[[st' new'] outb'] z'] ia'] t']. pose proof Hxy as (-> & -> & -> & -> & -> & W & _).
  eapply out_bind; [apply update_same; [exact HK|exact H|exact Hxy]|]. intros s1 s1' H1.
  replace (p_alpha new') with (p_alpha new) by (symmetry; apply W).
  eapply out_bind; [apply adapt_same; [exact HK|exact H1]|]. intros s2 s2' H2.
  eapply out_bind; [apply sigma_same; [exact HK|exact H2]|]. intros s3 s3' H3. now apply save_step_same.
Qed.
Lemma iterate_same K K' is : krel K K' -> forall s s', srel s s' -> outcomes srel (iterate E K is s) (iterate E' K' is s').
Proof.
  intros HK. induction is as [|i is IH]; intros s s' H; cbn [iterate]; [exact H|].
  eapply out_bind; [apply step_same; [exact HK|exact H]|]. intros u v Huv. now apply IH.
Qed.
Lemma execute_same K K' s s' : krel K K' -> srel s s' -> outcomes srel (execute E K s) (execute E' K' s').
Proof.
  intros HK H. unfold execute. replace (k_opts K') with (k_opts K) by (destruct HK as [-> _]; reflexivity).
  eapply out_bind; [apply iterate_same; [exact HK|exact H]|]. intros t t' Ht. destruct (_ <=? _); [reflexivity|].
  pose proof (logged_same K K' t t' HK Ht) as HL. pose proof Ht as [P O SS S2 [Sg Ne] S0 Fs].
  inversion P as [[P1 P2 P3 P4 P5 P6 P7 P8 P9 P10 P11 P12]]. clear P. rewrite P4.
  eapply out_bind; [apply log_same; [exact HL|exact Fs]|]. intros l l' Hl.
  replace (proposal_cov t') with (proposal_cov t) by (unfold proposal_cov; now rewrite P9).
  eapply out_bind; [apply cov_same; exact Hl|]. intros u v Huv. rewrite P1, P2, P3, P5, P6, P7, P8, P9, P10, P11, P12, SS, S2, Sg, S0.
  cbn. constructor; cbn [r_index r_iiadapt r_savecount r_lastbin r_rej r_rejin r_rejout r_chain r_cov r_iacce r_io r_trace r_old r_ss r_s2 r_sigma2 r_S20 r_fs]; auto.
Qed.

(** ** Settings *)
Lemma nan_sc l : existsb (@nisnan XR _) ($ l) = existsb nisnan l.
Proof. induction l as [|x l IH]; [reflexivity|]. cbn [map existsb]. rewrite IH. f_equal. destruct x; reflexivity. Qed.
Lemma size_sc x n : outcomes (fun a c => c = $ a) (check_size_of_setting x n) (check_size_of_setting ($ x) n).
Proof.
  destruct x as [|a [|c x]].
  - cbn. destruct n; cbn; reflexivity.
  - cbn [map check_size_of_setting outcomes]. rewrite sc_mul_r by exact Hk. generalize (nmul n1 a). intros x. induction n as [|n IH]; cbn [repeat map]; [reflexivity|]. now rewrite IH.
  - unfold check_size_of_setting. cbn [map]. change (sc k a :: sc k c :: $ x) with ($ (a :: c :: x)). rewrite map_length.
    destruct (n <? _); [reflexivity|]. destruct (_ <? n); reflexivity.
Qed.
Lemma size_nonempty (x : list XR) n y : check_size_of_setting x n = Ok y -> n <> 0 -> y <> [].
Proof.
  intros H Hn. unfold check_size_of_setting in H. destruct x as [|a [|c x]].
  - cbn in H. destruct n; [congruence|discriminate].
  - inversion H; subst. destruct n; [congruence|discriminate].
  - destruct (n <? _); [discriminate|]. destruct (_ <? n); [discriminate|]. inversion H; subst. discriminate.
Qed.
Definition mrel2 (a c : modset XR) : Prop := c = rescaled_model k a /\ variance_given a.
Lemma dependent_same ms d : variance_given ms -> outcomes mrel2 (check_dependent_model_settings ms d) (check_dependent_model_settings (rescaled_model k ms) d).
Proof.
  intros (s & Hs & Ne). unfold check_dependent_model_settings. unfold rescaled_model at 1 2 3 4 5 6 7. cbn [ms_nbatch ms_N ms_N0 ms_sigma2 ms_S20 ms_alias]. rewrite Hs. cbn [option_map].
  apply out_same. intros N _. rewrite nan_sc.
  destruct (ms_N0 ms) as [n|]; destruct (existsb nisnan (ms_S20 ms)); cbn; (split; [reflexivity|]); exists s; auto.
Qed.
Lemma wrt_same ms ms' n : mrel2 ms ms' -> n <> 0 -> outcomes mrel2 (check_wrt_nsos ms n) (check_wrt_nsos ms' n).
Proof.
  intros [-> (s & Hs & Ne)] Hn. unfold check_wrt_nsos. unfold rescaled_model at 1 2 3 4 5 6. cbn [ms_nbatch ms_N ms_N0 ms_sigma2 ms_S20 ms_alias]. rewrite Hs. cbn [option_map].
  eapply out_bind; [apply size_sc|]. intros s0 s0' ->. apply out_same. intros N0 _.
  pose proof (size_sc s n) as X. pose proof (fun y => size_nonempty s n y) as Y.
  destruct (check_size_of_setting s n) as [y|], (check_size_of_setting ($ s) n) as [y'|]; cbn in X; try contradiction; [subst y'|subst; reflexivity].
  cbn [bind]. apply out_same. intros N _. cbn [outcomes]. split; [unfold rescaled_model; cbn [ms_nbatch ms_N ms_N0 ms_sigma2 ms_S20 ms_alias option_map]; rewrite ?Hs; cbn [option_map]; rewrite ?map_length; reflexivity|]. exists y. split; [reflexivity|]. now apply Y.
Qed.

Definition irel (I I' : initrec XR) : Prop :=
  i_opts I' = i_opts I /\ mrel2 (i_model I) (i_model I') /\ i_op I' = i_op I /\ i_cov I' = i_cov I /\ strict (i_set I) (i_set I') /\
  i_nsos I' = i_nsos I /\ i_iacce I' = i_iacce I /\ i_io I' = i_io I.
Lemma init_same ps d ms o rdr pos calls : variance_given ms ->
  outcomes irel (initialize_simulation E ps d ms o rdr pos calls) (initialize_simulation E' ps d (rescaled_model k ms) o rdr pos calls).
Proof.
  intros Hv. unfold initialize_simulation. change (ms_N0 (rescaled_model k ms)) with (ms_N0 ms).
  eapply out_bind; [apply dependent_same; exact Hv|]. intros m1 m1' Hm. apply out_same. intros _ _. apply out_same. intros _ _.
  change (initialize_covariance E') with (initialize_covariance E). apply out_same. intros cov _.
  unfold evaluate_sos_function, evaluate_prior. cbn [rescaled_env e_sos e_prior]. set (op := check_prior_sigma _). set (v := scatter _ _ _).
  rewrite map_length. set (o' := check_dependent_simulation_options _ _).
  eapply out_bind; [apply wrt_same; [exact Hm|]|].
  { pose proof (Hsos v). destruct (e_sos E v); [congruence|discriminate]. }
  intros m2 m2' Hm2. cbn. unfold irel. cbn [i_opts i_model i_op i_cov i_set i_nsos i_iacce i_io].
  split; [reflexivity|]. split; [exact Hm2|]. do 2 (split; [reflexivity|]). split; [|repeat split].
  destruct Hm as [-> (s & Hs & Ne)]. unfold rescaled_model. cbn [ms_sigma2]. rewrite Hs. cbn [option_map].
  split; [|reflexivity]. unfold ScaleFacts.weak. cbn [p_theta p_ss p_sigma2 p_alpha p_prior]. repeat (split; [reflexivity || assumption|]). now left.
Qed.

(** ** Chains *)
Lemma zeros_sc n m : $$ (zeros n m) = (zeros n m : list (list XR)).
Proof.
  unfold zeros. assert (X : $ (repeat n0 m) = repeat n0 m). { induction m as [|m IH]; cbn [repeat map]; [reflexivity|]. now rewrite IH, sc_0. }
  induction n as [|n IH]; cbn [repeat map]; [reflexivity|]. now rewrite IH, X.
Qed.
Definition arel (x y : list (list XR) * list (list XR) * option (list (list XR)) * list (string * chref XR)) : Prop :=
  let '(c, s, s2, l) := x in let '(c', s', s2', l') := y in
  c' = c /\ s' = $$ s /\ s2' = option_map (map (map (sc k))) s2 /\ Forall2 (rescaled_ref k) l l'.
Lemma chains_same I I' s2 : irel I I' -> outcomes arel (initialize_chains I s2) (initialize_chains I' ($ s2)).
Proof.
  intros (Ho & Hm & Hp & Hc & [(T & Ss & _) _] & Hn & _). unfold initialize_chains. rewrite Ho, Hp, T, Ss, Hn.
  apply out_same. intros row _. apply out_same. intros ch _. eapply out_bind; [apply fit_sc|]. intros r1 r2 ->.
  rewrite <- (zeros_sc (o_nsimu (i_opts I)) (i_nsos I)) at 2. eapply out_bind; [apply (write_map (map (sc k)))|]. intros w1 w2 ->.
  destruct (o_updatesigma (i_opts I)).
  - eapply out_bind; [apply fit_sc|]. intros q1 q2 ->. rewrite <- (zeros_sc (o_nsimu (i_opts I)) (i_nsos I)) at 2.
    eapply out_bind; [apply (write_map (map (sc k)))|]. intros v1 v2 ->. cbn. repeat (split; [reflexivity|]). repeat constructor.
  - cbn. repeat (split; [reflexivity|]). repeat constructor.
Qed.
Lemma ncols_sc (m : list (list XR)) : ncols ($$ m) = ncols m.
Proof. destruct m; cbn; [reflexivity|]. apply map_length. Qed.
Lemma extend_sc a n w : outcomes (fun x y => y = $$ x) (extend a n w) (extend ($$ a) n w).
Proof. unfold extend. rewrite ncols_sc. destruct (_ =? _); [|reflexivity]. cbn. now rewrite map_app, zeros_sc. Qed.
Lemma expand_same m m' I I' : rescaled k m m' -> irel I I' -> outcomes arel (expand_chains m I) (expand_chains m' I').
Proof.
  intros H (Ho & Hm & Hp & Hc & _ & Hn & _). unfold expand_chains. rewrite Ho, Hp, Hn, (re_chain _ _ _ H), (re_sschain _ _ _ H), (re_s2chain _ _ _ H).
  apply out_same. intros ch _. eapply out_bind; [apply extend_sc|]. intros s s' ->.
  assert (F : Forall2 (rescaled_ref k) (map (fun e => (fst e, freeze m (snd e))) (m_chains m)) (map (fun e => (fst e, freeze m' (snd e))) (m_chains m'))).
  { pose proof (re_chains _ _ _ H) as X. induction X as [|[n r] [n' r'] l l' [H1 H2] H3 IH]; cbn [map]; constructor; [|exact IH].
    cbn [fst snd] in *. split; [exact H1|]. cbn [snd]. destruct r, r'; try contradiction; cbn [freeze].
    - left. apply (re_chain _ _ _ H).
    - right. apply (re_sschain _ _ _ H).
    - right. rewrite (re_s2chain _ _ _ H). destruct (m_s2chain m); reflexivity.
    - exact H2. }
  destruct (o_updatesigma (i_opts I)).
  - destruct (m_s2chain m) as [s2|]; [|reflexivity]. cbn [option_map of_option bind]. eapply out_bind; [apply extend_sc|]. intros t t' ->.
    cbn. repeat (split; [reflexivity|]). exact F.
  - cbn. repeat (split; [reflexivity|]). exact F.
Qed.

(** ** Runs and sessions *)
Definition orel2 (m m' : mcmc XR) : Prop := rescaled k m m' /\ variance_given (m_model m).
Lemma prepared_same m m' ps I I' i x y : rescaled k m m' -> irel I I' -> arel x y ->
  outcomes orel2 (run_prepared E m ps I i x) (run_prepared E' m' ps I' i y).
Proof.
  intros H (Ho & [Hm (s & Hs & Ne)] & Hp & Hc & Hst & Hn & Hi & Hio) Ha. destruct x as [[[c ss] s2] l], y as [[[c' ss'] s2'] l']. destruct Ha as (-> & -> & -> & Hl).
  unfold run_prepared. eapply out_bind.
  - apply execute_same.
    + unfold krel, make_const. cbn [k_opts k_view k_nsos k_N0 k_N k_alias k_chains]. rewrite Ho, Hp, Hn, Hm. split; [reflexivity|exact Hl].
    + unfold start_state. rewrite Hc, Hi, Hio, Hm.
      constructor; cbn [r_index r_iiadapt r_savecount r_lastbin r_rej r_rejin r_rejout r_chain r_cov r_iacce r_io r_trace r_old r_ss r_s2 r_sigma2 r_S20 r_fs]; auto.
      * unfold rescaled_model. cbn [ms_sigma2]. rewrite Hs. cbn. auto.
      * apply (re_fs _ _ _ H).
  - intros t t' [P O SS S2 [Sg Nn] S0 Fs]. inversion P as [[P1 P2 P3 P4 P5 P6 P7 P8 P9 P10 P11 P12]]. clear P.
    cbn. split; [|exists (r_sigma2 t); auto]. rewrite Ho. constructor;
      cbn [m_params m_data m_model m_opts m_RDR m_status m_chain m_sschain m_s2chain m_index m_chains m_pos m_calls m_fs m_results m_trace]; try congruence.
    + apply (re_data _ _ _ H).
    + unfold rescaled_model. rewrite Hm. cbn. now rewrite Sg, S0.
    + destruct (o_save_to_json (i_opts I)); [|exact Fs]. apply snoc_same; [exact Fs|]. cbn. auto.
    + unfold rescaled_results, generate_results, plain_results. cbn. rewrite Ho, Hp.
      replace (proposal_cov t') with (proposal_cov t) by (unfold proposal_cov; now rewrite P9). destruct O as [(T & _) _].
      split; [|split; [|split; assumption]].
      * now rewrite T, P5, P7, P8, P9, P10.
      * unfold rescaled_model. rewrite Hm. cbn. now rewrite Sg, S0.
    + now rewrite P12, (re_trace _ _ _ H).
Qed.
Lemma results_same m m' : rescaled k m m' -> option_map restart_of (m_results m') = option_map restart_of (m_results m).
Proof.
  intros H. pose proof (re_results _ _ _ H) as X. destruct (m_results m), (m_results m'); try contradiction; [|reflexivity]. cbn. f_equal.
  destruct X as [X _]. unfold plain_results in X. inversion X. unfold restart_of. congruence.
Qed.
Lemma run_same u m m' : orel2 m m' -> outcomes orel2 (run_simulation E u m) (run_simulation E' u m').
Proof.
  intros [H Hv]. unfold run_simulation. rewrite (re_params _ _ _ H), (re_data _ _ _ H), (re_model _ _ _ H), (re_opts _ _ _ H), (re_RDR _ _ _ H), (re_status _ _ _ H), (re_index _ _ _ H), (re_pos _ _ _ H), (re_calls _ _ _ H).
  destruct u.
  - pose proof (results_same _ _ H) as X. destruct (m_status m); [|reflexivity]. destruct (m_results m) as [r|], (m_results m') as [r'|]; cbn in X; try discriminate; [|reflexivity].
    replace (restart_of r') with (restart_of r) by congruence. apply out_same. intros ps _. eapply out_bind; [apply init_same; exact Hv|].
    intros I I' HI. eapply out_bind; [apply expand_same; [exact H|exact HI]|]. intros x y Hxy. now apply prepared_same.
  - apply out_same. intros [ps o] _. eapply out_bind; [apply init_same; exact Hv|]. intros I I' HI.
    replace (lst (ms_sigma2 (i_model I'))) with ($ (lst (ms_sigma2 (i_model I)))).
    + eapply out_bind; [apply chains_same; exact HI|]. intros x y Hxy. now apply prepared_same.
    + destruct HI as (_ & [-> _] & _). unfold rescaled_model. cbn. destruct (ms_sigma2 (i_model I)); reflexivity.
Qed.
Lemma acts_same l : variances_given l -> forall m m', orel2 m m' ->
  outcomes orel2 (acts E l m) (acts E' (map (rescaled_action k) l) m').
Proof.
  induction 1 as [|a l Ha Hl IH]; intros m m' H; cbn [acts map]; [exact H|].
  eapply out_bind with (R := orel2); [|intros u v Huv; now apply IH].
  destruct a as [o|ms|u]; cbn [rescaled_action act]; [| |now apply run_same]; cbn; destruct H as [H Hv].
  - split; [|exact Hv]. destruct H. constructor; cbn; auto.
  - split; [|exact Ha]. destruct H. constructor; cbn; auto.
Qed.
Lemma new_same ps d ms o pos l : variance_given ms -> orel2 (new_mcmc ps d ms o pos l) (new_mcmc ps d (rescaled_model k ms) o pos l).
Proof.
  intros H. split; [|exact H]. constructor; cbn; auto. induction l as [|x l IH]; constructor; [|exact IH].
  destruct x; cbn; unfold rescaled_rows; auto.
Qed.
End Scale.
