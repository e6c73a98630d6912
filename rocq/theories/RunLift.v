(** From the loop invariant to whole sessions. *)

From Coq Require Import ZArith QArith Bool Lia List String.
From Verif Require Import Base Num Samplers Adapt Settings Simulator SamplerFacts RunFacts RunSpec.
Import ListNotations.
Open Scope list_scope.
Open Scope nat_scope.
Open Scope res_scope.

Section Lift.
Context {F : Type} `{NF : Num F}.

(** ** Opened parameters against declared parameters *)

Lemma pick_filter_from {B} (d : B) (f : param F -> B) ps : forall pre,
  map (fun i => nth i (pre ++ map f ps) d)
      (flatnonzero_from (List.length pre) (map (@a_sample F) ps)) =
  map f (sampled_params ps).
Proof.
  induction ps as [|p t IH]; intros pre; simpl; auto.
  assert (HS : map (fun i => nth i (pre ++ f p :: map f t) d)
                 (flatnonzero_from (S (List.length pre)) (map (@a_sample F) t)) =
               map f (sampled_params t)).
  { specialize (IH (pre ++ [f p])). rewrite app_length in IH. simpl in IH. rewrite Nat.add_1_r in IH.
    rewrite <- app_assoc in IH. exact IH. }
  unfold sampled_params in *. simpl. destruct (a_sample p); simpl; rewrite ?HS; auto.
  f_equal. rewrite app_nth2, Nat.sub_diag by lia. reflexivity.
Qed.

Lemma sel_filter (f : param F -> F) ps :
  sel (map f ps) (flatnonzero (map (@a_sample F) ps)) = map f (sampled_params ps).
Proof. apply (pick_filter_from n0 f ps []). Qed.

Lemma set_nth_mid {A} (pre : list A) x v post :
  set_nth (List.length pre) v (pre ++ x :: post) = pre ++ v :: post.
Proof. induction pre; simpl; auto. now f_equal. Qed.

Lemma scatter_fill_from ps : forall pre theta,
  scatter (pre ++ map (@a_theta0 F) ps)
          (flatnonzero_from (List.length pre) (map (@a_sample F) ps)) theta
  = pre ++ fill ps theta.
Proof.
  induction ps as [|p t IH]; intros pre theta; simpl.
  - destruct theta; auto.
  - assert (HS : forall x th, scatter (pre ++ x :: map (@a_theta0 F) t)
                   (flatnonzero_from (S (List.length pre)) (map (@a_sample F) t)) th =
                 pre ++ x :: fill t th).
    { intros x th. specialize (IH (pre ++ [x]) th). rewrite app_length in IH. simpl in IH.
      rewrite Nat.add_1_r in IH. rewrite <- !app_assoc in IH. exact IH. }
    destruct (a_sample p); simpl.
    + destruct theta as [|v r].
      * simpl. f_equal. f_equal. specialize (HS (a_theta0 p) []).
        destruct (flatnonzero_from (S (List.length pre)) (map (@a_sample F) t)); simpl in HS;
          apply app_inv_head in HS; congruence.
      * rewrite set_nth_mid. apply HS.
    + apply HS.
Qed.

Lemma scatter_fill ps theta :
  scatter (map (@a_theta0 F) ps) (flatnonzero (map (@a_sample F) ps)) theta = fill ps theta.
Proof. apply (scatter_fill_from ps []). Qed.

Lemma parind_length ps :
  List.length (flatnonzero (map (@a_sample F) ps)) = List.length (sampled_params ps).
Proof.
  rewrite <- (map_length (fun i => nth i (map (@a_theta0 F) ps) n0)).
  change (List.length (sel (map (@a_theta0 F) ps) (flatnonzero (map (@a_sample F) ps))) =
          List.length (sampled_params ps)).
  now rewrite sel_filter, map_length.
Qed.

Lemma op_parind_open ps : op_parind (openparameterstructure ps) = flatnonzero (map (@a_sample F) ps).
Proof. reflexivity. Qed.

Definition opview (ps : list (param F)) : pview F := view (check_prior_sigma (openparameterstructure ps)).

Lemma opview_facts ps :
  v_parind (opview ps) = flatnonzero (map (@a_sample F) ps) /\
  v_npar (opview ps) = List.length (sampled_params ps) /\
  v_lower (opview ps) = map (@a_min F) (sampled_params ps) /\
  v_upper (opview ps) = map (@a_max F) (sampled_params ps).
Proof.
  unfold opview, view. simpl. rewrite parind_length, !sel_filter. auto.
Qed.

Lemma opview_ok ps : view_ok (opview ps) (List.length (map (@a_theta0 F) ps)).
Proof.
  destruct (opview_facts ps) as (A & B & C & D).
  unfold view_ok. rewrite A, B, C, D, parind_length, !map_length.
  repeat split; auto.
  - apply flatnonzero_NoDup.
  - intros i Hi. apply flatnonzero_spec in Hi.
    rewrite <- (map_length (@a_sample F)). apply nth_error_Some. congruence.
Qed.

Lemma within_inside ps theta :
  List.length theta = List.length (sampled_params ps) ->
  within (map (@a_min F) (sampled_params ps)) (map (@a_max F) (sampled_params ps)) theta ->
  inside ps theta.
Proof.
  unfold inside, within. generalize (sampled_params ps). intros l. revert theta.
  induction l as [|p t IH]; intros [|x th] HL HW; simpl in *; try lia; constructor.
  - apply (HW 0 x); auto.
  - apply IH; [lia|]. intros i a b c Ha Hb Hc. apply (HW (S i)); auto.
Qed.

(** ** Declarations preserved by a restart *)

Definition same_decl (p q : param F) : Prop :=
  a_name p = a_name q /\ a_min p = a_min q /\ a_max p = a_max q /\ a_sample p = a_sample q /\
  a_sigma p = a_sigma q /\ a_adapt p = a_adapt q /\
  (a_sample p = false -> a_theta0 p = a_theta0 q).
Definition same_decls := Forall2 same_decl.

Lemma same_decls_refl ps : same_decls ps ps.
Proof. induction ps; constructor; auto. unfold same_decl; tauto. Qed.

Lemma same_decls_trans a b c : same_decls a b -> same_decls b c -> same_decls a c.
Proof.
  intros H; revert c; induction H as [|p q a b Hp H IH]; intros c Hc; inv Hc; constructor; [|apply IH; assumption].
  destruct Hp as (A1 & A2 & A3 & A4 & A5 & A6 & A7).
  match goal with H : same_decl q _ |- _ => destruct H as (B1 & B2 & B3 & B4 & B5 & B6 & B7) end.
  repeat split; try congruence. intros Hs. rewrite A7 by auto. apply B7. congruence.
Qed.

Lemma same_decls_inside a b theta : same_decls a b -> (inside a theta <-> inside b theta).
Proof.
  unfold inside, sampled_params. intros H. revert theta.
  induction H as [|p q a b Hp H IH]; intros theta; simpl; [tauto|].
  destruct Hp as (_ & H1 & H2 & H3 & _). rewrite <- H3. destruct (a_sample p); auto.
  split; intros HI; inv HI; constructor; try (apply IH; assumption); [rewrite <- H1, <- H2|rewrite H1, H2]; auto.
Qed.

Lemma same_decls_fill a b theta :
  same_decls a b -> List.length theta = List.length (sampled_params a) -> fill a theta = fill b theta.
Proof.
  intros H; revert theta; induction H as [|p q a b Hp H IH]; intros theta HL; simpl; auto.
  destruct Hp as (_ & _ & _ & H3 & _ & _ & H4). unfold sampled_params in *. simpl in *.
  rewrite <- H3. destruct (a_sample p).
  - destruct theta as [|v r]; simpl in *; [lia|]. f_equal. apply IH. lia.
  - f_equal; auto.
Qed.

Lemma same_decls_sampled a b : same_decls a b -> List.length (sampled_params a) = List.length (sampled_params b).
Proof.
  unfold sampled_params. induction 1 as [|p q a b Hp H IH]; simpl; auto.
  destruct Hp as (_ & _ & _ & H3 & _). rewrite <- H3. destruct (a_sample p); simpl; auto.
Qed.

Lemma restart_one_same name v ps : same_decls ps (map (restart_one name v) ps).
Proof.
  induction ps as [|p t IH]; simpl; constructor; auto.
  unfold restart_one, same_decl. destruct (String.eqb name (a_name p)); simpl; repeat split; auto.
  intros ->. reflexivity.
Qed.

Lemma results_to_params_same r : forall ps ps', results_to_params r ps = Ok ps' -> same_decls ps ps'.
Proof.
  unfold results_to_params. generalize 0. induction (rs_parind r) as [|i t IH]; intros ii ps ps' H; simpl in H.
  - inv H. apply same_decls_refl.
  - peel H. peel H. apply IH in H. eapply same_decls_trans; [apply restart_one_same|exact H].
Qed.

Lemma Forall2_len {A B} (P : A -> B -> Prop) l l' : Forall2 P l l' -> List.length l = List.length l'.
Proof. induction 1; simpl; auto. Qed.

Lemma inside_length ps theta : inside ps theta -> List.length theta = List.length (sampled_params ps).
Proof. intros H. symmetry. eapply Forall2_len; eauto. Qed.

Lemma same_decls_admissible a b v : same_decls a b -> admissible b v -> admissible a v.
Proof.
  intros H (theta & HI & ->). exists theta. split.
  - apply (same_decls_inside _ _ _ H); auto.
  - symmetry. apply same_decls_fill; auto. apply inside_length. apply (same_decls_inside _ _ _ H); auto.
Qed.

Variable E : env F.

(** ** Initialisation *)

Lemma init_facts ps d ms o rdr pos calls ini :
  initialize_simulation E ps d ms o rdr pos calls = Ok ini ->
  let base := map (@a_theta0 F) ps in
  let th0 := map (@a_theta0 F) (sampled_params ps) in
  i_op ini = check_prior_sigma (openparameterstructure ps) /\
  o_nsimu (i_opts ini) = o_nsimu o /\ o_ntry (i_opts ini) = o_ntry o /\
  p_theta (i_set ini) = th0 /\ inside ps th0 /\
  good_set E base (opview ps) (i_set ini) /\
  value_ok base (opview ps) (i_io ini) /\
  io_calls (i_io ini) = fill ps th0 :: calls /\
  i_nsos ini = List.length (p_ss (i_set ini)) /\
  i_iacce ini = (if 1 <? o_ntry o then repeat 0 (o_ntry o) else []) /\
  io_pos (i_io ini) = pos.
Proof.
  intros H base th0. unfold initialize_simulation in H. peel H. peel H. peel H. peel H.
  destruct (evaluate_sos_function _ _ _ _) as [ss s1] eqn:Hss.
  peel H. inv H. cbn [i_op i_opts i_set i_io i_nsos i_iacce p_theta p_ss].
  assert (Hsel : sel (op_initial (openparameterstructure ps)) (op_parind (openparameterstructure ps)) = th0).
  { apply sel_filter. }
  destruct (opview_facts ps) as (A & B & C & D).
  assert (Hin : inside ps th0).
  { unfold check_initial_values in E2. rewrite Hsel in E2.
    destruct (_ || _) eqn:Hb in E2; [discriminate E2|].
    apply within_inside; [unfold th0; now rewrite map_length|].
    apply outside_false_within; [now rewrite !map_length|].
    unfold is_sample_outside_bounds. rewrite <- Hb. f_equal; f_equal; f_equal.
    - symmetry. apply (sel_filter (@a_min F)).
    - symmetry. apply (sel_filter (@a_max F)). }
  change (sel (op_initial (check_prior_sigma (openparameterstructure ps)))
              (op_parind (check_prior_sigma (openparameterstructure ps))))
    with (sel (op_initial (openparameterstructure ps)) (op_parind (openparameterstructure ps))) in *.
  rewrite Hsel in Hss.
  change (op_initial (check_prior_sigma (openparameterstructure ps))) with base in Hss.
  assert (Hlen : List.length th0 = v_npar (opview ps)) by (unfold th0; rewrite B; apply map_length).
  assert (Hv : value_ok base (opview ps) (mkio pos base calls)) by (split; auto).
  destruct (sos_io E _ _ _ _ _ base Hss (opview_ok ps) Hv Hlen) as (S1 & S2 & S3 & _ & S5).
  rewrite (sel_filter (@a_theta0 F) ps). fold th0.
  split; [auto|]. split; [auto|]. split; [auto|]. split; [auto|]. split; [auto|].
  split. { split; [auto|]. split; [|split; auto].
           cbn [p_theta]. rewrite C, D. intros i t l u Ht Hl Hu.
           rewrite nth_error_map in Hl, Hu. destruct (nth_error (sampled_params ps) i) as [p|] eqn:Hp; [|discriminate].
           simpl in *. inv Hl. inv Hu.
           revert Hin Ht Hp. clear. unfold inside. generalize th0 (sampled_params ps).
           intros l0 l1 H. revert i. induction H as [|a b l2 l3 H0 H IH]; intros [|i] Ht Hp; simpl in *; try discriminate.
           - inv Ht. inv Hp. auto.
           - eapply IH; eauto. }
  split; [exact S2|].
  split. { rewrite S3. cbn [io_calls]. f_equal. exact (scatter_fill ps th0). }
  auto.
Qed.

(** ** One run *)

Lemma execute_facts base K st0 st :
  view_ok (k_view K) (List.length base) ->
  r_trace st0 = [] -> good_set E base (k_view K) (r_old st0) -> value_ok base (k_view K) (r_io st0) ->
  execute E K st0 = Ok st ->
  2 <= o_nsimu (k_opts K) /\ reached E K base st0 st /\
  List.length (r_trace st) = o_nsimu (k_opts K) - 1.
Proof.
  intros HV HT HG Hv H. unfold execute in H. peel H.
  destruct (o_nsimu (k_opts K) <=? 1) eqn:En; [discriminate|]. apply Nat.leb_gt in En.
  peel H. peel H. inv H. simpl.
  eapply reached_iterate in E0; eauto. destruct E0 as [R L]. split; [lia|]. split; auto.
  destruct R. split; simpl; auto.
Qed.

(** What [run_prepared] hands over. *)
Lemma run_prepared_facts m ps ini idx chain ss s2 chains m' :
  run_prepared E m ps ini idx (chain, ss, s2, chains) = Ok m' ->
  exists st ms, execute E (make_const ini chains) (start_state ini idx chain ss s2 (m_fs m)) = Ok st /\
    m_params m' = ps /\ m_data m' = m_data m /\ m_status m' = true /\
    m_chain m' = r_chain st /\ m_sschain m' = r_ss st /\ m_s2chain m' = r_s2 st /\
    m_index m' = r_index st /\ m_calls m' = io_calls (r_io st) /\ m_pos m' = io_pos (r_io st) /\
    m_results m' = Some (generate_results ini ms st) /\ m_trace m' = r_trace st ++ m_trace m /\
    m_chains m' = chains /\ m_opts m' = i_opts ini /\ m_model m' = ms /\
    m_RDR m' = c_RDR (r_cov st).
Proof.
  unfold run_prepared. intros H. peel H. inv H. simpl. do 2 eexists. split; [exact E0|].
  repeat split; auto.
Qed.

Lemma zeros_length n w : List.length (zeros (F:=F) n w) = n.
Proof. apply repeat_length. Qed.

(** The arrays a run starts from: those of a fresh run, or the earlier ones with room for the new rows. *)
Lemma initialize_chains_facts ini sigma2 chain ss s2 chains :
  initialize_chains ini sigma2 = Ok (chain, ss, s2, chains) ->
  List.length (p_theta (i_set ini)) = List.length (op_parind (i_op ini)) ->
  i_nsos ini = List.length (p_ss (i_set ini)) ->
  let n := o_nsimu (i_opts ini) in
  1 <= n /\ List.length chain = n /\ List.length ss = n /\
  nth_error chain 0 = Some (p_theta (i_set ini)) /\ nth_error ss 0 = Some (p_ss (i_set ini)) /\
  option_map (@List.length _) s2 = (if o_updatesigma (i_opts ini) then Some n else None) /\
  map fst chains = [o_chainfile (i_opts ini); o_sschainfile (i_opts ini)] ++
                   (if o_updatesigma (i_opts ini) then [o_s2chainfile (i_opts ini)] else []) /\
  map snd chains = [RefChain; RefSS] ++ (if o_updatesigma (i_opts ini) then [RefS2] else []).
Proof.
  intros H HL HN n. unfold initialize_chains in H.
  unfold fit_row in H at 1. rewrite HL, Nat.eqb_refl in H. cbn [bind] in H. peel H.
  rewrite HN in H. unfold fit_row in H at 1. rewrite Nat.eqb_refl in H. cbn [bind] in H. peel H.
  apply write_ok in E0 as [A1 ->]. apply write_ok in E1 as [A2 ->]. rewrite zeros_length in *.
  fold n in A1, A2, H.
  assert (H0 : List.length chain = n /\ List.length ss = n /\
    nth_error chain 0 = Some (p_theta (i_set ini)) /\ nth_error ss 0 = Some (p_ss (i_set ini)) /\
    option_map (@List.length _) s2 = (if o_updatesigma (i_opts ini) then Some n else None) /\
  map fst chains = [o_chainfile (i_opts ini); o_sschainfile (i_opts ini)] ++
                   (if o_updatesigma (i_opts ini) then [o_s2chainfile (i_opts ini)] else []) /\
  map snd chains = [RefChain; RefSS] ++ (if o_updatesigma (i_opts ini) then [RefS2] else [])).
  { destruct (o_updatesigma (i_opts ini)).
    - peel H. peel H. apply write_ok in E1 as [A3 ->]. rewrite zeros_length in *. inv H.
      clearbody n. destruct n as [|k]; [lia|]. unfold zeros. simpl. rewrite ?repeat_length.
      repeat split; auto.
    - inv H. clearbody n. destruct n as [|k]; [lia|]. unfold zeros. simpl. rewrite ?repeat_length.
      repeat split; auto. }
  split; [lia|]. exact H0.
Qed.

Lemma expand_chains_facts m ini chain ss s2 chains :
  expand_chains m ini = Ok (chain, ss, s2, chains) ->
  let n := o_nsimu (i_opts ini) - 1 in
  chain = m_chain m ++ zeros n (List.length (op_parind (i_op ini))) /\
  ss = m_sschain m ++ zeros n (i_nsos ini) /\
  (if o_updatesigma (i_opts ini)
   then exists old, m_s2chain m = Some old /\ s2 = Some (old ++ zeros n (i_nsos ini))
   else s2 = None) /\
  chains = map (fun e => (fst e, freeze m (snd e))) (m_chains m).
Proof.
  intros H n. unfold expand_chains in H. peel H. peel H. unfold extend in E0, E1.
  destruct (_ =? _) in E0; [|discriminate]. destruct (_ =? _) in E1; [|discriminate].
  inv E0. inv E1. destruct (o_updatesigma (i_opts ini)).
  - peel H. peel H. unfold extend in E1. destruct (_ =? _) in E1; [|discriminate]. inv E1. inv H.
    destruct (m_s2chain m); [|discriminate]. inv E0. repeat split; auto. eexists; split; eauto.
  - inv H. auto.
Qed.

(** The options a run works with: a restart file supplies the covariance. *)
Definition run_options (b : bool) (m : mcmc F) : simopts F :=
  if b then m_opts m
  else match o_restart (m_opts m) with
       | None => m_opts m
       | Some r => set_qcov (m_opts m) (rs_qcov r)
       end.

(** One successful run, fresh or resumed: everything the loop invariant gives, with the start state
    described.  [idx] is the row the run starts from. *)
Lemma run_facts b m m' :
  run_simulation E b m = Ok m' ->
  exists ps ini st0 st ms chains,
    let base := map (@a_theta0 F) ps in
    let K := make_const ini chains in
    let idx := if b then m_index m else 0 in
    same_decls (m_params m) ps /\
    (exists o, initialize_simulation E ps (m_data m) (m_model m) o (m_RDR m) (m_pos m) (m_calls m) = Ok ini /\
               o_nsimu o = o_nsimu (m_opts m) /\ o_ntry o = o_ntry (m_opts m) /\ o = run_options b m) /\
    (if b then exists r, m_results m = Some r /\ m_status m = true /\
                         results_to_params (restart_of r) (m_params m) = Ok ps
     else match o_restart (m_opts m) with
          | None => ps = m_params m
          | Some r => results_to_params r (m_params m) = Ok ps
          end) /\
    (if b then expand_chains m ini = Ok (r_chain st0, r_ss st0, r_s2 st0, chains)
     else initialize_chains ini (lst (ms_sigma2 (i_model ini))) = Ok (r_chain st0, r_ss st0, r_s2 st0, chains)) /\
    st0 = start_state ini idx (r_chain st0) (r_ss st0) (r_s2 st0) (m_fs m) /\
    execute E K st0 = Ok st /\
    k_view K = opview ps /\
    reached E K base st0 st /\
    2 <= o_nsimu (m_opts m) /\ o_nsimu (k_opts K) = o_nsimu (m_opts m) /\
    List.length (r_trace st) = o_nsimu (m_opts m) - 1 /\
    m_params m' = ps /\ m_data m' = m_data m /\ m_status m' = true /\
    m_chain m' = r_chain st /\ m_sschain m' = r_ss st /\ m_s2chain m' = r_s2 st /\
    m_index m' = r_index st /\ m_calls m' = io_calls (r_io st) /\ m_pos m' = io_pos (r_io st) /\
    m_results m' = Some (generate_results ini ms st) /\ m_trace m' = r_trace st ++ m_trace m /\
    m_chains m' = chains /\ m_opts m' = i_opts ini /\ m_model m' = ms /\
    m_RDR m' = c_RDR (r_cov st).
Proof.
  intros H.
  assert (HH : exists ps ini o chain ss s2 chains,
    same_decls (m_params m) ps /\
    initialize_simulation E ps (m_data m) (m_model m) o (m_RDR m) (m_pos m) (m_calls m) = Ok ini /\
    o_nsimu o = o_nsimu (m_opts m) /\ o_ntry o = o_ntry (m_opts m) /\ o = run_options b m /\
    (if b then exists r, m_results m = Some r /\ m_status m = true /\
                         results_to_params (restart_of r) (m_params m) = Ok ps
     else match o_restart (m_opts m) with
          | None => ps = m_params m
          | Some r => results_to_params r (m_params m) = Ok ps
          end) /\
    (if b then expand_chains m ini = Ok (chain, ss, s2, chains)
     else initialize_chains ini (lst (ms_sigma2 (i_model ini))) = Ok (chain, ss, s2, chains)) /\
    run_prepared E m ps ini (if b then m_index m else 0) (chain, ss, s2, chains) = Ok m').
  { unfold run_simulation in H. destruct b.
    - destruct (m_status m) eqn:Hst; [|discriminate]. destruct (m_results m) as [r|] eqn:Hr; [|discriminate].
      peel H. peel H. peel H. destruct a1 as [[[chain ss] s2] chains].
      exists a, a0, (m_opts m), chain, ss, s2, chains.
      split; [eapply results_to_params_same; eauto|]. repeat split; auto. eexists; eauto.
    - peel H. destruct a as [ps o]. peel H. peel H. destruct a0 as [[[chain ss] s2] chains].
      exists ps, a, o, chain, ss, s2, chains. unfold run_options.
      destruct (o_restart (m_opts m)) as [r|].
      + peel E0. inv E0. split; [eapply results_to_params_same; eauto|]. repeat split; auto.
      + inv E0. split; [apply same_decls_refl|]. repeat split; auto. }
  destruct HH as (ps & ini & o & chain & ss & s2 & chains & H1 & H2 & H3 & H4 & H4' & H5 & H6 & H7).
  apply run_prepared_facts in H7 as (st & ms & X1 & X).
  pose proof (init_facts _ _ _ _ _ _ _ _ H2) as (I1 & I2 & I3 & I4 & I5 & I6 & I7 & I8 & I9 & I10 & I11).
  set (st0 := start_state ini (if b then m_index m else 0) chain ss s2 (m_fs m)) in *.
  assert (HK : k_view (make_const ini chains) = opview ps).
  { unfold make_const. simpl. rewrite I1. reflexivity. }
  pose proof X1 as X1'.
  eapply (execute_facts (map (@a_theta0 F) ps)) in X1'; try rewrite HK; auto.
  - destruct X1' as (Y1 & Y2 & Y3). simpl in Y1, Y3.
    exists ps, ini, st0, st, ms, chains. cbv zeta.
    split; [auto|]. split; [eexists; eauto|]. split; [auto|].
    split; [exact H6|]. split; [reflexivity|]. split; [exact X1|]. split; [exact HK|]. split; [exact Y2|].
    split; [congruence|]. split; [simpl; congruence|]. split; [congruence|]. exact X.
  - apply opview_ok.
Qed.

End Lift.
