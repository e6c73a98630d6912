(** The course of a run with custom samplers. *)

From Coq Require Import ZArith QArith Bool Lia List String.
From Verif Require Import Base Num Samplers Adapt Settings Simulator RunSpec SamplerFacts RunFacts RunLift SettingsFacts LogSpec LogFacts
  Custom CustomSpec CustomFacts.
Import ListNotations.
Close Scope Q_scope.
Open Scope list_scope.
Open Scope nat_scope.
Open Scope res_scope.

Section CustomRun.
Context {F : Type} `{NF : Num F} {St Out : Type}.
Notation sampler := (sampler F St Out).
Notation ucall := (ucall F Out).

Lemma save_after K i (st t : rstate F) cur pos : save_step K i (after_update st cur pos) = Ok t ->
  exists t', save_step K i st = Ok t' /\ t = after_update t' cur pos.
Proof.
  unfold save_step. intros H.
  change (r_savecount (after_update st cur pos)) with (r_savecount st) in *.
  change (logged K (after_update st cur pos)) with (logged K st) in *.
  change (proposal_cov (after_update st cur pos)) with (proposal_cov st) in *.
  change (r_fs (after_update st cur pos)) with (r_fs st) in *.
  destruct (_ =? _)%Z.
  - peel H. peel H. rewrite E. cbn [bind]. rewrite E0. cbn [bind]. injection H as <-. eexists. split; reflexivity.
  - injection H as <-. eauto.
Qed.

Variable E : env F.
Variable u : usersos F Out.
Variable samplers : list sampler.

(** One iteration is one iteration of the plain loop, in the environment with the latest outputs, followed by the samplers. *)
Lemma cstep_step K i c c' : cstep E u samplers K i c = Ok c' ->
  exists t e out cur pos sts f,
    step (with_custom E u (Some (c_out c))) K i (c_run c) = Ok t /\ r_trace t = e :: r_trace (c_run c) /\
    update_all samplers (c_sts c) (negb (ev_stage e =? 0)) i (r_old t) (io_pos (r_io t)) = (out, cur, pos, sts) /\
    c' = mkcst (with_files (after_update t cur pos) f) sts out (mkucall i (negb (ev_stage e =? 0)) (r_old t) out :: c_calls c) /\
    (if (Z.of_nat (S (r_savecount (c_run c))) =? o_savesize (k_opts K))%Z
     then save_custom (k_opts K) samplers sts (i - Z.to_nat (o_savesize (k_opts K))) i (r_fs t) = Ok f else f = r_fs t).
Proof.
  intros H. unfold cstep in H. peel H. destruct a as [[[[[stage new] outb] z] ia] s0]. peel H. peel H. peel H.
  destruct (update_all _ _ _ _ _ _) as [[[out cur] pos] sts] eqn:HU. peel H. peel H. injection H as <-.
  apply save_after in E4 as (t & HS & ->).
  exists t, (mkev (r_cov (c_run c)) (io_pos (r_io (c_run c))) stage outb (List.length (r_fs (c_run c)))), out, cur, pos, sts, a3.
  pose proof (save_frame _ _ _ _ HS) as (_ & _ & S1 & _ & _ & _ & _ & _ & _ & _ & _ & _ & _ & S2 & S3).
  pose proof (sigma_frame _ _ _ _ E3) as (_ & _ & G0 & _ & _ & _ & _ & _ & _ & _ & _ & _ & _ & _ & _ & _ & _ & _ & G1 & _).
  pose proof (adapt_frame _ _ _ _ _ _ _ E2) as (_ & A0 & _ & _ & _ & _ & _ & _ & _ & _ & _ & _ & _ & _ & A1).
  assert (U : r_trace a = mkev (r_cov (c_run c)) (io_pos (r_io (c_run c))) stage outb (List.length (r_fs (c_run c))) :: r_trace (c_run c) /\
              r_savecount a = S (r_savecount (c_run c))).
  { unfold update_chain in E1. do 4 peel E1. injection E1 as <-. split; reflexivity. }
  destruct U as [U1 U2].
  split. { unfold step. rewrite E0. cbn [bind]. rewrite E1. cbn [bind]. rewrite E2. cbn [bind]. rewrite E3. exact HS. }
  split; [now rewrite S3, G1, A1|]. split; [cbn [ev_stage]; rewrite S1, S2; exact HU|].
  split; [cbn [ev_stage]; rewrite S1; reflexivity|].
  change (r_savecount (after_update a1 cur pos)) with (r_savecount a1) in E5. rewrite G0, A0, U2 in E5.
  change (r_fs (after_update t cur pos)) with (r_fs t) in E5. destruct (_ =? _)%Z; [exact E5|]. now injection E5 as <-.
Qed.

(** The samplers that keep the set, one by one. *)
Lemma update_keeps (l : list sampler) : Forall keeps l -> forall sts acc i cur pos out cur' pos' sts',
  List.length sts = List.length l -> update_all l sts acc i cur pos = (out, cur', pos', sts') ->
  cur' = cur /\ List.length sts' = List.length sts /\
  forall j cs st, nth_error l j = Some cs -> nth_error sts j = Some st ->
    exists p o p' st', cs_update cs acc i cur p st = (o, cur, p', st') /\ nth_error out j = Some o /\ nth_error sts' j = Some st'.
Proof.
  induction 1 as [|cs l Q _ IH]; intros [|st sts] acc i cur pos out cur' pos' sts' HL H; try discriminate; cbn [update_all] in H.
  - injection H as <- <- <- <-. repeat split. intros [|j] ? ? X; discriminate.
  - destruct (Q acc i cur pos st) as (o & p' & st' & HQ). rewrite HQ in H.
    destruct (update_all l sts acc i cur p') as [[[os c1] p1] sts1] eqn:HU. injection H as <- <- <- <-.
    apply IH in HU as (-> & L & HU); [|now injection HL]. split; [reflexivity|]. split; [cbn; now rewrite L|].
    intros [|j] cs0 st0 H1 H2; cbn in *.
    + injection H1 as <-. injection H2 as <-. eauto 10.
    + eauto.
Qed.

Lemma setup_each (l : list sampler) : forall sts pos out pos' sts',
  List.length sts = List.length l -> setup_all l sts pos = (out, pos', sts') ->
  List.length sts' = List.length sts /\
  forall j cs st, nth_error l j = Some cs -> nth_error sts j = Some st ->
    exists p o p' st', cs_setup cs p st = (o, p', st') /\ nth_error out j = Some o /\ nth_error sts' j = Some st'.
Proof.
  induction l as [|cs l IH]; intros [|st sts] pos out pos' sts' HL H; try discriminate; cbn [setup_all] in H.
  - injection H as <- <- <-. split; [reflexivity|]. intros [|j] ? ? X; discriminate.
  - destruct (cs_setup cs pos st) as [[o p1] st1] eqn:HC. destruct (setup_all l sts p1) as [[os p2] sts1] eqn:HU. injection H as <- <- <-.
    apply IH in HU as (L & HU); [|now injection HL]. split; [cbn; now rewrite L|].
    intros [|j] cs0 st0 H1 H2; cbn in *.
    + injection H1 as <-. injection H2 as <-. eauto 10.
    + eauto.
Qed.

Lemma answers_snoc (cs : sampler) st l st1 r pos cur pos' st2 : answers cs st l st1 ->
  cs_update cs (q_accept r) (q_isimu r) (q_set r) pos st1 = (q_out r, cur, pos', st2) -> answers cs st (l ++ [r]) st2.
Proof.
  induction 1 as [st|st r0 p0 c0 p0' sta l stb H _ IH]; intros HU; cbn [app].
  - eapply answers_cons; [exact HU|apply answers_nil].
  - eapply answers_cons; [exact H|]. auto.
Qed.

Lemma ledger_length (calls : list ucall) : forall first, List.length (ledger first calls) = List.length calls.
Proof. induction calls; intros; cbn; auto. Qed.
Lemma last_shift {A} (l : list A) : forall x d, last (x :: l) d = last l x.
Proof. induction l as [|y l IH]; intros; [reflexivity|]. change (last (y :: l) d = last (y :: l) x). now rewrite !IH. Qed.
Lemma ledger_snoc (calls : list ucall) c : forall first,
  ledger first (calls ++ [c]) = ledger first calls ++ [(uc_accept c, last (map (@uc_out F Out) calls) first)].
Proof.
  induction calls as [|d t IH]; intros first; cbn [app ledger map]; [reflexivity|]. now rewrite IH, last_shift.
Qed.
Lemma in_force_snoc (l : list (bool * list Out)) acc o : in_force (l ++ [(acc, o)]) = if acc then Some o else in_force l.
Proof. unfold in_force. rewrite fold_left_app. reflexivity. Qed.

Record history (base : list F) (K : rconst F) (c0 : cstate F St Out) (first : list Out) (c : cstate F St Out) : Prop := {
  h_index : r_index (c_run c) = r_index (c_run c0) + List.length (c_calls c);
  h_trace : List.length (r_trace (c_run c)) = List.length (c_calls c);
  h_lens : List.length (r_chain (c_run c)) = List.length (r_chain (c_run c0)) /\ List.length (r_ss (c_run c)) = List.length (r_ss (c_run c0)) /\
           option_map (@List.length _) (r_s2 (c_run c)) = option_map (@List.length _) (r_s2 (c_run c0));
  h_frame : forall k, k <= r_index (c_run c0) ->
     nth_error (r_chain (c_run c)) k = nth_error (r_chain (c_run c0)) k /\ nth_error (r_ss (c_run c)) k = nth_error (r_ss (c_run c0)) k;
  h_value : value_ok base (k_view K) (r_io (c_run c));
  h_good : List.length (p_theta (r_old (c_run c))) = v_npar (k_view K) /\
           p_ss (r_old (c_run c)) = sos_call u (in_force (ledger first (rev (c_calls c)))) (scatter base (v_parind (k_view K)) (p_theta (r_old (c_run c))));
  h_sigma : List.length (r_sigma2 (c_run c)) = k_nsos K;
  h_out : c_out c = last (map (@uc_out F Out) (rev (c_calls c))) first;
  h_rows : forall k call, nth_error (rev (c_calls c)) k = Some call ->
     uc_isimu call = S k /\
     (exists e, nth_error (rev (r_trace (c_run c))) k = Some e /\ uc_accept call = negb (ev_stage e =? 0)) /\
     nth_error (r_chain (c_run c)) (r_index (c_run c0) + S k) = Some (p_theta (uc_set call)) /\
     nth_error (r_ss (c_run c)) (r_index (c_run c0) + S k) = Some (p_ss (uc_set call)) /\
     p_ss (uc_set call) = sos_call u (in_force (firstn (S k) (ledger first (rev (c_calls c))))) (scatter base (v_parind (k_view K)) (p_theta (uc_set call))) /\
     (o_updatesigma (k_opts K) = true -> exists s2, r_s2 (c_run c) = Some s2 /\ nth_error s2 (r_index (c_run c0) + S k) = Some (p_sigma2 (uc_set call)));
  h_sts : List.length (c_sts c) = List.length samplers;
  h_served : forall j cs st, nth_error samplers j = Some cs -> nth_error (c_sts c0) j = Some st ->
     exists reqs st', answers cs st reqs st' /\ nth_error (c_sts c) j = Some st' /\ requests_of j reqs (rev (c_calls c))
}.

Lemma sigma_row (E0 : env F) K st st' n : sigma_step E0 K st = Ok st' -> List.length (r_sigma2 st) = n -> k_nsos K = n ->
  List.length (r_sigma2 st') = n /\
  (o_updatesigma (k_opts K) = true -> exists s2, r_s2 st' = Some s2 /\ nth_error s2 (r_index st) = Some (p_sigma2 (r_old st'))).
Proof.
  intros H HL HK. unfold sigma_step in H. destruct (o_updatesigma (k_opts K)).
  - peel H. destruct a as [[sg s20] s']. peel H. peel H. peel H. injection H as <-. cbn [r_sigma2 r_s2 r_old p_sigma2].
    pose proof (update_error_variance_io _ _ _ _ _ _ _ _ _ _ _ _ _ E1) as (_ & _ & L & _).
    split; [congruence|]. intros _. eexists. split; [reflexivity|]. apply write_ok in E4 as [B ->].
    apply fit_row_exact in E2; [|congruence]. subst a. now apply set_nth_same.
  - injection H as <-. split; [exact HL|discriminate].
Qed.

Lemma step_sigma (E0 : env F) K i st t n : step E0 K i st = Ok t -> List.length (r_sigma2 st) = n -> k_nsos K = n ->
  List.length (r_sigma2 t) = n /\
  (o_updatesigma (k_opts K) = true -> exists s2, r_s2 t = Some s2 /\ nth_error s2 (S (r_index st)) = Some (p_sigma2 (r_old t))).
Proof.
  intros H HL HK. apply step_parts in H as (stage & new & outb & z & iacce & s & st1 & st2 & st3 & _ & H2 & H3 & H4 & H5).
  assert (U : r_index st1 = S (r_index st) /\ r_sigma2 st1 = r_sigma2 st).
  { unfold update_chain in H2. do 4 peel H2. injection H2 as <-. split; reflexivity. }
  apply adapt_frame in H3 as (A1 & _ & _ & _ & _ & _ & _ & _ & _ & A2 & _).
  apply save_frame in H5 as (_ & _ & S1 & _ & _ & _ & _ & _ & S2 & _ & S3 & _).
  destruct U as [U1 U2]. destruct (sigma_row E0 K st2 st3 n H4 ltac:(congruence) HK) as [X1 X2].
  rewrite A1, U1 in X2. split; [congruence|]. rewrite S1, S2. exact X2.
Qed.

Lemma history_step base K c0 first i c c' : view_ok (k_view K) (List.length base) -> Forall keeps samplers ->
  (forall o v, List.length (sos_call u o v) = k_nsos K) -> i = S (List.length (c_calls c)) ->
  history base K c0 first c -> cstep E u samplers K i c = Ok c' -> history base K c0 first c'.
Proof.
  intros HV HK HS Hi R H. apply cstep_step in H as (t & e & out & cur & pos & sts & f & HT & HE & HU & -> & _).
  destruct R as [R1 R2 (R3a & R3b & R3c) R4 R5 (R6a & R6b) R7 R8 R9 R10 R11].
  apply update_keeps in HU as (-> & L & HU); [|exact HK|exact R10].
  pose proof (step_sigma _ _ _ _ _ _ HT R7 eq_refl) as [X1 X2].
  apply step_summary in HT as (stage & new & outb & z & iacce & s & H1 & H). cbv zeta in H.
  destruct H as (A1 & A2 & A3 & A4 & (row & B1 & B2 & B3) & (srow & C1 & C2 & C3) & A5 & A6 & A7 & A8 & A9 & A10 & A11 & A12 & A13).
  pose proof (sample_facts _ _ base (c_run c) _ _ _ _ _ _ HV R5 H1) as (S1 & S2 & S3 & S4 & S5 & S6 & S7 & S8).
  set (cr := if stage =? 0 then r_old (c_run c) else new) in *.
  assert (e = mkev (r_cov (c_run c)) (io_pos (r_io (c_run c))) stage outb (List.length (r_fs (c_run c)))) as -> by congruence.
  cbn [ev_stage] in *.
  set (call := mkucall i (negb (stage =? 0)) (r_old t) out) in *.
  assert (HL : ledger first (rev (call :: c_calls c)) = ledger first (rev (c_calls c)) ++ [(negb (stage =? 0), c_out c)]).
  { cbn [rev]. rewrite ledger_snoc, R8. reflexivity. }
  assert (Hcr : List.length (p_theta cr) = v_npar (k_view K) /\
     p_ss cr = sos_call u (in_force (ledger first (rev (call :: c_calls c)))) (scatter base (v_parind (k_view K)) (p_theta cr))).
  { rewrite HL, in_force_snoc. unfold cr. destruct (Nat.eqb_spec stage 0); cbn [negb]; [split; assumption|].
    destruct (S3 n) as (_ & (G1 & _ & G3 & _) & _). split; assumption. }
  destruct Hcr as [G1 G2].
  assert (row = p_theta cr) by (eapply fit_row_exact; eauto). subst row.
  assert (srow = p_ss cr) by (eapply fit_row_exact; [|exact C1]; rewrite G2; apply HS). subst srow.
  split; cbn [c_run c_calls c_out c_sts with_files after_update r_index r_trace r_chain r_ss r_s2 r_io r_old r_sigma2]; fold call.
  - rewrite A1, R1. cbn. lia.
  - rewrite A10. cbn. congruence.
  - rewrite B3, C3, !set_nth_length. repeat split; congruence.
  - intros k Hk. rewrite B3, C3, !set_nth_other by lia. auto.
  - destruct S1 as [T1 T2]. split; cbn [io_value]; [congruence|]. intros j Hj. rewrite A8. auto.
  - rewrite A2, A3. split; assumption.
  - exact X1.
  - cbn [rev]. rewrite map_app. cbn [map]. rewrite last_last. reflexivity.
  - intros k call' Hk. assert (Q : k < List.length (c_calls c) /\ nth_error (rev (c_calls c)) k = Some call' \/ k = List.length (c_calls c) /\ call' = call).
    { cbn [rev] in Hk. destruct (Nat.lt_ge_cases k (List.length (c_calls c))) as [Hlt|Hge].
      - left. rewrite nth_error_app1 in Hk by (rewrite rev_length; exact Hlt). auto.
      - right. rewrite nth_error_app2 in Hk by (rewrite rev_length; exact Hge). rewrite rev_length in Hk.
        destruct (k - List.length (c_calls c)) as [|x] eqn:Ek; cbn in Hk; [injection Hk as <-; split; [lia|reflexivity]|destruct x; discriminate]. }
    destruct Q as [(Hlt & Hq)|(-> & ->)].
    + destruct (R9 _ _ Hq) as (Q1 & (e & Q2 & Q3) & Q4 & Q5 & Q6 & Q7).
      split; [exact Q1|]. split. { exists e. split; [|exact Q3]. rewrite A10. cbn [rev]. rewrite nth_error_app1; [exact Q2|rewrite rev_length; lia]. }
      rewrite B3, C3, !set_nth_other by lia. split; [exact Q4|]. split; [exact Q5|]. split.
      * rewrite HL, firstn_app. rewrite ledger_length, rev_length. replace (S k - List.length (c_calls c)) with 0 by lia. cbn [firstn]. now rewrite app_nil_r.
      * intros Ho. destruct (Q7 Ho) as (s2 & Y1 & Y2). destruct (X2 Ho) as (s2' & Y3 & _). exists s2'. split; [exact Y3|].
        assert (Z := A13 (r_index (c_run c0) + S k) ltac:(lia)). rewrite Y1, Y3 in Z. cbn in Z. injection Z as ->. exact Y2.
    + cbn [uc_isimu uc_accept uc_set call]. split; [exact Hi|].
      split. { eexists. split. { rewrite A10. cbn [rev]. rewrite nth_error_app2 by (rewrite rev_length; lia). rewrite rev_length, R2, Nat.sub_diag. reflexivity. } reflexivity. }
      replace (r_index (c_run c0) + S (List.length (c_calls c))) with (S (r_index (c_run c))) by lia.
      rewrite B3, C3, !set_nth_same by assumption. split; [congruence|]. split; [congruence|]. split; [|exact X2].
      rewrite firstn_all2 by (rewrite ledger_length, rev_length; cbn; lia). rewrite A2, A3. exact G2.
  - congruence.
  - intros j cs st Hj Hst. destruct (R11 _ _ _ Hj Hst) as (reqs & st' & Q1 & Q2 & Q3).
    destruct (HU _ _ _ Hj Q2) as (p & o & p' & st2 & U1 & U2 & U3).
    exists (reqs ++ [mkreq (negb (stage =? 0)) i (r_old t) o]), st2. split; [eapply answers_snoc; [exact Q1|exact U1]|]. split; [exact U3|].
    unfold requests_of. cbn [rev]. apply Forall2_app; [exact Q3|]. constructor; [|constructor]. cbn. auto.
Qed.

Lemma history_loop base K c0 first n : view_ok (k_view K) (List.length base) -> Forall keeps samplers ->
  (forall o v, List.length (sos_call u o v) = k_nsos K) -> forall a c c', S (List.length (c_calls c)) = a -> history base K c0 first c ->
  citerate E u samplers K (seq a n) c = Ok c' -> history base K c0 first c' /\ List.length (c_calls c') = List.length (c_calls c) + n.
Proof.
  intros HV HK HS. induction n as [|n IH]; intros a c c' Ha HH H; cbn [seq citerate] in H.
  - injection H as <-. split; [exact HH|lia].
  - peel H. assert (L : List.length (c_calls a0) = S (List.length (c_calls c))).
    { apply cstep_step in E0 as (t & e & out & cur & pos & sts & f & _ & _ & _ & -> & _). reflexivity. }
    apply IH in H; [rewrite L in H; split; [apply H|lia]|lia|]. exact (history_step _ _ _ _ _ _ _ HV HK HS (eq_sym Ha) HH E0).
Qed.

Lemma history_start base K st0 sts first : r_trace st0 = [] -> value_ok base (k_view K) (r_io st0) ->
  List.length (p_theta (r_old st0)) = v_npar (k_view K) ->
  p_ss (r_old st0) = sos_call u None (scatter base (v_parind (k_view K)) (p_theta (r_old st0))) ->
  List.length (r_sigma2 st0) = k_nsos K -> List.length sts = List.length samplers ->
  history base K (mkcst st0 sts first []) first (mkcst st0 sts first []).
Proof.
  intros H1 H2 H3 H4 H5 H6. split; cbn [c_run c_calls c_out c_sts List.length rev ledger map last]; auto.
  - now rewrite H1.
  - intros [|k] call X; discriminate.
  - intros j cs st Hj Hst. exists [], st. split; [constructor|]. split; [exact Hst|constructor].
Qed.

Lemma history_execute base K c0 c : view_ok (k_view K) (List.length base) -> Forall keeps samplers ->
  (forall o v, List.length (sos_call u o v) = k_nsos K) -> c_calls c0 = [] -> history base K c0 (c_out c0) c0 ->
  cexecute E u samplers K c0 = Ok c ->
  history base K c0 (c_out c0) c /\ List.length (c_calls c) = o_nsimu (k_opts K) - 1 /\ 2 <= o_nsimu (k_opts K).
Proof.
  intros HV HK HS H0 HH H. unfold cexecute in H. peel H. destruct (_ <=? 1) eqn:Hn; [discriminate|]. apply Nat.leb_gt in Hn.
  peel H. peel H. peel H. injection H as <-.
  apply (history_loop base _ c0 (c_out c0) _ HV HK HS) in E0; [|now rewrite H0|exact HH].
  destruct E0 as [HH' HL]. rewrite H0 in HL. split; [|split; [exact HL|lia]].
  destruct HH'. split; assumption.
Qed.

Lemma init_sigma ps d ms o rdr pos calls ini (E0 : env F) : initialize_simulation E0 ps d ms o rdr pos calls = Ok ini ->
  List.length (lst (ms_sigma2 (i_model ini))) = i_nsos ini.
Proof.
  intros H. apply init_model in H as (ms1 & _ & H & _). apply check_wrt_nsos_ok in H as (S20 & N0 & sg & N & -> & _ & _ & H & _).
  cbn [ms_sigma2 lst]. apply check_size_length in H. tauto.
Qed.

Lemma at_pos_facts (ini : initrec F) p : i_opts (at_pos ini p) = i_opts ini /\ i_model (at_pos ini p) = i_model ini /\ i_op (at_pos ini p) = i_op ini /\
  i_set (at_pos ini p) = i_set ini /\ i_nsos (at_pos ini p) = i_nsos ini /\ io_value (i_io (at_pos ini p)) = io_value (i_io ini) /\
  io_calls (i_io (at_pos ini p)) = io_calls (i_io ini).
Proof. repeat split. Qed.

Lemma prepared_parts m ps ini idx chain ss s2 chains outs sts m' c : crun_prepared E u samplers m ps ini idx (chain, ss, s2, chains) outs sts = Ok (m', c) ->
  cexecute E u samplers (make_const ini chains) (mkcst (start_state ini idx chain ss s2 (m_fs m)) sts outs []) = Ok c /\
  m_params m' = ps /\ m_chain m' = r_chain (c_run c) /\ m_sschain m' = r_ss (c_run c) /\ m_s2chain m' = r_s2 (c_run c) /\
  m_index m' = r_index (c_run c) /\ m_calls m' = io_calls (r_io (c_run c)) /\ m_trace m' = r_trace (c_run c) ++ m_trace m /\ m_opts m' = i_opts ini /\ m_chains m' = chains /\
  exists json, (json = [] \/ exists p l, json = [FJson p l]) /\ m_fs m' = r_fs (c_run c) ++ json.
Proof.
  intros H. unfold crun_prepared in H. peel H. injection H as <- <-. cbn [m_params m_chain m_sschain m_s2chain m_index m_calls m_trace m_opts m_chains m_fs].
  split; [exact E0|]. do 9 (split; [reflexivity|]).
  destruct (o_save_to_json (i_opts ini)); [eexists; split; [right; eauto|reflexivity]|exists []; rewrite app_nil_r; auto].
Qed.

Lemma crun_parts b m sts m' c : crun_simulation E u samplers b m sts = Ok (m', c) ->
  exists ps ini chain ss s2 chains outs pos sts1,
    same_decls (m_params m) ps /\
    initialize_simulation (with_custom E u None) ps (m_data m) (m_model m) (run_options b m) (m_RDR m) (m_pos m) (m_calls m) = Ok ini /\
    setup_all samplers sts (io_pos (i_io ini)) = (outs, pos, sts1) /\
    (if b then expand_chains m ini = Ok (chain, ss, s2, chains) else initialize_chains ini (lst (ms_sigma2 (i_model ini))) = Ok (chain, ss, s2, chains)) /\
    cexecute E u samplers (make_const (at_pos ini pos) chains)
      (mkcst (start_state (at_pos ini pos) (if b then m_index m else 0) chain ss s2 (m_fs m)) sts1 outs []) = Ok c /\
    m_params m' = ps /\ m_chain m' = r_chain (c_run c) /\ m_sschain m' = r_ss (c_run c) /\ m_s2chain m' = r_s2 (c_run c) /\
    m_index m' = r_index (c_run c) /\ m_calls m' = io_calls (r_io (c_run c)) /\ m_trace m' = r_trace (c_run c) ++ m_trace m /\ m_opts m' = i_opts ini /\ m_chains m' = chains /\
    exists json, (json = [] \/ exists p l, json = [FJson p l]) /\ m_fs m' = r_fs (c_run c) ++ json.
Proof.
  unfold crun_simulation, run_options. destruct b.
  - destruct (m_status m); [|discriminate]. destruct (m_results m) as [r|]; [|discriminate]. intros H. peel H. peel H.
    destruct (setup_all _ _ _) as [[outs pos] sts1] eqn:HS. peel H. destruct a1 as [[[chain ss] s2] chains].
    apply prepared_parts in H. exists a, a0, chain, ss, s2, chains, outs, pos, sts1.
    split; [eapply results_to_params_same; eauto|]. split; [exact E1|]. split; [exact HS|]. split; [exact E2|]. exact H.
  - intros H. peel H. destruct a as [ps o]. peel H.
    destruct (setup_all _ _ _) as [[outs pos] sts1] eqn:HS. peel H. destruct a0 as [[[chain ss] s2] chains].
    apply prepared_parts in H. exists ps, a, chain, ss, s2, chains, outs, pos, sts1.
    assert (X : same_decls (m_params m) ps /\ o = match o_restart (m_opts m) with None => m_opts m | Some r => set_qcov (m_opts m) (rs_qcov r) end).
    { destruct (o_restart (m_opts m)) as [r|]; [peel E0|]; injection E0 as <- <-; split; try reflexivity; [eapply results_to_params_same; eauto|apply same_decls_refl]. }
    destruct X as [X1 ->]. split; [exact X1|]. split; [exact E1|]. split; [exact HS|]. split; [exact E2|]. exact H.
Qed.

Theorem run_history b m sts m' c : Forall keeps samplers -> List.length sts = List.length samplers ->
  (forall o o' v v', List.length (sos_call u o v) = List.length (sos_call u o' v')) ->
  crun_simulation E u samplers b m sts = Ok (m', c) ->
  exists evs first calls, let start := if b then m_index m else 0 in
    m_trace m' = rev evs ++ m_trace m /\ List.length evs = o_nsimu (m_opts m) - 1 /\ List.length calls = o_nsimu (m_opts m) - 1 /\
    (forall j cs st, nth_error samplers j = Some cs -> nth_error sts j = Some st ->
       exists pos o pos' st1 reqs st2, cs_setup cs pos st = (o, pos', st1) /\ nth_error first j = Some o /\
         answers cs st1 reqs st2 /\ nth_error (c_sts c) j = Some st2 /\ requests_of j reqs calls) /\
    (b = false -> nth_error (m_chain m') 0 = Some (map (@a_theta0 F) (sampled_params (m_params m'))) /\
                  nth_error (m_sschain m') 0 = Some (sos_call u None (fill (m_params m') (map (@a_theta0 F) (sampled_params (m_params m')))))) /\
    forall k call, nth_error calls k = Some call ->
     uc_isimu call = S k /\
     (exists e, nth_error evs k = Some e /\ uc_accept call = negb (ev_stage e =? 0)) /\
     nth_error (m_chain m') (start + S k) = Some (p_theta (uc_set call)) /\
     nth_error (m_sschain m') (start + S k) = Some (p_ss (uc_set call)) /\
     p_ss (uc_set call) = sos_call u (in_force (firstn (S k) (ledger first calls))) (fill (m_params m') (p_theta (uc_set call))) /\
     (o_updatesigma (m_opts m') = true -> exists s2, m_s2chain m' = Some s2 /\ nth_error s2 (start + S k) = Some (p_sigma2 (uc_set call))).
Proof.
  intros HK HL HS H. apply crun_parts in H as (ps & ini & chain & ss & s2 & chains & outs & pos & sts1 & P1 & P2 & P3 & P4 & P5 & P6 & P7 & P8 & P9 & P10 & P11 & P12 & P13 & _ & _).
  pose proof (init_facts _ _ _ _ _ _ _ _ _ P2) as HI. cbv zeta in HI. destruct HI as (I1 & I2 & I3 & I4 & I5 & I6 & I7 & I8 & I9 & I10 & I11).
  destruct I6 as (G1 & G2 & G3 & G4).
  apply setup_each in P3 as (L1 & P3); [|exact HL].
  set (K := make_const (at_pos ini pos) chains) in *. set (st0 := start_state (at_pos ini pos) (if b then m_index m else 0) chain ss s2 (m_fs m)) in *.
  assert (KV : k_view K = opview ps) by (unfold K, make_const, opview; cbn [k_view at_pos i_op]; now rewrite I1).
  set (base := map (@a_theta0 F) ps) in *.
  assert (HS' : forall o v, List.length (sos_call u o v) = k_nsos K).
  { intros o v. change (k_nsos K) with (i_nsos ini). rewrite I9, G3. cbn [e_sos with_custom]. apply HS. }
  assert (H0 : history base K (mkcst st0 sts1 outs []) outs (mkcst st0 sts1 outs [])).
  { apply history_start; try reflexivity.
    - rewrite KV. exact I7.
    - rewrite KV. exact G1.
    - rewrite KV. exact G3.
    - change (r_sigma2 st0) with (lst (ms_sigma2 (i_model ini))). change (k_nsos K) with (i_nsos ini). eapply init_sigma. exact P2.
    - congruence. }
  assert (HV : view_ok (k_view K) (List.length base)) by (rewrite KV; apply opview_ok).
  destruct (history_execute base K (mkcst st0 sts1 outs []) c HV HK HS' eq_refl H0 P5) as (HH & HC & Hn).
  assert (N : o_nsimu (k_opts K) = o_nsimu (m_opts m)).
  { change (k_opts K) with (i_opts ini). rewrite I2. unfold run_options. destruct b; [reflexivity|]. destruct (o_restart (m_opts m)); reflexivity. }
  rewrite N in HC. destruct HH as [R1 R2 _ R4 _ _ _ _ R9 _ R11]. cbn [c_run c_sts c_out] in *.
  exists (rev (r_trace (c_run c))), outs, (rev (c_calls c)). cbv zeta.
  split; [now rewrite rev_involutive, P12|]. split; [rewrite rev_length; lia|]. split; [rewrite rev_length; lia|]. split; [|split].
  - intros j cs st Hj Hst. destruct (P3 _ _ _ Hj Hst) as (p & o & p' & st' & Q1 & Q2 & Q3).
    destruct (R11 _ _ _ Hj Q3) as (reqs & st2 & Q4 & Q5 & Q6). exists p, o, p', st', reqs, st2. auto.
  - intros ->. destruct (R4 0 ltac:(cbn; lia)) as [Q1 Q2]. rewrite P7, P8, Q1, Q2. cbn [st0 start_state r_chain r_ss].
    apply initialize_chains_facts in P4; [|rewrite I4, I1, map_length; change (op_parind (check_prior_sigma (openparameterstructure ps))) with (op_parind (openparameterstructure ps)); now rewrite op_parind_open, parind_length|exact I9].
    cbv zeta in P4. destruct P4 as (_ & _ & _ & X1 & X2 & _). rewrite X1, X2, P6, I4. split; [reflexivity|].
    rewrite G3, I4. destruct (opview_facts ps) as (V1 & _). rewrite V1. unfold base. rewrite scatter_fill. reflexivity.
  - intros k call Hk. destruct (R9 _ _ Hk) as (Q1 & Q2 & Q3 & Q4 & Q5 & Q6). change (r_index st0) with (if b then m_index m else 0) in *.
    rewrite P7, P8, P9, P13, P6. split; [exact Q1|]. split; [exact Q2|]. split; [exact Q3|]. split; [exact Q4|]. split; [|exact Q6].
    rewrite Q5. rewrite KV. destruct (opview_facts ps) as (V1 & _). rewrite V1. unfold base. rewrite scatter_fill. reflexivity.
Qed.
End CustomRun.
