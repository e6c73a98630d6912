(** Facts about the settings checks and the error variance state of a run, over any numbers (C24-C28). *)

From Coq Require Import ZArith QArith Bool Lia List String.
From Verif Require Import Base Num Samplers SamplerFacts Adapt Settings Simulator RunSpec RunFacts RunLift.
Import ListNotations.
Open Scope list_scope.
Open Scope nat_scope.

Section S.
Context {F : Type} `{NF : Num F}.
Variable E : env F.

(** ** Variance updates *)

(** Successive draws for a list of (N0, S20, N, SS). *)
Inductive drawn : list (F * F * F * F) -> io F -> list F -> io F -> Prop :=
| dr_nil s : drawn [] s [] s
| dr_cons n0v s20 nv sj q s v s1 vs s2 :
    draw_sigma2 E n0v s20 nv sj s = Ok (v, s1) -> drawn q s1 vs s2 -> drawn ((n0v, s20, nv, sj) :: q) s (v :: vs) s2.

Definition quads (N0v S20 N sos : list F) (a n : nat) : list (F * F * F * F) :=
  map (fun i => (nth i N0v n0, nth i S20 n0, nth i N n0, nth i sos n0)) (seq a n).

Lemma drawn_length q s vs s' : drawn q s vs s' -> List.length vs = List.length q.
Proof. induction 1; simpl; auto. Qed.

Lemma nth_error_nth_some {A} (l : list A) i x d : nth_error l i = Some x -> nth i l d = x /\ i < List.length l.
Proof. intros H. split; [now apply nth_error_nth|]. apply nth_error_Some. congruence. Qed.

Lemma nth_set_nth_other {A} i j (v d : A) : forall l, i <> j -> nth i (set_nth j v l) d = nth i l d.
Proof.
  revert j. induction i as [|i IH]; intros [|j] [|x l] H; simpl; auto; try congruence.
Qed.

Lemma set_nth_split {A} i (v : A) : forall l, i < List.length l -> set_nth i v l = firstn i l ++ v :: skipn (S i) l.
Proof. induction i as [|i IH]; intros [|x l] H; simpl in *; try lia; auto. rewrite IH by lia. reflexivity. Qed.

Lemma skipn_add {A} n m : forall l : list A, skipn n (skipn m l) = skipn (m + n) l.
Proof. induction m as [|m IH]; intros [|x l]; simpl; auto. now rewrite skipn_nil. Qed.

Lemma quads_S20_ext N0v S20 S20' N sos a n : (forall i, a <= i < a + n -> nth i S20 n0 = nth i S20' n0) ->
  quads N0v S20 N sos a n = quads N0v S20' N sos a n.
Proof. intros H. apply map_ext_in. intros i Hi. apply in_seq in Hi. rewrite H by lia. reflexivity. Qed.

Lemma update_error_variance_drawn n : forall al N0v N sos jj sg S20 s sg' S20' s',
  update_error_variance E al N0v N sos jj n sg S20 s = Ok (sg', S20', s') -> jj + n <= List.length sg ->
  exists vs, drawn (quads N0v S20 N sos jj n) s vs s' /\ sg' = firstn jj sg ++ vs ++ skipn (jj + n) sg /\
    (n = 0 \/ jj + n <= List.length N0v /\ jj + n <= List.length S20 /\ jj + n <= List.length N /\ jj + n <= List.length sos).
Proof.
  induction n as [|n IH]; intros al N0v N sos jj sg S20 s sg' S20' s' H Hl.
  - cbn [update_error_variance] in H. inv H. exists []. split; [constructor|]. split; [|now left].
    simpl. rewrite Nat.add_0_r. now rewrite firstn_skipn.
  - cbn [update_error_variance] in H. peel H. peel H. peel H. peel H. peel H. destruct a3 as [v s1]. peel H.
    apply write_ok in E5 as [Hj ->]. unfold of_option in E0, E1, E2, E3.
    destruct (nth_error N0v jj) eqn:A0; [|discriminate]. destruct (nth_error N jj) eqn:A1; [|discriminate].
    destruct (nth_error S20 jj) eqn:A2; [|discriminate]. destruct (nth_error sos jj) eqn:A3; [|discriminate].
    inv E0. inv E1. inv E2. inv E3.
    apply nth_error_nth_some with (d := n0) in A0 as [B0 C0]. apply nth_error_nth_some with (d := n0) in A1 as [B1 C1].
    apply nth_error_nth_some with (d := n0) in A2 as [B2 C2]. apply nth_error_nth_some with (d := n0) in A3 as [B3 C3].
    apply IH in H as (vs & Hd & -> & Hb); [|rewrite set_nth_length; lia].
    exists (v :: vs). split; [|split].
    + cbn [quads seq map]. rewrite B0, B1, B2, B3. econstructor; [exact E4|].
      fold (quads N0v S20 N sos (S jj) n).
      erewrite quads_S20_ext; [exact Hd|]. intros i Hi. destruct al; [|reflexivity]. symmetry. apply nth_set_nth_other. lia.
    + rewrite set_nth_split by lia. rewrite firstn_app, firstn_firstn, firstn_length, skipn_app, firstn_length.
      replace (Nat.min (S jj) jj) with jj by lia. replace (S jj - Nat.min jj (List.length sg)) with 1 by lia.
      rewrite (skipn_all2 (firstn jj sg)) by (rewrite firstn_length; lia).
      replace (S jj + n - Nat.min jj (List.length sg)) with (S n) by lia. cbn [firstn skipn app].
      rewrite <- app_assoc. cbn [app]. f_equal. f_equal. f_equal. replace (jj + S n) with (S jj + n) by lia. now rewrite <- (skipn_add n (S jj)).
    + right. destruct al; destruct Hb as [Hb|Hb]; rewrite ?set_nth_length in Hb; lia.
Qed.

Lemma update_error_variance_alias n : forall N0v N sos jj sg s sg' S20' s',
  update_error_variance E true N0v N sos jj n sg sg s = Ok (sg', S20', s') -> S20' = sg'.
Proof.
  induction n as [|n IH]; intros N0v N sos jj sg s sg' S20' s' H; cbn [update_error_variance] in H; [congruence|].
  peel H. peel H. peel H. peel H. peel H. destruct a3 as [v s1]. peel H. apply write_ok in E5 as [_ ->]. eapply IH. exact H.
Qed.

(** One iteration with updatesigma. *)
Variable K : rconst F.

Lemma sigma_step_drawn st st' n :
  o_updatesigma (k_opts K) = true -> sigma_step E K st = Ok st' ->
  List.length (r_sigma2 st) = n -> List.length (p_ss (r_old st)) = n -> k_nsos K = n ->
  exists s2, r_s2 st = Some s2 /\ r_index st < List.length s2 /\
    drawn (quads (k_N0 K) (r_S20 st) (k_N K) (p_ss (r_old st)) 0 n) (r_io st) (r_sigma2 st') (r_io st') /\
    r_s2 st' = Some (set_nth (r_index st) (r_sigma2 st') s2) /\
    (k_alias K = false -> r_S20 st' = r_S20 st) /\
    (k_alias K = true -> r_S20 st = r_sigma2 st -> r_S20 st' = r_sigma2 st') /\ p_sigma2 (r_old st') = r_sigma2 st' /\
    (n = 0 \/ n <= List.length (k_N0 K) /\ n <= List.length (k_N K) /\ n <= List.length (r_S20 st)).
Proof.
  intros Hu H Hs Hp Hk. unfold sigma_step in H. rewrite Hu in H. peel H. destruct a as [[sg S20'] s']. peel H. peel H. peel H.
  match type of H with Ok ?x = _ => assert (st' = x) as -> by congruence end. cbn. rewrite Hp in E0. pose proof E0 as E0'.
  apply update_error_variance_drawn in E0 as (vs & Hd & -> & Hb); [|lia].
  assert (Hb' : k_alias K = true -> r_S20 st = r_sigma2 st -> S20' = firstn 0 (r_sigma2 st) ++ vs ++ skipn (0 + n) (r_sigma2 st)).
  { intros HA HS. rewrite HA, HS in E0'. eapply update_error_variance_alias. exact E0'. }
  apply update_error_variance_io in E0' as (_ & _ & _ & _ & Ha & _).
  cbn [firstn app Nat.add] in *. rewrite skipn_all2 in * by lia. rewrite app_nil_r in *.
  assert (Hv : List.length vs = List.length (r_sigma2 st)).
  { rewrite (drawn_length _ _ _ _ Hd). unfold quads. now rewrite map_length, seq_length. }
  unfold fit_row in E1. rewrite Hk, Hv, Hs, Nat.eqb_refl in E1. inv E1.
  unfold of_option in E2. destruct (r_s2 st) as [s2|]; [|discriminate]. inv E2.
  apply write_ok in E3 as [Hi ->]. exists a0. split; auto. split; auto. split; auto. split; auto. split; auto. split; auto. split; auto.
  destruct Hb as [->|Hb]; [now left|right; lia].
Qed.

End S.

Section Loop.
Context {F : Type} `{NF : Num F}.
Variable E : env F.
Variable K : rconst F.
Variable n : nat.
Hypothesis Hsos : forall v, List.length (e_sos E v) = n.
Hypothesis Hnsos : k_nsos K = n.
Hypothesis Hup : o_updatesigma (k_opts K) = true.

Definition drawn_row (S20 : list F) (ss : list (list F)) (s2 : option (list (list F))) (i lo hi : nat) : Prop :=
  exists m ssrow row s s', s2 = Some m /\ nth_error ss i = Some ssrow /\ nth_error m i = Some row /\
    (exists v, ssrow = e_sos E v) /\
    drawn E (quads (k_N0 K) S20 (k_N K) ssrow 0 n) s row s' /\ lo <= io_pos s /\ io_pos s' = hi /\
    (n = 0 \/ n <= List.length (k_N0 K) /\ n <= List.length (k_N K) /\ n <= List.length S20).

(** The scale used by the k-th update: fixed, or the previous variances when S20 is the same array as sigma2. *)
Definition scale_used (S0 : list F) (s2 : option (list (list F))) (i : nat) (S20 : list F) : Prop :=
  if k_alias K then exists m, s2 = Some m /\ nth_error m i = Some S20 else S20 = S0.

Definition vinv (st0 st : rstate F) : Prop :=
  scale_used (r_S20 st0) (r_s2 st) (r_index st) (r_S20 st) /\ (k_alias K = true -> r_S20 st = r_sigma2 st) /\
  List.length (r_sigma2 st) = n /\
  forall k e, nth_error (rev (r_trace st)) k = Some e -> exists S20, scale_used (r_S20 st0) (r_s2 st) (r_index st0 + k) S20 /\
    drawn_row S20 (r_ss st) (r_s2 st) (r_index st0 + S k) (ev_pos e)
      (nth (S k) (map (@ev_pos F) (rev (r_trace st))) (io_pos (r_io st))).

Lemma sample_pos base st stage new outb z iacce s :
  view_ok (k_view K) (List.length base) -> value_ok base (k_view K) (r_io st) -> good_set E base (k_view K) (r_old st) ->
  sample_step E K st = Ok (stage, new, outb, z, iacce, s) -> io_pos (r_io st) <= io_pos s.
Proof. intros A B C D. eapply sample_facts in D; eauto. cbv zeta in D. decompose [and] D. assumption. Qed.

Lemma vinv_step base st0 i st st' :
  view_ok (k_view K) (List.length base) -> reached E K base st0 st -> vinv st0 st -> step E K i st = Ok st' -> vinv st0 st'.
Proof.
  intros HV HR (V0 & V1 & V2 & V3) H. pose proof (reached_step E K base st0 i st st' HV HR H) as HR'.
  apply step_parts in H as (stage & new & outb & z & iacce & s & st1 & st2 & st3 & H1 & H2 & H3 & H4 & H5).
  pose proof (sample_pos base _ _ _ _ _ _ _ HV (rc_value _ _ _ _ _ HR) (rc_good _ _ _ _ _ HR) H1) as Hpos.
  apply adapt_frame in H3 as (A1 & A2 & A3 & A4 & A5 & A6 & A7 & A8 & A9 & A10 & A11 & A12 & A13 & A14 & A15).
  pose proof (sigma_frame _ _ _ _ H4) as (S1 & _ & _ & _ & _ & S6 & _ & _ & _ & _ & _ & _ & S13 & _ & _ & _ & _ & _ & S19 & S20 & _ & S22).
  apply save_frame in H5 as (B1 & B2 & B3 & B4 & B5 & B6 & B7 & B8 & B9 & B10 & B11 & B12 & B13 & B14 & B15).
  unfold update_chain in H2. peel H2. peel H2. peel H2. peel H2. inv H2.
  cbn [r_index r_savecount r_lastbin r_old r_rej r_rejout r_chain r_ss r_s2 r_sigma2 r_S20 r_iacce r_io r_fs r_trace] in *.
  assert (Hex : exists v, p_ss (r_old st2) = e_sos E v).
  { rewrite <- S6, <- B3. destruct (rc_good _ _ _ _ _ HR') as (_ & _ & Hg & _). rewrite Hg. eauto. }
  assert (Hss : List.length (p_ss (r_old st2)) = n) by (destruct Hex as (v & ->); apply Hsos).
  destruct (sigma_step_drawn E K st2 st3 n Hup H4) as (s2 & T1 & T2 & T3 & T4 & T5 & T5' & T6 & T7); auto; [congruence|].
  assert (Ers : a1 = p_ss (r_old st2)).
  { rewrite A4 in *. unfold fit_row in E2. rewrite Hnsos, Hss, Nat.eqb_refl in E2. congruence. }
  apply write_ok in E1 as [L1 ->]. apply write_ok in E3 as [L2 ->].
  assert (HS2 : r_s2 st = Some s2) by congruence.
  assert (Hkeep : forall i S20, i < S (r_index st) -> scale_used (r_S20 st0) (r_s2 st) i S20 -> scale_used (r_S20 st0) (r_s2 st') i S20).
  { unfold scale_used. intros i0 S20v Hi. destruct (k_alias K); [|auto]. intros (m & M1 & M2). rewrite B9, T4. eexists. split; [reflexivity|].
    rewrite set_nth_other by lia. congruence. }
  split.
  { unfold scale_used in V0 |- *. rewrite B9, T4, B1, S1, B12. destruct (k_alias K) eqn:Hal.
    - eexists. split; [reflexivity|]. rewrite T5' by (auto; rewrite A11, A10; auto). apply set_nth_same. exact T2.
    - rewrite T5, A11 by auto. exact V0. }
  split; [intros Hal; rewrite B12, B11; apply T5'; auto; rewrite A11, A10; auto|]. split.
  { rewrite B11, (drawn_length _ _ _ _ _ T3). unfold quads. now rewrite map_length, seq_length. }
  intros k e Hk. rewrite B15, S19, A15 in Hk |- *. rewrite B14.
  assert (Hidx : r_index st = r_index st0 + List.length (r_trace st)) by apply (rc_index _ _ _ _ _ HR).
  cbn [rev] in Hk |- *. rewrite map_app. cbn [map].
  destruct (Nat.eq_dec k (List.length (r_trace st))) as [->|Hne].
  - rewrite nth_error_app2 in Hk by (rewrite rev_length; lia). rewrite rev_length, Nat.sub_diag in Hk. cbn in Hk. inv Hk.
    rewrite (nth_overflow (_ ++ _)) by (rewrite app_length, map_length, rev_length; cbn; lia).
    exists (r_S20 st). split; [apply Hkeep; [lia|]; rewrite <- Hidx; exact V0|].
    exists (set_nth (r_index st2) (r_sigma2 st3) s2), (p_ss (r_old st2)), (r_sigma2 st3), (r_io st2), (r_io st3).
    rewrite B9, T4, B8, S13, A8. replace (r_index st0 + S (List.length (r_trace st))) with (S (r_index st)) by lia.
    split; [reflexivity|]. rewrite set_nth_same by auto. split; [reflexivity|].
    rewrite A1 in *. rewrite set_nth_same by auto. split; [reflexivity|]. split; [exact Hex|].
    rewrite <- A11. cbn [ev_pos]. split; [exact T3|]. split; [congruence|]. split; auto.
  - assert (Hlt : k < List.length (r_trace st)).
    { assert (k < List.length (rev (r_trace st) ++ [mkev (r_cov st) (io_pos (r_io st)) stage outb (List.length (r_fs st))])) by
        (apply nth_error_Some; rewrite Hk; discriminate). rewrite app_length, rev_length in H. cbn in H. lia. }
    rewrite nth_error_app1 in Hk by (rewrite rev_length; lia).
    destruct (V3 k e Hk) as (S20v & HSv & m & ssrow & row & sa & sb & X1 & X2 & X3 & X4 & X5 & X6 & X7 & X8).
    assert (Hm : exists m', r_s2 st' = Some m' /\ nth_error m' (r_index st0 + S k) = Some row).
    { rewrite B9. assert (Hneq : r_index st0 + S k <> r_index st2) by lia.
      specialize (S22 _ Hneq). rewrite T4 in S22 |- *. eexists. split; [reflexivity|].
      rewrite A9, X1 in S22. cbn in S22. inv S22. congruence. }
    destruct Hm as (m' & M1 & M2). exists S20v. split; [apply Hkeep; [lia|exact HSv]|]. exists m', ssrow, row, sa, sb. split; [exact M1|].
    rewrite B8, S13, A8. rewrite set_nth_other by lia. split; [exact X2|]. split; [exact M2|]. split; [exact X4|].
    split; [exact X5|]. split; [exact X6|]. split; [|exact X8]. rewrite X7.
    destruct (Nat.eq_dec (S k) (List.length (r_trace st))) as [Heq|Hneq].
    + rewrite nth_overflow by (rewrite map_length, rev_length; lia).
      rewrite app_nth2 by (rewrite map_length, rev_length; lia). rewrite map_length, rev_length, Heq, Nat.sub_diag. reflexivity.
    + rewrite app_nth1 by (rewrite map_length, rev_length; lia). apply nth_indep. rewrite map_length, rev_length. lia.
Qed.

Lemma vinv_iterate base st0 st k : view_ok (k_view K) (List.length base) -> r_trace st0 = [] ->
  good_set E base (k_view K) (r_old st0) -> value_ok base (k_view K) (r_io st0) -> List.length (r_sigma2 st0) = n ->
  scale_used (r_S20 st0) (r_s2 st0) (r_index st0) (r_S20 st0) -> (k_alias K = true -> r_S20 st0 = r_sigma2 st0) ->
  iterate E K (seq 1 k) st0 = Ok st -> vinv st0 st.
Proof.
  intros HV Ht Hg Hv Hl Hsc Has H.
  apply (iterate_ind E K (fun _ st => reached E K base st0 st /\ vinv st0 st) k 1 st0 st) in H; [tauto| |].
  - split; [now apply reached_refl|]. split; auto. split; auto. split; auto. rewrite Ht. intros [|] e He; discriminate.
  - intros i s1 s2 _ [A B] Hs. split; [eapply reached_step; eauto|]. eapply vinv_step; eauto.
Qed.

End Loop.

Section Run.
Context {F : Type} `{NF : Num F}.
Variable E : env F.

Lemma fill_own (ps : list (param F)) : fill ps (map (@a_theta0 F) (sampled_params ps)) = map (@a_theta0 F) ps.
Proof.
  induction ps as [|p ps IH]; [reflexivity|]. unfold sampled_params in *. cbn [filter fill].
  destruct (a_sample p) eqn:Hs; cbn [map fill]; now rewrite IH.
Qed.

Lemma init_model ps d ms o rdr pos calls ini :
  initialize_simulation E ps d ms o rdr pos calls = Ok ini ->
  exists ms1, check_dependent_model_settings ms d = Ok ms1 /\ check_wrt_nsos ms1 (i_nsos ini) = Ok (i_model ini) /\
    i_nsos ini = List.length (e_sos E (map (@a_theta0 F) ps)) /\
    i_opts ini = check_dependent_simulation_options o (match ms_N0 ms with Some _ => true | None => false end).
Proof.
  intros H. pose proof (init_facts E ps d ms o rdr pos calls ini H) as HI. cbv zeta in HI.
  destruct HI as (_ & _ & _ & I4 & _ & I6 & _ & _ & I9 & _).
  destruct I6 as (_ & _ & G & _). rewrite I4 in G. destruct (opview_facts ps) as (P1 & _). rewrite P1, scatter_fill, fill_own in G.
  rewrite G in I9. unfold initialize_simulation in H. peel H. peel H. peel H. peel H.
  destruct (evaluate_sos_function _ _ _ _) as [ss s1]. peel H. inv H. cbn [i_nsos i_model i_opts] in *.
  exists a. split; [assumption|]. split; [assumption|]. split; [assumption|]. reflexivity.
Qed.

Lemma run_model b m m' : run_simulation E b m = Ok m' ->
  exists ini ms1 st0 st chains, 
    let idx := if b then m_index m else 0 in
    let K := make_const ini chains in
    let ps := m_params m' in
    let base := map (@a_theta0 F) ps in
    initialize_simulation E ps (m_data m) (m_model m) (run_options b m) (m_RDR m) (m_pos m) (m_calls m) = Ok ini /\
    check_dependent_model_settings (m_model m) (m_data m) = Ok ms1 /\ check_wrt_nsos ms1 (i_nsos ini) = Ok (i_model ini) /\
    i_nsos ini = List.length (e_sos E base) /\
    m_opts m' = check_dependent_simulation_options (run_options b m) (match ms_N0 (m_model m) with Some _ => true | None => false end) /\
    m_opts m' = i_opts ini /\
    (if b then expand_chains m ini = Ok (r_chain st0, r_ss st0, r_s2 st0, chains)
     else initialize_chains ini (lst (ms_sigma2 (i_model ini))) = Ok (r_chain st0, r_ss st0, r_s2 st0, chains)) /\
    st0 = start_state ini idx (r_chain st0) (r_ss st0) (r_s2 st0) (m_fs m) /\
    execute E K st0 = Ok st /\ reached E K base st0 st /\
    view_ok (k_view K) (List.length base) /\ good_set E base (k_view K) (r_old st0) /\ value_ok base (k_view K) (r_io st0) /\
    List.length (r_trace st) = o_nsimu (m_opts m) - 1 /\ 2 <= o_nsimu (m_opts m) /\
    m_sschain m' = r_ss st /\ m_s2chain m' = r_s2 st /\ m_pos m' = io_pos (r_io st) /\ m_trace m' = r_trace st ++ m_trace m /\
    m_chain m' = r_chain st /\ m_fs m' = r_fs st ++ (if o_save_to_json (i_opts ini)
           then [FJson (o_savedir (i_opts ini), match o_results_filename (i_opts ini) with Some f => f | None => EmptyString end, EmptyString)
                       (o_save_lightly (i_opts ini))] else []) /\
    m_chains m' = chains /\
    m_model m' = mkms (Some (r_sigma2 st)) (ms_N (i_model ini)) (ms_N0 (i_model ini)) (r_S20 st)
                 (ms_nbatch (i_model ini)) (ms_alias (i_model ini)).
Proof.
  intros H. pose proof H as HF. apply run_facts in HF as (ps & ini & st0 & st & ms & chains & HF). cbv zeta in HF.
  destruct HF as (F1 & (o & F2 & _ & _ & F2') & F3 & F4 & F5 & F6 & F7 & F8 & F9 & F10 & F11 & F12 & F13 & F14 & F15 & F16 & F17 &
                  F18 & F19 & F20 & F21 & F22 & F23 & F24 & F25 & F26). subst o.
  pose proof (init_model _ _ _ _ _ _ _ _ F2) as (ms1 & M1 & M2 & M3 & M4).
  pose proof (init_facts E _ _ _ _ _ _ _ _ F2) as HI. cbv zeta in HI.
  destruct HI as (_ & _ & _ & I4 & _ & I6 & I7 & _ & I9 & _).
  assert (HP : run_prepared E m ps ini (if b then m_index m else 0) (r_chain st0, r_ss st0, r_s2 st0, chains) = Ok m').
  { rewrite <- H. unfold run_simulation. destruct b.
    - destruct F3 as (r & -> & -> & ->). cbn [bind]. unfold run_options in F2. rewrite F2. cbn [bind]. rewrite F4. reflexivity.
    - unfold run_options in F2. destruct (o_restart (m_opts m)) as [r|].
      + rewrite F3. cbn [bind]. rewrite F2. cbn [bind]. rewrite F4. reflexivity.
      + subst ps. cbn [bind]. rewrite F2. cbn [bind]. rewrite F4. reflexivity. }
  unfold run_prepared in HP. rewrite <- F5, F6 in HP. cbn [bind] in HP.
  exists ini, ms1, st0, st, chains. cbv zeta. rewrite F12.
  split; [exact F2|]. split; [exact M1|]. split; [exact M2|]. split; [exact M3|]. split; [congruence|]. split; [exact F24|].
  split; [exact F4|]. split; [exact F5|]. split; [exact F6|]. split; [exact F8|].
  rewrite F7. split; [apply opview_ok|]. rewrite F5. cbn [start_state r_old r_io]. split; [exact I6|]. split; [exact I7|].
  split; [exact F11|]. split; [exact F9|]. split; [exact F16|]. split; [exact F17|]. split; [exact F20|]. split; [exact F22|].
  split; [exact F15|].
  assert (HQ : m' = m') by reflexivity.
  match type of HP with Ok ?x = Ok m' => assert (HX : x = m') by congruence end.
  split; [|split; [exact F23|]].
  - rewrite <- HX. cbn [m_fs]. destruct (o_save_to_json (i_opts ini)); [reflexivity|]. now rewrite app_nil_r.
  - rewrite <- HX. reflexivity.
Qed.

(** Sizes after the check against the number of SS components. *)
Lemma check_size_length x n y : check_size_of_setting x n = Ok y ->
  List.length y = n /\ ((exists a, x = [a] /\ y = repeat (nmul n1 a) n) \/ (List.length x = n /\ y = x)).
Proof.
  unfold check_size_of_setting. destruct x as [|a [|b x]]; intros H.
  - destruct (n <? List.length (@nil F)) eqn:A; [discriminate|]. destruct (List.length (@nil F) <? n) eqn:B; [discriminate|].
    apply Nat.ltb_ge in A, B. cbn [List.length] in *. inv H. cbn. split; [lia|right]. split; auto. lia.
  - inv H. rewrite repeat_length. split; auto. left. eauto.
  - destruct (n <? List.length (a :: b :: x)) eqn:A; [discriminate|]. destruct (List.length (a :: b :: x) <? n) eqn:B; [discriminate|].
    apply Nat.ltb_ge in A, B. cbn [List.length] in *. inv H. split; [cbn; lia|right]. split; [cbn; lia|reflexivity].
Qed.

Lemma check_wrt_nsos_ok m n m' : check_wrt_nsos m n = Ok m' ->
  exists S20' N0' sg' N', m' = mkms (Some sg') (Some N') (Some N0') S20' (ms_nbatch m)
       (ms_alias m && negb (List.length (lst (ms_sigma2 m)) =? 1)) /\
    check_size_of_setting (ms_S20 m) n = Ok S20' /\ check_size_of_setting (lst (ms_N0 m)) n = Ok N0' /\
    check_size_of_setting (lst (ms_sigma2 m)) n = Ok sg' /\ check_size_of_observations (lst (ms_N m)) n = Ok N'.
Proof. unfold check_wrt_nsos. intros H. peel H. peel H. peel H. peel H. inv H. eauto 10. Qed.

Theorem variance_course b m m' n :
  (forall v, List.length (e_sos E v) = n) ->
  run_simulation E b m = Ok m' -> o_updatesigma (m_opts m') = true -> ms_alias (m_model m') = false ->
  exists evs, m_trace m' = rev evs ++ m_trace m /\ List.length evs = o_nsimu (m_opts m) - 1 /\
  List.length (ms_S20 (m_model m')) = n /\ List.length (lst (ms_N0 (m_model m'))) = n /\
  forall k e, nth_error evs k = Some e ->
    exists s2 ssrow row s s', m_s2chain m' = Some s2 /\
      nth_error (m_sschain m') ((if b then m_index m else 0) + S k) = Some ssrow /\
      nth_error s2 ((if b then m_index m else 0) + S k) = Some row /\ (exists v, ssrow = e_sos E v) /\
      drawn E (quads (lst (ms_N0 (m_model m'))) (ms_S20 (m_model m')) (lst (ms_N (m_model m'))) ssrow 0 n) s row s' /\
      ev_pos e <= io_pos s /\ io_pos s' = nth (S k) (map (@ev_pos F) evs) (m_pos m') /\
      (n = 0 \/ n <= List.length (lst (ms_N (m_model m')))).
Proof.
  intros Hn H Hu Ha. apply run_model in H as (ini & ms1 & st0 & st & chains & H). cbv zeta in H.
  destruct H as (H1 & H2 & H3 & H4 & H5 & H6 & H7 & H8 & H9 & H10 & H11 & H12 & H13 & H14 & H15 & H16 & H17 & H18 & H19 & H20 & H21 & H22 & H23).
  rewrite Hn in H4. rewrite H23 in Ha |- *. cbn [ms_alias ms_S20 ms_N0 ms_N lst] in *. rewrite H6 in Hu.
  apply check_wrt_nsos_ok in H3 as (S20' & N0' & sg' & N' & EM & C1 & C2 & C3 & C4).
  set (K := make_const ini chains) in *.
  assert (HV : vinv E K n st0 st).
  { unfold execute in H9. peel H9. destruct (o_nsimu (k_opts K) <=? 1); [discriminate|]. peel H9. peel H9.
    match type of H9 with Ok ?x = _ => assert (st = x) as -> by congruence end.
    assert (HV : vinv E K n st0 a).
    { eapply (vinv_iterate E K n Hn); eauto.
      - rewrite H8. reflexivity.
      - rewrite H8. cbn. rewrite EM. cbn. rewrite H4 in C3. apply check_size_length in C3. tauto.
      - unfold scale_used. change (k_alias K) with (ms_alias (i_model ini)). now rewrite Ha.
      - change (k_alias K) with (ms_alias (i_model ini)). congruence. }
    exact HV. }
  destruct HV as (V1 & _ & V2 & V3). unfold scale_used in V1, V3. change (k_alias K) with (ms_alias (i_model ini)) in V1, V3.
  rewrite Ha in V1, V3.
  assert (ES : r_S20 st0 = ms_S20 (i_model ini)) by (rewrite H8; reflexivity).
  assert (EI : r_index st0 = (if b then m_index m else 0)) by (rewrite H8; reflexivity).
  exists (rev (r_trace st)). rewrite rev_involutive. split; [exact H19|]. rewrite rev_length. split; [exact H14|].
  rewrite V1, ES. apply check_size_length in C1, C2. rewrite EM at 1 2. cbn [ms_S20 ms_N0 lst]. rewrite H4 in *.
  split; [tauto|]. split; [tauto|].
  intros k e Hk. destruct (V3 k e Hk) as (? & -> & s2 & ssrow & row & s & s' & X1 & X2 & X3 & X4 & X5 & X6 & X7 & X8).
  exists s2, ssrow, row, s, s'. rewrite H16, H17, H18, <- EI. split; [exact X1|]. split; [exact X2|]. split; [exact X3|]. split; [exact X4|].
  split. { rewrite <- ES. exact X5. } split; [exact X6|]. split; [exact X7|]. cbn in X8. tauto.
Qed.

End Run.
