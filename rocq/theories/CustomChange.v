(** Runs with custom samplers that change the parameter set. *)

From Coq Require Import ZArith QArith Bool Lia List String.
From Verif Require Import Base Num Samplers Adapt Settings Simulator RunSpec SamplerFacts RunFacts RunLift SettingsFacts LogSpec LogFacts
  Custom CustomSpec CustomFacts CustomRun.
Import ListNotations.
Close Scope Q_scope.
Open Scope list_scope.
Open Scope nat_scope.
Open Scope res_scope.

Section CustomChange.
Context {F : Type} `{NF : Num F} {St Out : Type}.
Notation sampler := (sampler F St Out).
Notation ucall := (ucall F Out).

Lemma update_handed (l : list sampler) : forall sts acc i cur pos out cur' pos' sts',
  List.length sts = List.length l -> update_all l sts acc i cur pos = (out, cur', pos', sts') ->
  List.length sts' = List.length sts /\ handed_on acc i l cur cur'.
Proof.
  induction l as [|cs l IH]; intros [|st sts] acc i cur pos out cur' pos' sts' HL H; try discriminate; cbn [update_all] in H.
  - injection H as <- <- <- <-. split; [reflexivity|constructor].
  - destruct (cs_update cs acc i cur pos st) as [[[o c1] p1] st1] eqn:HC.
    destruct (update_all l sts acc i c1 p1) as [[[os c2] p2] sts2] eqn:HU. injection H as <- <- <- <-.
    apply IH in HU as [L HU]; [|now injection HL]. split; [cbn; now rewrite L|]. econstructor; eauto.
Qed.
Lemma handed_shape (l : list sampler) acc i cur cur' : Forall same_shape l -> handed_on acc i l cur cur' ->
  List.length (p_theta cur') = List.length (p_theta cur) /\ List.length (p_ss cur') = List.length (p_ss cur).
Proof.
  intros HF H. induction H as [|cs l cur pos st o cur1 pos' st' cur2 H _ IH]; [auto|].
  inversion HF as [|? ? H1 H2]; subst. apply H1 in H as [A B]. destruct (IH H2) as [C D]. split; congruence.
Qed.
Lemma handed_respects (P : list F -> Prop) (l : list sampler) acc i cur cur' : Forall (respects P) l -> handed_on acc i l cur cur' ->
  P (p_theta cur) -> P (p_theta cur').
Proof.
  intros HF H. induction H as [|cs l cur pos st o cur1 pos' st' cur2 H _ IH]; [auto|].
  inversion HF as [|? ? H1 H2]; subst. intros HP. apply (IH H2). eapply H1; eauto.
Qed.

Variable E : env F.
Variable u : usersos F Out.
Variable samplers : list sampler.

(** What iteration [e] makes of the point [cur]: the same, or a new one proposed from it. *)
Definition moves (n : nat) (e : event F) (cur next : pset F) : Prop :=
  (ev_stage e = 0 -> p_theta next = p_theta cur /\ p_ss next = p_ss cur) /\
  (ev_stage e <> 0 -> exists P pos, factor_in_force (ev_cov e) (ev_stage e) P /\
     p_theta next = vadd (p_theta cur) (vecmat (map (s_normal (e_str E)) (seq pos n)) P)).

(** The course of the loop: [lefts] holds the sets the samplers left, the newest first. *)
Record course (V : pview F) (nsos : nat) (set0 : pset F) (st0 : rstate F) (lefts : list (pset F)) (c : cstate F St Out) : Prop := {
  t_index : r_index (c_run c) = r_index st0 + List.length (c_calls c);
  t_trace : List.length (r_trace (c_run c)) = List.length (c_calls c);
  t_lefts : List.length lefts = List.length (c_calls c);
  t_sts : List.length (c_sts c) = List.length samplers;
  t_old : r_old (c_run c) = hd set0 lefts;
  t_shape : List.length (p_theta (r_old (c_run c))) = v_npar V /\ List.length (p_ss (r_old (c_run c))) = nsos;
  t_frame : forall k, k <= r_index st0 -> nth_error (r_chain (c_run c)) k = nth_error (r_chain st0) k;
  t_rows : forall k call, nth_error (rev (c_calls c)) k = Some call ->
     uc_isimu call = S k /\
     nth_error (r_chain (c_run c)) (r_index st0 + S k) = Some (p_theta (uc_set call)) /\
     nth_error (r_ss (c_run c)) (r_index st0 + S k) = Some (p_ss (uc_set call)) /\
     exists e before after, nth_error (rev (r_trace (c_run c))) k = Some e /\ uc_accept call = negb (ev_stage e =? 0) /\
       nth_error (set0 :: rev lefts) k = Some before /\ nth_error (rev lefts) k = Some after /\
       moves (v_npar V) e before (uc_set call) /\ handed_on (uc_accept call) (S k) samplers (uc_set call) after /\
       (ev_stage e <> 0 -> within (v_lower V) (v_upper V) (p_theta (uc_set call)) /\ List.length (p_theta (uc_set call)) = v_npar V)
}.

Lemma nth_snoc {A} (l : list A) x k y : nth_error (l ++ [x]) k = Some y -> k < List.length l /\ nth_error l k = Some y \/ k = List.length l /\ y = x.
Proof.
  intros H. destruct (Nat.lt_ge_cases k (List.length l)) as [Hlt|Hge].
  - left. rewrite nth_error_app1 in H by exact Hlt. auto.
  - right. rewrite nth_error_app2 in H by exact Hge.
    destruct (k - List.length l) as [|x'] eqn:Ek; cbn in H; [injection H as <-; split; [lia|reflexivity]|destruct x'; discriminate].
Qed.
Lemma nth_more {A} (l : list A) x k y : nth_error l k = Some y -> nth_error (l ++ [x]) k = Some y.
Proof. intros H. rewrite nth_error_app1; [exact H|]. apply nth_error_Some. congruence. Qed.
Lemma nth_end {A} (l : list A) x : nth_error (l ++ [x]) (List.length l) = Some x.
Proof. rewrite nth_error_app2, Nat.sub_diag by lia. reflexivity. Qed.
Lemma nth_hd {A} (d : A) l : nth_error (d :: rev l) (List.length l) = Some (hd d l).
Proof.
  destruct l as [|x l]; [reflexivity|]. cbn [hd rev List.length nth_error]. rewrite <- (rev_length l). apply nth_end.
Qed.

Lemma course_step base K set0 st0 lefts i c c' : view_ok (k_view K) (List.length base) -> Forall same_shape samplers ->
  (forall o v, List.length (sos_call u o v) = k_nsos K) -> i = S (List.length (c_calls c)) -> value_ok base (k_view K) (r_io (c_run c)) ->
  course (k_view K) (k_nsos K) set0 st0 lefts c -> cstep E u samplers K i c = Ok c' ->
  value_ok base (k_view K) (r_io (c_run c')) /\ exists left, course (k_view K) (k_nsos K) set0 st0 (left :: lefts) c'.
Proof.
  intros HV HK HS Hi R5 R H. apply cstep_step in H as (t & e & out & cur & pos & sts & f & HT & HE & HU & -> & _).
  destruct R as [R1 R2 R3 R4 R6 (R7 & R8) R9 R10].
  apply update_handed in HU as (L & HU); [|exact R4].
  apply step_summary in HT as (stage & new & outb & z & iacce & s & H1 & H). cbv zeta in H.
  destruct H as (A1 & A2 & A3 & A4 & (row & B1 & B2 & B3) & (srow & C1 & C2 & C3) & A5 & A6 & A7 & A8 & A9 & A10 & A11 & A12 & A13).
  pose proof (sample_facts _ _ base (c_run c) _ _ _ _ _ _ HV R5 H1) as (S1 & S2 & S3 & S4 & S5 & S6 & S7 & S8).
  set (cr := if stage =? 0 then r_old (c_run c) else new) in *.
  assert (e = mkev (r_cov (c_run c)) (io_pos (r_io (c_run c))) stage outb (List.length (r_fs (c_run c)))) as -> by congruence.
  cbn [ev_stage] in *.
  assert (Hcr : List.length (p_theta cr) = v_npar (k_view K) /\ List.length (p_ss cr) = k_nsos K).
  { unfold cr. destruct (Nat.eqb_spec stage 0); [split; assumption|]. destruct (S3 n) as (_ & (G1 & _ & G3 & _) & _).
    split; [exact G1|]. rewrite G3. apply HS. }
  destruct Hcr as [G1 G2].
  assert (row = p_theta cr) by (eapply fit_row_exact; eauto). subst row.
  assert (srow = p_ss cr) by (eapply fit_row_exact; eauto). subst srow.
  destruct (handed_shape _ _ _ _ _ HK HU) as [D1 D2].
  split. { destruct S1 as [T1 T2]. split; cbn [c_run with_files after_update r_io io_value]; [congruence|]. intros j Hj. rewrite A8. auto. }
  exists cur.
  split; cbn [c_run c_calls c_sts with_files after_update r_index r_trace r_chain r_ss r_old hd List.length].
  - rewrite A1, R1. lia.
  - rewrite A10. cbn. congruence.
  - congruence.
  - congruence.
  - reflexivity.
  - rewrite D1, D2, A2, A3. auto.
  - intros k Hk. rewrite B3, !set_nth_other by lia. auto.
  - intros k call Hk. cbn [rev] in Hk. apply nth_snoc in Hk. rewrite rev_length in Hk. destruct Hk as [(Hlt & Hq)|(-> & ->)].
    + destruct (R10 _ _ Hq) as (Q1 & Q2 & Q3 & e & before & after & Q4 & Q5 & Q6 & Q7 & Q8).
      split; [exact Q1|]. rewrite B3, C3, !set_nth_other by lia. split; [exact Q2|]. split; [exact Q3|].
      exists e, before, after. rewrite A10. cbn [rev]. split; [now apply nth_more|]. split; [exact Q5|].
      split; [|split; [now apply nth_more|exact Q8]].
      destruct k as [|k]; [exact Q6|]. cbn [nth_error] in *. now apply nth_more.
    + cbn [uc_isimu uc_accept uc_set]. split; [exact Hi|].
      replace (r_index st0 + S (List.length (c_calls c))) with (S (r_index (c_run c))) by lia.
      rewrite B3, C3, !set_nth_same by assumption. split; [congruence|]. split; [congruence|].
      eexists. exists (r_old (c_run c)), cur. split.
      { rewrite A10. cbn [rev]. rewrite nth_error_app2 by (rewrite rev_length; lia). rewrite rev_length, R2, Nat.sub_diag. reflexivity. }
      cbn [ev_stage ev_cov]. split; [reflexivity|].
      split. { rewrite <- R3, R6. cbn [rev]. rewrite app_comm_cons. apply nth_more. apply nth_hd. }
      split. { cbn [rev]. rewrite <- R3, <- (rev_length lefts). apply nth_end. }
      split; [|split; [rewrite Hi in HU; exact HU|]].
      * unfold moves. cbn [ev_stage ev_cov]. rewrite A2, A3. unfold cr. split.
        -- intros ->. cbn [Nat.eqb]. auto.
        -- intros Hs. destruct (Nat.eqb_spec stage 0); [contradiction|]. destruct (S3 Hs) as (_ & _ & P & p & X1 & _ & _ & _ & X2).
           exists P, p. split; [exact X1|exact X2].
      * intros Hs. rewrite A2. unfold cr. destruct (Nat.eqb_spec stage 0); [contradiction|]. destruct (S3 Hs) as (_ & (Y1 & Y2 & _) & _). auto.
Qed.

Lemma course_loop base K set0 st0 n : view_ok (k_view K) (List.length base) -> Forall same_shape samplers ->
  (forall o v, List.length (sos_call u o v) = k_nsos K) -> forall a lefts c c', S (List.length (c_calls c)) = a ->
  value_ok base (k_view K) (r_io (c_run c)) -> course (k_view K) (k_nsos K) set0 st0 lefts c ->
  citerate E u samplers K (seq a n) c = Ok c' ->
  List.length (c_calls c') = List.length (c_calls c) + n /\ exists lefts', course (k_view K) (k_nsos K) set0 st0 lefts' c'.
Proof.
  intros HV HK HS. induction n as [|n IH]; intros a lefts c c' Ha HR HH H; cbn [seq citerate] in H.
  - injection H as <-. split; [lia|eauto].
  - peel H. assert (L : List.length (c_calls a0) = S (List.length (c_calls c))).
    { apply cstep_step in E0 as (t & e & out & cur & pos & sts & f & _ & _ & _ & -> & _). reflexivity. }
    destruct (course_step _ _ _ _ _ _ _ _ HV HK HS (eq_sym Ha) HR HH E0) as (X & left & Y).
    eapply IH in H; [rewrite L in H; split; [lia|apply H]|lia|exact X|exact Y].
Qed.

Theorem run_course b m sts m' c : Forall same_shape samplers -> List.length sts = List.length samplers ->
  (forall o o' v v', List.length (sos_call u o v) = List.length (sos_call u o' v')) ->
  crun_simulation E u samplers b m sts = Ok (m', c) ->
  let start := if b then m_index m else 0 in
  exists evs calls lefts set0, m_trace m' = rev evs ++ m_trace m /\ List.length evs = o_nsimu (m_opts m) - 1 /\
    List.length calls = o_nsimu (m_opts m) - 1 /\ same_decls (m_params m) (m_params m') /\ c_calls c = rev calls /\
    inside (m_params m') (p_theta set0) /\ (b = false -> nth_error (m_chain m') 0 = Some (p_theta set0)) /\
    forall k call, nth_error calls k = Some call ->
     uc_isimu call = S k /\
     nth_error (m_chain m') (start + S k) = Some (p_theta (uc_set call)) /\
     nth_error (m_sschain m') (start + S k) = Some (p_ss (uc_set call)) /\
     exists e before after, nth_error evs k = Some e /\ uc_accept call = negb (ev_stage e =? 0) /\
       nth_error (set0 :: lefts) k = Some before /\ nth_error lefts k = Some after /\
       moves (List.length (sampled_params (m_params m'))) e before (uc_set call) /\ handed_on (uc_accept call) (S k) samplers (uc_set call) after /\
       (ev_stage e <> 0 -> inside (m_params m') (p_theta (uc_set call))).
Proof.
  intros HK HL HS H. apply crun_parts in H as (ps & ini & chain & ss & s2 & chains & outs & pos & sts1 & P1 & P2 & P3 & P4 & P5 & P6 & P7 & P8 & P9 & P10 & P11 & P12 & P13 & _ & _).
  pose proof (init_facts _ _ _ _ _ _ _ _ _ P2) as HI. cbv zeta in HI. destruct HI as (I1 & I2 & I3 & I4 & I5 & I6 & I7 & I8 & I9 & I10 & I11).
  destruct I6 as (G1 & G2 & G3 & G4).
  apply setup_each in P3 as (L1 & P3); [|exact HL].
  set (K := make_const (at_pos ini pos) chains) in *. set (st0 := start_state (at_pos ini pos) (if b then m_index m else 0) chain ss s2 (m_fs m)) in *.
  assert (KV : k_view K = opview ps) by (unfold K, make_const, opview; cbn [k_view at_pos i_op]; now rewrite I1).
  set (base := map (@a_theta0 F) ps) in *.
  assert (HS' : forall o v, List.length (sos_call u o v) = k_nsos K).
  { intros o v. change (k_nsos K) with (i_nsos ini). rewrite I9, G3. cbn [e_sos with_custom]. apply HS. }
  assert (HV : view_ok (k_view K) (List.length base)) by (rewrite KV; apply opview_ok).
  assert (H0 : course (k_view K) (k_nsos K) (i_set ini) st0 [] (mkcst st0 sts1 outs [])).
  { split; cbn [c_run c_calls c_sts List.length rev hd]; auto.
    - congruence.
    - rewrite KV. change (r_old st0) with (i_set ini). split; [exact G1|]. change (k_nsos K) with (i_nsos ini). symmetry. exact I9.
    - intros [|k] call X; discriminate. }
  assert (N : o_nsimu (k_opts K) = o_nsimu (m_opts m)).
  { change (k_opts K) with (i_opts ini). rewrite I2. unfold run_options. destruct b; [reflexivity|]. destruct (o_restart (m_opts m)); reflexivity. }
  unfold cexecute in P5. peel P5. destruct (_ <=? 1) eqn:Hn; [discriminate|]. apply Nat.leb_gt in Hn. peel P5. peel P5. peel P5.
  apply (course_loop base K (i_set ini) st0 _ HV HK HS') with (lefts := []) in E0; [|reflexivity| |exact H0].
  2:{ cbn [c_run]. rewrite KV. exact I7. }
  destruct E0 as [HC (lefts & HH)]. cbn [c_calls List.length] in HC. injection P5 as <-. cbn [c_run with_files r_chain r_ss r_trace c_calls] in *.
  destruct HH as [R1 R2 R3 R4 R6 R7 R8 R9]. rewrite N in HC.
  destruct (opview_facts ps) as (V1 & V2 & V3 & V4).
  cbv zeta. set (start := if b then m_index m else 0) in *. exists (rev (r_trace (c_run a))), (rev (c_calls a)), (rev lefts), (i_set ini).
  split; [now rewrite rev_involutive, P12|]. split; [rewrite rev_length; lia|]. split; [rewrite rev_length; lia|].
  rewrite P6. split; [exact P1|]. split; [now rewrite rev_involutive|]. split; [now rewrite I4|]. split.
  { intros ->. rewrite P7, R8 by (cbn; lia). cbn [st0 start_state r_chain].
    apply initialize_chains_facts in P4; [|rewrite I4, I1, map_length; change (op_parind (check_prior_sigma (openparameterstructure ps))) with (op_parind (openparameterstructure ps)); now rewrite op_parind_open, parind_length|exact I9].
    cbv zeta in P4. destruct P4 as (_ & _ & _ & X1 & _). exact X1. }
  intros k call Hk. destruct (R9 _ _ Hk) as (Q1 & Q2 & Q3 & e & before & after & Q4 & Q5 & Q6 & Q7 & Q8 & Q9 & Q10).
  change (r_index st0) with start in *. rewrite P7, P8. split; [exact Q1|]. split; [exact Q2|]. split; [exact Q3|].
  exists e, before, after. rewrite KV in *. rewrite V2 in *. rewrite V3, V4 in *.
  do 6 (split; [assumption|]). intros Hs. destruct (Q10 Hs) as [W1 W2]. now apply within_inside.
Qed.
End CustomChange.
