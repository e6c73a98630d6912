(** Invariants of the main loop, for every float structure. *)

From Coq Require Import ZArith QArith Bool Lia List String.
From Verif Require Import Base Num Samplers Adapt Settings Simulator SamplerFacts RunSpec.
Import ListNotations.
Open Scope list_scope.
Open Scope nat_scope.
Open Scope res_scope.

Section RunFacts.
Context {F : Type} `{NF : Num F}.
Variable E : env F.
Variable K : rconst F.

(** ** Parts of an iteration *)

Lemma step_parts i st st' :
  step E K i st = Ok st' ->
  exists stage new outb z iacce s st1 st2 st3,
    sample_step E K st = Ok (stage, new, outb, z, iacce, s) /\
    update_chain K st (stage, new, outb, z, iacce, s) = Ok st1 /\
    adapt_step E K i z (p_alpha new) st1 = Ok st2 /\
    sigma_step E K st2 = Ok st3 /\ save_step K i st3 = Ok st'.
Proof.
  unfold step. intros H. peel H. destruct a as [[[[[stage new] outb] z] iacce] s].
  peel H. peel H. peel H. repeat eexists; eauto.
Qed.

Lemma iterate_ind (P : nat -> rstate F -> Prop) n : forall a st0 st,
  P a st0 ->
  (forall i st1 st2, a <= i < a + n -> P i st1 -> step E K i st1 = Ok st2 -> P (S i) st2) ->
  iterate E K (seq a n) st0 = Ok st -> P (a + n) st.
Proof.
  induction n as [|n IH]; intros a st0 st H0 HS H; simpl in H.
  - inv H. now rewrite Nat.add_0_r.
  - peel H. replace (a + S n) with (S a + n) by lia. eapply IH; [| |exact H].
    + eapply HS; eauto. lia.
    + intros i st1 st2 Hi. apply HS. lia.
Qed.

Lemma iterate_app l1 : forall l2 st0,
  iterate E K (l1 ++ l2) st0 = bind (iterate E K l1 st0) (iterate E K l2).
Proof.
  induction l1 as [|i t IH]; intros l2 st0; simpl; auto.
  destruct (step E K i st0); simpl; auto.
Qed.

Lemma adapt_frame i z al st st' :
  adapt_step E K i z al st = Ok st' ->
  r_index st' = r_index st /\ r_savecount st' = r_savecount st /\ r_lastbin st' = r_lastbin st /\
  r_old st' = r_old st /\ r_rej st' = r_rej st /\ r_rejout st' = r_rejout st /\
  r_chain st' = r_chain st /\ r_ss st' = r_ss st /\ r_s2 st' = r_s2 st /\
  r_sigma2 st' = r_sigma2 st /\ r_S20 st' = r_S20 st /\ r_iacce st' = r_iacce st /\
  r_io st' = r_io st /\ r_fs st' = r_fs st /\ r_trace st' = r_trace st.
Proof.
  unfold adapt_step. destruct (_ && _)%Z.
  - intros H. peel H. inv H. simpl. repeat split; auto.
  - intros H. inv H. repeat split; auto.
Qed.

Lemma draw_v_io fuel : forall c s x v s1,
  draw_v E fuel c s = Ok (x, v, s1) ->
  io_value s1 = io_value s /\ io_calls s1 = io_calls s /\ io_pos s <= io_pos s1.
Proof.
  induction fuel as [|f IH]; intros c s x v s1 H; [discriminate|].
  cbn [draw_v] in H. unfold randn in H.
  destruct (nlt _ _) in H.
  - inv H. simpl. repeat split; auto. lia.
  - apply IH in H. simpl in H. repeat split; try tauto. lia.
Qed.

Lemma gamma_io fuel : forall c d s v s1,
  gamma_mt_loop E fuel c d s = Ok (v, s1) ->
  io_value s1 = io_value s /\ io_calls s1 = io_calls s /\ io_pos s <= io_pos s1.
Proof.
  induction fuel as [|f IH]; intros c d s v s1 H; [discriminate|].
  cbn [gamma_mt_loop] in H. peel H. destruct a as [[x v'] s'].
  apply draw_v_io in E0 as (A & B & C). unfold rand in H.
  destruct (nlt _ _) in H; [inv H; simpl; repeat split; auto; lia|].
  destruct (nlt _ _) in H; [inv H; simpl; repeat split; auto; lia|].
  apply IH in H. simpl in H. destruct H as (? & ? & ?). repeat split; try congruence. lia.
Qed.

Lemma draw_sigma2_io a b c d s v s1 :
  draw_sigma2 E a b c d s = Ok (v, s1) ->
  io_value s1 = io_value s /\ io_calls s1 = io_calls s /\ io_pos s <= io_pos s1.
Proof.
  unfold draw_sigma2, gammar. intros H. peel H. destruct a0 as [y s']. inv H.
  destruct (nle _ _) in E0; [inv E0; auto|].
  unfold gammar_mt1, gammar_ge1 in E0. destruct (nlt _ _) in E0.
  - peel E0. destruct a0 as [y' s'']. peel E1. destruct a0 as [y0 s0]. inv E1.
    apply gamma_io in E2. unfold rand in E0. inv E0. simpl. repeat split; try tauto. lia.
  - peel E0. destruct a0 as [y' s'']. inv E0. eapply gamma_io; eauto.
Qed.

Lemma update_error_variance_io n : forall al N0v N sos jj sg S20 s sg' S20' s1,
  update_error_variance E al N0v N sos jj n sg S20 s = Ok (sg', S20', s1) ->
  io_value s1 = io_value s /\ io_calls s1 = io_calls s /\
  List.length sg' = List.length sg /\ List.length S20' = List.length S20 /\
  (al = false -> S20' = S20) /\ io_pos s <= io_pos s1.
Proof.
  induction n as [|n IH]; intros al N0v N sos jj sg S20 s sg' S20' s1 H; cbn [update_error_variance] in H.
  - inv H. repeat split; auto.
  - peel H. peel H. peel H. peel H. peel H. destruct a3 as [v s']. peel H.
    apply draw_sigma2_io in E4. apply write_ok in E5 as [_ ->].
    apply IH in H. destruct H as (H1 & H2 & H3 & H4 & H5 & H6). destruct E4 as (? & ? & ?).
    repeat split; try congruence.
    + rewrite H3. apply set_nth_length.
    + rewrite H4. destruct al; auto. apply set_nth_length.
    + intros ->. rewrite H5; auto.
    + lia.
Qed.

Lemma sigma_frame st st' :
  sigma_step E K st = Ok st' ->
  r_index st' = r_index st /\ r_iiadapt st' = r_iiadapt st /\ r_savecount st' = r_savecount st /\
  r_lastbin st' = r_lastbin st /\
  p_theta (r_old st') = p_theta (r_old st) /\ p_ss (r_old st') = p_ss (r_old st) /\
  p_prior (r_old st') = p_prior (r_old st) /\ p_alpha (r_old st') = p_alpha (r_old st) /\
  r_rej st' = r_rej st /\ r_rejin st' = r_rejin st /\ r_rejout st' = r_rejout st /\
  r_chain st' = r_chain st /\ r_ss st' = r_ss st /\ r_cov st' = r_cov st /\
  r_iacce st' = r_iacce st /\ io_value (r_io st') = io_value (r_io st) /\
  io_calls (r_io st') = io_calls (r_io st) /\ r_fs st' = r_fs st /\ r_trace st' = r_trace st /\
  io_pos (r_io st) <= io_pos (r_io st') /\
  option_map (@List.length _) (r_s2 st') = option_map (@List.length _) (r_s2 st) /\
  (forall k, k <> r_index st ->
     option_map (fun m => nth_error m k) (r_s2 st') = option_map (fun m => nth_error m k) (r_s2 st)).
Proof.
  unfold sigma_step. destruct (o_updatesigma (k_opts K)).
  - intros H. peel H. destruct a as [[sg s20] s]. peel H. peel H. peel H. inv H. simpl.
    apply update_error_variance_io in E0 as (A & B & _ & _ & _ & C).
    destruct (r_s2 st) as [m|]; [|discriminate]. inv E2. apply write_ok in E3 as [_ ->].
    repeat split; auto; simpl; [now rewrite set_nth_length|].
    intros k Hk. now rewrite set_nth_other by auto.
  - intros H. inv H. repeat split; auto.
Qed.

Lemma save_frame i st st' :
  save_step K i st = Ok st' ->
  r_index st' = r_index st /\ r_iiadapt st' = r_iiadapt st /\
  r_old st' = r_old st /\ r_rej st' = r_rej st /\ r_rejin st' = r_rejin st /\
  r_rejout st' = r_rejout st /\ r_chain st' = r_chain st /\ r_ss st' = r_ss st /\ r_s2 st' = r_s2 st /\
  r_cov st' = r_cov st /\ r_sigma2 st' = r_sigma2 st /\ r_S20 st' = r_S20 st /\
  r_iacce st' = r_iacce st /\ r_io st' = r_io st /\ r_trace st' = r_trace st.
Proof.
  unfold save_step. destruct (_ =? _)%Z.
  - intros H. peel H. peel H. inv H. simpl. repeat split; auto.
  - intros H. inv H. repeat split; auto.
Qed.

(** What an iteration does to the sampling-related part of the state. *)
Lemma step_summary i st st' :
  step E K i st = Ok st' ->
  exists stage new outb z iacce s,
    sample_step E K st = Ok (stage, new, outb, z, iacce, s) /\
    let cur := if stage =? 0 then r_old st else new in
    r_index st' = S (r_index st) /\
    p_theta (r_old st') = p_theta cur /\ p_ss (r_old st') = p_ss cur /\
    p_prior (r_old st') = p_prior cur /\
    (exists row, fit_row (v_npar (k_view K)) (p_theta cur) = Ok row /\
       S (r_index st) < List.length (r_chain st) /\
       r_chain st' = set_nth (S (r_index st)) row (r_chain st)) /\
    (exists row, fit_row (k_nsos K) (p_ss cur) = Ok row /\
       S (r_index st) < List.length (r_ss st) /\
       r_ss st' = set_nth (S (r_index st)) row (r_ss st)) /\
    r_rej st' = (if stage =? 0 then S (r_rej st) else r_rej st) /\
    r_rejout st' = (if stage =? 0 then if outb then S (r_rejout st) else r_rejout st else r_rejout st) /\
    r_iacce st' = iacce /\
    io_value (r_io st') = io_value s /\ io_calls (r_io st') = io_calls s /\
    r_trace st' = mkev (r_cov st) (io_pos (r_io st)) stage outb (List.length (r_fs st)) :: r_trace st /\
    io_pos s <= io_pos (r_io st') /\
    option_map (@List.length _) (r_s2 st') = option_map (@List.length _) (r_s2 st) /\
    (forall k, k <> S (r_index st) ->
     option_map (fun m => nth_error m k) (r_s2 st') = option_map (fun m => nth_error m k) (r_s2 st)).
Proof.
  intros H. apply step_parts in H as (stage & new & outb & z & iacce & s & st1 & st2 & st3 & H1 & H2 & H3 & H4 & H5).
  exists stage, new, outb, z, iacce, s. split; auto.
  apply adapt_frame in H3. apply sigma_frame in H4. apply save_frame in H5.
  decompose [and] H3; clear H3. decompose [and] H4; clear H4. decompose [and] H5; clear H5.
  unfold update_chain in H2. peel H2. peel H2. peel H2. peel H2. inv H2. simpl in *.
  apply write_ok in E1 as [L1 ->]. apply write_ok in E3 as [L2 ->].
  destruct (stage =? 0) eqn:Es; simpl in *.
  - repeat split; try congruence.
    + exists a. repeat split; auto. congruence.
    + exists a1. repeat split; auto. congruence.
    + intros k Hk. replace (r_s2 st') with (r_s2 st3) by congruence.
      match goal with H : forall k, _ -> _ = option_map _ (r_s2 st2) |- _ => rewrite H by congruence end.
      congruence.
  - repeat split; try congruence.
    + exists a. repeat split; auto. congruence.
    + exists a1. repeat split; auto. congruence.
    + intros k Hk. replace (r_s2 st') with (r_s2 st3) by congruence.
      match goal with H : forall k, _ -> _ = option_map _ (r_s2 st2) |- _ => rewrite H by congruence end.
      congruence.
Qed.

Lemma sample_facts base st stage new outb z iacce s :
  let V := k_view K in
  view_ok V (List.length base) -> value_ok base V (r_io st) ->
  sample_step E K st = Ok (stage, new, outb, z, iacce, s) ->
  value_ok base V s /\ calls_between base V (r_io st) s /\
  (stage <> 0 -> outb = false /\ good_set E base V new /\
     exists P pos, factor_in_force (r_cov st) stage P /\
       (stage = 1 -> pos = io_pos (r_io st)) /\
       (2 <= stage -> io_pos (r_io st) + v_npar V <= pos) /\ pos + v_npar V <= io_pos s /\
       p_theta new = vadd (p_theta (r_old st))
                       (vecmat (map (s_normal (e_str E)) (seq pos (v_npar V))) P)) /\
  stage <= Nat.max 1 (o_ntry (k_opts K)) /\
  List.length iacce = List.length (r_iacce st) /\
  (2 <= stage -> stage - 1 < List.length (r_iacce st)) /\
  (forall j, nth_error iacce j =
     if (2 <=? stage) && (j =? stage - 1) then option_map S (nth_error (r_iacce st) j)
     else nth_error (r_iacce st) j) /\
  io_pos (r_io st) <= io_pos s.
Proof.
  intros V HV Hs H. unfold sample_step in H. peel H.
  destruct a as [[[[acc nw] ob] zz] s1].
  eapply metropolis_facts in E0; eauto.
  destruct E0 as (M1 & M2 & M3 & M4 & M5 & M6 & M7 & M8 & M9 & M10).
  destruct ((1 <? o_ntry (k_opts K)) && negb acc) eqn:Ec.
  - peel H. destruct a as [[[[[acc' out] outb'] ia] path'] s2]. inv H.
    unfold delayed_rejection_call in E0. destruct (c_RDR (r_cov st)) as [| |l] eqn:ER; try discriminate.
    eapply delayed_rejection_facts in E0; eauto.
    destruct E0 as (D1 & D2 & D3 & D4 & (more & P1 & P2 & P3 & P4) & D6 & D7 & D8 & D9).
    assert (HL : List.length path' = S (S (List.length more))) by (rewrite P1; reflexivity).
    apply andb_true_iff in Ec as [Ec1 Ec2]. apply Nat.ltb_lt in Ec1.
    split; auto. split; [eapply calls_between_trans; eauto|].
    destruct acc'.
    + specialize (P4 eq_refl). split.
      { intros _. destruct (D4 eq_refl) as (A & B & C & P & pos & Q1 & Q2 & Q2' & Q3).
        split; auto. split; auto. exists P, pos. split.
        - right. split; [lia|]. exists l. split; auto. etransitivity; [|exact Q1]. f_equal. lia.
        - unfold V in *. repeat split; auto; lia. }
      split; [lia|]. split; auto. split; [intros; specialize (D8 eq_refl); lia|].
      split; [|lia]. intros j. rewrite D7. replace (2 <=? List.length path' - 1) with true by (symmetry; apply Nat.leb_le; lia).
      simpl. replace (List.length path' - 1 - 1) with (List.length path' - 2) by lia. auto.
    + split; [lia|]. split; [lia|]. split; auto. split; [lia|].
      split; [|lia]. intros j. rewrite D7. reflexivity.
  - inv H. split; auto. split; auto.
    split. { intros Hne. destruct acc; [|lia]. split; [auto|]. split; [auto|].
             exists (c_R (r_cov st)), (io_pos (r_io st)). split; [left; auto|].
             repeat split; auto; lia. }
    split; [destruct acc; lia|]. split; auto. split; [destruct acc; lia|].
    split; [|lia]. intros j. destruct acc; reflexivity.
Qed.

(** ** The invariant *)

Definition moved (e : event F) (hi : nat) (row row' : list F) : Prop :=
  follows E (v_npar (k_view K)) e hi row row'.

(** [st] has been reached from [st0] (with an empty trace) by completed iterations. *)
Record reached (base : list F) (st0 st : rstate F) : Prop := {
  rc_index : r_index st = r_index st0 + List.length (r_trace st);
  rc_len : List.length (r_chain st) = List.length (r_chain st0);
  rc_s2len : option_map (@List.length _) (r_s2 st) = option_map (@List.length _) (r_s2 st0);
  rc_sslen : List.length (r_ss st) = List.length (r_ss st0);
  rc_bound : r_trace st <> [] -> r_index st < List.length (r_chain st) /\ r_index st < List.length (r_ss st);
  rc_frame : forall k, k <= r_index st0 \/ r_index st < k ->
               nth_error (r_chain st) k = nth_error (r_chain st0) k /\
               nth_error (r_ss st) k = nth_error (r_ss st0) k;
  rc_s2frame : forall k, k <= r_index st0 \/ r_index st < k ->
     option_map (fun m => nth_error m k) (r_s2 st) = option_map (fun m => nth_error m k) (r_s2 st0);
  rc_good : good_set E base (k_view K) (r_old st);
  rc_value : value_ok base (k_view K) (r_io st);
  rc_calls : calls_between base (k_view K) (r_io st0) (r_io st);
  rc_rows : forall k, r_index st0 < k <= r_index st ->
              exists theta row ssrow, nth_error (r_chain st) k = Some row /\
                fit_row (v_npar (k_view K)) theta = Ok row /\ row = theta /\
                List.length theta = v_npar (k_view K) /\
                within (v_lower (k_view K)) (v_upper (k_view K)) theta /\
                nth_error (r_ss st) k = Some ssrow /\
                fit_row (k_nsos K) (e_sos E (scatter base (v_parind (k_view K)) theta)) = Ok ssrow;
  rc_last : r_trace st <> [] -> nth_error (r_chain st) (r_index st) = Some (p_theta (r_old st));
  rc_rej : r_rej st = r_rej st0 + count rejected_ev (r_trace st);
  rc_rejout : r_rejout st = r_rejout st0 + count (fun e => rejected_ev e && ev_outb e) (r_trace st);
  rc_stage : Forall (fun e => ev_stage e <= Nat.max 1 (o_ntry (k_opts K)) /\
                              (2 <= ev_stage e -> ev_stage e - 1 < List.length (r_iacce st0)))
                    (r_trace st);
  rc_iacce_len : List.length (r_iacce st) = List.length (r_iacce st0);
  rc_iacce : forall j c, nth_error (r_iacce st0) j = Some c ->
               nth_error (r_iacce st) j =
               Some (c + count (fun e => (2 <=? ev_stage e) && (j =? ev_stage e - 1)) (r_trace st));
  rc_moved : nth_error (r_chain st0) (r_index st0) = Some (p_theta (r_old st0)) ->
             forall k e, nth_error (rev (r_trace st)) k = Some e ->
             exists row row', nth_error (r_chain st) (r_index st0 + k) = Some row /\
               nth_error (r_chain st) (r_index st0 + S k) = Some row' /\
               moved e (nth (S k) (map ev_pos (rev (r_trace st))) (io_pos (r_io st))) row row';
  rc_cur : nth_error (r_chain st0) (r_index st0) = Some (p_theta (r_old st0)) ->
           nth_error (r_chain st) (r_index st) = Some (p_theta (r_old st))
}.

Lemma count_cons {A} (p : A -> bool) a l : count p (a :: l) = (if p a then 1 else 0) + count p l.
Proof. unfold count. simpl. destruct (p a); reflexivity. Qed.

Lemma reached_refl base st0 :
  r_trace st0 = [] -> good_set E base (k_view K) (r_old st0) -> value_ok base (k_view K) (r_io st0) ->
  reached base st0 st0.
Proof.
  intros HT HG HV. split; rewrite ?HT; simpl; auto; try congruence.
  - apply calls_between_refl; auto.
  - intros. lia.
  - intros. rewrite Nat.add_0_r. auto.
  - intros. destruct k; discriminate.
Qed.

Lemma fit_row_exact n (x : list F) row : List.length x = n -> fit_row n x = Ok row -> row = x.
Proof. intros H. unfold fit_row. rewrite H, Nat.eqb_refl. intros H'. inv H'. auto. Qed.

Lemma reached_step base st0 i st st' :
  view_ok (k_view K) (List.length base) -> reached base st0 st -> step E K i st = Ok st' ->
  reached base st0 st'.
Proof.
  intros HV R H. apply step_summary in H as (stage & new & outb & z & iacce & s & H1 & H).
  destruct R. pose proof (sample_facts base st _ _ _ _ _ _ HV rc_value0 H1)
    as (S1 & S2 & S3 & S4 & S5 & S6 & S7 & S8).
  cbv zeta in H.
  destruct H as (A1 & A2 & A3 & A4 & (row & B1 & B2 & B3) & (srow & C1 & C2 & C3) & A5 & A6 & A7 & A8 & A9 & A10 & A11 & A12 & A13).
  set (cur := if stage =? 0 then r_old st else new) in *.
  assert (Hcur : good_set E base (k_view K) cur).
  { unfold cur. destruct (Nat.eqb_spec stage 0); auto. destruct (S3 n) as (_ & ? & _); auto. }
  destruct Hcur as (G1 & G2 & G3 & G4).
  assert (Hrow : row = p_theta cur) by (eapply fit_row_exact; eauto).
  split.
  - rewrite A1, rc_index0, A10. simpl. lia.
  - rewrite B3, set_nth_length. auto.
  - congruence.
  - rewrite C3, set_nth_length. auto.
  - intros _. rewrite A1, B3, C3, !set_nth_length. auto.
  - intros k Hk. rewrite B3, C3, !set_nth_other by (rewrite A1 in Hk; lia).
    apply rc_frame0. rewrite A1 in Hk. lia.
  - intros k Hk. rewrite A13 by lia. apply rc_s2frame0. lia.
  - split; [congruence|]. split; [rewrite A2; exact G2|]. split; [rewrite A2; congruence|].
    rewrite A2; congruence.
  - destruct S1 as [T1 T2]. split; [congruence|]. intros j Hj. rewrite A8. auto.
  - eapply calls_between_trans; [exact rc_calls0|].
    destruct S2 as (nw & N1 & N2). exists nw. split; auto. congruence.
  - intros k Hk. rewrite A1 in Hk. destruct (Nat.eq_dec k (S (r_index st))) as [->|Hne].
    + exists (p_theta cur), row, srow. rewrite B3, C3, !set_nth_same by auto.
      rewrite <- G3. split; [auto|]. split; [auto|]. split; [auto|]. split; [auto|].
      split; [exact G2|]. split; auto.
    + rewrite B3, C3, !set_nth_other by lia. apply rc_rows0. lia.
  - intros _. rewrite A1, B3, set_nth_same by auto. congruence.
  - rewrite A5, A10, count_cons, rc_rej0. unfold rejected_ev. cbn [ev_stage]. destruct (stage =? 0); lia.
  - rewrite A6, A10, count_cons, rc_rejout0. unfold rejected_ev. cbn [ev_stage ev_outb].
    destruct (stage =? 0); simpl; [destruct outb; lia|lia].
  - rewrite A10. constructor; auto. simpl. split; auto. intros. rewrite <- rc_iacce_len0. auto.
  - rewrite A7. congruence.
  - intros j c Hj. rewrite A7, S7, A10, count_cons. rewrite (rc_iacce0 _ _ Hj). cbn [ev_stage].
    destruct ((2 <=? stage) && (j =? stage - 1)); simpl; f_equal; lia.
  - intros H0 k e. rewrite A10. cbn [rev]. intros Hk.
    assert (Hlast : List.length (rev (r_trace st)) = List.length (r_trace st)) by apply rev_length.
    destruct (Nat.lt_ge_cases k (List.length (r_trace st))) as [Hlt|Hge].
    + rewrite nth_error_app1 in Hk by lia.
      destruct (rc_moved0 H0 _ _ Hk) as (r1 & r2 & X1 & X2 & X3).
      exists r1, r2. rewrite B3, !set_nth_other by lia. split; auto. split; auto.
      rewrite map_app. cbn [map ev_pos].
      destruct (Nat.eq_dec (S k) (List.length (r_trace st))) as [Hq|Hq].
      * rewrite app_nth2 by (rewrite map_length; lia). rewrite map_length, Hlast, Hq, Nat.sub_diag. cbn [nth].
        rewrite nth_overflow in X3 by (rewrite map_length; lia). exact X3.
      * rewrite app_nth1 by (rewrite map_length; lia).
        erewrite nth_indep; [exact X3|]. rewrite map_length. lia.
    + rewrite nth_error_app2 in Hk by lia. rewrite Hlast in Hk.
      assert (k = List.length (r_trace st)).
      { destruct (k - List.length (r_trace st)) eqn:Ek; [lia|]. simpl in Hk. destruct n; discriminate. }
      subst k. rewrite Nat.sub_diag in Hk. simpl in Hk. inv Hk.
      exists (p_theta (r_old st)), (p_theta cur).
      rewrite B3. rewrite set_nth_other by lia. rewrite <- rc_index0. split; [auto|].
      replace (r_index st0 + S (List.length (r_trace st))) with (S (r_index st)) by lia.
      rewrite set_nth_same by auto. split; [congruence|].
      rewrite nth_overflow by (rewrite map_length, app_length, Hlast; simpl; lia).
      unfold moved, follows. cbn [ev_stage ev_pos ev_cov]. unfold cur. split.
      * intros ->. reflexivity.
      * intros Hne. apply Nat.eqb_neq in Hne as Hne'. rewrite Hne'.
        destruct (S3 Hne) as (_ & _ & P & pos & Y1 & Y2 & Y3 & Y4 & Y5).
        exists P, pos. repeat split; auto. lia.
  - intros _. rewrite A1, B3, set_nth_same by auto. congruence.
Qed.

Lemma reached_iterate base st0 st n a :
  view_ok (k_view K) (List.length base) ->
  r_trace st0 = [] -> good_set E base (k_view K) (r_old st0) -> value_ok base (k_view K) (r_io st0) ->
  iterate E K (seq a n) st0 = Ok st -> reached base st0 st /\ List.length (r_trace st) = n.
Proof.
  intros HV HT HG Hv H.
  assert (HI : reached base st0 st /\ a + List.length (r_trace st) = a + n); [|split; [tauto|lia]].
  eapply (iterate_ind (fun i x => reached base st0 x /\ a + List.length (r_trace x) = i)); [| |exact H].
  - split; [apply reached_refl; auto|]. rewrite HT. simpl. lia.
  - intros i st1 st2 _ [R1 R2] Hs. split; [eapply reached_step; eauto|].
    apply step_summary in Hs as (stage & new & outb & z & iacce & s & _ & Hs). cbv zeta in Hs.
    decompose [and] Hs. match goal with H : r_trace st2 = _ |- _ => rewrite H end. simpl. lia.
Qed.

End RunFacts.
