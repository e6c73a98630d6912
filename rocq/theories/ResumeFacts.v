(** Restarting: where a resumed run starts, and the trajectory of one run. *)

From Coq Require Import ZArith QArith Bool Lia List String.
From Verif Require Import Base Num Samplers Adapt Settings Simulator SamplerFacts RunFacts RunSpec RunLift SessionFacts.
Import ListNotations.
Open Scope list_scope.
Open Scope nat_scope.
Open Scope res_scope.

Section Resume.
Context {F : Type} `{NF : Num F}.

Definition restart_all (pairs : list (string * F)) (p : param F) : param F :=
  fold_left (fun q nv => restart_one (fst nv) (snd nv) q) pairs p.

Lemma fold_map_restart pairs : forall ps : list (param F),
  fold_left (fun q nv => map (restart_one (fst nv) (snd nv)) q) pairs ps = map (restart_all pairs) ps.
Proof.
  induction pairs as [|nv t IH]; intros ps; simpl.
  - unfold restart_all. simpl. symmetry. apply map_id.
  - rewrite IH, map_map. reflexivity.
Qed.

Lemma loop_fold names theta : forall l pairs ii (ps : list (param F)),
  List.length pairs = List.length l ->
  (forall k i nv, nth_error l k = Some i -> nth_error pairs k = Some nv ->
      nth_error names (ii + k) = Some (fst nv) /\ nth_error theta i = Some (snd nv)) ->
  results_to_params_loop ii names theta l ps =
  Ok (fold_left (fun q nv => map (restart_one (fst nv) (snd nv)) q) pairs ps).
Proof.
  induction l as [|i t IH]; intros [|nv pairs] ii ps HL H; simpl in *; try lia; auto.
  destruct (H 0 i nv eq_refl eq_refl) as [A B]. rewrite Nat.add_0_r in A. rewrite A, B. simpl.
  apply IH; [lia|]. intros k j nv' H1 H2.
  replace (S ii + k) with (ii + S k) by lia. apply H; auto.
Qed.

Lemma restart_all_frame pairs : forall p : param F,
  a_name (restart_all pairs p) = a_name p /\ a_sample (restart_all pairs p) = a_sample p.
Proof.
  induction pairs as [|nv t IH]; intros p; simpl; auto.
  unfold restart_all in *. simpl. destruct (IH (restart_one (fst nv) (snd nv) p)) as [-> ->].
  unfold restart_one. destruct (String.eqb (fst nv) (a_name p)); auto.
Qed.

Lemma restart_all_absent pairs : forall p : param F,
  ~ In (a_name p) (map fst pairs) -> restart_all pairs p = p.
Proof.
  induction pairs as [|nv t IH]; intros p H; simpl in *; auto.
  unfold restart_all in *. simpl.
  assert (Hn : restart_one (fst nv) (snd nv) p = p).
  { unfold restart_one. destruct (String.eqb_spec (fst nv) (a_name p)); auto. tauto. }
  rewrite Hn. apply IH. tauto.
Qed.

Lemma restart_all_value pairs : forall (p : param F) v,
  NoDup (map fst pairs) -> In (a_name p, v) pairs -> a_sample p = true ->
  a_theta0 (restart_all pairs p) = v.
Proof.
  induction pairs as [|nv t IH]; intros p v ND Hin Hs; simpl in *; [tauto|].
  inversion ND as [|x l Hx ND' Hx']; subst. destruct Hin as [->|Hin].
  - change (a_theta0 (restart_all t (restart_one (a_name p) v p)) = v).
    rewrite restart_all_absent.
    + unfold restart_one. rewrite String.eqb_refl, Hs. reflexivity.
    + unfold restart_one. rewrite String.eqb_refl. exact Hx.
  - assert (Hne : String.eqb (fst nv) (a_name p) = false).
    { apply String.eqb_neq. intros He. apply Hx. rewrite He.
      apply (in_map fst) in Hin. exact Hin. }
    change (a_theta0 (restart_all t (restart_one (fst nv) (snd nv) p)) = v).
    replace (restart_one (fst nv) (snd nv) p) with p; [apply IH; auto|].
    unfold restart_one. rewrite Hne. reflexivity.
Qed.

(** The prior mean a declaration stands for: its own, or its starting value when none was given. *)
Definition prior_mean (p : param F) : F := setup_prior_mu (a_mu p) (a_theta0 p).

Lemma restart_one_prior_mean name v (p : param F) :
  nisnan (a_theta0 p) = false -> prior_mean (restart_one name v p) = prior_mean p.
Proof.
  unfold prior_mean, restart_one, setup_prior_mu. intros Hn.
  destruct (String.eqb name (a_name p)); simpl; auto.
  destruct (nisnan (a_mu p)) eqn:Em; simpl; rewrite ?Hn, ?Em; auto.
Qed.

Lemma sampled_map (g : param F -> param F) ps :
  (forall p, a_sample (g p) = a_sample p) -> sampled_params (map g ps) = map g (sampled_params ps).
Proof.
  intros Hg. unfold sampled_params. induction ps as [|p t IH]; simpl; auto.
  rewrite Hg. destruct (a_sample p); simpl; rewrite IH; auto.
Qed.

Lemma nth_combine {A B} (a : list A) (b : list B) k :
  nth_error (combine a b) k =
  match nth_error a k, nth_error b k with Some x, Some y => Some (x, y) | _, _ => None end.
Proof.
  revert b k; induction a as [|x a IH]; intros [|y b] [|k]; simpl; auto.
  destruct (nth_error a k); auto.
Qed.

(** The parameters a run leaves behind carry the values of the last row, when names are distinct. *)
Lemma restart_from_row (ps0 ps ps' : list (param F)) row r :
  same_decls ps0 ps ->
  NoDup (map (@a_name F) (sampled_params ps0)) -> List.length row = List.length (sampled_params ps0) ->
  rs_names r = map (@a_name F) (sampled_params ps0) ->
  rs_parind r = flatnonzero (map (@a_sample F) ps0) ->
  rs_theta r = fill ps0 row ->
  results_to_params r ps = Ok ps' ->
  map (@a_theta0 F) (sampled_params ps') = row.
Proof.
  intros D ND HL Hn Hp Ht H.
  set (pairs := combine (map (@a_name F) (sampled_params ps0)) row).
  assert (Hlen : List.length pairs = List.length (sampled_params ps0)).
  { unfold pairs. rewrite combine_length, map_length. lia. }
  assert (Hfst : map fst pairs = map (@a_name F) (sampled_params ps0)).
  { unfold pairs. clear -HL. revert row HL. generalize (sampled_params ps0). intros l.
    induction l as [|p t IH]; intros [|x row] HL; simpl in *; try lia; auto. f_equal. apply IH. lia. }
  unfold results_to_params in H. rewrite (loop_fold _ _ _ pairs) in H.
  - rewrite fold_map_restart in H. inv H.
    rewrite sampled_map by (intros; apply restart_all_frame). rewrite map_map.
    apply list_eq_nth.
    + rewrite map_length, <- (same_decls_sampled _ _ D). auto.
    + intros j. rewrite nth_error_map.
      destruct (nth_error (sampled_params ps) j) as [q|] eqn:Hq; simpl.
      * assert (Hj : j < List.length (sampled_params ps)) by (apply nth_error_Some; congruence).
        rewrite <- (same_decls_sampled _ _ D) in Hj.
        destruct (nth_error row j) as [v|] eqn:Hv; [|apply nth_error_None in Hv; lia].
        f_equal. apply restart_all_value.
        -- rewrite Hfst. auto.
        -- apply (nth_error_In _ j). unfold pairs. rewrite nth_combine, Hv.
           destruct (same_decls_maps _ _ D) as (_ & _ & -> & _). rewrite nth_error_map, Hq. reflexivity.
        -- apply nth_error_In in Hq. apply filter_In in Hq. tauto.
      * apply nth_error_None in Hq. rewrite <- (same_decls_sampled _ _ D) in Hq.
        symmetry. apply nth_error_None. lia.
  - rewrite Hlen, Hp. symmetry. apply parind_length.
  - intros k i nv H1 H2. unfold pairs in H2. rewrite nth_combine in H2.
    rewrite Hn. simpl. destruct (nth_error (map (@a_name F) (sampled_params ps0)) k) as [nm|]; [|discriminate].
    destruct (nth_error row k) as [v|] eqn:Hv; [|discriminate]. inv H2. simpl. split; auto.
    rewrite Ht, <- scatter_fill.
    destruct (opview_facts ps0) as (V1 & V2 & V3 & V4).
    destruct (scatter_full (map (@a_theta0 F) ps0) (opview ps0) (mkio 0 (map (@a_theta0 F) ps0) []) row (opview_ok ps0))
      as [(F1 & F2 & F3) _]; [split; auto|congruence|].
    rewrite Hp in H1. simpl io_value in F2. rewrite V1 in F2. rewrite (F2 _ _ H1). auto.
Qed.

(** ** The course of a run *)

Variable E : env F.

Lemma count_ext {A} (p q : A -> bool) l : (forall x, In x l -> p x = q x) -> count p l = count q l.
Proof.
  unfold count. induction l as [|x t IH]; intros H; simpl; auto.
  rewrite (H x) by (left; auto). rewrite <- (filter_ext_in p q t) by (intros; apply H; right; auto). auto.
Qed.

Lemma count_rev {A} (p : A -> bool) l : count p (rev l) = count p l.
Proof.
  unfold count. induction l as [|x t IH]; simpl; auto.
  rewrite filter_app, app_length, IH. simpl. destruct (p x); simpl; lia.
Qed.

Lemma stages_partition (evs : list (event F)) N :
  (forall e, In e evs -> ev_stage e <= N) ->
  List.length evs = natlist_sum (map (fun j => count (accepted_at j) evs) (seq 0 (S N))).
Proof.
  induction evs as [|e t IH]; intros H.
  - unfold count. simpl. induction (seq 1 N); simpl; auto.
  - assert (HI : forall a n, a <= ev_stage e < a + n ->
       natlist_sum (map (fun j => count (accepted_at j) (e :: t)) (seq a n)) =
       S (natlist_sum (map (fun j => count (accepted_at j) t) (seq a n)))).
    { intros a n; revert a; induction n as [|n IHn]; intros a Ha; [lia|]. cbn [seq map natlist_sum fold_right].
      unfold natlist_sum in *. destruct (Nat.eq_dec a (ev_stage e)) as [Heq|Hne].
      - assert (Hz : forall b k, ev_stage e < b ->
           fold_right plus 0 (map (fun j => count (accepted_at j) (e :: t)) (seq b k)) =
           fold_right plus 0 (map (fun j => count (accepted_at j) t) (seq b k))).
        { intros b k; revert b; induction k as [|k IHk]; intros b Hb; simpl; auto.
          rewrite IHk by lia. f_equal. rewrite count_cons. unfold accepted_at at 1.
          destruct (Nat.eqb_spec (ev_stage e) b); lia. }
        rewrite Hz by lia. rewrite count_cons. unfold accepted_at at 1. rewrite Heq, Nat.eqb_refl. lia.
      - rewrite IHn by lia. rewrite count_cons. unfold accepted_at at 1.
        destruct (Nat.eqb_spec (ev_stage e) a); lia. }
    rewrite HI by (specialize (H e (or_introl eq_refl)); lia).
    simpl List.length. f_equal. apply IH. intros; apply H; right; auto.
Qed.

Lemma fold_Zadd_nat l : fold_right Z.add 0%Z (map Z.of_nat l) = Z.of_nat (natlist_sum l).
Proof. induction l as [|x t IH]; simpl; auto. rewrite IH. unfold natlist_sum. simpl. lia. Qed.

Lemma final_iacce_counts n ntry (evs : list (event F)) iacce :
  1 < ntry -> List.length iacce = ntry -> List.length evs = n - 1 -> 2 <= n ->
  (forall e, In e evs -> ev_stage e <= ntry) ->
  (forall j, 1 <= j < ntry -> nth_error iacce j = Some (count (accepted_at (S j)) evs)) ->
  final_iacce n (count rejected_ev evs) iacce =
  Z.of_nat (S (count (accepted_at 1) evs)) ::
  map (fun j => Z.of_nat (count (accepted_at j) evs)) (seq 2 (ntry - 1)).
Proof.
  intros Hn HL HE H2 HS HI. destruct iacce as [|c t]; simpl in HL; [lia|].
  assert (Ht : t = map (fun j => count (accepted_at j) evs) (seq 2 (ntry - 1))).
  { apply list_eq_nth.
    - rewrite map_length, seq_length. lia.
    - intros j. rewrite nth_error_map. destruct (Nat.lt_ge_cases j (ntry - 1)) as [Hlt|Hge].
      + specialize (HI (S j)). simpl in HI. rewrite HI by lia.
        rewrite (nth_error_nth' _ 0) by (rewrite seq_length; lia). rewrite seq_nth by lia. reflexivity.
      + replace (nth_error (seq 2 (ntry - 1)) j) with (@None nat)
          by (symmetry; apply nth_error_None; rewrite seq_length; lia).
        apply nth_error_None. lia. }
  unfold final_iacce. cbn [map]. f_equal.
  - rewrite fold_Zadd_nat. pose proof (stages_partition evs ntry HS) as Hp.
    replace (S ntry) with (S (S (ntry - 1))) in Hp by lia. cbn [seq map natlist_sum fold_right] in Hp.
    rewrite <- Ht in Hp. change (fold_right plus 0 t) with (natlist_sum t) in Hp.
    change (count (accepted_at 0) evs) with (count rejected_ev evs) in Hp. lia.
  - rewrite Ht, map_map. reflexivity.
Qed.

(** The start row holds the starting point. *)
Lemma run_course ps0 b m m' :
  minv E ps0 m -> (b = true -> NoDup (map (@a_name F) (sampled_params ps0))) ->
  run_simulation E b m = Ok m' ->
  exists start evs, course E ps0 b m m' start evs /\ m_trace m' = rev evs ++ m_trace m /\
    (b = false -> nth_error (m_chain m') 0 = Some (map (@a_theta0 F) (sampled_params (m_params m')))) /\
    exists r, m_results m' = Some r /\
      rr_nsimu r = o_nsimu (m_opts m) /\
      rr_total_rejected r = nmul (nnat (count rejected_ev evs)) (ninv (nnat (o_nsimu (m_opts m)))) /\
      rr_outside r = nmul (nnat (count (fun e => rejected_ev e && ev_outb e) evs))
                          (ninv (nnat (o_nsimu (m_opts m)))) /\
      rr_iacce r = (if 1 <? o_ntry (m_opts m)
                    then Some (Z.of_nat (S (count (accepted_at 1) evs)) ::
                               map (fun j => Z.of_nat (count (accepted_at j) evs))
                                   (seq 2 (o_ntry (m_opts m) - 1)))
                    else None).
Proof.
  intros HM HND H. pose proof HM as [M1 M2 M3 M4 M5 M6 M7].
  pose proof (minv_run E ps0 b m m' HM H) as HM'.
  apply run_facts in H as (ps & ini & st0 & st & ms & chains & H).
  cbv zeta in H.
  destruct H as (D & (o & I0 & On & Ot & Oo) & Hprev & Harr & Hst0 & _ & HK & R & N2 & NK & NL &
                 P1 & P2 & P3 & P4 & P5 & P6 & P7 & P8 & P9 & P10 & P11 & _).
  pose proof (init_facts _ _ _ _ _ _ _ _ _ I0) as (J1 & J2 & J3 & J4 & J5 & J6 & J7 & J8 & J9 & J10 & J11).
  pose proof (same_decls_trans _ _ _ M1 D) as D0.
  destruct (opview_facts ps) as (V1 & V2 & V3 & V4).
  set (idx := if b then m_index m else 0) in *.
  assert (Hidx0 : r_index st0 = idx) by (rewrite Hst0; reflexivity).
  assert (Hset0 : r_old st0 = i_set ini) by (rewrite Hst0; reflexivity).
  assert (Hia0 : r_iacce st0 = i_iacce ini) by (rewrite Hst0; reflexivity).
  assert (Hrej0 : r_rej st0 = 0 /\ r_rejout st0 = 0) by (rewrite Hst0; auto).
  assert (HKo : k_opts (make_const ini chains) = i_opts ini) by reflexivity.
  assert (Hstart : nth_error (r_chain st0) (r_index st0) = Some (p_theta (r_old st0)) /\
     (b = true -> forall k, k <= idx -> nth_error (r_chain st0) k = nth_error (m_chain m) k /\
         nth_error (r_ss st0) k = nth_error (m_sschain m) k /\
         (forall s2, r_s2 st0 = Some s2 -> exists s2', m_s2chain m = Some s2' /\ nth_error s2 k = nth_error s2' k))).
  { rewrite Hidx0, Hset0. destruct b.
    - destruct Hprev as (r & Hr & Hs & Hrp). destruct (M4 Hs) as (L1 & L2 & L3).
      destruct (M7 Hs) as (r' & row & R1 & R2 & R3 & R4 & R5 & _).
      rewrite Hr in R1. injection R1 as R1. subst r'.
      apply expand_chains_facts in Harr. cbv zeta in Harr. destruct Harr as (A1 & A2 & A3 & _).
      assert (Hrow : map (@a_theta0 F) (sampled_params ps) = row).
      { eapply (restart_from_row ps0 (m_params m)); [exact M1|auto| | | | |exact Hrp]; simpl; auto.
        apply inside_length. apply M5. eapply nth_error_In; eauto. }
      unfold idx. split.
      + rewrite A1, nth_error_app1 by lia. congruence.
      + intros _ k Hk. rewrite A1, A2, !nth_error_app1 by lia. repeat split; auto.
        intros s2 Hs2. destruct (o_updatesigma (i_opts ini)); [|congruence].
        destruct A3 as (old & Ho & Hn). rewrite Hn in Hs2. injection Hs2 as Hs2. subst s2.
        exists old. split; auto. rewrite nth_error_app1; auto. rewrite (L3 _ Ho). lia.
    - apply initialize_chains_facts in Harr; [|rewrite J1; simpl; rewrite J4, map_length; symmetry; apply parind_length|auto].
      cbv zeta in Harr. unfold idx. split; [tauto|discriminate]. }
  destruct Hstart as [Hs1 Hs2].
  destruct R. rewrite Hidx0 in *.
  exists idx, (rev (r_trace st)).
  assert (Hstage : forall e, In e (rev (r_trace st)) -> ev_stage e <= Nat.max 1 (o_ntry (m_opts m)) /\
                     (2 <= ev_stage e -> ev_stage e - 1 < List.length (r_iacce st0))).
  { intros e He. apply in_rev in He. rewrite Forall_forall in rc_stage. specialize (rc_stage e He).
    rewrite HKo, J3, Ot in rc_stage. exact rc_stage. }
  assert (HL : S (r_index st) = idx + o_nsimu (m_opts m)) by lia.
  split; [split|].
  - reflexivity.
  - rewrite rev_length. congruence.
  - destruct (mi_len E ps0 m' HM' P3) as (Q1 & Q2 & Q3). rewrite P7 in *.
    split; [lia|]. split; [lia|]. intros s2 Hs. rewrite (Q3 _ Hs). lia.
  - intros Hb k Hk. rewrite P4, P5, P6.
    destruct (rc_frame k) as [F1 F2]; [lia|]. rewrite F1, F2.
    destruct (Hs2 Hb k Hk) as (X1 & X2 & X3). repeat split; auto.
    intros s2 Hs. specialize (rc_s2frame k (or_introl Hk)). rewrite Hs in rc_s2frame.
    destruct (r_s2 st0) as [s20|]; [|discriminate]. simpl in rc_s2frame. injection rc_s2frame as ->.
    apply X3; auto.
  - intros k e Hk. rewrite P4, P9. specialize (rc_moved Hs1 k e Hk). unfold moved in rc_moved.
    rewrite HK, V2, <- (same_decls_sampled _ _ D0) in rc_moved. exact rc_moved.
  - intros e He. apply Hstage; auto.
  - split; [rewrite rev_involutive; auto|]. split.
    { intros ->. rewrite P4, P1. destruct (rc_frame 0) as [-> _]; [left; lia|].
      unfold idx in Hs1. rewrite Hs1, Hset0, J4. reflexivity. }
    eexists. split; [exact P10|]. unfold generate_results. simpl.
    rewrite J2, On. rewrite rc_rej, rc_rejout. destruct Hrej0 as [-> ->].
    rewrite !count_rev. split; [auto|]. split; [auto|]. split; [auto|].
    rewrite J3, Ot. destruct (1 <? o_ntry (m_opts m)) eqn:Ent; [|reflexivity].
    apply Nat.ltb_lt in Ent. f_equal.
    rewrite Nat.add_0_l. rewrite <- (count_rev _ (r_trace st)).
    assert (Hia : r_iacce st0 = repeat 0 (o_ntry (m_opts m))).
    { rewrite Hia0, J10, Ot. apply Nat.ltb_lt in Ent. rewrite Ent. reflexivity. }
    rewrite (final_iacce_counts _ (o_ntry (m_opts m)) (rev (r_trace st))); auto.
    + rewrite count_rev. reflexivity.
    + rewrite rc_iacce_len, Hia, repeat_length. auto.
    + rewrite rev_length. congruence.
    + intros e He. destruct (Hstage e He). lia.
    + intros j Hj. rewrite (rc_iacce j 0).
      * rewrite Nat.add_0_l. f_equal. rewrite count_rev. apply count_ext. intros e He. unfold accepted_at.
        destruct (Nat.eqb_spec (ev_stage e) (S j)) as [->|Hne].
        -- replace (2 <=? S j) with true by (symmetry; apply Nat.leb_le; lia).
           replace (S j - 1) with j by lia. rewrite Nat.eqb_refl. reflexivity.
        -- destruct (Nat.leb_spec 2 (ev_stage e)); simpl; auto.
           apply Nat.eqb_neq. lia.
      * rewrite Hia. rewrite (nth_error_nth' _ 0) by (rewrite repeat_length; lia).
        f_equal. apply nth_repeat.
Qed.

End Resume.
