(** The course of the proposal during a run: when it changes and from which rows. *)

From Coq Require Import ZArith QArith Bool Lia List String.
From Verif Require Import Base Num Samplers Adapt Settings Simulator SamplerFacts RunSpec RunFacts RunLift ResumeFacts.
Import ListNotations.
Open Scope list_scope.
Open Scope nat_scope.
Open Scope res_scope.

(** An adaptation is due at the iterations that are multiples of a positive adaptation interval. *)
Definition due (a : Z) (j : nat) : Prop := (0 < a)%Z /\ (Z.of_nat j mod a = 0)%Z.

Lemma due_dec a j : {due a j} + {~ due a j}.
Proof.
  unfold due. destruct (Z_lt_dec 0 a); [|right; tauto].
  destruct (Z.eq_dec (Z.of_nat j mod a) 0); [left|right]; tauto.
Qed.

Lemma firstn_set_nth {A} i (v : A) l b : b <= i -> firstn b (set_nth i v l) = firstn b l.
Proof.
  revert i l. induction b as [|b IH]; intros i l H; [reflexivity|].
  destruct l as [|h t]; [destruct i; reflexivity|]. destruct i as [|i]; [lia|]. simpl. f_equal. apply IH. lia.
Qed.

Lemma slice_firstn {A} a b (l : list A) : slice a b l = skipn a (firstn b l).
Proof. unfold slice. symmetry. apply skipn_firstn_comm. Qed.

Lemma slice_set_nth {A} i (v : A) l a b : b <= i -> slice a b (set_nth i v l) = slice a b l.
Proof. intros H. rewrite !slice_firstn, firstn_set_nth by auto. reflexivity. Qed.

Section AdaptRun.
Context {F : Type} `{NF : Num F}.
Variable E : env F.

Lemma run_adaptation_chain c o i ii rj ch ch' ci u n al :
  slice (c_last c) ci ch = slice (c_last c) ci ch' ->
  run_adaptation E c o i ii rj ch ci u n al = run_adaptation E c o i ii rj ch' ci u n al.
Proof. intros H. unfold run_adaptation. rewrite H. reflexivity. Qed.

(** How the covariance object changes at iteration [j] of a run that started from row [idx]. *)
Definition transition (o : simopts F) (npar idx : nat) (chain : list (list F)) (covs : list (covst F))
    (evs : list (event F)) (j : nat) : Prop :=
  exists c c', nth_error covs (j - 1) = Some c /\ nth_error covs j = Some c' /\
    (~ due (o_adaptint o) j -> c' = c) /\
    (due (o_adaptint o) j -> exists z al,
       run_adaptation E c (ado_of o) j (Z.to_nat (o_adaptint o))
         (count rejected_ev (slice (j - Z.to_nat (o_adaptint o)) j evs)) chain (idx + j) z npar al = Ok c').

Section Loop.
Variable K : rconst F.
Let o := k_opts K.
Let npar := v_npar (k_view K).

Definition covs_of (st : rstate F) : list (covst F) := rev (r_cov st :: map ev_cov (r_trace st)).

Definition ainv (idx i : nat) (st : rstate F) : Prop :=
  1 <= i /\ List.length (r_trace st) = i - 1 /\ r_index st = idx + (i - 1) /\
  ((0 < o_adaptint o)%Z -> Z.of_nat (r_iiadapt st) = (Z.of_nat (i - 1) mod o_adaptint o)%Z) /\
  ((0 < o_adaptint o)%Z -> r_rejin st = count rejected_ev (firstn (r_iiadapt st) (r_trace st))) /\
  (forall j, 1 <= j < i -> transition o npar idx (r_chain st) (covs_of st) (rev (r_trace st)) j).

Lemma firstn_rev_slice {A} a (l : list A) : firstn a (rev l) = rev (slice (List.length l - a) (List.length l) l).
Proof.
  unfold slice. rewrite firstn_rev. f_equal.
  rewrite (firstn_all2 (n:=List.length l - (List.length l - a))); auto. rewrite skipn_length. lia.
Qed.

Lemma transition_mono idx chain chain' covs covs' evs evs' j :
  (forall a, slice a (idx + j) chain = slice a (idx + j) chain') ->
  (exists t, covs' = covs ++ t) -> (exists t, evs' = evs ++ t) -> j < List.length covs -> j <= List.length evs -> 1 <= j ->
  transition o npar idx chain covs evs j -> transition o npar idx chain' covs' evs' j.
Proof.
  intros HC [t ->] [t' ->] H1 H2 H3 (c & c' & A & B & C & D).
  exists c, c'. rewrite !nth_error_app1 by lia. split; [auto|]. split; [auto|]. split; [auto|].
  intros Hd. destruct (D Hd) as (z & al & Hr). exists z, al.
  replace (slice (j - Z.to_nat (o_adaptint o)) j (evs ++ t')) with (slice (j - Z.to_nat (o_adaptint o)) j evs).
  - rewrite <- (run_adaptation_chain _ _ _ _ _ chain); auto.
  - rewrite !slice_firstn. rewrite firstn_app. replace (j - List.length evs) with 0 by lia. simpl. now rewrite app_nil_r.
Qed.

Lemma ainv_step idx i st st' : ainv idx i st -> step E K i st = Ok st' -> ainv idx (S i) st'.
Proof.
  intros (I1 & I2 & I3 & I4 & I5 & I6) H.
  apply step_parts in H as (stage & new & outb & z & iacce & s & st1 & st2 & st3 & H1 & H2 & H3 & H4 & H5).
  apply sigma_frame in H4. apply save_frame in H5.
  assert (X : r_index st' = r_index st2 /\ r_iiadapt st' = r_iiadapt st2 /\ r_rejin st' = r_rejin st2 /\
              r_chain st' = r_chain st2 /\ r_cov st' = r_cov st2 /\ r_trace st' = r_trace st2).
  { decompose [and] H4. decompose [and] H5. repeat split; congruence. }
  clear H4 H5. destruct X as (X1 & X2 & X3 & X4 & X5 & X6).
  unfold update_chain in H2. peel H2. peel H2. peel H2. peel H2.
  apply write_ok in E1 as [L1 ->]. set (ev := mkev (r_cov st) (io_pos (r_io st)) stage outb (List.length (r_fs st))) in *.
  assert (Y : r_index st1 = S (r_index st) /\ r_iiadapt st1 = S (r_iiadapt st) /\
     r_rejin st1 = (if rejected_ev ev then 1 else 0) + r_rejin st /\
     r_chain st1 = set_nth (S (r_index st)) a (r_chain st) /\ r_cov st1 = r_cov st /\
     r_trace st1 = ev :: r_trace st).
  { inv H2. cbn. unfold rejected_ev. cbn. destruct (stage =? 0); auto 10. }
  clear H2. destruct Y as (Y1 & Y2 & Y3 & Y4 & Y5 & Y6).
  assert (HA : r_index st2 = r_index st1 /\ r_chain st2 = r_chain st1 /\ r_trace st2 = r_trace st1).
  { apply adapt_frame in H3. decompose [and] H3. auto. }
  destruct HA as (Z1 & Z2 & Z3).
  assert (HT : r_trace st' = ev :: r_trace st) by congruence.
  assert (HC : r_chain st' = set_nth (S (r_index st)) a (r_chain st)) by congruence.
  assert (HI : r_index st' = idx + i) by (rewrite X1, Z1, Y1, I3; lia).
  assert (Hrj : (0 < o_adaptint o)%Z -> r_rejin st1 = count rejected_ev (firstn (r_iiadapt st1) (r_trace st1))).
  { intros Ha. rewrite Y3, Y2, Y6, I5 by auto. cbn [firstn]. rewrite count_cons. reflexivity. }
  assert (Hdue : ((0 <? o_adaptint o) && (Z.of_nat (r_iiadapt st1) =? o_adaptint o))%Z = true <-> due (o_adaptint o) i).
  { rewrite andb_true_iff, Z.ltb_lt, Z.eqb_eq, Y2. unfold due. split.
    - intros [Ha Hb]. split; auto. rewrite Nat2Z.inj_succ, I4 in Hb by auto.
      replace (Z.of_nat i) with (Z.of_nat (i - 1) + 1)%Z by lia.
      rewrite <- Z.add_mod_idemp_l by lia. replace (_ + 1)%Z with (o_adaptint o) by lia. apply Z.mod_same. lia.
    - intros [Ha Hb]. split; auto. rewrite Nat2Z.inj_succ, I4 by auto.
      replace (Z.of_nat i) with (Z.of_nat (i - 1) + 1)%Z in Hb by lia.
      rewrite <- Z.add_mod_idemp_l in Hb by lia.
      pose proof (Z.mod_pos_bound (Z.of_nat (i - 1)) (o_adaptint o) Ha) as Hm.
      destruct (Z.eq_dec (Z.of_nat (i - 1) mod o_adaptint o + 1) (o_adaptint o)); [lia|].
      rewrite Z.mod_small in Hb by lia. lia. }
  unfold adapt_step in H3. fold o in H3.
  assert (HX : ((0 < o_adaptint o)%Z -> Z.of_nat (r_iiadapt st2) = (Z.of_nat i mod o_adaptint o)%Z) /\
     ((0 < o_adaptint o)%Z -> r_rejin st2 = count rejected_ev (firstn (r_iiadapt st2) (r_trace st2))) /\
     (~ due (o_adaptint o) i -> r_cov st2 = r_cov st) /\
     (due (o_adaptint o) i -> exists z al,
       run_adaptation E (r_cov st) (ado_of o) i (Z.to_nat (o_adaptint o))
         (count rejected_ev (slice (i - Z.to_nat (o_adaptint o)) i (rev (ev :: r_trace st)))) (r_chain st1) (idx + i) z npar al
       = Ok (r_cov st2))).
  { destruct (_ && _)%Z eqn:Eb.
    - assert (Hd : due (o_adaptint o) i) by (apply Hdue; reflexivity). destruct Hd as [Ha Hm]. apply andb_true_iff in Eb as [_ Eb]. apply Z.eqb_eq in Eb.
      peel H3. inv H3. cbn [r_iiadapt r_rejin r_cov r_trace].
      split; [intros _; rewrite Hm; reflexivity|]. split; [reflexivity|]. split; [intros Hn; exfalso; apply Hn; split; auto|].
      intros _. exists z, (p_alpha new). rewrite <- Y5.
      assert (HL : List.length (rev (ev :: r_trace st)) = i).
      { rewrite rev_length. cbn [List.length]. lia. }
      replace (Z.to_nat (o_adaptint o)) with (r_iiadapt st1) by lia.
      replace (count rejected_ev (slice (i - r_iiadapt st1) i (rev (ev :: r_trace st)))) with (r_rejin st1).
      + replace (idx + i) with (r_index st1) by (rewrite Y1, I3; lia). exact E1.
      + rewrite Hrj, Y6 by auto. rewrite <- (rev_involutive (ev :: r_trace st)) at 1.
        rewrite firstn_rev_slice, HL. apply count_rev.
    - inv H3. split; [|split; [exact Hrj|split; [auto|]]].
      + intros Ha. rewrite Y2. destruct (due_dec (o_adaptint o) i) as [Hd|Hd]; [apply Hdue in Hd; congruence|].
        rewrite Nat2Z.inj_succ, I4 by auto.
        replace (Z.of_nat i) with (Z.of_nat (i - 1) + 1)%Z by lia. rewrite <- (Z.add_mod_idemp_l (Z.of_nat (i - 1))) by lia.
        pose proof (Z.mod_pos_bound (Z.of_nat (i - 1)) (o_adaptint o) Ha) as Hm.
        rewrite (Z.mod_small (_ + 1)); [lia|]. split; [lia|].
        destruct (Z.eq_dec (Z.of_nat (i - 1) mod o_adaptint o + 1) (o_adaptint o)) as [He|He]; [|lia].
        exfalso. apply Hd. split; auto. replace (Z.of_nat i) with (Z.of_nat (i - 1) + 1)%Z by lia.
        rewrite <- Z.add_mod_idemp_l by lia. rewrite He. apply Z.mod_same. lia.
      + intros Hd. apply Hdue in Hd. congruence. }
  destruct HX as (HX1 & HX2 & HX3 & HX4).
  assert (Hcovs : covs_of st' = covs_of st ++ [r_cov st']).
  { unfold covs_of. rewrite HT. cbn [map rev ev_cov ev]. reflexivity. }
  assert (Hlen : List.length (covs_of st) = i) by (unfold covs_of; rewrite rev_length; cbn [List.length]; rewrite map_length; lia).
  split; [lia|]. split; [rewrite HT; cbn [List.length]; lia|]. split; [rewrite HI; lia|].
  split; [intros Ha; rewrite X2, HX1 by auto; f_equal; lia|].
  split; [intros Ha; rewrite X3, X2, X6; auto|].
  intros j Hj. destruct (Nat.eq_dec j i) as [->|Hne].
  - exists (r_cov st), (r_cov st'). rewrite Hcovs.
    rewrite nth_error_app1 by lia. rewrite nth_error_app2 by lia. rewrite Hlen, Nat.sub_diag.
    split. { unfold covs_of. rewrite <- Hlen. cbn [rev]. rewrite nth_error_app2.
             - replace (List.length (covs_of st) - 1 - _) with 0; [reflexivity|].
               unfold covs_of. rewrite !rev_length. cbn [List.length]. lia.
             - unfold covs_of. rewrite !rev_length. cbn [List.length]. lia. }
    split; [reflexivity|]. rewrite X5. split; [auto|]. intros Hd. destruct (HX4 Hd) as (z' & al & Hr).
    exists z', al. rewrite HT. replace (r_chain st') with (r_chain st1) by congruence. exact Hr.
  - apply (transition_mono idx (r_chain st) (r_chain st') (covs_of st) _ (rev (r_trace st)) _ j); try lia.
    + intros a'. rewrite HC, slice_set_nth by lia. reflexivity.
    + eexists; exact Hcovs.
    + rewrite HT. eexists; reflexivity.
    + rewrite rev_length. lia.
    + apply I6. lia.
Qed.

Lemma ainv_iterate idx st0 st n : r_trace st0 = [] -> r_iiadapt st0 = 0 -> r_rejin st0 = 0 -> r_index st0 = idx ->
  iterate E K (seq 1 n) st0 = Ok st -> ainv idx (S n) st /\ nth_error (covs_of st) 0 = Some (r_cov st0).
Proof.
  intros H1 H2 H3 H4 H.
  apply (iterate_ind E K (fun i x => ainv idx i x /\ nth_error (covs_of x) 0 = Some (r_cov st0)) n 1 st0 st); auto.
  - split.
    + split; [lia|]. rewrite H1, H2, H3. split; [reflexivity|]. split; [lia|]. split; [intros; rewrite Zmod_0_l; reflexivity|].
      split; [reflexivity|]. intros; lia.
    + unfold covs_of. rewrite H1. reflexivity.
  - intros i st1 st2 Hi [A B] Hs. split; [eapply ainv_step; eauto|].
    apply step_summary in Hs as (stage & new & outb & z & iacce & s & _ & Hs). cbv zeta in Hs.
    decompose [and] Hs. unfold covs_of in *.
    match goal with H : r_trace st2 = _ |- _ => rewrite H end. cbn [map ev_cov].
    change (rev (r_cov st2 :: r_cov st1 :: map (@ev_cov F) (r_trace st1)))
      with (rev (r_cov st1 :: map (@ev_cov F) (r_trace st1)) ++ [r_cov st2]).
    rewrite nth_error_app1; auto. rewrite rev_length. cbn. lia.
Qed.

End Loop.

(** The covariance object a run starts with. *)
Lemma init_cov ps d ms o rdr pos calls ini :
  initialize_simulation E ps d ms o rdr pos calls = Ok ini ->
  let op := check_prior_sigma (openparameterstructure ps) in
  initialize_covariance E (o_method o) (o_ntry o) (o_drscale o) (o_RDR o) (o_qcov o)
                (o_adascale o) (o_initqcovn o) (op_sigma op) (op_initial op) (op_parind op)
                (op_no_adapt op) rdr (sel (op_initial op) (op_parind op)) = Ok (i_cov ini) /\
  exists g, i_opts ini = check_dependent_simulation_options o g.
Proof.
  intros H op. unfold initialize_simulation in H. peel H. peel H. peel H. peel H.
  destruct (evaluate_sos_function _ _ _ _) as [ss0 s1]. peel H. inv H. cbn [i_cov i_opts].
  split; [exact E3|eauto].
Qed.

Lemma init_cov_stats meth ntry drscale urdr q ada iq sg v pi na ordr th c :
  initialize_covariance E meth ntry drscale urdr q ada iq sg v pi na ordr th = Ok c ->
  c_last c = 0 /\ c_wsum c = iq /\ c_meanchain c = (match iq with Some _ => Some th | None => None end) /\
  c_covchain c = (match iq with Some _ => Some (c_qcov c) | None => None end) /\
  c_no_adapt c = na /\ c_qcov_scale c = check_adascale ada (List.length pi).
Proof.
  unfold initialize_covariance. intros H. peel H. destruct a as [R sub].
  assert (X : exists R' rdr inv, c = mkcov R' sub (check_adascale ada (List.length pi)) na
        (match iq with Some _ => Some sub | None => None end)
        (match iq with Some _ => Some th | None => None end) iq 0 rdr inv).
  { peel H. destruct a as [[R' rdr] inv]. inv H. eauto. }
  destruct X as (R' & rdr & inv & ->). cbn. auto 10.
Qed.

(** The covariance objects of a run: the one in force at the beginning of each iteration, and the one
    at the end. *)
Record proposal_course (b : bool) (m m' : mcmc F) (ps : list (param F)) (evs : list (event F)) (last : covst F)
    (r : results F) : Prop := {
  pc_decls : same_decls (m_params m) ps;
  pc_params : m_params m' = ps;
  pc_trace : m_trace m' = rev evs ++ m_trace m;
  pc_iterations : List.length evs = o_nsimu (m_opts m) - 1;
  pc_two : 2 <= o_nsimu (m_opts m);
  pc_results : m_results m' = Some r;
  pc_R : rr_R r = c_R last;
  pc_cov : rr_cov r = c_covchain last;
  pc_mean : rr_mean r = c_meanchain last;
  pc_RDR : m_RDR m' = c_RDR last;
  pc_start : exists c0, nth_error (map (@ev_cov F) evs ++ [last]) 0 = Some c0 /\
     let o := run_options b m in
     let op := check_prior_sigma (openparameterstructure ps) in
     initialize_covariance E (o_method o) (o_ntry o) (o_drscale o) (o_RDR o) (o_qcov o)
              (o_adascale o) (o_initqcovn o) (op_sigma op) (op_initial op) (op_parind op)
              (op_no_adapt op) (m_RDR m) (sel (op_initial op) (op_parind op)) = Ok c0;
  pc_moves : forall j, 1 <= j < o_nsimu (m_opts m) ->
       transition (m_opts m) (List.length (sampled_params ps)) (if b then m_index m else 0) (m_chain m')
         (map (@ev_cov F) evs ++ [last]) evs j;
  pc_rows : b = false -> List.length (m_chain m') = o_nsimu (m_opts m) /\
     forall row, In row (m_chain m') -> List.length row = List.length (sampled_params ps)
}.

Lemma run_options_same b (m : mcmc F) : o_adaptint (run_options b m) = o_adaptint (m_opts m) /\
  ado_of (run_options b m) = ado_of (m_opts m) /\ o_initqcovn (run_options b m) = o_initqcovn (m_opts m) /\
  o_method (run_options b m) = o_method (m_opts m) /\ o_ntry (run_options b m) = o_ntry (m_opts m) /\
  o_drscale (run_options b m) = o_drscale (m_opts m) /\ o_RDR (run_options b m) = o_RDR (m_opts m).
Proof. unfold run_options. destruct b; auto 10. destruct (o_restart (m_opts m)); auto 10. Qed.

Lemma run_covs b m m' : run_simulation E b m = Ok m' ->
  exists ps evs last r, proposal_course b m m' ps evs last r.
Proof.
  intros H. apply run_facts in H as (ps & ini & st0 & st & ms & chains & H). cbv zeta in H.
  destruct H as (D & (o & I0 & On & Ot & Oo) & Hprev & Harr & Hst0 & HX & HK & R & N2 & NK & NL &
                 P1 & P2 & P3 & P4 & P5 & P6 & P7 & P8 & P9 & P10 & P11 & P12 & P13 & P14 & P15).
  set (idx := if b then m_index m else 0) in *.
  unfold execute in HX. peel HX. destruct (_ <=? 1) eqn:En in HX; [discriminate|]. peel HX. peel HX.
  assert (Hst : r_cov st = r_cov a /\ r_trace st = r_trace a /\ r_chain st = r_chain a) by (inv HX; auto).
  destruct Hst as (S1 & S2 & S3).
  apply (ainv_iterate _ idx) in E0; [|rewrite Hst0; reflexivity..]. destruct E0 as [(A1 & A2 & A3 & A4 & A5 & A6) A7].
  assert (Hcovs : covs_of a = map (@ev_cov F) (rev (r_trace a)) ++ [r_cov a]).
  { unfold covs_of. cbn [rev]. rewrite map_rev. reflexivity. }
  apply init_cov in I0 as Hic. cbv zeta in Hic. destruct Hic as [Hic [g Hg]].
  pose proof (init_facts _ _ _ _ _ _ _ _ _ I0) as (J1 & J2 & J3 & J4 & J5 & J6 & J7 & J8 & J9 & J10 & J11).
  destruct (run_options_same b m) as (Q1 & Q2 & _).
  exists ps, (rev (r_trace a)), (r_cov a), (generate_results ini ms st). split; auto.
  - rewrite rev_involutive, <- S2. auto.
  - rewrite rev_length, <- S2. auto.
  - cbn. now rewrite S1.
  - cbn. now rewrite S1.
  - cbn. now rewrite S1.
  - now rewrite P15, S1.
  - rewrite <- Hcovs. exists (i_cov ini). split.
    + rewrite A7, Hst0. reflexivity.
    + cbv zeta. rewrite <- Oo. exact Hic.
  - intros j Hj. rewrite <- Hcovs, P4, S3.
    assert (Hj' : 1 <= j < S (o_nsimu (k_opts (make_const ini chains)) - 1)) by lia.
    specialize (A6 j Hj'). unfold transition in *. destruct A6 as (c & c' & B1 & B2 & B3 & B4).
    assert (Ha : o_adaptint (k_opts (make_const ini chains)) = o_adaptint (m_opts m)).
    { cbn. rewrite Hg. cbn. rewrite Oo. auto. }
    assert (Hb : ado_of (k_opts (make_const ini chains)) = ado_of (m_opts m)).
    { cbn [make_const k_opts]. rewrite Hg. rewrite <- Q2, <- Oo. reflexivity. }
    assert (Hc : v_npar (k_view (make_const ini chains)) = List.length (sampled_params ps)).
    { rewrite HK. destruct (opview_facts ps) as (_ & -> & _). reflexivity. }
    rewrite Ha, Hb, Hc in *. exists c, c'. auto.
  - intros ->. subst idx. cbn [negb] in *.
    pose proof (initialize_chains_facts _ _ _ _ _ _ Harr) as HC. cbv zeta in HC.
    destruct (opview_facts ps) as (V1 & V2 & V3 & V4).
    destruct HC as (C1 & C2 & C3 & C4 & _).
    + rewrite J1. simpl. rewrite J4, map_length. symmetry. apply parind_length.
    + auto.
    + assert (HL : List.length (m_chain m') = o_nsimu (m_opts m)).
      { rewrite P4, (rc_len _ _ _ _ _ R), C2. cbn in NK. exact NK. }
      split; [exact HL|].
      intros row Hrow. apply In_nth_error in Hrow as [k Hk].
      assert (Hkl : k < o_nsimu (m_opts m)).
      { rewrite <- HL. apply nth_error_Some. congruence. }
      rewrite P4 in Hk.
      assert (Hi0 : r_index st0 = 0) by (rewrite Hst0; reflexivity).
      pose proof (rc_index _ _ _ _ _ R) as HRi. rewrite Hi0, NL in HRi.
      destruct k as [|k].
      * destruct (rc_frame _ _ _ _ _ R 0) as [F1 _]; [left; lia|]. rewrite F1, C4, J4 in Hk. injection Hk as <-.
        now rewrite map_length.
      * destruct (rc_rows _ _ _ _ _ R (S k)) as (th & row' & ssrow & T1 & T2 & T3 & T4 & _); [lia|].
        rewrite T1 in Hk. injection Hk as <-. subst row'. rewrite T4, HK, V2. reflexivity.
Qed.

End AdaptRun.
