(** What a resumed run writes to the log files, and datasets that exist already. *)

From Coq Require Import ZArith QArith Bool Lia List String.
From Verif Require Import Base Num Samplers SamplerFacts Adapt Settings Simulator RunSpec RunFacts RunLift SettingsFacts LogSpec LogFacts LogThms.
Import ListNotations.
Close Scope Q_scope.
Open Scope list_scope.
Open Scope nat_scope.
Open Scope res_scope.

Section R.
Context {F : Type} `{NF : Num F}.
Variable E : env F.

(** Every dataset is new at the time it is created. *)
Inductive accepted : fs F -> fs F -> Prop :=
| acc_nil l : accepted l []
| acc_h5 l p a b r t : ~ In (a, b) (map fst (h5_sets p l)) -> accepted (l ++ [FH5 p a b r]) t -> accepted l (FH5 p a b r :: t)
| acc_other l op t : (forall p a b r, op <> FH5 p a b r) -> accepted (l ++ [op]) t -> accepted l (op :: t).

Lemma accepted_app l x y : accepted l x -> accepted (l ++ x) y -> accepted l (x ++ y).
Proof.
  induction 1; cbn; intros; rewrite ?app_nil_r in *; auto.
  - apply acc_h5; auto. apply IHaccepted. now rewrite <- app_assoc.
  - apply acc_other; auto. apply IHaccepted. now rewrite <- app_assoc.
Qed.

Lemma h5_sets_app p (a b : fs F) : h5_sets p (a ++ b) = h5_sets p a ++ h5_sets p b.
Proof. unfold h5_sets. now rewrite map_app, concat_app. Qed.

Lemma accepted_new l ops p a b r : accepted l ops -> In (FH5 p a b r) ops -> ~ In (a, b) (map fst (h5_sets p l)).
Proof.
  induction 1; cbn; [tauto|intros [X|X]|intros [X|X]].
  - now inv X.
  - intros Y. apply IHaccepted; auto. rewrite h5_sets_app, map_app. apply in_or_app. now left.
  - subst. exfalso. eapply H. reflexivity.
  - intros Y. apply IHaccepted; auto. rewrite h5_sets_app, map_app. apply in_or_app. now left.
Qed.

Definition grows (l l' : fs F) : Prop := exists ops, l' = l ++ ops /\ accepted l ops.
Lemma grows_refl l : grows l l.
Proof. exists []. rewrite app_nil_r. split; auto. constructor. Qed.
Lemma grows_trans a b c : grows a b -> grows b c -> grows a c.
Proof. intros (x & -> & X) (y & -> & Y). exists (x ++ y). rewrite app_assoc. split; auto. now apply accepted_app. Qed.
Lemma grows_other l op : (forall p a b r, op <> FH5 p a b r) -> grows l (l ++ [op]).
Proof. intros. exists [op]. split; auto. apply acc_other; auto. constructor. Qed.

Lemma h5_put_grows p a b r l l' : h5_put p a b r l = Ok l' -> grows l l'.
Proof.
  unfold h5_put. destruct (existsb _ _) eqn:X; [discriminate|]. intros H; inv H. exists [FH5 p a b r]. split; auto. apply acc_h5; [|constructor].
  intros I. apply in_map_iff in I as ([[a' b'] r'] & EQ & I). cbn in EQ. inv EQ.
  assert (existsb (fun e : nat * nat * list (list F) => let '(a', b', _) := e in (a =? a') && (b =? b')) (h5_sets p l) = true).
  { apply existsb_exists. exists (a, b, r'). split; auto. now rewrite !Nat.eqb_refl. }
  cbn in *. congruence.
Qed.

Lemma save_chains_grows h dir a b ch : forall l l', save_chains h dir a b ch l = Ok l' -> grows l l'.
Proof.
  induction ch as [|[f M] t IH]; cbn [save_chains]; intros l l' H; [inv H; apply grows_refl|].
  destruct h.
  - peel H. apply h5_put_grows in E0. eapply grows_trans; eauto.
  - cbn [bind] in H. eapply grows_trans; [|eapply IH; eauto]. apply grows_other. discriminate.
Qed.

Lemma save_log_grows o ch a b l l' : save_to_log_file o ch a b l = Ok l' -> grows l l'.
Proof.
  unfold save_to_log_file. intros H. peel H. eapply grows_trans with (b := a0).
  - destruct (o_save_to_bin o); [|inv E0; apply grows_refl]. eapply grows_trans; [apply grows_other|eapply save_chains_grows; eauto]. discriminate.
  - destruct (o_save_to_txt o); [|inv H; apply grows_refl]. eapply grows_trans; [apply grows_other|eapply save_chains_grows; eauto]. discriminate.
Qed.

Lemma save_cov_grows o C a b l l' : save_covmtx o C a b l = Ok l' -> grows l l'.
Proof.
  unfold save_covmtx. intros H. peel H. eapply grows_trans with (b := a0).
  - destruct (o_save_to_bin o); [|inv E0; apply grows_refl]. eapply h5_put_grows; eauto.
  - destruct (o_save_to_txt o); inv H; [|apply grows_refl]. apply grows_other. discriminate.
Qed.

Lemma step_grows K i st st' : step E K i st = Ok st' -> grows (r_fs st) (r_fs st').
Proof.
  intros H. apply step_parts in H as (stage & new & outb & z & iacce & sio & st1 & st2 & st3 & _ & H1 & H2 & H3 & H4).
  unfold update_chain in H1. peel H1. peel H1. peel H1. peel H1. match type of H1 with Ok ?x = _ => assert (st1 = x) as -> by congruence end.
  apply adapt_frame in H2 as (_ & _ & _ & _ & _ & _ & _ & _ & _ & _ & _ & _ & _ & A & _).
  pose proof (sigma_frame _ _ _ _ H3) as (_ & _ & _ & _ & _ & _ & _ & _ & _ & _ & _ & _ & _ & _ & _ & _ & _ & B & _). cbn [r_fs] in *.
  unfold save_step in H4. destruct (_ =? _)%Z.
  - peel H4. peel H4. inv H4. cbn [r_fs]. rewrite <- A, <- B. eapply grows_trans; [eapply save_log_grows; eauto|eapply save_cov_grows; eauto].
  - inv H4. rewrite B, A. apply grows_refl.
Qed.

Lemma execute_grows K st0 st : execute E K st0 = Ok st -> grows (r_fs st0) (r_fs st).
Proof.
  intros H. unfold execute in H. peel H.
  assert (grows (r_fs st0) (r_fs a)).
  { refine (iterate_ind E K (fun _ s => grows (r_fs st0) (r_fs s)) _ _ _ _ (grows_refl _) _ E0). intros. eapply grows_trans; eauto. eapply step_grows; eauto. }
  destruct (_ <=? 1); [discriminate|]. peel H. peel H. inv H. cbn [r_fs].
  eapply grows_trans; eauto. eapply grows_trans; [eapply save_log_grows; eauto|eapply save_cov_grows; eauto].
Qed.

Lemma run_grows b m m' : run_simulation E b m = Ok m' -> grows (m_fs m) (m_fs m').
Proof.
  intros H. apply run_model in H as (ini & ms1 & st0 & st & chains & H). cbv zeta in H.
  destruct H as (H1 & _ & _ & _ & H2 & H3 & H4 & H5 & H6 & H7 & _ & _ & _ & H8 & H9 & H10 & H11 & _ & H12 & H13 & H14 & H15 & _).
  apply execute_grows in H6. rewrite H5 in H6. cbn [r_fs start_state] in H6. rewrite H14. eapply grows_trans; eauto.
  destruct (o_save_to_json _); [|rewrite app_nil_r; apply grows_refl]. apply grows_other. discriminate.
Qed.

(** The datasets of a run are labelled differently from those that were in the file before it. *)
Lemma labels_new b m m' : run_simulation E b m = Ok m' -> o_save_to_bin (m_opts m') = true ->
  forall f M, In (f, M) (log_arrays b m m') ->
  forall x, In x (all_blocks (Z.to_nat (o_savesize (m_opts m'))) (o_nsimu (m_opts m'))) ->
  ~ In (label x) (map fst (h5_sets (o_savedir (m_opts m'), f, "h5"%string) (m_fs m))).
Proof.
  intros H B f M I x X. destruct (run_grows _ _ _ H) as (ops & G1 & G2).
  pose proof (run_ops E _ _ _ H) as R. cbv zeta in R. destruct R as (_ & _ & _ & bs & J & _ & R1 & R2 & _).
  rewrite R2 in G1. apply app_inv_head in G1. rewrite <- R1 in X. apply in_map_iff in X as (y & <- & Y).
  refine (accepted_new _ _ _ _ _ (slice (b_lo y) (b_hi y) M) G2 _). 
  rewrite <- G1. apply in_or_app. left. unfold blks_ops. apply in_concat. exists (blk_ops (m_opts m') (log_arrays b m m') y). split; [now apply in_map|].
       unfold blk_ops, chain_ops. rewrite B. apply in_or_app. left. apply in_or_app. left. right. apply in_map_iff. exists (f, M). split; [reflexivity|auto].
Qed.

(** After a run with h5 logging, resuming it with the same options (same directory) fails. *)
Lemma h5_resume_fails m m' : run_simulation E false m = Ok m' -> distinct_files m' -> o_save_to_bin (m_opts m') = true ->
  forall m'', run_simulation E true m' <> Ok m''.
Proof.
  intros H D B m'' H'.
  assert (OPT : o_savesize (m_opts m'') = o_savesize (m_opts m') /\ o_nsimu (m_opts m'') = o_nsimu (m_opts m') /\
                o_savedir (m_opts m'') = o_savedir (m_opts m') /\ o_save_to_bin (m_opts m'') = o_save_to_bin (m_opts m')).
  { pose proof H' as X. apply run_model in X as (ini & ms1 & st0 & st & chains & X). cbv zeta in X.
    destruct X as (_ & _ & _ & _ & X1 & X2 & _ & _ & _ & _ & _ & _ & _ & _ & X3 & _).
    pose proof H as Y. apply run_model in Y as (ini' & ms1' & st0' & st' & chains' & Y). cbv zeta in Y.
    destruct Y as (_ & _ & _ & _ & Y1 & Y2 & _).
    rewrite X1. unfold run_options. unfold check_dependent_simulation_options at 1 2 3 4. cbn [o_savesize o_nsimu o_savedir o_save_to_bin].
    repeat split; auto. rewrite Y1. set (r := run_options false m) in *. unfold check_dependent_simulation_options. cbn [o_savesize o_nsimu].
    destruct ((o_savesize r <=? 0)%Z || (Z.of_nat (o_nsimu r) <? o_savesize r)%Z) eqn:C.
    - rewrite Z.ltb_irrefl, orb_false_r. destruct (Z.of_nat (o_nsimu r) <=? 0)%Z; reflexivity.
    - rewrite C. reflexivity. }
  destruct OPT as (O1 & O2 & O3 & O4).
  pose proof (run_ops E _ _ _ H') as R. cbv zeta in R. destruct R as (Hs & Hn & _).
  assert (ND : NoDup (map fst (log_arrays false m m') ++ [o_covchainfile (m_opts m')])).
  { unfold log_arrays, chain_files. unfold distinct_files in D. 
    destruct (m_s2chain m'); cbn [map fst app]; auto. inversion D as [|? ? D1 D2]; inversion D2 as [|? ? D3 D4]; inversion D4 as [|? ? D5 D6]; subst.
    constructor; [cbn in *; tauto|]. constructor; [cbn in *; tauto|]. auto. }
  pose proof (log_contents E _ _ _ H ND) as L. cbv zeta in L. destruct L as (_ & _ & _ & new & evs & bs & L1 & _ & _ & T & _ & L0 & L2 & _).
  destruct (L2 B) as [_ L3]. 
  assert (I : In (o_chainfile (m_opts m'), m_chain m') (chain_files m')) by (left; reflexivity).
  destruct (L3 _ _ I) as [L4 _].
  assert (X : exists x, In x bs) by (destruct bs; [inversion T; lia|eexists; left; reflexivity]). destruct X as [x X].
  assert (I' : In (o_chainfile (m_opts m'), m_chain m') (log_arrays true m' m'')).
  { cbn [log_arrays]. apply in_map_iff. exists (o_chainfile (m_opts m'), RefChain). split; [reflexivity|].
    clear - H. apply run_model in H as (ini & ms1 & st0 & st & chains & H). cbv zeta in H.
    destruct H as (_ & _ & _ & _ & _ & H3 & H4 & _ & _ & _ & _ & _ & _ & _ & _ & _ & _ & _ & _ & _ & _ & H15 & _). rewrite H15, H3.
    unfold initialize_chains in H4. peel H4. peel H4. peel H4. peel H4. destruct (o_updatesigma (i_opts ini)).
    - peel H4. peel H4. match type of H4 with Ok (_, _, _, ?c) = _ => assert (chains = c) as -> by congruence end. now left.
    - match type of H4 with Ok (_, _, _, ?c) = _ => assert (chains = c) as -> by congruence end. now left. }
  refine (labels_new _ _ _ H' _ _ _ I' x _ _).
  - congruence.
  - rewrite O1, O2, <- L0. exact X.
  - rewrite O3, L1, h5_sets_app, L4, map_app, map_map. apply in_or_app. right. apply in_map_iff. exists x. auto.
Qed.
End R.
