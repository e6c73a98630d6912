(** The log files of custom chains. *)

From Coq Require Import ZArith QArith Bool Lia List String.
From Verif Require Import Base Num Samplers Adapt Settings Simulator RunSpec SamplerFacts RunFacts RunLift SettingsFacts LogSpec LogFacts LogThms
  Custom CustomSpec CustomFacts CustomRun.
Import ListNotations.
Close Scope Q_scope.
Open Scope list_scope.
Open Scope nat_scope.
Open Scope res_scope.

Section CustomLogs.
Context {F : Type} `{NF : Num F} {St Out : Type}.
Notation sampler := (sampler F St Out).

(** ** Contents *)
Lemma txt_app p (a b : fs F) : txt_rows p (a ++ b) = txt_rows p a ++ txt_rows p b.
Proof. unfold txt_rows. now rewrite map_app, List.concat_app. Qed.
Lemma h5_app p (a b : fs F) : h5_sets p (a ++ b) = h5_sets p a ++ h5_sets p b.
Proof. unfold h5_sets. now rewrite map_app, List.concat_app. Qed.

Lemma path_neq (d f g e e' : string) : f <> g -> path_eqb (d, f, e) (d, g, e') = false.
Proof. intros H. unfold path_eqb. apply String.eqb_neq in H. now rewrite H, andb_false_r. Qed.
Lemma path_ext (d d' f g e e' : string) : e <> e' -> path_eqb (d, f, e) (d', g, e') = false.
Proof. intros H. unfold path_eqb. apply String.eqb_neq in H. now rewrite H, andb_false_r. Qed.
Lemma path_same (p : path) : path_eqb p p = true.
Proof. destruct p as [[a b] c]. cbn. now rewrite !String.eqb_refl. Qed.

Variable d f : string.
Notation pt := (d, f, "txt"%string). Notation ph := (d, f, "h5"%string).

Lemma txt_of_txt a b ch : ~ In f (map fst ch) -> txt_rows pt (map (fun c : string * list (list F) => FTxt (d, fst c, "txt"%string) (slice a b (snd c))) ch) = [].
Proof.
  induction ch as [|[g m] t IH]; cbn [map fst In]; intros H; [reflexivity|]. unfold txt_rows in *. cbn [map List.concat]. rewrite path_neq by (intros ->; tauto).
  apply IH. tauto.
Qed.
Lemma h5_of_h5 a b ch : ~ In f (map fst ch) -> h5_sets ph (map (fun c : string * list (list F) => FH5 (d, fst c, "h5"%string) a (b - 1) (slice a b (snd c))) ch) = [].
Proof.
  induction ch as [|[g m] t IH]; cbn [map fst In]; intros H; [reflexivity|]. unfold h5_sets in *. cbn [map List.concat]. rewrite path_neq by (intros ->; tauto).
  apply IH. tauto.
Qed.
Lemma h5_of_txt p a b (ch : list (string * list (list F))) : h5_sets p (map (fun c : string * list (list F) => FTxt (d, fst c, "txt"%string) (slice a b (snd c))) ch) = [].
Proof. induction ch; [reflexivity|]. exact IHch. Qed.
Lemma txt_of_h5 p a b (ch : list (string * list (list F))) : txt_rows p (map (fun c : string * list (list F) => FH5 (d, fst c, "h5"%string) a (b - 1) (slice a b (snd c))) ch) = [].
Proof. induction ch; [reflexivity|]. exact IHch. Qed.

Lemma blk_nothing (o : simopts F) (ch : list (string * list (list F))) (b : blk (F:=F)) : o_savedir o = d -> ~ In f (map fst ch) -> f <> o_covchainfile o ->
  txt_rows pt (blk_ops o ch b) = [] /\ h5_sets ph (blk_ops o ch b) = [].
Proof.
  intros HD H1 H2. unfold blk_ops, chain_ops, cov_ops. rewrite HD. rewrite !txt_app, !h5_app.
  destruct (o_save_to_bin o), (o_save_to_txt o); split;
    rewrite ?(txt_of_txt _ _ _ H1), ?(h5_of_h5 _ _ _ H1);
    try change (FLog ?p ?x ?y :: ?l) with ([FLog p x y] ++ l); rewrite ?txt_app, ?h5_app, ?txt_of_txt, ?h5_of_h5, ?h5_of_txt, ?txt_of_h5 by assumption;
    unfold txt_rows, h5_sets; cbn [map List.concat app]; rewrite ?path_neq by assumption; reflexivity.
Qed.

Lemma custom_nothing (o : simopts F) ch a b (l k : fs F) : o_savedir o = d -> ~ In f (map fst ch) -> save_custom_chains o ch a b l = Ok k ->
  txt_rows pt k = txt_rows pt l /\ h5_sets ph k = h5_sets ph l.
Proof.
  intros HD HN H. unfold save_custom_chains in H. peel H. rewrite HD in *.
  assert (X : txt_rows pt a0 = txt_rows pt l /\ h5_sets ph a0 = h5_sets ph l).
  { destruct (o_save_to_bin o); [|injection E as <-; auto]. apply save_chains_h5 in E. subst a0. rewrite txt_app, h5_app, txt_of_h5, h5_of_h5 by assumption.
    now rewrite !app_nil_r. }
  destruct X as [X1 X2]. destruct (o_save_to_txt o); [|injection H as <-; auto]. apply LogFacts.save_chains_txt in H. subst k.
  rewrite txt_app, h5_app, txt_of_txt, h5_of_txt, !app_nil_r by assumption. auto.
Qed.

Lemma custom_block (o : simopts F) l r M a b (g k : fs F) : o_savedir o = d -> ~ In f (map fst l) -> ~ In f (map fst r) ->
  save_custom_chains o (l ++ (f, M) :: r) a b g = Ok k ->
  txt_rows pt k = txt_rows pt g ++ (if o_save_to_txt o then rows_of M (a, b) else []) /\
  h5_sets ph k = h5_sets ph g ++ (if o_save_to_bin o then [(label (a, b), rows_of M (a, b))] else []).
Proof.
  intros HD H1 H2 H. unfold save_custom_chains in H. peel H. rewrite HD in *.
  assert (X : txt_rows pt a0 = txt_rows pt g /\ h5_sets ph a0 = h5_sets ph g ++ (if o_save_to_bin o then [(label (a, b), rows_of M (a, b))] else [])).
  { destruct (o_save_to_bin o); [|injection E as <-; rewrite app_nil_r; auto]. apply save_chains_h5 in E. subst a0.
    rewrite map_app. cbn [map fst snd]. rewrite !txt_app, !h5_app.
    change (FH5 ?p ?x ?y ?z :: ?l) with ([FH5 p x y z] ++ l). rewrite txt_app, h5_app, !txt_of_h5, !h5_of_h5 by assumption.
    split; [unfold txt_rows at 2; cbn [map List.concat app]; now rewrite !app_nil_r|].
    replace (h5_sets ph [FH5 ph a (b - 1) (slice a b M)]) with [(label (a, b), rows_of M (a, b))]; [now rewrite !app_nil_r|].
    unfold h5_sets. cbn [map List.concat app]. now rewrite path_same. }
  destruct X as [X1 X2]. destruct (o_save_to_txt o); [|injection H as <-; rewrite app_nil_r; auto]. apply LogFacts.save_chains_txt in H. subst k.
  rewrite map_app. cbn [map fst snd]. rewrite !txt_app, !h5_app.
  change (FTxt ?p ?x :: ?l) with ([FTxt p x] ++ l). rewrite txt_app, h5_app, !h5_of_txt, !txt_of_txt by assumption.
  replace (txt_rows pt [FTxt pt (slice a b M)]) with (rows_of M (a, b)) by (unfold txt_rows; cbn [map List.concat app]; now rewrite path_same, app_nil_r).
  change (h5_sets ph [FTxt pt (slice a b M)]) with (@nil (nat * nat * list (list F))). rewrite !app_nil_r, X1, X2. auto.
Qed.

Lemma save_custom_block (o : simopts F) (M : St -> list (list F)) cs : o_savedir o = d -> has_chain cs f M -> cs_save_chain cs = true ->
  forall (l : list sampler) j sts st a b g k, nth_error l j = Some cs -> nth_error sts j = Some st -> only_one l j f ->
  save_custom o l sts a b g = Ok k ->
  txt_rows pt k = txt_rows pt g ++ (if o_save_to_txt o then rows_of (M st) (a, b) else []) /\
  h5_sets ph k = h5_sets ph g ++ (if o_save_to_bin o then [(label (a, b), rows_of (M st) (a, b))] else []).
Proof.
  intros HD HM HS.
  assert (N : forall (l : list sampler) sts a b g k, (forall n c0 s0, nth_error l n = Some c0 -> cs_save_chain c0 = true -> ~ In f (map fst (cs_chains c0 s0))) ->
     save_custom o l sts a b g = Ok k -> txt_rows pt k = txt_rows pt g /\ h5_sets ph k = h5_sets ph g).
  { induction l as [|c0 l IH]; intros [|s0 sts] a b g k HN H; cbn [save_custom] in H; try (injection H as <-; auto; fail).
    peel H. apply IH in H; [|intros n c1 s1 Hn; apply (HN (S n) c1 s1 Hn)]. destruct H as [H1 H2]. rewrite H1, H2.
    destruct (cs_save_chain c0) eqn:HC; [|injection E as <-; auto]. eapply custom_nothing; eauto. apply (HN 0 c0 s0 eq_refl HC). }
  induction l as [|c0 l IH]; intros j sts st a b g k Hj Hst HO H; [destruct j; discriminate|].
  destruct sts as [|s0 sts]; [destruct j; discriminate|]. cbn [save_custom] in H. peel H. destruct j as [|j]; cbn [nth_error] in Hj, Hst.
  - injection Hj as ->. injection Hst as ->. rewrite HS in E. destruct (HM st) as (l1 & r1 & HC & N1 & N2). rewrite HC in E.
    apply N in H; [|intros n c0 s0 Hn; apply (HO (S n) c0 s0 Hn); discriminate]. destruct H as [-> ->]. exact (custom_block o l1 r1 (M st) a b g a0 HD N1 N2 E).
  - apply (IH _ _ _ _ _ _ _ Hj Hst) in H; [|intros n c1 s1 Hn Hne; apply (HO (S n) c1 s1 Hn); congruence]. destruct H as [-> ->].
    assert (X : txt_rows pt a0 = txt_rows pt g /\ h5_sets ph a0 = h5_sets ph g).
    { destruct (cs_save_chain c0) eqn:HC; [|injection E as <-; auto]. eapply custom_nothing; eauto. apply (HO 0 c0 s0 eq_refl); [discriminate|exact HC]. }
    destruct X as [-> ->]. auto.
Qed.

Lemma update_nth (l : list sampler) : forall sts acc i cur pos out cur' pos' sts' j cs st, update_all l sts acc i cur pos = (out, cur', pos', sts') ->
  nth_error l j = Some cs -> nth_error sts j = Some st ->
  exists c1 p1 o c2 p2 st', cs_update cs acc i c1 p1 st = (o, c2, p2, st') /\ nth_error sts' j = Some st'.
Proof.
  induction l as [|c0 l IH]; intros [|s0 sts] acc i cur pos out cur' pos' sts' [|j] cs st H Hj Hst; try discriminate; cbn [update_all] in H;
    destruct (cs_update c0 acc i cur pos s0) as [[[o c1] p1] s1] eqn:HC; destruct (update_all l sts acc i c1 p1) as [[[os c2] p2] sts2] eqn:HU; injection H as <- <- <- <-; cbn [nth_error] in *.
  - injection Hj as ->. injection Hst as ->. eauto 10.
  - eauto.
Qed.

Lemma rows_settled {A} (M M' : list A) c x : firstn c M' = firstn c M -> snd x <= c -> rows_of M' x = rows_of M x.
Proof.
  intros H L. unfold rows_of. rewrite !firstn_skipn_comm.
  destruct (Nat.le_gt_cases (fst x) (snd x)) as [Q|Q].
  - replace (fst x + (snd x - fst x)) with (snd x) by lia.
    f_equal. rewrite <- (Nat.min_l (snd x) c L), <- !firstn_firstn. now rewrite H.
  - replace (snd x - fst x) with 0 by lia. rewrite Nat.add_0_r. rewrite !skipn_all2; [reflexivity| |]; rewrite firstn_length; lia.
Qed.

Variable E : env F.
Variable u : usersos F Out.
Variable samplers : list sampler.
Variable K : rconst F.
Variable j : nat.
Variable cs : sampler.
Variable M : St -> list (list F).
Let o := k_opts K.
Let s := Z.to_nat (o_savesize o).
Hypothesis HD : o_savedir o = d.
Hypothesis HJ : nth_error samplers j = Some cs.
Hypothesis HM : has_chain cs f M.
Hypothesis HC : cs_save_chain cs = true.
Hypothesis HO : only_one samplers j f.
Hypothesis HT : rows_stay cs M.
Hypothesis HN : ~ In f (map fst (k_chains K)).
Hypothesis HV : f <> o_covchainfile o.
Hypothesis Hs : 1 <= s.
Hypothesis Hz : Z.of_nat s = o_savesize o.

Lemma logged_names st : map fst (logged K st) = map fst (k_chains K).
Proof. unfold logged. rewrite map_map. apply map_ext. intros [? ?]. reflexivity. Qed.

Definition content (l0 l : fs F) (st : St) (bs : list (nat * nat)) : Prop :=
  (txt_rows pt l = txt_rows pt l0 ++ (if o_save_to_txt o then List.concat (map (rows_of (M st)) bs) else [])) /\
  (h5_sets ph l = h5_sets ph l0 ++ (if o_save_to_bin o then map (fun x => (label x, rows_of (M st) x)) bs else [])).

Lemma content_settled l0 l st st' bs c : firstn c (M st') = firstn c (M st) -> Forall (fun x => snd x <= c) bs -> content l0 l st bs -> content l0 l st' bs.
Proof.
  intros H HF [C1 C2]. assert (X : map (rows_of (M st')) bs = map (rows_of (M st)) bs /\ map (fun x => (label x, rows_of (M st') x)) bs = map (fun x => (label x, rows_of (M st) x)) bs).
  { split; apply map_ext_in; intros x Hx; rewrite Forall_forall in HF; rewrite (rows_settled _ _ _ _ H (HF _ Hx)); reflexivity. }
  destruct X as [X1 X2]. unfold content. rewrite X1, X2. auto.
Qed.
Lemma content_snoc l0 l k st bs x : content l0 l st bs ->
  txt_rows pt k = txt_rows pt l ++ (if o_save_to_txt o then rows_of (M st) x else []) ->
  h5_sets ph k = h5_sets ph l ++ (if o_save_to_bin o then [(label x, rows_of (M st) x)] else []) -> content l0 k st (bs ++ [x]).
Proof.
  intros [C1 C2] H1 H2. unfold content. rewrite H1, H2, C1, C2, <- !app_assoc, !map_app, List.concat_app. cbn [map List.concat]. rewrite app_nil_r.
  destruct (o_save_to_txt o), (o_save_to_bin o); rewrite ?app_nil_r; auto.
Qed.
Lemma content_same l0 l k st bs : content l0 l st bs -> txt_rows pt k = txt_rows pt l -> h5_sets ph k = h5_sets ph l -> content l0 k st bs.
Proof. intros [C1 C2] H1 H2. unfold content. rewrite H1, H2. auto. Qed.

Definition clog (l0 : fs F) (n : nat) (c : cstate F St Out) : Prop :=
  r_savecount (c_run c) = n mod s /\ r_lastbin (c_run c) = s * (n / s) /\
  exists st, nth_error (c_sts c) j = Some st /\ content l0 (r_fs (c_run c)) st (full s (n / s)).

Lemma full_bound n : Forall (fun x : nat * nat => snd x <= n) (full s (n / s)).
Proof.
  apply Forall_forall. intros x Hx. unfold full in Hx. apply in_map_iff in Hx as (k & <- & Hk). apply in_seq in Hk. cbn [snd].
  assert (S k * s <= n / s * s) by (apply Nat.mul_le_mono_r; lia). pose proof (Nat.mul_div_le n s ltac:(lia)). lia.
Qed.

Lemma clog_step l0 n c c' : clog l0 n c -> cstep E u samplers K (S n) c = Ok c' -> clog l0 (S n) c'.
Proof.
  intros (I1 & I2 & st & I3 & I4) H.
  apply cstep_step in H as (t & e & out & cur & pos & sts & g & H1 & _ & H2 & -> & H3).
  destruct (update_nth _ _ _ _ _ _ _ _ _ _ _ _ _ H2 HJ I3) as (c1 & p1 & oo & c2 & p2 & st' & U1 & U2).
  apply HT in U1.
  assert (I5 : content l0 (r_fs (c_run c)) st' (full s (n / s))).
  { eapply content_settled; [exact U1| |exact I4]. eapply Forall_impl; [|apply full_bound]. cbn. intros; lia. }
  apply step_log in H1 as (_ & _ & _ & R). fold o s in R, H3.
  assert (DM := Nat.div_mod n s ltac:(lia)). assert (MB := Nat.mod_upper_bound n s ltac:(lia)).
  destruct (Z.of_nat (S (r_savecount (c_run c))) =? o_savesize o)%Z eqn:Hq.
  - apply Z.eqb_eq in Hq. assert (Q : S (r_savecount (c_run c)) = s) by lia. rewrite I1 in Q.
    assert (D1 : S n / s = S (n / s)) by (symmetry; apply (Nat.div_unique (S n) s (S (n / s)) 0); lia).
    assert (D2 : S n mod s = 0) by (symmetry; apply (Nat.mod_unique (S n) s (S (n / s)) 0); lia).
    destruct R as (R1 & R2 & C & R3). unfold clog. cbn [c_run c_sts with_files after_update r_savecount r_lastbin r_fs].
    split; [congruence|]. split; [rewrite R2, D1; lia|]. exists st'. split; [exact U2|].
    apply (save_custom_block o M cs HD HM HC _ _ _ _ _ _ _ _ HJ U2 HO) in H3. destruct H3 as [X1 X2].
    destruct (blk_nothing o (logged K t) (mkblk (S n - s) (S n) (S n) C) HD) as [Y1 Y2]; [rewrite logged_names; exact HN|exact HV|].
    assert (Z1 : content l0 (r_fs t) st' (full s (n / s))).
    { eapply content_same; [exact I5| |]; rewrite R3, ?txt_app, ?h5_app, ?Y1, ?Y2, app_nil_r; reflexivity. }
    rewrite D1. unfold full. rewrite seq_S, map_app. cbn [map plus]. apply (content_snoc _ _ _ _ _ (n / s * s, S (n / s) * s) Z1);
      replace (n / s * s) with (S n - s) by lia; replace (S (n / s) * s) with (S n) by lia; assumption.
  - apply Z.eqb_neq in Hq. assert (Q : S (r_savecount (c_run c)) <> s) by lia. rewrite I1 in Q.
    assert (D1 : S n / s = n / s) by (symmetry; apply (Nat.div_unique (S n) s (n / s) (S (n mod s))); lia).
    assert (D2 : S n mod s = S (n mod s)) by (symmetry; apply (Nat.mod_unique (S n) s (n / s) (S (n mod s))); lia).
    destruct R as (R1 & R2 & R3). subst g. unfold clog. cbn [c_run c_sts with_files after_update r_savecount r_lastbin r_fs].
    split; [congruence|]. split; [congruence|]. exists st'. split; [exact U2|]. rewrite R3, D1. exact I5.
Qed.

Lemma clog_loop l0 k : forall n c c', clog l0 n c -> citerate E u samplers K (seq (S n) k) c = Ok c' -> clog l0 (n + k) c'.
Proof.
  induction k as [|k IH]; intros n c c' I H; cbn [seq citerate] in H.
  - injection H as <-. now rewrite Nat.add_0_r.
  - peel H. replace (n + S k) with (S n + k) by lia. eapply IH; [|exact H]. eapply clog_step; eauto.
Qed.

Lemma cexecute_log c0 c : r_savecount (c_run c0) = 0 -> r_lastbin (c_run c0) = 0 -> List.length (c_sts c0) = List.length samplers ->
  cexecute E u samplers K c0 = Ok c ->
  exists st, nth_error (c_sts c) j = Some st /\ content (r_fs (c_run c0)) (r_fs (c_run c)) st (all_blocks s (o_nsimu o)).
Proof.
  intros H1 H2 H3 H. unfold cexecute in H. fold o in H. peel H. destruct (_ <=? 1) eqn:Hn; [discriminate|]. apply Nat.leb_gt in Hn.
  peel H. peel H. peel H. injection H as <-. cbn [c_sts c_run with_files r_fs].
  assert (I : clog (r_fs (c_run c0)) 0 c0).
  { unfold clog. rewrite Nat.mod_0_l, Nat.div_0_l, Nat.mul_0_r by lia. split; [exact H1|]. split; [exact H2|].
    destruct (nth_error (c_sts c0) j) as [st|] eqn:Hst.
    - exists st. split; [reflexivity|]. unfold content. cbn. split; [destruct (o_save_to_txt o)|destruct (o_save_to_bin o)]; now rewrite app_nil_r.
    - apply nth_error_None in Hst. assert (j < List.length samplers) by (apply nth_error_Some; congruence). lia. }
  apply (clog_loop _ _ _ _ _ I) in E0. cbn [plus] in E0. destruct E0 as (J1 & J2 & st & J3 & J4).
  exists st. split; [exact J3|].
  apply save_log_ops in E1. apply save_cov_ops in E2.
  destruct (blk_nothing o (logged K (c_run a)) (mkblk (r_lastbin (c_run a)) (S (o_nsimu o - 1)) (o_nsimu o - 1) (proposal_cov (c_run a))) HD) as [Y1 Y2];
    [rewrite logged_names; exact HN|exact HV|]. unfold blk_ops in Y1, Y2. cbn [b_lo b_hi b_cend b_C] in Y1, Y2.
  apply (save_custom_block o M cs HD HM HC _ _ _ _ _ _ _ _ HJ J3 HO) in E3. destruct E3 as [X1 X2].
  unfold all_blocks. apply content_snoc with (l := a1).
  - eapply content_same; [exact J4| |]; rewrite E2, E1, <- app_assoc, ?txt_app, ?h5_app, <- ?txt_app, <- ?h5_app, ?Y1, ?Y2.
    + rewrite txt_app, Y1, app_nil_r. reflexivity.
    + rewrite h5_app, Y2, app_nil_r. reflexivity.
  - rewrite X1, J2. replace (S (o_nsimu o - 1)) with (o_nsimu o) by lia. reflexivity.
  - rewrite X2, J2. replace (S (o_nsimu o - 1)) with (o_nsimu o) by lia. reflexivity.
Qed.
End CustomLogs.

Theorem custom_log {F : Type} {NF : Num F} {St Out : Type} (E : env F) (u : usersos F Out) (samplers : list (sampler F St Out)) b m sts m' c j cs f M :
  crun_simulation E u samplers b m sts = Ok (m', c) -> List.length sts = List.length samplers ->
  nth_error samplers j = Some cs -> cs_save_chain cs = true -> has_chain cs f M -> rows_stay cs M -> only_one samplers j f ->
  ~ In f (map fst (m_chains m')) -> f <> o_covchainfile (m_opts m') ->
  let o := m_opts m' in let n := o_nsimu o in let s := Z.to_nat (o_savesize o) in
  exists st bs, nth_error (c_sts c) j = Some st /\ tiles 0 n bs /\ small s bs /\
    txt_rows (o_savedir o, f, "txt"%string) (m_fs m') =
      txt_rows (o_savedir o, f, "txt"%string) (m_fs m) ++ (if o_save_to_txt o then firstn n (M st) else []) /\
    h5_sets (o_savedir o, f, "h5"%string) (m_fs m') =
      h5_sets (o_savedir o, f, "h5"%string) (m_fs m) ++ (if o_save_to_bin o then map (fun x => (label x, rows_of (M st) x)) bs else []).
Proof.
  intros H HL HJ HC HM HT HO HN HV.
  apply crun_parts in H as (ps & ini & chain & ss & s2 & chains & outs & pos & sts1 & P1 & P2 & P3 & P4 & P5 & P6 & P7 & P8 & P9 & P10 & P11 & P12 & P13 & P14 & json & P15 & P16).
  apply setup_each in P3 as (L1 & _); [|exact HL]. cbv zeta. rewrite P13 in *. rewrite P14 in HN.
  set (K := make_const (at_pos ini pos) chains) in *.
  assert (N2 : 2 <= o_nsimu (i_opts ini)).
  { unfold cexecute in P5. change (k_opts K) with (i_opts ini) in P5. peel P5. destruct (_ <=? 1) eqn:Q; [discriminate|]. apply Nat.leb_gt in Q. lia. }
  assert (S1 : (1 <= o_savesize (i_opts ini))%Z).
  { pose proof (init_model _ _ _ _ _ _ _ _ _ P2) as (_ & _ & _ & _ & HI). rewrite HI in *. apply savesize_pos. cbn in N2. lia. }
  set (c0 := mkcst (start_state (at_pos ini pos) (if b then m_index m else 0) chain ss s2 (m_fs m)) sts1 outs []) in *.
  assert (X1 : 1 <= Z.to_nat (o_savesize (k_opts K))) by (change (k_opts K) with (i_opts ini); lia).
  assert (X2 : Z.of_nat (Z.to_nat (o_savesize (k_opts K))) = o_savesize (k_opts K)) by (change (k_opts K) with (i_opts ini); lia).
  assert (X3 : List.length (c_sts c0) = List.length samplers) by (cbn; congruence).
  destruct (cexecute_log (o_savedir (i_opts ini)) f E u samplers K j cs M eq_refl HJ HM HC HO HT HN HV X1 X2 c0 c eq_refl eq_refl X3 P5) as (st & Q1 & Q2 & Q3).
  change (k_opts K) with (i_opts ini) in *. cbn [c0 c_run start_state r_fs] in Q2, Q3.
  destruct (blocks_tile (Z.to_nat (o_savesize (i_opts ini))) (o_nsimu (i_opts ini)) ltac:(lia) ltac:(lia)) as [T1 T2].
  exists st, (all_blocks (Z.to_nat (o_savesize (i_opts ini))) (o_nsimu (i_opts ini))). split; [exact Q1|]. split; [exact T1|]. split; [exact T2|].
  rewrite (tiles_rows _ _ _ _ T1), rows_of_0 in Q2. rewrite P16, txt_app, h5_app, Q2, Q3.
  split; (destruct P15 as [->|(p & l & ->)]; cbn; now rewrite app_nil_r).
Qed.
