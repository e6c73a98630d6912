(** Facts about runs with custom samplers. *)

From Coq Require Import ZArith QArith Bool Lia List String FunctionalExtensionality.
From Verif Require Import Base Num Samplers Adapt Settings Simulator RunSpec SamplerFacts RunFacts RunLift SettingsFacts LogSpec LogFacts Custom CustomSpec.
Import ListNotations.
Close Scope Q_scope.
Open Scope list_scope.
Open Scope nat_scope.
Open Scope res_scope.

Ltac peelr H :=
  let a := fresh "a" in let E := fresh "E" in
  apply bind_ok in H; destruct H as (a & E & H); rewrite E; cbn [bind].

Section Quiet.
Context {F : Type} `{NF : Num F}.

(** ** Files with operations added *)

(** [adds P l l']: [l'] is [l] with operations satisfying [P] added anywhere. *)
Inductive adds (P : fop F -> Prop) : fs F -> fs F -> Prop :=
| adds_nil : adds P [] []
| adds_same x l l' : adds P l l' -> adds P (x :: l) (x :: l')
| adds_new x l l' : P x -> adds P l l' -> adds P l (x :: l').

Lemma adds_refl P l : adds P l l.
Proof. induction l; constructor; auto. Qed.
Lemma adds_app P a a' b b' : adds P a a' -> adds P b b' -> adds P (a ++ b) (a' ++ b').
Proof. intros H1 H2. induction H1; cbn [app]; [exact H2|now constructor|now constructor]. Qed.
Lemma adds_tail P l : Forall P l -> adds P [] l.
Proof. induction 1; constructor; auto. Qed.
Lemma adds_end P a a' l : adds P a a' -> Forall P l -> adds P a (a' ++ l).
Proof. intros H1 H2. rewrite <- (app_nil_r a). apply adds_app; [exact H1|now apply adds_tail]. Qed.
Lemma adds_weaken (P Q : fop F -> Prop) l l' : (forall x, P x -> Q x) -> adds P l l' -> adds Q l l'.
Proof. intros H A. induction A; constructor; auto. Qed.

Lemma adds_sets P p l l' a b : adds P l l' ->
  existsb (fun e : nat * nat * list (list F) => match e with (a', b', _) => (a =? a') && (b =? b') end) (h5_sets p l') = false ->
  existsb (fun e : nat * nat * list (list F) => match e with (a', b', _) => (a =? a') && (b =? b') end) (h5_sets p l) = false.
Proof.
  intros A. induction A as [|x l l' A IH|x l l' Hx A IH]; [auto| |].
  - unfold h5_sets in *. cbn [map List.concat]. rewrite !existsb_app. intros H. apply orb_false_iff in H as [H1 H2].
    rewrite H1. cbn [orb]. now apply IH.
  - unfold h5_sets in *. cbn [map List.concat]. rewrite existsb_app. intros H. apply orb_false_iff in H as [_ H2]. now apply IH.
Qed.

Lemma h5_put_adds P p a b rows l l' k' : adds P l l' -> h5_put p a b rows l' = Ok k' ->
  exists k, h5_put p a b rows l = Ok k /\ adds P k k'.
Proof.
  intros A H. unfold h5_put in *. destruct (existsb _ (h5_sets p l')) eqn:Ex; [discriminate|]. injection H as <-.
  rewrite (adds_sets _ _ _ _ _ _ A Ex). eexists. split; [reflexivity|]. apply adds_app; [exact A|apply adds_refl].
Qed.

Lemma save_chains_adds P h dir a b ch : forall l l' k', adds P l l' -> save_chains h dir a b ch l' = Ok k' ->
  exists k, save_chains h dir a b ch l = Ok k /\ adds P k k'.
Proof.
  induction ch as [|[f m] t IH]; intros l l' k' A H; cbn [save_chains] in *.
  - injection H as <-. eauto.
  - destruct h.
    + destruct (h5_put (dir, f, "h5"%string) a (b - 1) (slice a b m) l') as [x|] eqn:Ex; [|discriminate]. cbn [bind] in H.
      destruct (h5_put_adds _ _ _ _ _ _ _ _ A Ex) as (y & -> & Ay). cbn [bind]. eauto.
    + cbn [bind] in *. eapply IH; [|exact H]. apply adds_app; [exact A|apply adds_refl].
Qed.

Lemma save_log_adds P o ch a b l l' k' : adds P l l' -> save_to_log_file o ch a b l' = Ok k' ->
  exists k, save_to_log_file o ch a b l = Ok k /\ adds P k k'.
Proof.
  intros A H. unfold save_to_log_file in *.
  assert (HB : forall x', (if o_save_to_bin o then save_chains true (o_savedir o) a b ch (l' ++ [FLog (binlog (o_savedir o)) a (b - 1)])
                else Ok l') = Ok x' ->
     exists x, (if o_save_to_bin o then save_chains true (o_savedir o) a b ch (l ++ [FLog (binlog (o_savedir o)) a (b - 1)]) else Ok l) = Ok x /\
               adds P x x').
  { intros x' Hx. destruct (o_save_to_bin o); [|injection Hx as <-; eauto].
    eapply save_chains_adds; [|exact Hx]. apply adds_app; [exact A|apply adds_refl]. }
  destruct (if o_save_to_bin o then _ else Ok l') as [x'|] eqn:Ex; [|discriminate].
  destruct (HB x' eq_refl) as (x & -> & Ax). cbn [bind] in *.
  destruct (o_save_to_txt o); [|injection H as <-; eauto].
  eapply save_chains_adds; [|exact H]. apply adds_app; [exact Ax|apply adds_refl].
Qed.

Lemma save_cov_adds P o m a b l l' k' : adds P l l' -> save_covmtx o m a b l' = Ok k' ->
  exists k, save_covmtx o m a b l = Ok k /\ adds P k k'.
Proof.
  intros A H. unfold save_covmtx in *.
  assert (HB : forall x', (if o_save_to_bin o then h5_put (o_savedir o, o_covchainfile o, "h5"%string) a (b - 1) m l' else Ok l') = Ok x' ->
     exists x, (if o_save_to_bin o then h5_put (o_savedir o, o_covchainfile o, "h5"%string) a (b - 1) m l else Ok l) = Ok x /\ adds P x x').
  { intros x' Hx. destruct (o_save_to_bin o); [|injection Hx as <-; eauto]. eapply h5_put_adds; eauto. }
  destruct (if o_save_to_bin o then _ else Ok l') as [x'|] eqn:Ex; [|discriminate].
  destruct (HB x' eq_refl) as (x & -> & Ax). cbn [bind] in *.
  destruct (o_save_to_txt o); injection H as <-; eexists; (split; [reflexivity|]); [|exact Ax].
  apply adds_app; [exact Ax|apply adds_refl].
Qed.

(** ** States that differ in their files only *)

Definition strip_event (e : event F) : event F := mkev (ev_cov e) (ev_pos e) (ev_stage e) (ev_outb e) 0.
Definition strip (st : rstate F) : rstate F :=
  mkst (r_index st) (r_iiadapt st) (r_savecount st) (r_lastbin st) (r_old st) (r_rej st) (r_rejin st) (r_rejout st)
       (r_chain st) (r_ss st) (r_s2 st) (r_cov st) (r_sigma2 st) (r_S20 st) (r_iacce st) (r_io st) [] (map strip_event (r_trace st)).

Definition near (P : fop F -> Prop) (plain custom : rstate F) : Prop :=
  strip plain = strip custom /\ adds P (r_fs plain) (r_fs custom).

Ltac fields := cbn [r_index r_iiadapt r_savecount r_lastbin r_old r_rej r_rejin r_rejout r_chain r_ss r_s2 r_cov r_sigma2 r_S20 r_iacce r_io r_fs r_trace] in *.
Ltac same_fields s1 s2 H := destruct s1 as [p1 p2 p3 p4 p5 p6 p7 p8 p9 p10 p11 p12 p13 p14 p15 p16 p17 p18]; destruct s2 as [q1 q2 q3 q4 q5 q6 q7 q8 q9 q10 q11 q12 q13 q14 q15 q16 q17 q18];
  unfold strip in H; cbn in H; injection H; clear H; intros; subst; fields.

Variable E : env F.
Variable K : rconst F.

Lemma sample_alike s1 s2 : strip s1 = strip s2 -> sample_step E K s1 = sample_step E K s2.
Proof. intros H. same_fields s1 s2 H. reflexivity. Qed.

Lemma update_alike s1 s2 smp t2 : strip s1 = strip s2 -> update_chain K s2 smp = Ok t2 ->
  exists t1, update_chain K s1 smp = Ok t1 /\ strip t1 = strip t2 /\ r_fs t1 = r_fs s1 /\ r_fs t2 = r_fs s2.
Proof.
  intros H HU. same_fields s1 s2 H.
  unfold update_chain in *. destruct smp as [[[[[stage new] outb] z] ia] s]. fields.
  do 4 peelr HU. injection HU as HU; subst t2. eexists. split; [reflexivity|].
  split; [|split; reflexivity]. unfold strip. cbn. f_equal. f_equal. assumption.
Qed.

Lemma adapt_alike i z al s1 s2 t2 : strip s1 = strip s2 -> adapt_step E K i z al s2 = Ok t2 ->
  exists t1, adapt_step E K i z al s1 = Ok t1 /\ strip t1 = strip t2 /\ r_fs t1 = r_fs s1 /\ r_fs t2 = r_fs s2.
Proof.
  intros H HU. same_fields s1 s2 H. unfold adapt_step in *. fields.
  destruct (_ && _)%bool.
  - peelr HU. injection HU as HU; subst t2. eexists. split; [reflexivity|].
    split; [|split; reflexivity]. unfold strip. cbn. f_equal. assumption.
  - injection HU as HU; subst t2. eexists. split; [reflexivity|]. split; [|split; reflexivity]. unfold strip. cbn. f_equal. assumption.
Qed.

Lemma sigma_alike s1 s2 t2 : strip s1 = strip s2 -> sigma_step E K s2 = Ok t2 ->
  exists t1, sigma_step E K s1 = Ok t1 /\ strip t1 = strip t2 /\ r_fs t1 = r_fs s1 /\ r_fs t2 = r_fs s2.
Proof.
  intros H HU. same_fields s1 s2 H. unfold sigma_step in *. fields.
  destruct (o_updatesigma (k_opts K)).
  - peelr HU. destruct a as [[sg s20] s']. do 3 peelr HU. injection HU as HU; subst t2. eexists. split; [reflexivity|].
    split; [|split; reflexivity]. unfold strip. cbn. f_equal. assumption.
  - injection HU as HU; subst t2. eexists. split; [reflexivity|]. split; [|split; reflexivity]. unfold strip. cbn. f_equal. assumption.
Qed.

Lemma alike_logged s1 s2 : strip s1 = strip s2 ->
  logged K s1 = logged K s2 /\ proposal_cov s1 = proposal_cov s2 /\ r_savecount s1 = r_savecount s2 /\ r_lastbin s1 = r_lastbin s2 /\
  r_old s1 = r_old s2 /\ r_io s1 = r_io s2.
Proof. intros H. same_fields s1 s2 H. repeat split. Qed.

Lemma save_near P i s1 s2 t2 : near P s1 s2 -> save_step K i s2 = Ok t2 ->
  exists t1, save_step K i s1 = Ok t1 /\ near P t1 t2.
Proof.
  intros [H A] HU. destruct (alike_logged _ _ H) as (L1 & L2 & L3 & _). unfold save_step in *. rewrite L1, L2, L3.
  destruct (_ =? _)%Z.
  - peel HU. peel HU. destruct (save_log_adds _ _ _ _ _ _ _ _ A E0) as (x & -> & Ax). cbn [bind].
    destruct (save_cov_adds _ _ _ _ _ _ _ _ Ax E1) as (y & -> & Ay). cbn [bind]. injection HU as HU; subst t2.
    eexists. split; [reflexivity|]. split; [|exact Ay]. same_fields s1 s2 H. unfold strip. cbn. f_equal. assumption.
  - injection HU as HU; subst t2. exists s1. split; [reflexivity|]. split; assumption.
Qed.

(** Writing succeeds after further operations as well, if nothing is written to binary files or nothing was added. *)
Definition harmless (P : fop F -> Prop) (o : simopts F) : Prop := o_save_to_bin o = false \/ (forall x, ~ P x).

Lemma adds_none P l l' : (forall x, ~ P x) -> adds P l l' -> l = l'.
Proof. intros H A. induction A; [reflexivity|now f_equal|].
  exfalso. eapply H; eassumption.
Qed.
Lemma save_chains_txt_ok dir a b ch : forall l : fs F, exists l', save_chains false dir a b ch l = Ok l'.
Proof. induction ch as [|[f m] t IH]; intros l; cbn [save_chains bind]; eauto. Qed.

Lemma save_log_back P o ch a b l l' k : adds P l l' -> harmless P o -> save_to_log_file o ch a b l = Ok k ->
  exists k', save_to_log_file o ch a b l' = Ok k'.
Proof.
  intros A [Hb|HP] H; [|rewrite <- (adds_none _ _ _ HP A); eauto]. unfold save_to_log_file. rewrite Hb. cbn [bind].
  destruct (o_save_to_txt o); [apply save_chains_txt_ok|eauto].
Qed.
Lemma save_cov_back P o m a b l l' k : adds P l l' -> harmless P o -> save_covmtx o m a b l = Ok k ->
  exists k', save_covmtx o m a b l' = Ok k'.
Proof.
  intros A [Hb|HP] H; [|rewrite <- (adds_none _ _ _ HP A); eauto]. unfold save_covmtx. rewrite Hb. cbn [bind].
  destruct (o_save_to_txt o); eauto.
Qed.

Lemma save_back P i s1 s2 t1 : near P s1 s2 -> harmless P (k_opts K) -> save_step K i s1 = Ok t1 ->
  exists t2, save_step K i s2 = Ok t2.
Proof.
  intros [H A] HH HU. destruct (alike_logged _ _ H) as (L1 & L2 & L3 & _). unfold save_step in *. rewrite L1, L2, L3 in HU.
  destruct (_ =? _)%Z; [|eauto]. peel HU. peel HU.
  destruct (save_log_back _ _ _ _ _ _ _ _ A HH E0) as (x & Hx). rewrite Hx. cbn [bind].
  destruct (save_log_adds _ _ _ _ _ _ _ _ A Hx) as (x' & Hx' & Ax). rewrite E0 in Hx'. injection Hx' as <-.
  destruct (save_cov_back _ _ _ _ _ _ _ _ Ax HH E1) as (y & Hy). rewrite Hy. cbn [bind]. eauto.
Qed.
End Quiet.

Section Runs.
Context {F : Type} `{NF : Num F} {St Out : Type}.
Notation sampler := (sampler F St Out).

Lemma setup_quiet (l : list sampler) : Forall quiet l -> forall sts pos, exists os sts', setup_all l sts pos = (os, pos, sts').
Proof.
  induction 1 as [|cs l [Q1 _] _ IH]; intros sts pos; [destruct sts; cbn; eauto|].
  destruct sts as [|st sts]; cbn [setup_all]; [eauto|]. destruct (Q1 pos st) as (o & st' & ->).
  destruct (IH sts pos) as (os & sts' & ->). eauto.
Qed.
Lemma update_quiet (l : list sampler) : Forall quiet l -> forall sts acc i cur pos, exists os sts', update_all l sts acc i cur pos = (os, cur, pos, sts').
Proof.
  induction 1 as [|cs l [_ Q2] _ IH]; intros sts acc i cur pos; [destruct sts; cbn; eauto|].
  destruct sts as [|st sts]; cbn [update_all]; [eauto|]. destruct (Q2 acc i cur pos st) as (o & st' & ->).
  destruct (IH sts acc i cur pos) as (os & sts' & ->). eauto.
Qed.

Lemma save_chains_custom h (all : list sampler) cs st dir a b : In cs all -> cs_save_chain cs = true ->
  forall ch, (forall x, In x ch -> In x (cs_chains cs st)) -> forall l k, save_chains h dir a b ch l = Ok k ->
  exists ops, k = l ++ ops /\ Forall (custom_op all) ops.
Proof.
  intros HI HS ch HC l k H. destruct h; [apply save_chains_h5 in H|apply LogFacts.save_chains_txt in H]; subst k; eexists; (split; [reflexivity|]);
    apply Forall_forall; intros op Hop; apply in_map_iff in Hop as ([f m] & <- & Hop); cbn; exists cs, st, m; auto.
Qed.

Lemma save_custom_ops o (all : list sampler) l : (forall cs, In cs l -> In cs all) -> forall sts a b f k,
  save_custom o l sts a b f = Ok k -> exists ops, k = f ++ ops /\ Forall (custom_op all) ops.
Proof.
  induction l as [|cs l IH]; intros HI sts a b f k H; [destruct sts; cbn in H; injection H as <-; exists []; rewrite app_nil_r; auto|].
  destruct sts as [|st sts]; cbn [save_custom] in H; [injection H as <-; exists []; rewrite app_nil_r; auto|].
  peel H. assert (X : exists ops, a0 = f ++ ops /\ Forall (custom_op all) ops).
  { destruct (cs_save_chain cs) eqn:HS; [|injection E as <-; exists []; rewrite app_nil_r; auto].
    unfold save_custom_chains in E. peel E.
    assert (Y : exists ops, a1 = f ++ ops /\ Forall (custom_op all) ops).
    { destruct (o_save_to_bin o); [|injection E0 as <-; exists []; rewrite app_nil_r; auto].
      apply (save_chains_custom true all cs st _ _ _ (HI _ (or_introl eq_refl)) HS _ (fun x Hx => Hx) _ _ E0). }
    destruct Y as (ops1 & -> & F1). destruct (o_save_to_txt o); [|injection E as <-; exists ops1; auto].
    destruct (save_chains_custom false all cs st _ _ _ (HI _ (or_introl eq_refl)) HS _ (fun x Hx => Hx) _ _ E) as (ops2 & -> & F2). exists (ops1 ++ ops2). rewrite app_assoc. split; [reflexivity|]. apply Forall_app; auto. }
  destruct X as (ops1 & -> & F1). apply IH in H; [|intros x Hx; apply HI; now right].
  destruct H as (ops2 & -> & F2). exists (ops1 ++ ops2). rewrite app_assoc. split; [reflexivity|]. apply Forall_app; auto.
Qed.

Lemma save_custom_ok o (all : list sampler) l : harmless (custom_op all) o -> (forall cs, In cs l -> In cs all) ->
  (o_save_to_bin o = false \/ forall cs, In cs l -> cs_save_chain cs = false) ->
  forall sts a b f, exists k, save_custom o l sts a b f = Ok k.
Proof.
  intros HH HI HB. induction l as [|cs l IH]; intros sts a b f; [destruct sts; cbn; eauto|].
  destruct sts as [|st sts]; cbn [save_custom]; [eauto|].
  assert (X : exists k, (if cs_save_chain cs then save_custom_chains o (cs_chains cs st) a b f else Ok f) = Ok k).
  { destruct (cs_save_chain cs) eqn:HS; [|eauto]. unfold save_custom_chains. destruct HB as [Hb|Hb].
    - rewrite Hb. cbn [bind]. destruct (o_save_to_txt o); [apply save_chains_txt_ok|eauto].
    - rewrite Hb in HS by (now left). discriminate. }
  destruct X as (k & ->). cbn [bind]. apply IH.
  - intros x Hx. apply HI. now right.
  - destruct HB as [Hb|Hb]; [now left|right]. intros x Hx. apply Hb. now right.
Qed.

Variable E : env F.
Variable u : usersos F Out.
Variable samplers : list sampler.
Variable f : list F -> list F.
Hypothesis HF : forall c v, sos_call u c v = f v.
Hypothesis HQ : Forall quiet samplers.

Definition plain_env : env F := mkenv f (e_prior E) (e_str E) (e_chol E) (e_inv E) (e_fuel E).
Lemma env_plain c : with_custom E u c = plain_env.
Proof. unfold with_custom, plain_env. f_equal. apply functional_extensionality. intros v. apply HF. Qed.

Notation P := (custom_op samplers).

Lemma after_id (st : rstate F) : after_update st (r_old st) (io_pos (r_io st)) = st.
Proof. destruct st as [? ? ? ? ? ? ? ? ? ? ? ? ? ? ? [? ? ?] ? ?]. reflexivity. Qed.
Lemma near_files (s1 s2 : rstate F) k ops : near P s1 s2 -> k = r_fs s2 ++ ops -> Forall P ops -> near P s1 (with_files s2 k).
Proof. intros [H A] -> HO. split; [rewrite H; reflexivity|]. cbn [with_files r_fs]. now apply adds_end. Qed.

Lemma cstep_plain K i c c' s : near P s (c_run c) -> cstep E u samplers K i c = Ok c' ->
  exists s', step plain_env K i s = Ok s' /\ near P s' (c_run c').
Proof.
  intros [HN HA] H. unfold cstep in H. rewrite env_plain in H. peel H. destruct a as [[[[[stage new] outb] z] ia] s0].
  peel H. peel H. peel H.
  destruct (update_quiet samplers HQ (c_sts c) (negb (stage =? 0)) i (r_old a1) (io_pos (r_io a1))) as (os & sts & HU).
  rewrite HU in H. rewrite after_id in H. peel H. peel H. injection H as <-. cbn [c_run].
  destruct (update_alike K _ _ _ _ HN E1) as (t1 & T1 & S1 & F1 & G1).
  destruct (adapt_alike plain_env K _ _ _ _ _ _ S1 E2) as (t2 & T2 & S2 & F2 & G2).
  destruct (sigma_alike plain_env K _ _ _ S2 E3) as (t3 & T3 & S3 & F3 & G3).
  assert (N3 : near P t3 a1) by (split; [exact S3|]; rewrite F3, F2, F1, G3, G2, G1; exact HA).
  destruct (save_near K _ _ _ _ _ N3 E4) as (t4 & T4 & N4).
  exists t4. split.
  - unfold step. rewrite (sample_alike plain_env K _ _ HN), E0. cbn [bind]. rewrite T1. cbn [bind]. rewrite T2. cbn [bind].
    rewrite T3. cbn [bind]. exact T4.
  - destruct (_ =? _)%Z.
    + apply save_custom_ops with (all := samplers) in E5; [|auto]. destruct E5 as (ops & -> & HO). eapply near_files; eauto.
    + injection E5 as <-. eapply near_files with (ops := []); eauto. now rewrite app_nil_r.
Qed.

Lemma step_custom K i c s s' : harmless P (k_opts K) -> (o_save_to_bin (k_opts K) = false \/ forall cs, In cs samplers -> cs_save_chain cs = false) ->
  near P s (c_run c) -> step plain_env K i s = Ok s' -> exists c', cstep E u samplers K i c = Ok c'.
Proof.
  intros HH HB [HN HA] H. unfold step in H. peel H. destruct a as [[[[[stage new] outb] z] ia] s0]. peel H. peel H. peel H.
  rewrite (sample_alike plain_env K _ _ HN) in E0.
  symmetry in HN.
  destruct (update_alike K _ _ _ _ HN E1) as (t1 & T1 & S1 & F1 & G1).
  destruct (adapt_alike plain_env K _ _ _ _ _ _ S1 E2) as (t2 & T2 & S2 & F2 & G2).
  destruct (sigma_alike plain_env K _ _ _ S2 E3) as (t3 & T3 & S3 & F3 & G3).
  assert (N3 : near P a1 t3) by (split; [now symmetry|]; rewrite F3, F2, F1, G3, G2, G1; exact HA).
  destruct (save_back K _ _ _ _ _ N3 HH H) as (t4 & T4).
  unfold cstep. rewrite env_plain, E0. cbn [bind]. rewrite T1. cbn [bind]. rewrite T2. cbn [bind]. rewrite T3. cbn [bind].
  destruct (update_quiet samplers HQ (c_sts c) (negb (stage =? 0)) i (r_old t3) (io_pos (r_io t3))) as (os & sts & HU).
  rewrite HU, after_id, T4. cbn [bind]. destruct (_ =? _)%Z; cbn [bind]; [|eauto].
  destruct (save_custom_ok (k_opts K) samplers samplers HH ltac:(auto) HB sts (i - Z.to_nat (o_savesize (k_opts K))) i (r_fs t4)) as (k & ->).
  cbn [bind]. eauto.
Qed.

Lemma citerate_plain K is : forall c c' s, near P s (c_run c) -> citerate E u samplers K is c = Ok c' ->
  exists s', iterate plain_env K is s = Ok s' /\ near P s' (c_run c').
Proof.
  induction is as [|i is IH]; intros c c' s HN H; cbn [citerate iterate] in *; [injection H as <-; eauto|].
  peel H. destruct (cstep_plain _ _ _ _ _ HN E0) as (s1 & -> & N1). cbn [bind]. eauto.
Qed.
Lemma iterate_custom K is : harmless P (k_opts K) -> (o_save_to_bin (k_opts K) = false \/ forall cs, In cs samplers -> cs_save_chain cs = false) ->
  forall c s s', near P s (c_run c) -> iterate plain_env K is s = Ok s' -> exists c', citerate E u samplers K is c = Ok c'.
Proof.
  intros HH HB. induction is as [|i is IH]; intros c s s' HN H; cbn [citerate iterate] in *; [eauto|].
  peel H. destruct (step_custom _ _ _ _ _ HH HB HN E0) as (c1 & Hc). rewrite Hc. cbn [bind].
  destruct (cstep_plain _ _ _ _ _ HN Hc) as (s1 & Hs & N1). rewrite E0 in Hs. injection Hs as <-. eauto.
Qed.

Lemma cexecute_plain K c c' s : near P s (c_run c) -> cexecute E u samplers K c = Ok c' ->
  exists s', execute plain_env K s = Ok s' /\ near P s' (c_run c').
Proof.
  intros HN H. unfold cexecute in H. peel H. destruct (citerate_plain _ _ _ _ _ HN E0) as (s1 & HI & [S1 A1]).
  unfold execute. rewrite HI. cbn [bind]. destruct (_ <=? 1); [discriminate|].
  destruct (alike_logged K _ _ S1) as (L1 & L2 & L3 & L4 & L5 & L6). rewrite L1, L2, L4.
  peel H. peel H. peel H. injection H as <-. cbn [c_run].
  destruct (save_log_adds _ _ _ _ _ _ _ _ A1 E1) as (x & -> & Ax). cbn [bind].
  destruct (save_cov_adds _ _ _ _ _ _ _ _ Ax E2) as (y & -> & Ay). cbn [bind]. eexists. split; [reflexivity|].
  apply save_custom_ops with (all := samplers) in E3; [|auto]. destruct E3 as (ops & -> & HO). split; [|now apply adds_end].
  rewrite <- L4. transitivity (strip s1); [reflexivity|]. rewrite S1. reflexivity.
Qed.
Lemma execute_custom K c s s' : harmless P (k_opts K) -> (o_save_to_bin (k_opts K) = false \/ forall cs, In cs samplers -> cs_save_chain cs = false) ->
  near P s (c_run c) -> execute plain_env K s = Ok s' -> exists c', cexecute E u samplers K c = Ok c'.
Proof.
  intros HH HB HN H. unfold execute in H. peel H. destruct (iterate_custom _ _ HH HB _ _ _ HN E0) as (c1 & HC).
  unfold cexecute. rewrite HC. cbn [bind]. destruct (citerate_plain _ _ _ _ _ HN HC) as (s1 & HI & [S1 A1]).
  rewrite E0 in HI. injection HI as <-. destruct (_ <=? 1); [discriminate|].
  destruct (alike_logged K _ _ S1) as (L1 & L2 & L3 & L4 & L5 & L6). rewrite L1, L2, L4 in H.
  peel H. peel H.
  destruct (save_log_back _ _ _ _ _ _ _ _ A1 HH E1) as (x & Hx). rewrite Hx. cbn [bind].
  destruct (save_log_adds _ _ _ _ _ _ _ _ A1 Hx) as (x' & Hx' & Ax). rewrite E1 in Hx'. injection Hx' as <-.
  destruct (save_cov_back _ _ _ _ _ _ _ _ Ax HH E2) as (y & Hy). rewrite Hy. cbn [bind].
  destruct (save_custom_ok (k_opts K) samplers samplers HH ltac:(auto) HB (c_sts c1) (r_lastbin (c_run c1)) (S (o_nsimu (k_opts K) - 1)) y) as (k & Hk).
  rewrite Hk. cbn [bind]. eauto.
Qed.

(** Objects that differ in the files written only. *)
Definition forget (m : mcmc F) : mcmc F :=
  mkmcmc (m_params m) (m_data m) (m_model m) (m_opts m) (m_RDR m) (m_status m) (m_chain m) (m_sschain m) (m_s2chain m)
         (m_index m) (m_chains m) (m_pos m) (m_calls m) [] (m_results m) (map strip_event (m_trace m)).

Lemma at_id (ini : initrec F) : at_pos ini (io_pos (i_io ini)) = ini.
Proof. destruct ini as [? ? ? ? ? ? ? [? ? ?]]. reflexivity. Qed.

Lemma prepared_plain m ps ini idx arrays outs sts m' c : crun_prepared E u samplers m ps ini idx arrays outs sts = Ok (m', c) ->
  exists m'', run_prepared plain_env m ps ini idx arrays = Ok m'' /\ forget m'' = forget m' /\ adds P (m_fs m'') (m_fs m').
Proof.
  destruct arrays as [[[chain ss] s2] chains]. unfold crun_prepared, run_prepared. intros H. peel H. injection H as <- <-.
  assert (N : near P (start_state ini idx chain ss s2 (m_fs m)) (c_run (mkcst (start_state ini idx chain ss s2 (m_fs m)) sts outs (@nil (ucall F Out)))))
    by (split; [reflexivity|apply adds_refl]).
  destruct (cexecute_plain _ _ _ _ N E0) as (s' & -> & S1 & A1).
  cbn [bind]. eexists. split; [reflexivity|]. split.
  - destruct (c_run a) as [q1 q2 q3 q4 q5 q6 q7 q8 q9 q10 q11 q12 q13 q14 q15 q16 q17 q18].
    destruct s' as [p1 p2 p3 p4 p5 p6 p7 p8 p9 p10 p11 p12 p13 p14 p15 p16 p17 p18].
    unfold strip in S1. cbn in S1. injection S1; clear S1; intros; subst. unfold forget. cbn. rewrite !map_app.
    repeat match goal with H : map strip_event _ = _ |- _ => rewrite H end. reflexivity.
  - cbn [m_fs]. destruct (o_save_to_json (i_opts ini)); [apply adds_app; [exact A1|apply adds_refl]|exact A1].
Qed.
Lemma prepared_custom m ps ini idx arrays outs sts m'' : harmless P (i_opts ini) ->
  (o_save_to_bin (i_opts ini) = false \/ forall cs, In cs samplers -> cs_save_chain cs = false) ->
  run_prepared plain_env m ps ini idx arrays = Ok m'' ->
  exists m' c, crun_prepared E u samplers m ps ini idx arrays outs sts = Ok (m', c).
Proof.
  destruct arrays as [[[chain ss] s2] chains]. unfold crun_prepared, run_prepared. intros HH HB H. peel H.
  assert (N : near P (start_state ini idx chain ss s2 (m_fs m)) (c_run (mkcst (start_state ini idx chain ss s2 (m_fs m)) sts outs (@nil (ucall F Out)))))
    by (split; [reflexivity|apply adds_refl]).
  destruct (execute_custom (make_const ini chains) _ _ _ HH HB N E0) as (c & ->). cbn [bind]. eauto.
Qed.

Lemma run_plain b m sts m' c : crun_simulation E u samplers b m sts = Ok (m', c) ->
  exists m'', run_simulation plain_env b m = Ok m'' /\ forget m'' = forget m' /\ adds P (m_fs m'') (m_fs m').
Proof.
  unfold crun_simulation, run_simulation. rewrite env_plain. destruct b.
  - destruct (m_status m); [|discriminate]. destruct (m_results m) as [r|]; [|discriminate].
    intros H. peelr H. peelr H.
    destruct (setup_quiet samplers HQ sts (io_pos (i_io a0))) as (os & sts' & HS). rewrite HS in H.
    peelr H. rewrite at_id in H. now apply prepared_plain in H.
  - intros H. peelr H. destruct a as [ps o]. peelr H.
    destruct (setup_quiet samplers HQ sts (io_pos (i_io a))) as (os & sts' & HS). rewrite HS in H.
    peelr H. rewrite at_id in H. now apply prepared_plain in H.
Qed.

Lemma run_custom b m sts m'' : run_simulation plain_env b m = Ok m'' ->
  (o_save_to_bin (m_opts m) = false \/ forall cs, In cs samplers -> cs_save_chain cs = false) ->
  exists m' c, crun_simulation E u samplers b m sts = Ok (m', c).
Proof.
  intros H HB. assert (HH : forall o, o_save_to_bin o = o_save_to_bin (m_opts m) -> harmless P o /\ (o_save_to_bin o = false \/ forall cs, In cs samplers -> cs_save_chain cs = false)).
  { intros o Ho. rewrite Ho. split; [|exact HB]. unfold harmless. rewrite Ho. destruct HB as [HB|HB]; [now left|right].
    intros [? ? ?|[[? ?] ?] ? ? ?|[[? ?] ?] ?|? ?]; cbn; auto; intros (cs & st & mm & H1 & H2 & _); rewrite HB in H2 by exact H1; discriminate. }
  revert H. unfold crun_simulation, run_simulation. rewrite env_plain. destruct b.
  - destruct (m_status m); [|discriminate]. destruct (m_results m) as [r|]; [|discriminate].
    intros H. peelr H. peelr H. peelr H.
    destruct (setup_quiet samplers HQ sts (io_pos (i_io a0))) as (os & sts' & ->). cbn [bind]. rewrite at_id.
    pose proof (init_model plain_env _ _ _ _ _ _ _ _ E1) as (_ & _ & _ & _ & HO).
    destruct (HH (i_opts a0)) as [H1 H2]; [now rewrite HO|]. eapply prepared_custom; eauto.
  - intros H. peelr H. destruct a as [ps o]. peelr H. peelr H.
    destruct (setup_quiet samplers HQ sts (io_pos (i_io a))) as (os & sts' & ->). cbn [bind]. rewrite at_id.
    pose proof (init_model plain_env _ _ _ _ _ _ _ _ E1) as (_ & _ & _ & _ & HO).
    destruct (HH (i_opts a)) as [H1 H2].
    { rewrite HO. cbn [o_save_to_bin check_dependent_simulation_options]. destruct (o_restart (m_opts m)) as [r|]; [peel E0|]; injection E0 as <- <-; reflexivity. }
    eapply prepared_custom; eauto.
Qed.
End Runs.

(** Operations not added are the same, in the same order. *)
Lemma adds_filter {F} (P : fop F -> Prop) (q : fop F -> bool) l l' : (forall x, P x -> q x = false) -> adds P l l' -> filter q l' = filter q l.
Proof.
  intros H A. induction A; cbn; [reflexivity| |].
  - now rewrite IHA.
  - rewrite (H x) by assumption. exact IHA.
Qed.
