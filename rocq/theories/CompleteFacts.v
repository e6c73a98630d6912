(** Runs of well-formed problems come to an end: the helpers. *)

From Coq Require Import ZArith QArith Bool Lia List String.
From Verif Require Import Base Num Samplers Adapt Settings Simulator SamplerFacts RunSpec RunFacts RunLift NaNRun AdaptRun CleanFacts.
Import ListNotations.
Open Scope list_scope.
Open Scope nat_scope.
Open Scope res_scope.

(** A computation that ends with a value satisfying [P], or uses up the fuel if [G] holds. *)
Definition fine {A} (G : Prop) (P : A -> Prop) (r : res A) : Prop :=
  match r with Ok a => P a | Err OutOfFuel => G | Err _ => False end.

Lemma fine_bind {A B} G (P : A -> Prop) (Q : B -> Prop) m (k : A -> res B) :
  fine G P m -> (forall a, m = Ok a -> P a -> fine G Q (k a)) -> fine G Q (bind m k).
Proof. intros H1 H2. destruct m as [a|e]; simpl in *; auto. Qed.
Lemma fine_weaken {A} G (P Q : A -> Prop) m : fine G P m -> (forall a, P a -> Q a) -> fine G Q m.
Proof. intros H1 H2. destruct m as [a|e]; simpl in *; auto. Qed.
Lemma fine_exists {A} G (P : A -> Prop) m : (exists a, m = Ok a /\ P a) -> fine G P m.
Proof. intros (a & -> & H). exact H. Qed.
Lemma fine_nth {A} G e (l : list A) i : i < List.length l -> fine G (fun a => nth_error l i = Some a) (of_option e (nth_error l i)).
Proof. intros H. apply nth_error_Some in H. destruct (nth_error l i); simpl; congruence. Qed.
Lemma fine_write {A} G i (v : A) l : i < List.length l -> fine G (fun l' => List.length l' = List.length l /\ l' = set_nth i v l) (write i v l).
Proof. intros H. unfold write. apply Nat.ltb_lt in H. rewrite H. simpl. rewrite set_nth_length. auto. Qed.
Lemma scatter_length {A} (ix : list nat) : forall (x v : list A), List.length (scatter x ix v) = List.length x.
Proof. induction ix as [|i t IH]; intros x [|a v]; simpl; auto. rewrite IH. apply set_nth_length. Qed.

Section Complete.
Context {F : Type} `{NF : Num F}.
Variable E : env F.
Variables (n nsos nval : nat).
Hypothesis Hn : 0 < n.

(** ** Shapes *)
Definition sq (M : list (list F)) : Prop := List.length M = n /\ Forall (fun r => List.length r = n) M.
Lemma sq_bool M : sq M -> is_square n M = true.
Proof.
  intros [H1 H2]. unfold is_square. rewrite H1, Nat.eqb_refl. simpl. apply forallb_forall. intros r Hr.
  apply Nat.eqb_eq. rewrite Forall_forall in H2. auto.
Qed.
Lemma sq_cols M : sq M -> ncols M = n.
Proof. intros [H1 H2]. destruct M; simpl in *; [lia|]. inversion H2; auto. Qed.
Lemma range_length k : List.length (range k) = k.
Proof. apply seq_length. Qed.
Lemma sq_map {A} (f : nat -> nat -> F) (l : list A) : sq (map (fun i => map (f i) (range n)) (range n)).
Proof.
  split; [rewrite map_length; apply range_length|]. apply Forall_forall. intros r Hr. apply in_map_iff in Hr as (i & <- & _).
  rewrite map_length. apply range_length.
Qed.
Lemma sq_rows {A} (f : A -> list F) (l : list A) : List.length l = n -> (forall a, In a l -> List.length (f a) = n) -> sq (map f l).
Proof.
  intros H1 H2. split; [now rewrite map_length|]. apply Forall_forall. intros r Hr. apply in_map_iff in Hr as (i & <- & Hi). auto.
Qed.
Lemma sq_transpose M : sq M -> sq (transpose M).
Proof.
  intros H. unfold transpose. rewrite (sq_cols _ H). apply sq_rows; [apply range_length|]. intros a _. unfold col. rewrite map_length. apply H.
Qed.
Lemma sq_in M r : sq M -> In r M -> List.length r = n.
Proof. intros [_ H] Hr. rewrite Forall_forall in H. auto. Qed.
Lemma sq_scale c M : sq M -> sq (mscale c M).
Proof.
  intros H. apply sq_rows; [apply H|]. intros r Hr. unfold vscale. rewrite map_length. eapply sq_in; eauto.
Qed.
Lemma sq_eye : sq (eye (F:=F) n).
Proof. apply sq_rows; [apply range_length|]. intros. rewrite map_length. apply range_length. Qed.
Lemma rows_madd (A : list (list F)) : forall B, Forall (fun r => List.length r = n) A -> Forall (fun r => List.length r = n) B ->
  Forall (fun r => List.length r = n) (madd A B).
Proof.
  induction A as [|a A IH]; intros [|b B] HA HB; try constructor.
  - unfold vadd. rewrite map2_length. inversion HA; inversion HB; subst. lia.
  - inversion HA; inversion HB; subst. apply IH; auto.
Qed.
Lemma sq_madd A B : sq A -> sq B -> sq (madd A B).
Proof.
  intros [A1 A2] [B1 B2]. split; [unfold madd; rewrite map2_length; transitivity (Nat.min n n); [f_equal; assumption|lia]|].
  apply rows_madd; auto.
Qed.
Lemma sq_matmul A B : sq A -> sq B -> sq (matmul A B).
Proof.
  intros HA HB. apply sq_rows; [apply HA|]. intros r _. unfold vecmat. rewrite map_length, (sq_cols _ HB). apply range_length.
Qed.
Lemma sq_outer u v : List.length u = n -> List.length v = n -> sq (outer (F:=F) u v).
Proof. intros H1 H2. apply sq_rows; auto. intros. now rewrite map_length. Qed.
Lemma sq_mapmap f M : sq M -> sq (map (map f) M).
Proof. intros H. apply sq_rows; [apply H|]. intros r Hr. rewrite map_length. eapply sq_in; eauto. Qed.

Lemma fine_drscale G (ds : list F) ii : ds <> [] -> fine G (fun d => In d ds) (drscale_at ds ii).
Proof.
  intros H. unfold drscale_at.
  assert (Hi : Nat.min ii (List.length ds) - 1 < List.length ds) by (clear -H; destruct ds; [congruence|]; cbn [List.length]; lia).
  apply fine_weaken with (P := fun a => nth_error ds (Nat.min ii (List.length ds) - 1) = Some a); [apply fine_nth; exact Hi|].
  intros a Ha. apply nth_error_In in Ha. exact Ha.
Qed.

(** ** One Metropolis step *)
Hypothesis Hnsos : 0 < nsos.
Definition fits (x : list F) : Prop := List.length x = 1 \/ List.length x = nsos.
(** A point at which the function has been evaluated, and one that may also be out of bounds. *)
Definition good (p : pset F) : Prop :=
  List.length (p_theta p) = n /\ List.length (p_ss p) = nsos /\ fits (p_sigma2 p).
Definition tried (p : pset F) : Prop :=
  List.length (p_theta p) = n /\ fits (p_ss p) /\ fits (p_sigma2 p).
Definition gio (s : io F) : Prop := List.length (io_value s) = nval.

Hypothesis Hsos : forall v, List.length v = nval -> List.length (e_sos E v) = nsos.

Lemma good_tried p : good p -> tried p.
Proof. intros (H1 & H2 & H3). repeat split; auto. right. auto. Qed.

Lemma sos_len V theta s ss s1 : gio s -> evaluate_sos_function E V theta s = (ss, s1) -> List.length ss = nsos /\ gio s1.
Proof.
  unfold evaluate_sos_function, gio. intros H Q. inversion Q; subst. cbn [io_value]. rewrite Hsos; rewrite scatter_length; auto.
Qed.

Lemma fine_loglik G ss sg : fits ss -> fits sg -> fine G (fun _ => True) (loglik ss sg).
Proof.
  intros H1 H2. unfold loglik. apply fine_bind with (P := fun _ => True); [|simpl; auto].
  unfold bcast2. destruct (Nat.eqb_spec (List.length ss) (List.length sg)); [simpl; auto|].
  destruct ss as [|a [|b t]]; [exfalso|exact I|].
  { destruct H1 as [H1|H1]; simpl in H1; lia. }
  destruct sg as [|c [|d u]]; [exfalso|exact I|exfalso]; destruct H1 as [H1|H1], H2 as [H2|H2]; simpl in *; lia.
Qed.

Variable V : pview F.
Hypothesis HV : v_npar V = n.

Lemma fine_candidate G x R s : List.length x = n -> sq R -> gio s ->
  fine G (fun q => List.length (fst (fst q)) = n /\ List.length (snd (fst q)) = n /\ gio (snd q)) (sample_candidate E (v_npar V) x R s).
Proof.
  intros H1 H2 H3. unfold sample_candidate. rewrite HV, (sq_bool _ H2), H1, Nat.eqb_refl. cbn [andb]. unfold randn. cbn [fine fst snd].
  rewrite map_length, seq_length. unfold vadd. rewrite map2_length. unfold vecmat. rewrite map_length, (sq_cols _ H2), range_length.
  split; [lia|]. split; auto.
Qed.

Lemma fine_metropolis G R old s : sq R -> good old -> gio s ->
  fine G (fun q => let '(acc, new, outb, z, s1) := q in
    gio s1 /\ List.length z = n /\ tried new /\ (acc = true -> good new) /\ p_alpha new <> None) (run_metropolis_step E V R old s).
Proof.
  intros HR (O1 & O2 & O3) Hs. unfold run_metropolis_step.
  eapply fine_bind; [apply fine_candidate; eauto|]. intros [[newpar z] s1] _ (A1 & A2 & A3). cbn [fst snd] in *.
  destruct (is_sample_outside_bounds _ _ _).
  - cbn [fine set_outside_bounds p_theta p_ss p_sigma2 p_alpha]. repeat split; auto; try discriminate. left. auto.
  - destruct (evaluate_sos_function _ _ _ _) as [ss1 s2] eqn:Hss. destruct (sos_len _ _ _ _ _ A3 Hss) as [B1 B2].
    eapply fine_bind; [apply fine_loglik; [right; exact B1|exact O3]|]. intros l1 _ _.
    eapply fine_bind; [apply fine_loglik; [right; exact O2|exact O3]|]. intros l2 _ _.
    unfold log_posterior_ratio_acceptance_test, rand. cbn [fine p_theta p_ss p_sigma2 p_alpha]. repeat split; auto; try discriminate.
    right. auto.
Qed.

(** ** Later stages *)
Lemma fine_exponent G path (invR : list mat) : Forall tried path -> 2 <= List.length path -> List.length path - 2 <= List.length invR ->
  fine G (fun _ => True) (alpha_exponent path invR).
Proof.
  intros HP H2 HI. unfold alpha_exponent.
  assert (T : forall i p, nth_error path i = Some p -> tried p).
  { intros i p Hp. rewrite Forall_forall in HP. apply HP. eapply nth_error_In; eauto. }
  eapply fine_bind; [apply fine_nth; lia|]. intros x1 _ E1. eapply fine_bind; [apply fine_nth; lia|]. intros x2 _ E2.
  apply T in E1 as (_ & A1 & A2). apply T in E2 as (_ & B1 & B2).
  eapply fine_bind; [apply fine_loglik; auto|]. intros l2 _ _. eapply fine_bind; [apply fine_loglik; auto|]. intros l1 _ _.
  match goal with |- fine G _ (fold_left ?f ?l ?i) => assert (Hi : fine G (fun _ => True) i) by exact I; revert Hi; generalize i end.
  assert (Hr : forall kk, In kk (range (List.length path - 1)) -> kk <= List.length path - 2) by (intros kk Hk; apply in_seq in Hk; lia).
  revert Hr. generalize (range (List.length path - 1)). intros l. induction l as [|kk t IH]; intros Hr i Hi; [exact Hi|].
  simpl. apply IH; [intros; apply Hr; right; auto|]. eapply fine_bind; [exact Hi|]. intros a _ _.
  apply fine_bind with (P := fun _ => True); [|simpl; auto].
  unfold nth_stage_log_proposal_ratio. destruct (Nat.eqb_spec (List.length path - 1 - 1) kk); [exact I|].
  specialize (Hr kk (or_introl eq_refl)). eapply fine_bind; [apply fine_nth; lia|]. intros iR _ _.
  apply fine_bind with (P := fun _ => True); [|intros [[[? ?] ?] ?] _ _; exact I].
  unfold extract_state_elements.
  assert (GT : forall j, j < List.length path -> fine G (fun _ : list F => True) (let* p := of_option IndexError (nth_error path j) in Ok (p_theta p))).
  { intros j Hj. eapply fine_bind; [apply fine_nth; auto|]. intros; exact I. }
  eapply fine_bind; [apply GT; lia|]. intros ? _ _. eapply fine_bind; [apply GT; lia|]. intros ? _ _.
  eapply fine_bind; [apply GT; lia|]. intros ? _ _. eapply fine_bind; [apply GT; lia|]. intros ? _ _. exact I.
Qed.

Lemma Forall_firstn {A} (P : A -> Prop) k l : Forall P l -> Forall P (firstn k l).
Proof. intros H. revert k. induction H; intros [|k]; simpl; auto. Qed.

Lemma fine_alpha invR fuel : forall path, Forall tried path -> 2 <= List.length path -> List.length path <= fuel ->
  List.length path - 2 <= List.length invR -> fine False (fun _ => True) (alphafun fuel invR path).
Proof.
  induction fuel as [|f IH]; intros path HP H2 Hf HI; [lia|]. cbn [alphafun].
  apply fine_bind with (P := fun _ => True).
  - assert (Hr : forall kk, In kk (range (List.length path - 1 - 1)) -> kk + 2 <= List.length path - 1) by (intros kk Hk; apply in_seq in Hk; lia).
    revert Hr. generalize (range (List.length path - 1 - 1)). generalize (@n1 F _) at 1. generalize (@n1 F _). intros b a l. revert a b.
    induction l as [|kk t IHl]; intros a b Hr; [exact I|]. cbn [alpha_loop]. specialize (Hr kk (or_introl eq_refl)) as Hk.
    assert (Hlen : forall (p : list (pset F)), List.length p = List.length path -> List.length (firstn (kk + 2) p) = kk + 2).
    { intros p Hp. rewrite firstn_length. lia. }
    eapply fine_bind.
    { apply IH; [now apply Forall_firstn|rewrite Hlen; lia|rewrite Hlen; lia|rewrite Hlen; lia]. }
    intros t1 _ _. eapply fine_bind.
    { apply IH; [apply Forall_firstn, Forall_rev; auto|rewrite Hlen; rewrite ?rev_length; lia|rewrite Hlen; rewrite ?rev_length; lia|rewrite Hlen; rewrite ?rev_length; lia]. }
    intros t2 _ _. destruct (neq _ _); [exact I|]. apply IHl. intros; apply Hr; right; auto.
  - intros [[a1 a2]|] _ _; [|exact I]. eapply fine_bind; [apply fine_exponent; auto|]. intros; exact I.
Qed.

Lemma fine_false {A} G (P : A -> Prop) m : fine False P m -> fine G P m.
Proof. destruct m as [a|e]; simpl; auto. destruct e; auto. contradiction. Qed.

Lemma fine_dr G (RDR invR : list mat) ntry old new : good old -> tried new -> Forall sq RDR -> ntry <= List.length RDR -> ntry - 1 <= List.length invR ->
  forall m itry path iacce cur s, 1 <= itry -> itry + m = ntry -> List.length path = S itry -> Forall tried path -> List.length iacce = ntry -> gio s ->
  (fst (fst cur) = true -> good (snd (fst cur))) ->
  fine G (fun q => let '(acc, out, outb, iacce', path', s') := q in
     gio s' /\ List.length iacce' = ntry /\ (acc = true -> good out) /\ (acc = true -> 2 <= List.length path')) (dr_loop E V RDR invR old new m itry path iacce cur s).
Proof.
  intros HO HNw HR HL HI. induction m as [|m IH]; intros itry path iacce [[ca co] cb] s Hi Hm Hp HP Ha Hs Hc; cbn [dr_loop].
  - cbn [fine fst snd] in *. split; [auto|]. split; [auto|]. split; [auto|]. intros; lia.
  - eapply fine_bind; [apply fine_nth; lia|]. intros P _ HPe.
    assert (HPs : sq P) by (rewrite Forall_forall in HR; apply HR; apply nth_error_In in HPe; exact HPe).
    eapply fine_bind; [apply fine_candidate; eauto; apply HO|]. intros [[theta z] s1] _ (A1 & A2 & A3). cbn [fst snd] in *.
    destruct (is_sample_outside_bounds _ _ _).
    + apply IH; auto; try lia.
      * rewrite app_length. simpl. lia.
      * apply Forall_app. split; auto. constructor; [|constructor]. split; [exact A1|]. split; [left; reflexivity|apply HNw].
    + destruct (evaluate_sos_function _ _ _ _) as [ss s2] eqn:Hss. destruct (sos_len _ _ _ _ _ A3 Hss) as [B1 B2]. cbv zeta.
      assert (GN : forall al, good (mkpset theta ss (evaluate_prior E V theta) (p_sigma2 new) al)) by (intros; repeat split; auto; apply HNw).
      eapply fine_bind.
      { apply fine_false, fine_alpha; rewrite ?app_length; simpl; try lia.
        apply Forall_app. split; auto. constructor; [|constructor]. apply good_tried, GN. }
      intros alpha _ _.
      assert (HS : forall ac s3, posterior_ratio_acceptance_test E alpha s2 = (ac, s3) -> gio s3).
      { intros ac s3. unfold posterior_ratio_acceptance_test, rand. destruct (nle _ _); intros Q; inversion Q; subst; exact B2. }
      destruct (posterior_ratio_acceptance_test E alpha s2) as [ac s3] eqn:Hac. specialize (HS _ _ eq_refl).
      eapply fine_bind; [apply fine_nth; lia|]. intros cnt _ _. destruct ac.
      * cbn [fine update_set_based_on_acceptance]. rewrite set_nth_length, app_length. split; [auto|]. split; [auto|]. split; [intros; apply GN|]. intros; simpl; lia.
      * apply IH; auto; try lia.
        -- rewrite app_length. simpl. lia.
        -- apply Forall_app. split; auto. constructor; [|constructor]. apply good_tried, GN.
        -- now rewrite set_nth_length.
Qed.

(** ** Adaptation *)
Hypothesis Hchol : forall A L, sq A -> e_chol E A = Some L -> sq L.

Definition stats_ok (st : option (mat * list F * F)) : Prop :=
  match st with Some (cv, mean, _) => sq cv /\ List.length mean = n | None => True end.

Lemma fine_stats x w old : (forall r, In r x -> List.length r = n) -> stats_ok old -> stats_ok (update_covariance_mean_sum x w old).
Proof.
  intros Hx Ho. unfold update_covariance_mean_sum. destruct x as [|r x']; [exact Ho|]. cbn [List.length Nat.eqb orb].
  destruct (ncols (r :: x') =? 0); [exact Ho|]. set (x := r :: x') in *.
  assert (Hc : ncols x = n) by (apply Hx; left; reflexivity).
  destruct old as [st|].
  - set (w' := setup_w w _). assert (HC : forall q, In q (combine x w') -> List.length (fst q) = n).
    { intros [a b] Hq. apply in_combine_l in Hq. cbn [fst]. auto. }
    revert st Ho HC. generalize (combine x w'). intros l. induction l as [|[xi wi] t IH]; intros [[cv me] ws] Ho HC; [exact Ho|].
    cbn [fold_left]. destruct Ho as [O1 O2]. specialize (HC (xi, wi) (or_introl eq_refl)) as Hxi. cbn [fst] in Hxi.
    assert (Hd : List.length (vsub xi me) = n) by (unfold vsub; rewrite map2_length; lia).
    apply IH.
    + cbn [cov_row stats_ok]. split.
      * apply sq_madd; apply sq_scale; auto. apply sq_outer; auto.
      * unfold vadd. rewrite map2_length. unfold vscale. rewrite map_length. lia.
    + intros; apply HC; right; auto.
  - cbn [stats_ok]. unfold initialize_covariance_mean_sum. rewrite Hc. split.
    + destruct (nlt _ _); apply sq_rows; try apply range_length; intros; rewrite map_length; apply range_length.
    + unfold wmean. rewrite map_length. apply range_length.
Qed.

Lemma sq_from_chain cv q na : sq cv -> sq (update_cov_from_covchain (F:=F) cv q na).
Proof.
  intros H. unfold update_cov_from_covchain. rewrite (sq_cols _ H). destruct H as [H1 H2]. rewrite H1.
  apply sq_rows; [apply range_length|]. intros. rewrite map_length. apply range_length.
Qed.
Lemma sq_ram u i eta tgt a R : List.length u = n -> sq R -> sq (update_cov_via_ram (F:=F) u i eta n tgt a R).
Proof.
  intros Hu HR. unfold update_cov_via_ram. apply sq_matmul; auto. apply sq_matmul; [now apply sq_transpose|].
  apply sq_madd; [apply sq_eye|]. apply sq_scale. apply sq_outer; unfold vscale; now rewrite map_length.
Qed.

Lemma slice_first {A} a b (l : list A) P : Forall P l -> a < b -> b < List.length l -> exists x t, slice a b l = x :: t /\ P x.
Proof.
  clear. intros HF H1 H2. destruct (slice a b l) as [|x t] eqn:Hs.
  - assert (H : List.length (slice a b l) = 0) by now rewrite Hs. unfold slice in H. rewrite firstn_length, skipn_length in H. lia.
  - exists x, t. split; auto. rewrite Forall_forall in HF. apply HF. rewrite <- (firstn_skipn a l). apply in_or_app. right.
    rewrite <- (firstn_skipn (b - a) (skipn a l)). apply in_or_app. left. unfold slice in Hs. rewrite Hs. left. auto.
Qed.

(** The class of factors whose inverses are needed by later stages. *)
Variable ntry : nat.
Variable drscale : list F.
Variable scale : F.
Variable Fac : list (list F) -> Prop.
Variable stages : Prop.
Hypothesis Hntry : 1 < ntry -> stages.
Hypothesis Hdrs : 1 < ntry -> drscale <> [].
Hypothesis Finv : stages -> forall M, sq M -> Fac M -> e_inv E M <> None.
Hypothesis Fchol : stages -> forall A L, sq A -> e_chol E A = Some L -> Fac (mscale scale (transpose L)).
Hypothesis Fdiv : stages -> forall d M, In d drscale -> sq M -> Fac M -> Fac (mscale (ninv d) M).

Lemma sq_singular up R adj : sq up -> sq R ->
  sq (check_for_singular_cov_matrix E up R n adj scale) /\ (stages -> Fac R -> Fac (check_for_singular_cov_matrix E up R n adj scale)).
Proof.
  intros HU HR. unfold check_for_singular_cov_matrix, adjust_cov_matrix, is_semi_pos_def_chol.
  destruct (e_chol E up) as [L|] eqn:E1.
  - split; [apply sq_scale, sq_transpose; eauto|]. intros; eauto.
  - set (A := madd up _). assert (HA : sq A) by (apply sq_madd; auto; apply sq_scale, sq_eye).
    destruct (e_chol E A) as [L|] eqn:E2; [|auto]. split; [apply sq_scale, sq_transpose; eauto|]. intros; eauto.
Qed.

Lemma fine_factors G : drscale <> [] -> forall m ii P iP, sq P ->
  fine G (fun q => List.length (fst q) = m /\ List.length (snd q) = m /\ Forall sq (fst q)) (dr_factors drscale m ii P iP).
Proof.
  intros H. induction m as [|m IH]; intros ii P iP HP; cbn [dr_factors]; [simpl; auto|].
  eapply fine_bind; [apply fine_drscale; auto|]. intros d _ Hd. cbv zeta.
  eapply fine_bind; [apply IH; apply sq_scale; auto|]. intros [t1 t2] _ (A1 & A2 & A3). cbn [fst snd fine List.length] in *.
  split; [f_equal; exact A1|]. split; [f_equal; exact A2|]. constructor; auto. apply sq_scale; auto.
Qed.
Lemma fine_update_dr G R : sq R -> (1 < ntry -> Fac R) ->
  fine G (fun q => 1 < ntry -> exists l i, q = Some (l, i) /\ List.length l = ntry /\ List.length i = ntry /\ Forall sq l)
    (update_delayed_rejection E R ntry drscale).
Proof.
  intros HR HF. unfold update_delayed_rejection. destruct (Nat.ltb_spec 1 ntry) as [H1|H1]; [|simpl; intros; lia].
  specialize (Finv (Hntry H1) R HR (HF H1)). destruct (e_inv E R) as [iR|]; [|congruence]. cbn [of_option bind].
  eapply fine_bind; [apply (fine_factors G (Hdrs H1)); auto|]. intros [t1 t2] _ (A1 & A2 & A3). cbn [fst snd fine] in *.
  intros _. exists (R :: t1), (iR :: t2). split; auto. simpl. split; [|split; [|constructor; auto]].
  - transitivity (S (ntry - 1)); [f_equal; exact A1|lia].
  - transitivity (S (ntry - 1)); [f_equal; exact A2|lia].
Qed.

Definition covok (c : covst F) : Prop :=
  sq (c_R c) /\ stats_ok (cov_stats c) /\ c_qcov_scale c = scale /\
  (1 < ntry -> Fac (c_R c) /\ exists l i, c_RDR c = RSome l /\ c_invR c = Some i /\ ntry <= List.length l /\ ntry <= List.length i /\ Forall sq l).

Lemma fine_adaptation G c o i ii rj ch ci u al :
  covok c -> ao_ntry o = ntry -> ao_drscale o = drscale ->
  (ao_doram o = true -> al <> None) -> List.length u = n ->
  (1 < ntry -> (ao_burnintime o <= Z.of_nat i)%Z) ->
  Forall (fun r => List.length r = n) ch -> c_last c < ci -> ci < List.length ch -> c_last c <= i ->
  fine G (fun c' => covok c' /\ c_last c' <= i) (run_adaptation E c o i ii rj ch ci u n al).
Proof.
  intros (C1 & C2 & C3 & C4) HO1 HO2 Hal Hu Hb Hch Hl1 Hl2 Hl3. unfold run_adaptation. destruct (Z.ltb_spec (Z.of_nat i) (ao_burnintime o)) as [Hlt|Hge].
  - cbn [fine]. split; [|exact Hl3]. unfold covok. cbn [c_R c_qcov_scale c_RDR c_invR].
    split; [unfold below_burnin_threshold; destruct (nlt _ _); [|destruct (nlt _ _)]; auto; apply sq_scale; auto|].
    split; [exact C2|]. split; [exact C3|]. intros H1. specialize (Hb H1). lia.
  - destruct (slice_first (c_last c) ci ch _ Hch Hl1 Hl2) as (x0 & t0 & Hx & Hxl).
    assert (HI : forall r, In r (slice (c_last c) ci ch) -> List.length r = n).
    { intros r Hr. rewrite Forall_forall in Hch. apply Hch. unfold slice in Hr. 
      rewrite <- (firstn_skipn (c_last c) ch). apply in_or_app. right.
      rewrite <- (firstn_skipn (ci - c_last c) (skipn (c_last c) ch)). apply in_or_app. left. exact Hr. }
    pose proof (fine_stats _ [n1] _ HI C2) as HS.
    assert (HN : update_covariance_mean_sum (slice (c_last c) ci ch) [n1] (cov_stats c) <> None).
    { apply update_some; rewrite Hx; [discriminate|]. simpl. lia. }
    set (stats := update_covariance_mean_sum _ _ _) in *. clearbody stats. destruct stats as [[[cv me] ws]|]; [|congruence]. destruct HS as [S1 S2].
    eapply fine_bind with (P := sq).
    { destruct (ao_doram o).
      - destruct al as [a|]; [|exfalso; apply Hal; auto]. cbn [of_option bind fine]. apply sq_ram; auto.
      - cbn [fine]. apply sq_from_chain; auto. }
    intros up _ HU. rewrite C3. cbv zeta. destruct (sq_singular up (c_R c) (ao_qcov_adjust o) HU C1) as [R1 R2]. rewrite HO1, HO2.
    eapply fine_bind; [apply fine_update_dr; [exact R1|]; intros H1; apply R2; [apply Hntry; auto|apply C4; auto]|].
    intros dr _ Hdr. cbn [fine]. split; [|cbn [c_last]; lia]. unfold covok. cbn [c_R c_qcov_scale c_RDR c_invR].
    split; [exact R1|]. split; [unfold cov_stats; cbn [c_covchain c_meanchain c_wsum option_map fst snd stats_ok]; auto|]. split; [auto|].
    intros H1. split; [apply R2; [apply Hntry; auto|apply C4; auto]|]. destruct (Hdr H1) as (l & i' & -> & L1 & L2 & L3).
    exists l, i'. cbn [option_map snd].
    split; [reflexivity|]. split; [reflexivity|]. split; [apply Nat.eq_le_incl; symmetry; exact L1|]. split; [apply Nat.eq_le_incl; symmetry; exact L2|exact L3].
Qed.

(** ** Error variances *)
Lemma fine_draw_v (G : Prop) fuel : G -> forall c s, gio s -> fine G (fun q => gio (snd q)) (draw_v E fuel c s).
Proof.
  intros HG. induction fuel as [|f IH]; intros c s Hs; cbn [draw_v]; [exact HG|].
  cbn [randn]. cbv zeta. destruct (nlt n0 _); [exact Hs|apply IH; exact Hs].
Qed.
Lemma fine_gamma (G : Prop) fuel : G -> forall c d s, gio s -> fine G (fun q => gio (snd q)) (gamma_mt_loop E fuel c d s).
Proof.
  intros HG. induction fuel as [|f IH]; intros c d s Hs; [exact HG|]. cbn [gamma_mt_loop].
  eapply fine_bind; [apply fine_draw_v; auto|]. intros [[x v] s1] _ A. cbn [snd] in A. cbn [rand]. destruct (nlt _ _); [exact A|]. destruct (nlt _ _); [exact A|apply IH; exact A].
Qed.
Lemma fine_sigma2 (G : Prop) a b c d s : G -> gio s -> fine G (fun q => gio (snd q)) (draw_sigma2 E a b c d s).
Proof.
  intros HG Hs.
  assert (GG : forall x y s', gio s' -> fine G (fun q => gio (snd q)) (gammar_ge1 E x y s')).
  { intros. unfold gammar_ge1. eapply fine_bind; [apply fine_gamma; auto|]. intros [v s1] _ A. exact A. }
  unfold draw_sigma2, gammar, gammar_mt1. eapply fine_bind with (P := fun q => gio (snd q)); [|intros [y s1] _ A; exact A].
  destruct (nle _ _); [exact Hs|]. destruct (nlt _ _); [|apply GG; auto]. eapply fine_bind; [apply GG; auto|]. intros [y s1] _ A. exact A.
Qed.
Lemma fine_variance (G : Prop) al N0v N sos : G -> List.length N0v = nsos -> nsos <= List.length N -> List.length sos = nsos ->
  forall m jj sg S20 s, jj + m = nsos -> List.length sg = nsos -> List.length S20 = nsos -> gio s ->
  fine G (fun q => List.length (fst (fst q)) = nsos /\ List.length (snd (fst q)) = nsos /\ gio (snd q))
    (update_error_variance E al N0v N sos jj m sg S20 s).
Proof.
  intros HG H1 H2 H3. induction m as [|m IH]; intros jj sg S20 s Hj L1 L2 Hs; cbn [update_error_variance]; [simpl; auto|].
  eapply fine_bind; [apply fine_nth; lia|]. intros ? _ _. eapply fine_bind; [apply fine_nth; lia|]. intros ? _ _.
  eapply fine_bind; [apply fine_nth; lia|]. intros ? _ _. eapply fine_bind; [apply fine_nth; lia|]. intros ? _ _.
  eapply fine_bind; [apply fine_sigma2; auto|]. intros [v s1] _ A. cbn [snd] in A.
  eapply fine_bind; [apply fine_write; lia|]. intros sg' _ [B1 B2]. apply IH; auto; try lia. destruct al; [rewrite set_nth_length|]; auto.
Qed.

(** ** Files: no data set is written twice *)
Definition starts (p : path) (l : fs F) : list nat := map (fun e => fst (fst e)) (h5_sets p l).
Lemma starts_app p l1 l2 : starts p (l1 ++ l2) = starts p l1 ++ starts p l2.
Proof. unfold starts, h5_sets. now rewrite map_app, concat_app, map_app. Qed.
Lemma path_eqb_eq p q : path_eqb p q = true -> p = q.
Proof.
  destruct p as [[a b] c], q as [[a' b'] c']. unfold path_eqb. rewrite !andb_true_iff, !String.eqb_eq. intros [[-> ->] ->]. reflexivity.
Qed.
Lemma starts_new p q a b rows : In a (starts p [FH5 q a b rows]) \/ starts p [FH5 q a b rows] = [].
Proof. unfold starts, h5_sets. simpl. destruct (path_eqb p q); simpl; auto. Qed.

Lemma fine_put G p a b rows l : ~ In a (starts p l) ->
  fine G (fun l' => forall q x, In x (starts q l') -> In x (starts q l) \/ (x = a /\ q = p)) (h5_put p a b rows l).
Proof.
  intros H. unfold h5_put. destruct (existsb _ _) eqn:Hx.
  - exfalso. apply existsb_exists in Hx as ([[a' b'] rows'] & Hin & Hb). apply andb_true_iff in Hb as [Hb _]. apply Nat.eqb_eq in Hb. subst a'.
    apply H. unfold starts. apply in_map_iff. exists (a, b', rows'). auto.
  - cbn [fine]. intros q x. rewrite starts_app. intros Hi. apply in_app_or in Hi as [Hi|Hi]; auto. right.
    unfold starts, h5_sets in Hi. simpl in Hi. destruct (path_eqb q p) eqn:Hq; simpl in Hi; [|contradiction].
    destruct Hi as [Hi|[]]. apply path_eqb_eq in Hq. auto.
Qed.

Definition h5name (dir f : string) : path := (dir, f, "h5"%string).
Lemma fine_save_h5 G dir a b chains : forall l, NoDup (map fst chains) -> (forall f, In f (map fst chains) -> ~ In a (starts (h5name dir f) l)) ->
  fine G (fun l' => forall q x, In x (starts q l') -> In x (starts q l) \/ (x = a /\ exists f, In f (map fst chains) /\ q = h5name dir f))
    (save_chains true dir a b chains l).
Proof.
  induction chains as [|[f m] t IH]; intros l HD HA; cbn [save_chains]; [simpl; auto|].
  cbn [map fst] in HD. inversion HD as [|? ? D1 D2]; subst.
  eapply fine_bind; [apply fine_put; apply (HA f); left; reflexivity|]. intros l1 _ H1.
  eapply fine_weaken; [apply IH; auto|].
  - intros g Hg Hin. apply H1 in Hin as [Hin|[_ Hin]]; [apply (HA g); [right; auto|auto]|]. inversion Hin; subst. contradiction.
  - intros l2 H2 q x Hx. apply H2 in Hx as [Hx|(-> & g & Hg & ->)].
    + apply H1 in Hx as [Hx|[-> ->]]; auto. right. split; auto. exists f. split; [left; reflexivity|reflexivity].
    + right. split; auto. exists g. split; [right; auto|auto].
Qed.
Lemma fine_save_txt G dir a b chains : forall l, fine G (fun l' => forall q x, In x (starts q l') -> In x (starts q l)) (save_chains false dir a b chains l).
Proof.
  induction chains as [|[f m] t IH]; intros l; cbn [save_chains bind]; [simpl; auto|].
  eapply fine_weaken; [apply IH|]. intros l2 H2 q x Hx. apply H2 in Hx. rewrite starts_app in Hx. apply in_app_or in Hx as [Hx|Hx]; auto.
  contradiction Hx.
Qed.

(** Every data set of a logged file starts before position [last]. *)
Definition logged_names (o : simopts F) : list string := [o_chainfile o; o_sschainfile o; o_s2chainfile o; o_covchainfile o].
Definition before (o : simopts F) (last : nat) (l : fs F) : Prop :=
  o_save_to_bin o = true -> forall f x, In f (logged_names o) -> In x (starts (h5name (o_savedir o) f) l) -> x < last.

Lemma fine_blocks G o chains cm a b b' l : (o_save_to_bin o = true -> NoDup (logged_names o)) ->
  (o_save_to_bin o = true -> exists u, map fst chains = [o_chainfile o; o_sschainfile o] ++ (if u : bool then [o_s2chainfile o] else [])) ->
  before o a l ->
  fine G (before o (S a)) (let* l1 := save_to_log_file o chains a b l in save_covmtx o cm a b' l1).
Proof.
  intros HD HC HB.
  destruct (o_save_to_bin o) eqn:Hbin.
  - destruct (HC eq_refl) as [u HC'].
    assert (HI : forall f, In f (map fst chains) -> In f (logged_names o)).
    { intros f. rewrite HC'. unfold logged_names. destruct u; simpl; intuition. }
    clear HC. rename HC' into HC.
    specialize (HD eq_refl). specialize (HB Hbin).
    assert (HD' : NoDup (map fst chains) /\ ~ In (o_covchainfile o) (map fst chains)).
    { rewrite HC. unfold logged_names in HD. inversion HD as [|? ? D1 D2]; subst. inversion D2 as [|? ? D3 D4]; subst. inversion D4 as [|? ? D5 D6]; subst.
      simpl in D1, D3, D5. destruct u; simpl; split; repeat constructor; simpl; intuition congruence. }
    destruct HD' as [HD1 HD2].
    apply fine_bind with (P := fun l' => forall q x, In x (starts q l') -> In x (starts q l) \/ (x = a /\ exists f, In f (map fst chains) /\ q = h5name (o_savedir o) f)).
    + unfold save_to_log_file. rewrite Hbin. eapply fine_bind.
      * apply fine_save_h5; auto. intros f Hf Hin. rewrite starts_app in Hin. apply in_app_or in Hin as [Hin|Hin]; [|contradiction Hin].
        specialize (HB f a (HI f Hf) Hin). lia.
      * intros l1 _ H1. destruct (o_save_to_txt o).
        -- eapply fine_weaken; [apply fine_save_txt|]. intros l2 H2 q x Hx. apply H2 in Hx. rewrite starts_app in Hx. apply in_app_or in Hx as [Hx|Hx]; [|contradiction Hx].
           apply H1 in Hx as [Hx|Hx]; auto. rewrite starts_app in Hx. apply in_app_or in Hx as [Hx|Hx]; auto. contradiction Hx.
        -- cbn [fine]. intros q x Hx. apply H1 in Hx as [Hx|Hx]; auto. rewrite starts_app in Hx. apply in_app_or in Hx as [Hx|Hx]; auto. contradiction Hx.
    + intros l1 _ H1.
      assert (HX : forall q x, In x (starts q l1) -> (exists f, In f (logged_names o) /\ q = h5name (o_savedir o) f) -> x < S a).
      { intros q x Hx (f & Hf & ->). apply H1 in Hx as [Hx|[-> _]]; [|lia]. specialize (HB f x Hf Hx). lia. }
      unfold save_covmtx. rewrite Hbin. eapply fine_bind.
      * apply fine_put. intros Hin. apply H1 in Hin as [Hin|(_ & f & Hf & Hq)].
        -- specialize (HB (o_covchainfile o) a). assert (a < a); [|lia]. apply HB; [unfold logged_names; simpl; auto|exact Hin].
        -- inversion Hq; subst. contradiction.
      * intros l2 _ H2.
        assert (HY : forall f x, In f (logged_names o) -> In x (starts (h5name (o_savedir o) f) l2) -> x < S a).
        { intros f x Hf Hx. apply H2 in Hx as [Hx|[-> _]]; [|lia]. eapply HX; eauto. }
        destruct (o_save_to_txt o); cbn [fine]; intros _ f x Hf Hx; [|eauto]. rewrite starts_app in Hx. apply in_app_or in Hx as [Hx|Hx]; [eauto|contradiction Hx].
  - apply fine_bind with (P := fun _ => True).
    + unfold save_to_log_file. rewrite Hbin. cbn [bind]. destruct (o_save_to_txt o); [|exact I]. eapply fine_weaken; [apply fine_save_txt|auto].
    + intros l1 _ _. unfold save_covmtx. rewrite Hbin. cbn [bind]. destruct (o_save_to_txt o); cbn [fine]; intros H; congruence.
Qed.

(** ** One iteration *)
Variable K : rconst F.
Let o := k_opts K.
Variables (base L : nat).
Hypothesis KV : k_view K = V.
Hypothesis KN : k_nsos K = nsos.
Hypothesis Ktry : o_ntry o = ntry.
Hypothesis Kdr : o_drscale o = drscale.
Hypothesis Ksafe : ntry <= 1 \/ (o_doram o = false /\ (o_burnintime o <= o_adaptint o)%Z).
Hypothesis KN0 : o_updatesigma o = true -> List.length (k_N0 K) = nsos /\ nsos <= List.length (k_N K).
Hypothesis Kdist : o_save_to_bin o = true -> NoDup (logged_names o).
Hypothesis Kch : o_save_to_bin o = true -> exists u, map fst (k_chains K) = [o_chainfile o; o_sschainfile o] ++ (if u : bool then [o_s2chainfile o] else []).

(** The fuel of the rejection loops can only run out when error variances are drawn. *)
Let G : Prop := o_updatesigma o = true.

Record winv (i : nat) (st : rstate F) : Prop := mkwinv {
  w_old : good (r_old st);
  w_io : gio (r_io st);
  w_cov : covok (r_cov st);
  w_index : r_index st = base + (i - 1);
  w_pos : 1 <= i;
  w_chain : List.length (r_chain st) = L /\ Forall (fun r => List.length r = n) (r_chain st);
  w_ss : List.length (r_ss st) = L;
  w_s2 : o_updatesigma o = true -> exists s2, r_s2 st = Some s2 /\ List.length s2 = L /\ Forall (fun r => List.length r = nsos) s2;
  w_sigma : o_updatesigma o = true -> List.length (r_sigma2 st) = nsos /\ List.length (r_S20 st) = nsos;
  w_iacce : 1 < ntry -> List.length (r_iacce st) = ntry;
  w_adapt : r_iiadapt st <= i - 1;
  w_last : c_last (r_cov st) <= i - 1;
  w_count : r_lastbin st + r_savecount st = i - 1;
  w_files : before o (r_lastbin st) (r_fs st)
}.

Lemma fit_good k x : List.length x = k -> fit_row (F:=F) k x = Ok x.
Proof. intros H. unfold fit_row. now rewrite H, Nat.eqb_refl. Qed.

Lemma fine_writeL {A} H i (v : A) l k : List.length l = k -> i < k -> fine H (fun l' => List.length l' = k /\ l' = set_nth i v l) (write i v l).
Proof. intros <- Hi. apply fine_write; auto. Qed.

Lemma fine_sample i st : winv i st ->
  fine G (fun q => let '(stage, new, outb, z, iacce, s) := q in
     gio s /\ List.length z = n /\ (stage <> 0 -> good new) /\ (o_doram o = true -> p_alpha new <> None) /\ (1 < ntry -> List.length iacce = ntry))
    (sample_step E K st).
Proof.
  intros W. destruct (w_cov _ _ W) as (C1 & C2 & C3 & C4). destruct W as [W1 W2 W3 W4 W5 W6 W7 W8 W9 W10 W11 W12 W13 W14].
  unfold sample_step. rewrite KV. fold o. rewrite Ktry.
  eapply fine_bind; [apply fine_metropolis; auto|].
  intros [[[[acc new] outb] z] s1] _ (A1 & A2 & A3 & A4 & A5). destruct (_ && _) eqn:Hb.
  - apply andb_true_iff in Hb as [Hb _]. apply Nat.ltb_lt in Hb. 
    destruct (C4 Hb) as (_ & l & iR & Hl & Hinv & L1 & L2 & L3).
    unfold delayed_rejection_call. rewrite Hl, Hinv. fold o. rewrite Ktry, KV. unfold run_delayed_rejection.
    eapply fine_bind.
    + apply (fine_dr G l iR ntry (r_old st) new); auto; try lia; try discriminate.
      * eapply Nat.le_trans; [|exact L2]. lia.
      * constructor; [apply good_tried; exact W1|]. constructor; auto.
    + intros [[[[[acc' out] outb'] iacce] path] s2] _ (B1 & B2 & B3 & B4). cbn [fine].
      split; [auto|]. split; [auto|]. split; [destruct acc'; [auto|congruence]|]. split; [|auto].
      intros Hd. destruct Ksafe as [Hs|[Hs _]]; [lia|congruence].
  - cbn [fine]. split; [auto|]. split; [auto|]. split; [destruct acc; [auto|congruence]|]. split; [auto|]. exact W10.
Qed.

Lemma fine_step i st : winv i st -> base + i < L -> fine G (winv (S i)) (step E K i st).
Proof.
  intros W HL. unfold step. eapply fine_bind; [exact (fine_sample _ _ W)|].
  intros [[[[[stage new] outb] z] iacce] s] _ (A1 & A2 & A3 & A4 & A5).
  set (cur := if negb (stage =? 0) then new else r_old st).
  assert (Hcur : good cur). { unfold cur. destruct (Nat.eqb_spec stage 0); [exact (w_old _ _ W)|]. simpl. auto. }
  destruct W as [W1 W2 W3 W4 W5 [W6 W6'] W7 W8 W9 W10 W11 W12 W13 W14].
  eapply fine_bind with (P := fun st1 => r_old st1 = cur /\ gio (r_io st1) /\ r_cov st1 = r_cov st /\ r_index st1 = base + i /\
     (List.length (r_chain st1) = L /\ Forall (fun r => List.length r = n) (r_chain st1)) /\ List.length (r_ss st1) = L /\
     r_s2 st1 = r_s2 st /\ r_sigma2 st1 = r_sigma2 st /\ r_S20 st1 = r_S20 st /\ r_iacce st1 = iacce /\ r_iiadapt st1 <= i /\
     r_lastbin st1 = r_lastbin st /\ (r_lastbin st1 + r_savecount st1 = i /\ 1 <= r_savecount st1) /\ r_fs st1 = r_fs st).
  { unfold update_chain. fold cur. rewrite KV, HV, KN. destruct Hcur as (D1 & D2 & D3).
    rewrite (fit_good n _ D1). cbn [bind]. eapply fine_bind; [apply (fine_writeL _ _ _ _ L W6); lia|]. intros ch _ [B1 B2].
    rewrite (fit_good nsos _ D2). cbn [bind]. eapply fine_bind; [apply (fine_writeL _ _ _ _ L W7); lia|]. intros sc _ [B3 B4].
    cbn. split; [reflexivity|]. split; [exact A1|]. split; [reflexivity|]. split; [lia|]. split; [split; [exact B1|subst ch; apply Forall_set_nth; auto]|].
    split; [exact B3|]. do 4 (split; [reflexivity|]). split; [lia|]. split; [reflexivity|]. split; [lia|reflexivity]. }
  intros st1 _ (U1 & U2 & U3 & U4 & [U5 U5'] & U6 & U7 & U8 & U9 & U10 & U11 & U12 & [U13 U13'] & U14).
  eapply fine_bind with (P := fun st2 => r_old st2 = r_old st1 /\ r_io st2 = r_io st1 /\ covok (r_cov st2) /\ r_index st2 = r_index st1 /\
     r_chain st2 = r_chain st1 /\ r_ss st2 = r_ss st1 /\ r_s2 st2 = r_s2 st1 /\ r_sigma2 st2 = r_sigma2 st1 /\ r_S20 st2 = r_S20 st1 /\
     r_iacce st2 = r_iacce st1 /\ r_iiadapt st2 <= i /\ c_last (r_cov st2) <= i /\ r_lastbin st2 = r_lastbin st1 /\ r_savecount st2 = r_savecount st1 /\
     r_fs st2 = r_fs st1).
  { unfold adapt_step. fold o. destruct (_ && _)%Z eqn:Hb.
    - apply andb_true_iff in Hb as [Hb1 Hb2]. apply Z.ltb_lt in Hb1. apply Z.eqb_eq in Hb2.
      rewrite KV, HV. eapply fine_bind.
      + apply fine_adaptation; rewrite ?U3; auto; try lia; cbn [ado_of ao_ntry ao_drscale ao_doram ao_burnintime].
        intros H1. destruct Ksafe as [Hs|[_ Hs]]; lia.
      + intros c' _ [D1 D2]. cbn. do 2 (split; [reflexivity|]). split; [exact D1|]. do 7 (split; [reflexivity|]). split; [lia|]. split; [exact D2|]. auto.
    - cbn [fine]. rewrite U3. do 2 (split; [reflexivity|]). split; [exact W3|]. do 7 (split; [reflexivity|]). split; [exact U11|]. split; [lia|]. auto. }
  intros st2 _ (V1 & V2 & V3 & V4 & V5 & V6 & V7 & V8 & V9 & V10 & V11 & V12 & V13 & V14 & V15).
  eapply fine_bind with (P := fun st3 => good (r_old st3) /\ gio (r_io st3) /\ r_cov st3 = r_cov st2 /\ r_index st3 = r_index st2 /\
     r_chain st3 = r_chain st2 /\ r_ss st3 = r_ss st2 /\
     (o_updatesigma o = true -> exists s2, r_s2 st3 = Some s2 /\ List.length s2 = L /\ Forall (fun r => List.length r = nsos) s2) /\
     (o_updatesigma o = true -> List.length (r_sigma2 st3) = nsos /\ List.length (r_S20 st3) = nsos) /\
     r_iacce st3 = r_iacce st2 /\ r_iiadapt st3 = r_iiadapt st2 /\ r_lastbin st3 = r_lastbin st2 /\ r_savecount st3 = r_savecount st2 /\
     r_fs st3 = r_fs st2).
  { unfold sigma_step. fold o. destruct (o_updatesigma o) eqn:Hu.
    - destruct (KN0 eq_refl) as [N1 N2]. destruct (W8 eq_refl) as (s2 & Hs2 & Ls2 & Ws2). destruct (W9 eq_refl) as [L1 L2].
      destruct Hcur as (D1 & D2 & D3). rewrite V1, U1, D2.
      eapply fine_bind; [apply fine_variance; auto|].
      + exact (eq_refl true).
      + rewrite V8, U8. auto.
      + rewrite V9, U9. auto.
      + rewrite V2. auto.
      + intros [[sg s20] s3] _ (B1 & B2 & B3). cbn [fst snd] in *. rewrite KN, (fit_good nsos _ B1). cbn [bind].
        rewrite V7, U7, Hs2. cbn [of_option bind]. eapply fine_bind; [apply (fine_writeL _ _ _ _ L Ls2); lia|]. intros s2' _ [B4 B5].
        cbn [fine r_old r_io r_cov r_index r_chain r_ss r_s2 r_sigma2 r_S20 r_iacce r_iiadapt r_lastbin r_savecount r_fs].
        split; [split; [exact D1|split; [exact D2|right; exact B1]]|]. split; [exact B3|]. do 4 (split; [auto|]).
        split; [intros _; exists s2'; split; [auto|split; [exact B4|subst s2'; apply Forall_set_nth; auto]]|]. split; [intros _; auto|]. auto 10.
    - cbn [fine]. rewrite V1, U1, V2. do 6 (split; [auto|]). split; [congruence|]. split; [congruence|]. auto 10. }
  intros st3 _ (X1 & X2 & X3 & X4 & X5 & X6 & X7 & X8 & X9 & X10 & X11 & X12 & X13).
  assert (Hfs : before o (r_lastbin st3) (r_fs st3)) by (rewrite X11, V13, U12, X13, V15, U14; exact W14).
  assert (Hlen : List.length (r_chain st3) = L /\ Forall (fun r => List.length r = n) (r_chain st3)) by (rewrite X5, V5; auto).
  assert (Hss : List.length (r_ss st3) = L) by (rewrite X6, V6; auto).
  assert (Hia : 1 < ntry -> List.length (r_iacce st3) = ntry) by (rewrite X9, V10, U10; auto).
  assert (Hcount : r_lastbin st3 + r_savecount st3 = i) by (rewrite X11, X12, V13, V14; auto).
  assert (Hcov : covok (r_cov st3)) by (rewrite X3; auto).
  assert (Hlast : c_last (r_cov st3) <= i) by (rewrite X3; auto).
  assert (Hii : r_iiadapt st3 <= i) by (rewrite X10; auto).
  assert (Hidx : r_index st3 = base + i) by (rewrite X4, V4; auto).
  unfold save_step. fold o. destruct (Z.eqb_spec (Z.of_nat (r_savecount st3)) (o_savesize o)) as [Hsv|Hsv].
  - replace (i - Z.to_nat (o_savesize o)) with (r_lastbin st3) by lia.
    pose proof (fine_blocks G o (logged K st3) (proposal_cov st3) (r_lastbin st3) i i (r_fs st3) Kdist) as HB.
    assert (HN : map fst (logged K st3) = map fst (k_chains K)) by (unfold logged; rewrite map_map; reflexivity).
    rewrite HN in HB. specialize (HB Kch Hfs).
    destruct (save_to_log_file o (logged K st3) (r_lastbin st3) i (r_fs st3)) as [l1|e]; cbn [bind] in *; [|exact HB].
    destruct (save_covmtx o (proposal_cov st3) (r_lastbin st3) i l1) as [l2|e]; cbn [bind fine] in *; [|exact HB].
    assert (Hpos : r_lastbin st3 < i) by (rewrite X12, V14 in Hcount; lia).
    constructor; cbn [r_old r_io r_cov r_index r_chain r_ss r_s2 r_sigma2 r_S20 r_iacce r_iiadapt r_lastbin r_savecount r_fs]; auto; try lia.
    intros Hbin f x Hf Hx. specialize (HB Hbin f x Hf Hx). lia.
  - cbn [fine]. constructor; auto; lia.
Qed.

(** ** All iterations and the last block *)
Lemma fine_iterate m : forall a st, winv a st -> base + a + m <= L -> fine G (winv (a + m)) (iterate E K (seq a m) st).
Proof.
  induction m as [|m IH]; intros a st W HL; cbn [seq iterate].
  - cbn [fine]. now rewrite Nat.add_0_r.
  - eapply fine_bind; [apply fine_step; [exact W|lia]|]. intros st' _ W'. replace (a + S m) with (S a + m) by lia. apply IH; auto. lia.
Qed.

Lemma fine_execute st : winv 1 st -> 2 <= o_nsimu o -> base + o_nsimu o <= L ->
  fine G (fun st' => exists st1, winv (o_nsimu o) st1 /\ exists l, st' =
     mkst (r_index st1) (r_iiadapt st1) (r_savecount st1) (r_lastbin st1) (r_old st1) (r_rej st1) (r_rejin st1)
             (r_rejout st1) (r_chain st1) (r_ss st1) (r_s2 st1) (r_cov st1) (r_sigma2 st1) (r_S20 st1)
             (r_iacce st1) (r_io st1) l (r_trace st1)) (execute E K st).
Proof.
  intros W H2 HL. unfold execute. fold o. eapply fine_bind; [apply fine_iterate; [exact W|lia]|].
  intros st1 _ W'. replace (1 + (o_nsimu o - 1)) with (o_nsimu o) in W' by lia.
  destruct (Nat.leb_spec (o_nsimu o) 1); [lia|].
  pose proof (fine_blocks G o (logged K st1) (proposal_cov st1) (r_lastbin st1) (S (o_nsimu o - 1)) (o_nsimu o - 1) (r_fs st1) Kdist) as HB.
  assert (HN : map fst (logged K st1) = map fst (k_chains K)) by (unfold logged; rewrite map_map; reflexivity).
  rewrite HN in HB. specialize (HB Kch (w_files _ _ W')).
  destruct (save_to_log_file _ _ _ _ _) as [l1|e]; cbn [bind] in *; [|destruct e; try contradiction; exact HB].
  destruct (save_covmtx _ _ _ _ _) as [l2|e]; cbn [bind fine] in *; [|destruct e; try contradiction; exact HB]. eauto.
Qed.
End Complete.
