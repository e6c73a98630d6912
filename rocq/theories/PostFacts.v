(** Runs with the same posterior go through the same iterations. *)

From Coq Require Import ZArith QArith Bool Lia List String Reals Lra.
From Verif Require Import Base Num Samplers Adapt Settings Simulator SamplerFacts RunSpec RunFacts RunLift RVec FixedSpec FixedFacts ScaleNum ScaleSpec PostSpec.
From Verif Require ScaleFacts.
Import ListNotations.
Close Scope Q_scope.
Close Scope R_scope.
Open Scope list_scope.
Open Scope nat_scope.
Open Scope res_scope.
Notation out_bind := ScaleFacts.out_bind.
Notation out_same := ScaleFacts.out_same.
Notation out_weaken := ScaleFacts.out_weaken.

(** ** Arithmetic *)
Lemma XR_assoc (x y z : XR) : nadd (nadd x y) z = nadd x (nadd y z).
Proof. destruct x, y, z; cbn; try reflexivity. f_equal. ring. Qed.
Lemma XR_comm (x y : XR) : nadd x y = nadd y x.
Proof. destruct x, y; cbn; try reflexivity. f_equal. ring. Qed.
Lemma sum_right (v : list XR) : forall x, fold_left nadd v x = nadd x (fold_right nadd (Fin 0%R) v).
Proof.
  induction v as [|a v IH]; intros x; cbn [fold_left fold_right].
  - destruct x; cbn; try reflexivity. f_equal. ring.
  - now rewrite IH, XR_assoc.
Qed.
Lemma vsum_right (v : list XR) : vsum v = fold_right nadd (Fin 0%R) v.
Proof. unfold vsum. rewrite sum_right, XR_n0. destruct (fold_right _ _ v); cbn; try reflexivity. f_equal. ring. Qed.
Lemma half_add (x y : XR) : nadd (nmul mhalf x) (nmul mhalf y) = nmul mhalf (nadd x y).
Proof.
  unfold mhalf. destruct x, y; cbn [nmul nadd nQ Num_X xmul xadd amul aadd aQ Arith_R]; rewrite ?mhalf_val, ?mhalf_sgn; cbn; rewrite ?mhalf_sgn; try reflexivity.
  f_equal. ring.
Qed.
Lemma sh_add c (x : XR) : nadd x (Fin c) = sh c x.
Proof. destruct x; reflexivity. Qed.

Lemma kept_scatter (ps : list (param XR)) (value theta : list XR) : List.length value = List.length ps ->
  List.length theta = List.length (flatnonzero (map (@a_sample XR) ps)) ->
  kept ps (scatter value (flatnonzero (map (@a_sample XR) ps)) theta) = theta.
Proof.
  set (ix := flatnonzero (map (@a_sample XR) ps)). intros LV LT.
  assert (B : forall i, In i ix -> i < List.length value).
  { intros i Hi. rewrite LV. apply flatnonzero_spec in Hi. rewrite <- (map_length (@a_sample XR) ps). apply nth_error_Some. congruence. }
  rewrite <- (kept_at (Fin 0%R) ps) by (rewrite scatter_length; exact LV). fold ix.
  apply nth_ext with (d := Fin 0%R) (d' := Fin 0%R); [now rewrite map_length|]. intros k Hk. rewrite map_length in Hk.
  set (h := fun i => nth i (scatter value ix theta) (Fin 0%R)).
  rewrite (nth_indep (map h ix) (Fin 0%R) (h 0)) by (now rewrite map_length). rewrite (map_nth h). unfold h.
  pose proof (scatter_in ix value theta k (flatnonzero_NoDup _) Hk LT B) as X.
  destruct (nth_error theta k) as [x|] eqn:T; [|apply nth_error_None in T; lia].
  now rewrite (nth_error_nth _ _ _ X), (nth_error_nth _ _ _ T).
Qed.

Section Post.
Variable ps : list (param XR).
Variables s c : R.
Variables E E' : env XR.
Hypothesis HP : same_posterior ps s c E E'.
Notation pi := (flatnonzero (map (@a_sample XR) ps)).
Notation mu := (map prior_mean (sampled_params ps)).
Notation sg := (map prior_width (sampled_params ps)).
Definition vok (V : pview XR) : Prop := v_parind V = pi /\ v_npar V = List.length pi /\ v_mu V = mu /\ v_sigma V = sg.
Definition iok (t : io XR) : Prop := List.length (io_value t) = List.length ps.

Definition bad (p : pset XR) : XR := nadd (fold_right nadd (Fin 0%R) (map (fun x => ndiv x (Fin s)) (p_ss p))) (p_prior p).

(** ** Parameter sets *)
Definition base (p q : pset XR) : Prop :=
  p_theta q = p_theta p /\ p_sigma2 p = [Fin s] /\ p_sigma2 q = [Fin s] /\ p_alpha q = p_alpha p /\ List.length (p_ss q) = List.length (p_ss p).
Definition strict (p q : pset XR) : Prop := base p q /\ bad q = sh c (bad p).
Definition weak (p q : pset XR) : Prop := base p q /\ (bad q = sh c (bad p) \/ p_ss p = [PInf] /\ p_ss q = [PInf] /\ p_prior q = p_prior p).
Lemma strict_weak p q : strict p q -> weak p q.
Proof. intros [A B]. split; auto. Qed.

Definition ll (ss : list XR) : XR := nmul mhalf (fold_right nadd (Fin 0%R) (map (fun x => ndiv x (Fin s)) ss)).
Lemma loglik_one ss : loglik ss [Fin s] = Ok (ll ss).
Proof.
  unfold loglik. assert (X : bcast2 ndiv ss [Fin s] = Ok (map (fun x => ndiv x (Fin s)) ss)).
  { unfold bcast2. destruct ss as [|a [|b ss]]; reflexivity. }
  rewrite X. cbn [bind]. now rewrite vsum_right.
Qed.
Lemma post_shift p q : weak p q ->
  nadd (ll (p_ss q)) (nmul mhalf (p_prior q)) = sh (-1 / 2 * c) (nadd (ll (p_ss p)) (nmul mhalf (p_prior p))).
Proof.
  intros [_ [H|(H1 & H2 & H3)]].
  - unfold ll. rewrite !half_add. fold (bad p). fold (bad q). rewrite H. unfold mhalf. apply half_shift.
  - rewrite H1, H2, H3. symmetry. apply unbounded_shift, add_unbounded. unfold ll, mhalf. apply half_unbounded.
    cbn [map fold_right]. apply add_unbounded, inf_div.
Qed.
Lemma ratio_same p q p' q' : weak p q -> weak p' q' ->
  calculate_log_posterior_ratio (ll (p_ss q')) (ll (p_ss q)) (nmul mhalf (p_prior q')) (nmul mhalf (p_prior q)) =
  calculate_log_posterior_ratio (ll (p_ss p')) (ll (p_ss p)) (nmul mhalf (p_prior p')) (nmul mhalf (p_prior p)).
Proof. intros H H'. unfold calculate_log_posterior_ratio. rewrite (post_shift p q H), (post_shift p' q' H'). apply sub_shift. Qed.

(** ** Evaluation of the user functions *)
Lemma eval_same V theta t : vok V -> iok t -> List.length theta = v_npar V ->
  let (ss, t1) := evaluate_sos_function E V theta t in let (ss', t1') := evaluate_sos_function E' V theta t in
  t1' = t1 /\ iok t1 /\ forall al al', al' = al ->
  strict (mkpset theta ss (evaluate_prior E V theta) [Fin s] al) (mkpset theta ss' (evaluate_prior E' V theta) [Fin s] al').
Proof.
  intros (V1 & V2 & V3 & V4) HI HL. unfold evaluate_sos_function, evaluate_prior. rewrite V1, V3, V4. split; [reflexivity|].
  assert (L : List.length (scatter (io_value t) pi theta) = List.length ps) by (rewrite scatter_length; exact HI).
  split; [exact L|]. intros al al' ->. split.
  - unfold base. cbn [p_theta p_ss p_sigma2 p_alpha]. repeat (split; [reflexivity|]). now apply (sp_responses _ _ _ _ _ HP).
  - pose proof (sp_neglog _ _ _ _ _ HP _ L) as X. unfold neglog in X. rewrite (kept_scatter ps (io_value t) theta HI) in X by congruence.
    unfold bad. cbn [p_ss p_prior]. rewrite X. apply sh_add.
Qed.
Lemma cand_same n old R t : sample_candidate E' n old R t = sample_candidate E n old R t.
Proof. unfold sample_candidate, randn. now rewrite (sp_str _ _ _ _ _ HP). Qed.
Lemma outside_weak theta pr al : weak (set_outside_bounds (mkpset theta [] pr [Fin s] al)) (set_outside_bounds (mkpset theta [] pr [Fin s] al)).
Proof. unfold weak, base, set_outside_bounds. cbn [p_theta p_ss p_sigma2 p_alpha p_prior]. repeat (split; [repeat split|]). right. repeat split. Qed.

Definition mrel (x y : mstep (F := XR)) : Prop :=
  let '(acc, new, outb, z, t) := x in let '(acc', new', outb', z', t') := y in
  acc' = acc /\ outb' = outb /\ z' = z /\ t' = t /\ iok t /\ weak new new' /\ (acc = true -> strict new new').
Lemma metropolis_same V R old old' t : vok V -> iok t -> strict old old' ->
  outcomes mrel (run_metropolis_step E V R old t) (run_metropolis_step E' V R old' t).
Proof.
  intros HV HI HS. unfold run_metropolis_step. pose proof HS as [(T & S1 & S2 & A & L) B]. rewrite T, cand_same.
  apply out_same. intros [[newpar z] t1] C. apply sample_candidate_facts in C as (_ & _ & C1 & C2 & _ & C3 & _).
  assert (I1 : iok t1) by (unfold iok; now rewrite C3). rewrite S1, S2.
  destruct (is_sample_outside_bounds newpar (v_lower V) (v_upper V)).
  - cbn [outcomes mrel]. do 4 (split; [reflexivity|]). split; [exact I1|]. split; [apply outside_weak|discriminate].
  - pose proof (eval_same V newpar t1 HV I1 ltac:(congruence)) as X.
    destruct (evaluate_sos_function E V newpar t1) as [ss u]. destruct (evaluate_sos_function E' V newpar t1) as [ss' u'].
    destruct X as (-> & I2 & W). rewrite !loglik_one. cbn [bind].
    pose proof (ratio_same old old' _ _ (strict_weak _ _ HS) (strict_weak _ _ (W None None eq_refl))) as Y. cbn [p_ss p_prior] in Y. rewrite Y.
    set (alpha := calculate_log_posterior_ratio _ _ _ _). unfold log_posterior_ratio_acceptance_test, rand. rewrite (sp_str _ _ _ _ _ HP).
    cbn [outcomes mrel]. do 4 (split; [reflexivity|]). split; [exact I2|]. specialize (W (Some alpha) (Some alpha) eq_refl).
    split; [now apply strict_weak|intros _; exact W].
Qed.

(** ** Delayed rejection *)
Lemma nth_weak (l m : list (pset XR)) i : Forall2 weak l m ->
  match nth_error l i, nth_error m i with Some p, Some q => weak p q | None, None => True | _, _ => False end.
Proof. intros H. revert i. induction H as [|p q l m H1 H2 IH]; intros [|i]; cbn [nth_error]; [exact I|exact I|exact H1|apply IH]. Qed.
Lemma len_weak (l m : list (pset XR)) : Forall2 weak l m -> List.length m = List.length l.
Proof. intros H. induction H; cbn; congruence. Qed.
Lemma theta_weak (l m : list (pset XR)) i : Forall2 weak l m ->
  (let* p := of_option IndexError (nth_error m i) in Ok (p_theta p)) = (let* p := of_option IndexError (nth_error l i) in Ok (p_theta p)).
Proof.
  intros H. pose proof (nth_weak l m i H) as X. destruct (nth_error l i), (nth_error m i); try contradiction; [|reflexivity].
  destruct X as ((T & _) & _). cbn. now rewrite T.
Qed.
Lemma extract_same iq stage l m : Forall2 weak l m -> extract_state_elements iq stage m = extract_state_elements iq stage l.
Proof. intros H. unfold extract_state_elements. now rewrite !(theta_weak l m) by exact H. Qed.
Lemma proposal_same iq l m invR : Forall2 weak l m -> nth_stage_log_proposal_ratio iq m invR = nth_stage_log_proposal_ratio iq l invR.
Proof.
  intros H. unfold nth_stage_log_proposal_ratio. rewrite (len_weak l m H). destruct (_ =? _); [reflexivity|].
  destruct (of_option IndexError (nth_error invR iq)); [|reflexivity]. cbn [bind]. now rewrite (extract_same _ _ l m H).
Qed.
Lemma exponent_same l m invR : Forall2 weak l m -> alpha_exponent m invR = alpha_exponent l invR.
Proof.
  intros H. unfold alpha_exponent. rewrite (len_weak l m H).
  pose proof (nth_weak l m 0 H) as X1. pose proof (nth_weak l m (List.length l - 1) H) as X2.
  destruct (nth_error l 0) as [x1|], (nth_error m 0) as [y1|]; try contradiction; [|reflexivity]. cbn [of_option bind].
  destruct (nth_error l (List.length l - 1)) as [x2|], (nth_error m (List.length l - 1)) as [y2|]; try contradiction; [|reflexivity]. cbn [of_option bind].
  pose proof X1 as [(_ & A1 & A2 & _) _]. pose proof X2 as [(_ & B1 & B2 & _) _]. rewrite A1, A2, B1, B2, !loglik_one. cbn [bind].
  rewrite (ratio_same x1 y1 x2 y2 X1 X2).
  set (y := calculate_log_posterior_ratio _ _ _ _). generalize (Ok y). induction (range (List.length l - 1)) as [|i t IH]; intros acc; cbn [fold_left]; [reflexivity|].
  rewrite (proposal_same i l m invR H). apply IH.
Qed.
Lemma firstn_weak n (l m : list (pset XR)) : Forall2 weak l m -> Forall2 weak (firstn n l) (firstn n m).
Proof. intros H. revert n. induction H; intros [|n]; cbn; constructor; auto. Qed.
Lemma rev_weak (l m : list (pset XR)) : Forall2 weak l m -> Forall2 weak (rev l) (rev m).
Proof. intros H. induction H; cbn; [constructor|]. apply Forall2_app; [assumption|]. constructor; [assumption|constructor]. Qed.
Lemma loop_same (rec : list (pset XR) -> res XR) l m ks : (forall u v, Forall2 weak u v -> rec v = rec u) -> Forall2 weak l m ->
  forall a1 a2, alpha_loop rec m ks a1 a2 = alpha_loop rec l ks a1 a2.
Proof.
  intros Hr H. induction ks as [|i t IH]; intros a1 a2; cbn [alpha_loop]; [reflexivity|].
  rewrite (Hr _ _ (firstn_weak (i + 2) _ _ H)), (Hr _ _ (firstn_weak (i + 2) _ _ (rev_weak _ _ H))).
  destruct (rec (firstn (i + 2) l)); [|reflexivity]. cbn [bind]. destruct (rec (firstn (i + 2) (rev l))); [|reflexivity]. cbn [bind].
  destruct (neq _ _); [reflexivity|]. apply IH.
Qed.
Lemma alpha_same fuel : forall invR l m, Forall2 weak l m -> alphafun fuel invR m = alphafun fuel invR l.
Proof.
  induction fuel as [|f IH]; intros invR l m H; cbn [alphafun]; [reflexivity|].
  rewrite (len_weak l m H), (loop_same (alphafun f invR) l m _ (IH invR) H). destruct (alpha_loop _ l _ _ _) as [[[a1 a2]|]|]; try reflexivity. cbn [bind].
  now rewrite (exponent_same l m invR H).
Qed.

Definition drel (x y : drstep (F := XR)) : Prop :=
  let '(acc, out, outb, iacce, path, t) := x in let '(acc', out', outb', iacce', path', t') := y in
  acc' = acc /\ outb' = outb /\ iacce' = iacce /\ t' = t /\ iok t /\ List.length path' = List.length path /\ strict out out'.
Lemma dr_same V RDR invR old old' new new' n : vok V -> strict old old' -> p_sigma2 new' = [Fin s] -> p_sigma2 new = [Fin s] ->
  forall itry path path' iacce acc outb out out' t, iok t -> Forall2 weak path path' -> strict out out' ->
  outcomes drel (dr_loop E V RDR invR old new n itry path iacce (acc, out, outb) t)
                (dr_loop E' V RDR invR old' new' n itry path' iacce (acc, out', outb) t).
Proof.
  intros HV So S2 S1. induction n as [|n IH]; intros itry path path' iacce acc outb out out' t HI Hp Ho; cbn [dr_loop].
  - cbn [outcomes drel]. repeat (split; [reflexivity|]). split; [exact HI|]. split; [now apply len_weak|exact Ho].
  - apply out_same. intros P _. replace (p_theta old') with (p_theta old) by (symmetry; apply So). rewrite cand_same.
    apply out_same. intros [[theta z] t1] C. apply sample_candidate_facts in C as (_ & _ & C1 & C2 & _ & C3 & _).
    assert (I1 : iok t1) by (unfold iok; now rewrite C3). rewrite S1, S2.
    destruct (is_sample_outside_bounds theta (v_lower V) (v_upper V)).
    + apply IH; [exact I1| |exact So]. apply Forall2_app; [exact Hp|]. constructor; [apply outside_weak|constructor].
    + pose proof (eval_same V theta t1 HV I1 ltac:(congruence)) as X.
      destruct (evaluate_sos_function E V theta t1) as [ss u]. destruct (evaluate_sos_function E' V theta t1) as [ss' u'].
      destruct X as (-> & I2 & W).
      assert (Wp : forall al, Forall2 weak (path ++ [mkpset theta ss (evaluate_prior E V theta) [Fin s] al])
                                       (path' ++ [mkpset theta ss' (evaluate_prior E' V theta) [Fin s] al])).
      { intros al. apply Forall2_app; [exact Hp|]. constructor; [now apply strict_weak, W|constructor]. }
      rewrite (len_weak _ _ (Wp None)), (alpha_same _ invR _ _ (Wp None)). apply out_same. intros alpha _.
      unfold posterior_ratio_acceptance_test, rand. rewrite (sp_str _ _ _ _ _ HP).
      assert (I3 : iok (mkio (S (io_pos u)) (io_value u) (io_calls u))) by exact I2.
      destruct (nle n1 alpha).
      * apply out_same. intros cnt _. cbn [outcomes drel update_set_based_on_acceptance]. do 4 (split; [reflexivity|]). split; [exact I2|]. split; [apply len_weak, Wp|now apply W].
      * apply out_same. intros cnt _. destruct (nlt _ _); cbn [update_set_based_on_acceptance].
        -- cbn [outcomes drel]. do 4 (split; [reflexivity|]). split; [exact I3|]. split; [apply len_weak, Wp|now apply W].
        -- apply IH; [exact I3|apply Wp|exact So].
Qed.
End Post.
