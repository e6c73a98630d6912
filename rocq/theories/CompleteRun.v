(** Runs of well-formed problems come to an end: from the declarations to the loop. *)

From Coq Require Import ZArith QArith Bool Lia List String.
From Verif Require Import Base Num Samplers Adapt Settings Simulator SamplerFacts RunSpec RunFacts RunLift NaNRun AdaptRun CleanFacts InitFacts
  CompleteFacts CompleteSpec.
Import ListNotations.
Open Scope list_scope.
Open Scope nat_scope.
Open Scope res_scope.

Section CompleteRun.
Context {F : Type} `{NF : Num F}.
Variable E : env F.

(** ** Matrices *)
Lemma sq_square n (M : list (list F)) : sq n M <-> square n M.
Proof. reflexivity. Qed.

Lemma submat_restrict (q : list (list F)) k ix : List.length q = k -> Forall (fun r => List.length r = k) q -> (forall i, In i ix -> i < k) ->
  submat q ix = Ok (restrict q ix).
Proof.
  intros H1 H2 H3. unfold submat. rewrite (gather_rows q []) by (intros; rewrite H1; auto). cbn [bind]. unfold restrict.
  assert (G : forall ri, (forall i, In i ri -> i < k) ->
    fold_right (fun r acc => let* g := gather r ix in let* t := acc in Ok (g :: t)) (Ok []) (map (fun i => nth i q []) ri) =
    Ok (map (fun i => map (fun j => nth j (nth i q []) n0) ix) ri)).
  { induction ri as [|i ri IH]; intros Hr; [reflexivity|]. cbn [map fold_right].
    rewrite (gather_rows (nth i q []) n0).
    - cbn [bind]. rewrite IH by (intros; apply Hr; right; auto). reflexivity.
    - intros j Hj. rewrite Forall_forall in H2. rewrite (H2 (nth i q [])); auto. apply nth_In. rewrite H1. apply Hr. left; auto. }
  apply G. auto.
Qed.
Lemma diag_square (v : list F) : square (List.length v) (diagflat v).
Proof.
  unfold diagflat, range. split; [now rewrite map_length, seq_length|]. apply Forall_forall. intros r Hr. apply in_map_iff in Hr as (i & <- & _).
  now rewrite map_length, seq_length.
Qed.
Lemma restrict_square (q : list (list F)) ix : square (List.length ix) (restrict q ix).
Proof.
  unfold restrict. split; [apply map_length|]. apply Forall_forall. intros r Hr. apply in_map_iff in Hr as (i & <- & _). apply map_length.
Qed.
Lemma square_concat n (M : list (list F)) : square n M -> List.length (List.concat M) = n * n.
Proof.
  intros [H1 H2]. assert (G : forall k, List.length M = k -> List.length (List.concat M) = k * n).
  { clear H1. induction M as [|r M IH]; intros k Hk; subst k; [reflexivity|]. inversion H2; subst. cbn [List.concat List.length]. rewrite app_length.
    rewrite (IH H3 _ eq_refl). lia. }
  rewrite (G _ H1). reflexivity.
Qed.
Lemma diag_entry (v : list F) ix : (forall i, In i ix -> i < List.length v) ->
  map (map nsqrt) (restrict (diagflat v) ix) = map (fun i => map (fun j => nsqrt (if i =? j then nth i v n0 else n0)) ix) ix.
Proof.
  intros H. unfold restrict. rewrite map_map. apply map_ext_in. intros i Hi. rewrite map_map. apply map_ext_in. intros j Hj.
  unfold diagflat, range. f_equal.
  rewrite (nth_indep _ [] (map (fun j0 => if 0 =? j0 then nth 0 v n0 else n0) (seq 0 (List.length v)))) by (rewrite map_length, seq_length; auto).
  rewrite (map_nth (fun i0 => map (fun j0 => if i0 =? j0 then nth i0 v n0 else n0) (seq 0 (List.length v)))).
  rewrite seq_nth by auto. cbn [Nat.add].
  rewrite (nth_indep _ n0 (if i =? 0 then nth i v n0 else n0)) by (rewrite map_length, seq_length; auto).
  rewrite (map_nth (fun j0 => if i =? j0 then nth i v n0 else n0)). rewrite seq_nth by auto. reflexivity.
Qed.

Lemma start_R (q : list (list F)) nval ix : 0 < List.length ix -> (forall i, In i ix -> i < nval) ->
  (forall A L, square (List.length ix) A -> e_chol E A = Some L -> square (List.length ix) L) ->
  (square nval q \/ (as_vector q /\ List.length (List.concat q) = nval)) ->
  (1 < List.length ix -> as_vector q \/ e_chol E (restrict q ix) <> None) ->
  exists R sub, setup_R_matrix E q ix = Ok (R, sub) /\ square (List.length ix) R /\ square (List.length ix) sub /\ start_factor E q ix R.
Proof.
  intros Hn Hix Hch Hq Hf. unfold setup_R_matrix. destruct (Nat.eqb_spec (Nat.min (List.length q) (ncols q)) 1) as [Hv|Hv].
  - assert (HL : List.length (List.concat q) = nval).
    { destruct Hq as [Hq|[_ Hq]]; auto. rewrite (square_concat _ _ Hq). destruct Hq as [Q1 Q2].
      destruct q as [|r q]; [discriminate|]. cbn [ncols] in Hv. inversion Q2; subst. cbn [List.length] in *. nia. }
    pose proof (diag_square (List.concat q)) as [D1 D2]. rewrite HL in D1, D2.
    rewrite (submat_restrict _ nval ix D1 D2 Hix). cbn [bind]. do 2 eexists. split; [reflexivity|].
    split; [apply (sq_mapmap _ nsqrt), restrict_square|]. split; [apply restrict_square|].
    rewrite diag_entry by (rewrite HL; exact Hix). apply sf_vector. exact Hv.
  - destruct Hq as [[Q1 Q2]|[Hq _]]; [|contradiction]. rewrite (submat_restrict _ nval ix Q1 Q2 Hix). cbn [bind].
    pose proof (restrict_square q ix) as HS. pose proof (square_concat _ _ HS) as HC.
    destruct (Nat.eqb_spec (List.length (List.concat (restrict q ix))) 1) as [H1|H1].
    + rewrite HC in H1. assert (List.length ix = 1) as HL by nia. destruct ix as [|i [|j t]]; try discriminate HL.
      do 2 eexists. split; [reflexivity|]. split; [|split; [exact HS|]].
      * split; [reflexivity|]. repeat constructor.
      * apply sf_single. reflexivity.
    + rewrite HC in H1. destruct (Hf ltac:(nia)) as [?|Hc]; [contradiction|].
      destruct (e_chol E (restrict q ix)) as [L|] eqn:HE; [|congruence]. cbn [of_option bind]. do 2 eexists. split; [reflexivity|].
      split; [apply (sq_transpose _ Hn); eapply Hch; eauto|]. split; [exact HS|]. apply sf_chol. exact HE.
Qed.

(** ** The factors of the later stages *)
Section Stages.
Variables (n : nat) (Fac : list (list F) -> Prop) (drscale : list F).
Hypothesis Hn : 0 < n.
Hypothesis Hinv : forall M, square n M -> Fac M -> e_inv E M <> None.
Hypothesis Hdiv : forall M d, square n M -> Fac M -> In d drscale -> Fac (mscale (ninv d) M).

Lemma fine_setup_loop G : drscale <> [] -> forall m ii P, square n P -> Fac P ->
  fine G (fun q => List.length (fst q) = m /\ List.length (snd q) = m /\ Forall (square n) (fst q)) (setup_RDR_loop E drscale m ii P).
Proof.
  intros HD. induction m as [|m IH]; intros ii P H1 H2; cbn [setup_RDR_loop]; [simpl; auto|].
  eapply fine_bind; [apply fine_drscale; auto|]. intros d _ Hd. cbv zeta.
  assert (S1 : square n (mscale (ninv d) P)) by (apply sq_scale; auto).
  assert (S2 : Fac (mscale (ninv d) P)) by (apply Hdiv; auto).
  specialize (Hinv _ S1 S2). destruct (e_inv E (mscale (ninv d) P)) as [iP|]; [|congruence]. cbn [of_option bind].
  eapply fine_bind; [apply IH; auto|]. intros [t1 t2] _ (A1 & A2 & A3). cbn [fst snd fine List.length] in *.
  split; [f_equal; exact A1|]. split; [f_equal; exact A2|]. constructor; auto.
Qed.
Lemma fine_invert G : forall m l, m <= List.length l -> Forall (fun P => square n P /\ Fac P) l ->
  fine G (fun r => List.length r = m) (invert_all E m l).
Proof.
  induction m as [|m IH]; intros l Hl HF; cbn [invert_all]; [reflexivity|]. destruct l as [|P l]; [cbn in Hl; lia|].
  inversion HF as [|? ? [P1 P2] HF']; subst. specialize (Hinv _ P1 P2). destruct (e_inv E P) as [iP|]; [|congruence]. cbn [of_option bind].
  eapply fine_bind; [apply IH; [cbn in Hl; lia|auto]|]. intros r _ Hr. cbn [fine List.length]. f_equal. exact Hr.
Qed.
Lemma fine_setup_RDR G R ntry RDR : square n R -> Fac R -> (1 < ntry -> drscale <> []) ->
  (forall l, RDR = Some l -> l <> [] /\ ntry <= List.length l /\ Forall (fun P => square n P /\ Fac P) l) ->
  fine G (fun q => let '(R', l, i) := q in square n R' /\ Fac R' /\ (1 < ntry -> ntry <= List.length l /\ ntry <= List.length i) /\ Forall (square n) l)
    (setup_RDR_matrix E R ntry drscale RDR).
Proof.
  intros H1 H2 HD HR. unfold setup_RDR_matrix. destruct RDR as [l|].
  - destruct (HR l eq_refl) as (A1 & A2 & A3). eapply fine_bind; [apply fine_invert; eauto|]. intros inv _ Hi.
    destruct l as [|P l]; [congruence|]. cbn [nth_error of_option bind fine]. inversion A3 as [|? ? [P1 P2] A4]; subst.
    split; [auto|]. split; [auto|]. split; [intros _; split; [exact A2|apply Nat.eq_le_incl; symmetry; exact Hi]|].
    eapply Forall_impl; [|exact A3]. intros ? [? ?]; auto.
  - pose proof (Hinv _ H1 H2) as Hi. destruct (e_inv E R) as [iR|]; [|congruence]. cbn [of_option bind].
    destruct (Nat.le_gt_cases ntry 1) as [Hle|Hgt].
    + replace (ntry - 1) with 0 by lia. cbn [setup_RDR_loop bind fine]. split; [auto|]. split; [auto|]. split; [intros; lia|]. repeat constructor; apply H1.
    + eapply fine_bind; [apply fine_setup_loop; auto|]. intros [t1 t2] _ (A1 & A2 & A3). cbn [fst snd fine] in *.
      split; [auto|]. split; [auto|]. split; [|constructor; auto]. intros _. cbn [List.length]. split.
      * apply Nat.le_trans with (S (ntry - 1)); [lia|]. apply le_n_S, Nat.eq_le_incl. symmetry. exact A1.
      * apply Nat.le_trans with (S (ntry - 1)); [lia|]. apply le_n_S, Nat.eq_le_incl. symmetry. exact A2.
Qed.
End Stages.

(** ** Initialisation *)
Lemma fine_size G nsos x : one_or_all (F:=F) nsos x -> 0 < nsos -> fine G (fun y => List.length y = nsos) (check_size_of_setting x nsos).
Proof.
  intros H Hp. unfold check_size_of_setting. destruct x as [|a [|b t]].
  - destruct H as [H|H]; simpl in H; lia.
  - cbn [fine]. apply repeat_length.
  - destruct H as [H|H]; [discriminate H|]. destruct (Nat.ltb_spec nsos (List.length (a :: b :: t))); [lia|].
    destruct (Nat.ltb_spec (List.length (a :: b :: t)) nsos); [lia|]. exact H.
Qed.
Lemma fine_observations G nsos N : (List.length N = 1 \/ nsos <= List.length N) -> 0 < nsos ->
  fine G (fun y => nsos <= List.length y) (check_size_of_observations (F:=F) N nsos).
Proof.
  intros H Hp. unfold check_size_of_observations. destruct N as [|a [|b t]].
  - destruct H as [H|H]; simpl in H; lia.
  - cbn [fine]. rewrite repeat_length. auto.
  - destruct H as [H|H]; [discriminate H|]. destruct (Nat.ltb_spec (List.length (a :: b :: t)) nsos); [lia|]. cbn [andb].
    destruct (Nat.eqb_spec nsos 1); cbn [andb]; [|exact H]. destruct (1 <? _); cbn [fine]; [|exact H]. cbn. lia.
Qed.

Lemma equal_arrays (N : list F) l : Forall2 (fun a k => neq a (nnat k) = true) N l -> array_equal N (map nnat l) = true.
Proof.
  intros H. unfold array_equal. rewrite map_length, (RunLift.Forall2_len _ _ _ H), Nat.eqb_refl. cbn [andb].
  induction H; simpl; auto. rewrite H. auto.
Qed.

(** Settings after the checks: one value per component. *)
Definition sized (nsos : nat) (ms : modset F) : Prop :=
  (exists s, ms_sigma2 ms = Some s /\ List.length s = nsos) /\ (exists N, ms_N ms = Some N /\ nsos <= List.length N) /\
  (exists s, ms_N0 ms = Some s /\ List.length s = nsos) /\ List.length (ms_S20 ms) = nsos.

(** Settings that pass the first check. *)
Definition presized (nsos : nat) (ms : modset F) : Prop :=
  (exists s, ms_sigma2 ms = Some s /\ one_or_all nsos s) /\ (exists N, ms_N ms = Some N /\ (List.length N = 1 \/ nsos <= List.length N)) /\
  (exists s, ms_N0 ms = Some s /\ one_or_all nsos s) /\ one_or_all nsos (ms_S20 ms).

Lemma fine_counts G nsos counts N : (List.length counts = 1 \/ nsos <= List.length counts) -> agrees nsos counts N ->
  fine G (fun N' => (List.length N' = 1 \/ nsos <= List.length N') /\
     (N' = map nnat counts \/ (exists k, counts = [k] /\ 1 < List.length N' /\ N' = N /\ forall a, In a N' -> neq (nnat k) a = true)))
    (check_number_of_observations N (map nnat counts)).
Proof.
  intros HC [H|[(a & -> & H1 & H2)|(k & -> & H1 & H2 & H3)]]; unfold check_number_of_observations.
  - rewrite (equal_arrays _ _ H). cbn [fine]. rewrite map_length. auto.
  - destruct (array_equal _ _); [cbn [fine]; rewrite map_length; auto|]. rewrite map_length. cbn [List.length nth]. apply Nat.ltb_lt in H1. rewrite H1. cbn [andb Nat.eqb].
    replace (forallb _ _) with true; [cbn [fine]; rewrite map_length; auto|]. symmetry. apply forallb_forall. intros x Hx. apply in_map_iff in Hx as (k & <- & Hk). auto.
  - assert (X : array_equal N (map nnat [k]) = false).
    { unfold array_equal. cbn [map List.length]. destruct (Nat.eqb_spec (List.length N) 1); [lia|reflexivity]. }
    rewrite X. cbn [map List.length nth]. destruct (Nat.ltb_spec (List.length N) 1); [lia|]. cbn [andb]. apply Nat.ltb_lt in H1 as H1'. rewrite H1'. cbn [andb Nat.eqb].
    replace (forallb _ _) with true; [cbn [fine]|symmetry; apply forallb_forall; auto]. split; [auto|]. right. eauto.
Qed.

Lemma fine_dms G ps d ms nsos : settings_fit E ps d ms nsos ->
  fine G (fun ms' => presized nsos ms' /\
     forall N, ms_N ms' = Some N -> N = map nnat (dt_n d) \/
       (exists k, dt_n d = [k] /\ 1 < List.length N /\ ms_N ms = Some N /\ forall a, In a N -> neq (nnat k) a = true))
    (check_dependent_model_settings ms d).
Proof.
  intros W. unfold check_dependent_model_settings.
  apply fine_bind with (P := fun N => (List.length N = 1 \/ nsos <= List.length N) /\
     (N = map nnat (dt_n d) \/ (exists k, dt_n d = [k] /\ 1 < List.length N /\ ms_N ms = Some N /\ forall a, In a N -> neq (nnat k) a = true))).
  { pose proof (wf_data _ _ _ _ _ W) as HD. destruct (ms_N ms) as [N|] eqn:HN.
    - eapply fine_weaken; [apply fine_counts; [exact HD|exact (wf_N _ _ _ _ _ W N HN)]|]. intros N' [A [B|(k & B1 & B2 & -> & B3)]]; split; auto. right. eauto.
    - cbn [fine]. rewrite map_length. auto. }
  intros N _ [HN HN'].
  destruct W as [W3 W4 W5 W6 W7 W8 W9 W10 W11 W12].
  assert (X : forall sg N0v, one_or_all nsos sg -> one_or_all nsos N0v ->
     fine G (fun ms' => presized nsos ms' /\
     forall N, ms_N ms' = Some N -> N = map nnat (dt_n d) \/
       (exists k, dt_n d = [k] /\ 1 < List.length N /\ ms_N ms = Some N /\ forall a, In a N -> neq (nnat k) a = true)) (let '(S20, alias) := if existsb nisnan (ms_S20 ms) then (sg, true) else (ms_S20 ms, ms_alias ms) in
       Ok (mkms (Some sg) (Some N) (Some N0v) S20 (Some match ms_nbatch ms with Some b => b | None => get_number_of_batches d end) alias))).
  { intros sg N0v H1 H2. destruct (existsb _ _); cbn [fine]; (split; [unfold presized; cbn [ms_sigma2 ms_N ms_N0 ms_S20]; eauto 12|]);
      intros N2 Q; cbn [ms_N] in Q; injection Q as <-; exact HN'. }
  destruct (ms_N0 ms) as [n0v|] eqn:H0.
  - destruct (ms_sigma2 ms) as [sg|] eqn:Hs; apply X; auto.
    unfold one_or_all. rewrite repeat_length. apply (W10 eq_refl); [discriminate|reflexivity].
  - destruct (ms_sigma2 ms) as [sg|] eqn:Hs; apply X; auto; left; reflexivity.
Qed.
Lemma fine_wrt G nsos ms : presized nsos ms -> 0 < nsos ->
  fine G (fun ms' => sized nsos ms' /\ exists N, ms_N ms = Some N /\ check_size_of_observations N nsos = Ok (lst (ms_N ms'))) (check_wrt_nsos ms nsos).
Proof.
  intros ((s & Hs & A1) & (N & HN & A2) & (z & Hz & A3) & A4) Hp. unfold check_wrt_nsos. rewrite Hs, HN, Hz.
  eapply fine_bind; [apply fine_size; auto|]. intros S20 _ B1. eapply fine_bind; [apply fine_size; auto|]. intros N0v _ B2.
  eapply fine_bind; [apply fine_size; auto|]. intros sg _ B3. eapply fine_bind; [apply fine_observations; auto|]. intros N' E' B4.
  cbn [fine]. split; [unfold sized; cbn [ms_sigma2 ms_N ms_N0 ms_S20]; eauto 12|]. cbn [ms_N lst]. eauto.
Qed.

(** The number of observations after a run agrees with the data again. *)
Lemma counts_again nsos (d : data F) N0 N N' : 0 < nsos -> (List.length (dt_n d) = 1 \/ List.length (dt_n d) = nsos) ->
  (forall k, In k (dt_n d) -> neq (nnat k) (nnat k : F) = true /\ neq (nmul n1 (nnat k)) (nnat k : F) = true /\ neq (nnat k) (nmul n1 (nnat k) : F) = true) ->
  (nsos = 1 -> forall N, N0 = Some N -> List.length N = 1) ->
  N = map nnat (dt_n d) \/ (exists k, dt_n d = [k] /\ 1 < List.length N /\ N0 = Some N /\ forall a : F, In a N -> neq (nnat k) a = true) ->
  check_size_of_observations N nsos = Ok N' -> nsos <= List.length N' -> agrees nsos (dt_n d) N' /\ (nsos = 1 -> List.length N' = 1).
Proof.
  intros Hp HD HC H1 H HN Hl. destruct H as [->|(k & Hk & Hlen & HN0 & Ha)].
  - destruct (dt_n d) as [|k [|k2 t]] eqn:Hd.
    + destruct HD as [HD|HD]; simpl in HD; lia.
    + cbn [map check_size_of_observations] in HN. injection HN as <-. destruct (HC k (or_introl eq_refl)) as (C1 & C2 & C3).
      rewrite repeat_length in *. destruct (Nat.eq_dec nsos 1) as [->|Hne].
      * split; [|auto]. left. cbn [repeat]. constructor; auto.
      * split; [|intros; lia]. right. right. exists k. rewrite repeat_length. split; [reflexivity|]. split; [lia|]. split; [lia|]. intros a Hin. apply repeat_spec in Hin. subst a. exact C3.
    + destruct HD as [HD|HD]; [discriminate HD|]. unfold check_size_of_observations in HN. cbn [map] in HN.
      change (nnat k :: nnat k2 :: map nnat t) with (map (@nnat F _) (k :: k2 :: t)) in HN. rewrite map_length, HD in HN. rewrite Nat.ltb_irrefl in HN. cbn [andb] in HN.
      cbn [List.length] in HD. destruct (Nat.eqb_spec nsos 1); [lia|]. cbn [andb] in HN. injection HN as <-. split; [|intros; lia]. left.
      change (nnat k :: nnat k2 :: map nnat t) with (map (@nnat F _) (k :: k2 :: t)). revert HC. clear. generalize (k :: k2 :: t). intros l HC. induction l as [|x l IH]; constructor; [apply HC; left; auto|]. apply IH. intros; apply HC; right; auto.
  - destruct (Nat.eq_dec nsos 1) as [->|Hne]; [specialize (H1 eq_refl N HN0); lia|].
    destruct N as [|a [|b t]]; [simpl in Hlen; lia|simpl in Hlen; lia|]. unfold check_size_of_observations in HN.
    destruct (_ && _); [discriminate|]. destruct (Nat.eqb_spec nsos 1); [lia|]. cbn [andb] in HN. injection HN as <-.
    split; [|intros; lia]. right. right. exists k. auto.
Qed.

Lemma limits_ok (l : list (param F)) : (forall p, In p l -> nle (a_min p) (a_max p) = true) ->
  forallb (fun b => b) (map2 nle (map (@a_min F) l) (map (@a_max F) l)) = true.
Proof. induction l as [|p l IH]; intros H; simpl; auto. rewrite (H p (or_introl eq_refl)). simpl. apply IH. intros; apply H; right; auto. Qed.
Lemma inits_ok (f g : param F -> F) (l : list (param F)) : (forall p, In p l -> nlt (f p) (g p) = false) ->
  existsb (fun b => b) (map2 nlt (map f l) (map g l)) = false.
Proof. induction l as [|p l IH]; intros H; simpl; auto. rewrite (H p (or_introl eq_refl)). simpl. apply IH. intros; apply H; right; auto. Qed.

Lemma start_cov_same (ps : list (param F)) (o : simopts F) :
  setup_covariance_matrix (o_qcov o) (op_sigma (check_prior_sigma (openparameterstructure ps))) (op_initial (check_prior_sigma (openparameterstructure ps)))
  = start_covariance ps o.
Proof.
  unfold setup_covariance_matrix, start_covariance. destruct (o_qcov o); [reflexivity|]. f_equal. cbn.
  induction ps as [|p ps IH]; [reflexivity|]. cbn. f_equal; [|exact IH]. unfold start_variance, setup_prior_sigma.
  destruct (neq (a_sigma p) n0); cbn [orb]; [destruct (nle ninf n0); reflexivity|]. reflexivity.
Qed.
Lemma start_cov_options ps (o : simopts F) g : start_covariance ps (check_dependent_simulation_options o g) = start_covariance ps o.
Proof. reflexivity. Qed.

Lemma fine_init G ps d ms o l nsos old_RDR pos calls (Fac : list (list F) -> Prop) :
  settings_fit E ps d ms nsos -> options_fit E ps o l ->
  (uses_dr_setup (o_method o) = true -> inverses E (List.length (positions ps)) o (start_covariance ps o) (positions ps) Fac) ->
  let n := List.length (positions ps) in
  fine G (fun ini =>
     i_op ini = check_prior_sigma (openparameterstructure ps) /\
     i_opts ini = check_dependent_simulation_options o (match ms_N0 ms with Some _ => true | None => false end) /\
     sized nsos (i_model ini) /\ i_nsos ini = nsos /\ good n nsos (i_set ini) /\ gio (List.length ps) (i_io ini) /\
     covok n (o_ntry o) (check_adascale (o_adascale o) n) Fac (i_cov ini) /\ c_last (i_cov ini) = 0 /\
     (1 < o_ntry o -> List.length (i_iacce ini) = o_ntry o) /\
     (can_continue ps d ms o nsos -> agrees nsos (dt_n d) (lst (ms_N (i_model ini))) /\ (nsos = 1 -> List.length (lst (ms_N (i_model ini))) = 1)))
   (initialize_simulation E ps d ms o old_RDR pos calls).
Proof.
  intros W W' HI n. unfold initialize_simulation.
  eapply fine_bind; [eapply fine_dms; exact W|]. intros ms1 _ [HP HPN].
  pose proof (sel_filter (@a_min F) ps) as S1. pose proof (sel_filter (@a_max F) ps) as S2. pose proof (sel_filter (@a_theta0 F) ps) as S3.
  pose proof (op_parind_open ps) as HPI. fold (positions ps) in HPI.
  assert (HSP : forall p, In p (sampled_params ps) -> In p ps /\ a_sample p = true) by (intros p Hp; apply filter_In in Hp; exact Hp).
  destruct W as [W3 W4 W5 W6 W7 W8 W9 W10 W11 W12]. destruct W' as [W1 W13 W14 W15 W16 W17 W18 W19].
  assert (Hlim : check_parameter_limits (openparameterstructure ps) = Ok tt).
  { unfold check_parameter_limits. rewrite HPI. change (op_lower (openparameterstructure ps)) with (map (@a_min F) ps).
    change (op_upper (openparameterstructure ps)) with (map (@a_max F) ps). unfold positions. rewrite S1, S2, limits_ok; auto.
    intros p Hp. apply HSP in Hp as [P1 P2]. apply W4; auto. }
  rewrite Hlim. cbn [bind].
  assert (Hini : check_initial_values (openparameterstructure ps) = Ok tt).
  { unfold check_initial_values. rewrite HPI. change (op_lower (openparameterstructure ps)) with (map (@a_min F) ps).
    change (op_upper (openparameterstructure ps)) with (map (@a_max F) ps). change (op_initial (openparameterstructure ps)) with (map (@a_theta0 F) ps).
    unfold positions. rewrite S1, S2, S3, !inits_ok; auto; intros p Hp; apply HSP in Hp as [P1 P2]; apply W4; auto. }
  rewrite Hini. cbn [bind].
  set (op := check_prior_sigma (openparameterstructure ps)).
  assert (HPI' : op_parind op = positions ps) by exact HPI.
  assert (Hn : 0 < n).
  { unfold n, positions. destruct W3 as (p & P1 & P2). apply In_nth_error in P1 as [k Hk].
    assert (Hin : In k (flatnonzero (map (@a_sample F) ps))) by (apply flatnonzero_spec; rewrite nth_error_map, Hk; simpl; congruence).
    destruct (flatnonzero _); [contradiction|simpl; lia]. }
  assert (Hrange : forall i, In i (positions ps) -> i < List.length ps).
  { intros i Hi. apply flatnonzero_spec in Hi. rewrite <- (map_length (@a_sample F)). apply nth_error_Some. congruence. }
  destruct (start_R (start_covariance ps o) (List.length ps) (positions ps) Hn Hrange W13 W14 W15) as (R & sub & HR & R1 & R2 & R3).
  assert (Hth : sel (op_initial op) (op_parind op) = map (@a_theta0 F) (sampled_params ps)) by (rewrite HPI'; exact S3).
  assert (Hlen : List.length (map (@a_theta0 F) (sampled_params ps)) = n).
  { rewrite map_length. unfold n. unfold positions. rewrite parind_length. reflexivity. }
  apply fine_bind with (P := fun c => covok n (o_ntry o) (check_adascale (o_adascale o) n) Fac c /\ c_last c = 0).
  { cbn [o_method o_ntry o_drscale o_RDR o_qcov o_adascale o_initqcovn check_dependent_simulation_options].
    unfold initialize_covariance. rewrite HPI'. unfold op. rewrite start_cov_same. fold op. cbv zeta. rewrite HR. cbn [bind].
    apply fine_bind with (P := fun q => let '(R', rdr, inv) := q in square n R' /\
       (1 < o_ntry o -> Fac R' /\ exists l i, rdr = RSome l /\ inv = Some i /\ o_ntry o <= List.length l /\ o_ntry o <= List.length i /\ Forall (square n) l)).
    - destruct (uses_dr_setup (o_method o)) eqn:Hm.
      + specialize (HI eq_refl). destruct HI as [I1 I2 I3 I4 I5 I6].
        eapply fine_bind; [apply (fine_setup_RDR n Fac (o_drscale o) Hn I1 I5); [exact R1|exact (I2 _ R3)|intros H; apply W16; exact H|exact I6]|].
        intros [[R' l'] i'] _ (A1 & A2 & A3 & A4). cbn [fine]. split; [auto|]. intros H. split; [auto|]. destruct (A3 H) as [A5 A6]. exists l', i'. auto 10.
      + cbn [fine]. split; [auto|]. intros H. apply W16 in H. destruct H as [H _]. congruence.
    - intros [[R' rdr] inv] _ [A1 A2]. cbn [fine c_last]. split; [|reflexivity]. unfold covok. cbn [c_R c_qcov_scale c_RDR c_invR].
      split; [exact A1|]. split; [|split; [reflexivity|exact A2]].
      unfold cov_stats. cbn [c_covchain c_meanchain c_wsum]. destruct (o_initqcovn o); cbn [stats_ok]; auto. split; [exact R2|].
      transitivity (List.length (map (@a_theta0 F) (sampled_params ps))); [f_equal; rewrite <- HPI'; exact Hth|exact Hlen]. }
  intros cov _ [HC1 HC2]. rewrite Hth.
  destruct (evaluate_sos_function _ _ _ _) as [ss s1] eqn:Hss.
  assert (HG : gio (List.length ps) (mkio pos (op_initial op) calls)) by exact (map_length (@a_theta0 F) ps).
  destruct (sos_len E nsos (List.length ps) W6 _ _ _ _ _ HG Hss) as [L1 L2].
  rewrite L1. eapply fine_bind; [apply fine_wrt; [exact HP|exact W5]|]. intros ms2 _ [HS (N & HN & HN')].
  cbn [fine i_op i_opts i_model i_nsos i_set i_io i_cov i_iacce o_ntry check_dependent_simulation_options].
  split; [reflexivity|]. split; [reflexivity|]. split; [exact HS|]. split; [auto|]. split.
  { split; [exact Hlen|]. split; [exact L1|]. cbn [p_sigma2]. destruct HP as ((s & Hs & A1) & _). rewrite Hs. exact A1. }
  split; [exact L2|]. split; [exact HC1|]. split; [exact HC2|].
  split; [intros H; apply Nat.ltb_lt in H; rewrite H; apply repeat_length|].
  intros [C1 C2 C3 C4 C5]. destruct HS as (_ & (N2 & HN2 & HL2) & _). rewrite HN2 in *. cbn [lst] in *.
  eapply counts_again; [exact W5|exact C3|exact C5|exact C4|exact (HPN N HN)|exact HN'|exact HL2].
Qed.

(** ** Fresh runs *)
Lemma no_starts p (l : fs F) : h5_sets p l = [] -> starts p l = [].
Proof. unfold starts. intros ->. reflexivity. Qed.

Lemma sampled_some (ps : list (param F)) : (exists p, In p ps /\ a_sample p = true) -> 0 < List.length (positions ps).
Proof.
  intros (p & P1 & P2). unfold positions. apply In_nth_error in P1 as [k Hk].
  assert (Hin : In k (flatnonzero (map (@a_sample F) ps))) by (apply flatnonzero_spec; rewrite nth_error_map, Hk; simpl; congruence).
  destruct (flatnonzero _); [contradiction|simpl; lia].
Qed.

(** After the arrays have been set up. *)
Lemma fine_prepared m ps d ms o l nsos ini base chain ss s2 chains Fac g :
  let n := List.length (positions ps) in
  settings_fit E ps d ms nsos -> options_fit E ps o l -> (o_save_to_bin o = true -> l = m_fs m) ->
  (uses_dr_setup (o_method o) = true -> inverses E n o (start_covariance ps o) (positions ps) Fac) ->
  i_op ini = check_prior_sigma (openparameterstructure ps) -> i_opts ini = check_dependent_simulation_options o g ->
  sized nsos (i_model ini) -> i_nsos ini = nsos -> good n nsos (i_set ini) -> gio (List.length ps) (i_io ini) ->
  covok n (o_ntry o) (check_adascale (o_adascale o) n) Fac (i_cov ini) -> c_last (i_cov ini) = 0 ->
  (1 < o_ntry o -> List.length (i_iacce ini) = o_ntry o) ->
  List.length chain = base + o_nsimu o -> Forall (fun r => List.length r = n) chain -> List.length ss = base + o_nsimu o ->
  (o_updatesigma (i_opts ini) = true -> exists x, s2 = Some x /\ List.length x = base + o_nsimu o /\ Forall (fun r => List.length r = nsos) x) ->
  (o_save_to_bin o = true -> map fst chains = [o_chainfile o; o_sschainfile o] ++ (if o_updatesigma (i_opts ini) then [o_s2chainfile o] else [])) ->
  fine (o_updatesigma (i_opts ini) = true) (fun m' => m_data m' = m_data m /\ m_status m' = true /\
     (o_updatesigma (i_opts ini) = true -> sized nsos (m_model m') /\ ms_N (m_model m') = ms_N (i_model ini) /\
        exists x, m_s2chain m' = Some x /\ Forall (fun r => List.length r = nsos) x))
    (run_prepared E m ps ini base (chain, ss, s2, chains)).
Proof.
  intros n W W' Hl HF A1 A2 A3 A4 A5 A6 A7 A8 A9 C1 C2 C3 C4 C5.
  pose proof (wf_nsimu _ _ _ _ W') as H2. pose proof (wf_nsos _ _ _ _ _ W) as Hns.
  pose proof (sampled_some ps (wf_sampled _ _ _ _ _ W)) as Hn. fold n in Hn.
  assert (Hop : List.length (op_parind (i_op ini)) = n) by (rewrite A1; change (op_parind (check_prior_sigma (openparameterstructure ps))) with (op_parind (openparameterstructure ps)); rewrite op_parind_open; reflexivity).
  destruct A3 as ((sg & B1 & B1') & (N & B2 & B2') & (z & B3 & B3') & B4).
  unfold run_prepared. cbv zeta.
  set (K := make_const ini chains). set (st := start_state ini base chain ss s2 (m_fs m)).
  eapply fine_bind.
  { eapply (fine_execute E n nsos (List.length ps) Hn Hns (wf_sos _ _ _ _ _ W) (view (i_op ini))) with
      (ntry := o_ntry o) (drscale := o_drscale o) (scale := check_adascale (o_adascale o) n) (Fac := Fac) (stages := uses_dr_setup (o_method o) = true)
      (K := K) (st := st) (base := base) (L := base + o_nsimu o).
    - exact Hop.
    - exact (wf_chol _ _ _ _ W').
    - intros H. apply (wf_stages _ _ _ _ W' H).
    - intros H. apply (wf_stages _ _ _ _ W' H).
    - intros H. apply (HF H).
    - intros H A L' HA HL. destruct (HF H) as [I1 I2 I3 I4 I5 I6]. apply I4; [apply sq_transpose; [exact Hn|]; eapply (wf_chol _ _ _ _ W'); eauto|eauto].
    - reflexivity.
    - exact A4.
    - unfold K. cbn [make_const k_opts]. rewrite A2. reflexivity.
    - unfold K. cbn [make_const k_opts]. rewrite A2. reflexivity.
    - unfold K. cbn [make_const k_opts]. rewrite A2. cbn. destruct (Nat.le_gt_cases (o_ntry o) 1) as [Hle|Hgt]; [left; exact Hle|].
      right. destruct (wf_stages _ _ _ _ W' Hgt) as (_ & Q1 & Q2 & _). auto.
    - intros _. unfold K. cbn [make_const k_N0 k_N]. rewrite B3, B2. cbn [lst]. auto.
    - unfold K. cbn [make_const k_opts]. rewrite A2. exact (wf_names _ _ _ _ W').
    - unfold K. cbn [make_const k_opts k_chains]. intros Hbin. exists (o_updatesigma (i_opts ini)). rewrite A2 in Hbin. cbn in Hbin. rewrite (C5 Hbin), A2. reflexivity.
    - constructor; unfold K, st; cbn [make_const start_state k_opts r_old r_io r_cov r_index r_chain r_ss r_s2 r_sigma2 r_S20 r_iacce r_iiadapt r_lastbin r_savecount r_fs]; auto; try lia.
      + intros _. rewrite B1. cbn [lst]. auto.
      + rewrite A2. intros Hbin f x Hf Hx. exfalso. pose proof (wf_files _ _ _ _ W' Hbin f Hf) as Hz. rewrite (Hl Hbin) in Hz. apply no_starts in Hz.
        change (o_savedir (check_dependent_simulation_options o g)) with (o_savedir o) in Hx.
        unfold h5name in Hx. rewrite Hz in Hx. contradiction.
    - unfold K. cbn [make_const k_opts]. rewrite A2. exact H2.
    - unfold K. cbn [make_const k_opts]. rewrite A2. cbn. lia. }
  intros st' _ (st1 & V & l' & ->). cbn [fine m_data m_status m_model m_s2chain r_sigma2 r_S20 r_s2]. split; [reflexivity|]. split; [reflexivity|].
  intros Hu. destruct (w_sigma _ _ _ _ _ _ _ _ _ _ _ V Hu) as [S1 S2]. destruct (w_s2 _ _ _ _ _ _ _ _ _ _ _ V Hu) as (x & X1 & X2 & X3).
  split; [unfold sized; cbn [ms_sigma2 ms_N ms_N0 ms_S20]; rewrite B2, B3; eauto 12|]. split; [reflexivity|]. eauto.
Qed.

Lemma given_inverses ps o l : options_fit E ps o l -> exists Fac, uses_dr_setup (o_method o) = true -> inverses E (List.length (positions ps)) o (start_covariance ps o) (positions ps) Fac.
Proof.
  intros W. destruct (uses_dr_setup (o_method o)) eqn:Hm; [|exists (fun _ => True); congruence].
  destruct (wf_inverses _ _ _ _ W Hm) as [Fac H]. exists Fac. intros _. exact H.
Qed.

(** What a run leaves behind for the next one. *)
Definition left_behind (d : data F) (ms : modset F) (o : simopts F) nsos (m' : mcmc F) : Prop :=
  m_data m' = d /\ m_status m' = true /\
  (o_updatesigma o = true \/ ms_N0 ms <> None -> sized nsos (m_model m') /\ exists x, m_s2chain m' = Some x /\ Forall (fun r => List.length r = nsos) x).

Lemma fine_fresh m nsos : well_formed E (m_params m) (m_data m) (m_model m) (m_opts m) (m_fs m) nsos ->
  fine (o_updatesigma (m_opts m) = true \/ ms_N0 (m_model m) <> None)
    (fun m' => left_behind (m_data m) (m_model m) (m_opts m) nsos m' /\
       (can_continue (m_params m) (m_data m) (m_model m) (m_opts m) nsos -> agrees nsos (dt_n (m_data m)) (lst (ms_N (m_model m'))) /\ (nsos = 1 -> List.length (lst (ms_N (m_model m'))) = 1)))
    (run_simulation E false m).
Proof.
  intros (W & W' & Hr). set (ps := m_params m) in *. set (o := m_opts m) in *. set (n := List.length (positions ps)).
  destruct (given_inverses _ _ _ W') as [Fac HF]. set (G := o_updatesigma o = true \/ ms_N0 (m_model m) <> None).
  pose proof (fine_init G ps (m_data m) (m_model m) o (m_fs m) nsos (m_RDR m) (m_pos m) (m_calls m) Fac W W' HF) as HI. cbv zeta in HI. fold n in HI.
  unfold run_simulation. fold o. rewrite Hr. cbn [bind]. fold ps.
  eapply fine_bind; [exact HI|]. intros ini _ (A1 & A2 & A3 & A4 & A5 & A6 & A7 & A8 & A9 & A10). clear HI.
  pose proof (wf_nsimu _ _ _ _ W') as H2.
  assert (Hop : List.length (op_parind (i_op ini)) = n) by (rewrite A1; change (op_parind (check_prior_sigma (openparameterstructure ps))) with (op_parind (openparameterstructure ps)); rewrite op_parind_open; reflexivity).
  assert (Hu : o_updatesigma (i_opts ini) = true <-> G).
  { rewrite A2. cbn. unfold G. destruct (ms_N0 (m_model m)); split; auto; try (intros _; right; discriminate). intros [H|H]; congruence. }
  apply fine_bind with (P := fun q => let '(chain, ss, s2, chains) := q in List.length chain = o_nsimu o /\ Forall (fun r => List.length r = n) chain /\
     List.length ss = o_nsimu o /\ (o_updatesigma (i_opts ini) = true -> exists x, s2 = Some x /\ List.length x = o_nsimu o /\ Forall (fun r => List.length r = nsos) x) /\
     map fst chains = [o_chainfile o; o_sschainfile o] ++ (if o_updatesigma (i_opts ini) then [o_s2chainfile o] else [])).
  { unfold initialize_chains. rewrite Hop, A4. destruct A5 as (D1 & D2 & D3). pose proof A3 as ((sg & B1 & B1') & _).
    rewrite (fit_good n _ D1), (fit_good nsos _ D2). cbn [bind].
    assert (Hsim : o_nsimu (i_opts ini) = o_nsimu o) by (rewrite A2; reflexivity). rewrite Hsim.
    assert (Z : forall w, List.length (zeros (F:=F) (o_nsimu o) w) = o_nsimu o) by (intros; apply repeat_length).
    assert (HW : forall w x, List.length x = w -> Forall (fun r => List.length r = w) (set_nth 0 x (zeros (F:=F) (o_nsimu o) w))).
    { intros w x Hx. apply Forall_set_nth; auto. apply Forall_forall. intros y Hy. unfold zeros in Hy. apply repeat_spec in Hy. subst y. apply repeat_length. }
    eapply fine_bind; [apply (fine_writeL _ _ _ _ (o_nsimu o) (Z n)); lia|]. intros ch _ [C1 C2].
    eapply fine_bind; [apply (fine_writeL _ _ _ _ (o_nsimu o) (Z nsos)); lia|]. intros sc _ [C3 C4].
    assert (Hnames : o_chainfile (i_opts ini) = o_chainfile o /\ o_sschainfile (i_opts ini) = o_sschainfile o /\ o_s2chainfile (i_opts ini) = o_s2chainfile o) by (rewrite A2; auto).
    destruct Hnames as (E1 & E2 & E3). rewrite E1, E2, E3.
    destruct (o_updatesigma (i_opts ini)).
    - rewrite B1. cbn [lst]. rewrite (fit_good nsos _ B1'). cbn [bind].
      eapply fine_bind; [apply (fine_writeL _ _ _ _ (o_nsimu o) (Z nsos)); lia|]. intros s2 _ [C5 C6].
      cbn [fine]. split; [exact C1|]. split; [subst ch; auto|]. split; [exact C3|]. split; [intros _; exists s2; split; [reflexivity|split; [exact C5|subst s2; auto]]|reflexivity].
    - cbn [fine]. split; [exact C1|]. split; [subst ch; auto|]. split; [exact C3|]. split; [congruence|reflexivity]. }
  intros [[[chain ss] s2] chains] _ (C1 & C2 & C3 & C4 & C5).
  pose proof (fine_prepared m ps (m_data m) (m_model m) o (m_fs m) nsos ini 0 chain ss s2 chains Fac _ W W' (fun _ => eq_refl) HF A1 A2 A3 A4 A5 A6 A7 A8 A9 C1 C2 C3 C4 (fun _ => C5)) as X.
  destruct (run_prepared _ _ _ _ _ _) as [m'|e].
  - cbn [fine] in *. destruct X as (X1 & X2 & X3). split.
    + split; [exact X1|]. split; [exact X2|]. intros H. apply Hu in H. destruct (X3 H) as (Y1 & Y2 & Y3). auto.
    + intros H. pose proof (cc_sigma _ _ _ _ _ H) as Hs. apply Hu in Hs. destruct (X3 Hs) as (_ & Y2 & _). rewrite Y2. auto.
  - destruct e; try contradiction X. cbn [fine] in *. apply Hu. exact X.
Qed.
End CompleteRun.
