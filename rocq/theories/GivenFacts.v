(** The start of a run with a covariance given by the user. *)

From Coq Require Import ZArith QArith Bool Lia List Reals Lra.
From Verif Require Import Base Num Samplers SamplerFacts Adapt Settings Simulator RunSpec RunFacts RunLift RVec RMat StatSpec
  CovFacts CholFacts AdaptFacts InitFacts AdaptRun AdaptThms InitThms FixedSpec FixedFacts GivenSpec.
Import ListNotations.
Close Scope Q_scope.
Open Scope list_scope.
Open Scope R_scope.

Notation positions ps := (flatnonzero (map (@a_sample XR) ps)).

Lemma kept_length {A} (ps : list (param XR)) (l : list A) : length l = length ps -> length (kept ps l) = length (sampled_params ps).
Proof.
  revert l. unfold sampled_params. induction ps as [|p ps IH]; intros [|x l] L; cbn in L; try discriminate; [reflexivity|].
  injection L as L. cbn [kept filter]. destruct (a_sample p); cbn [length]; rewrite IH; auto.
Qed.
Lemma kept_nth {A} (d : A) (ps : list (param XR)) l a : length l = length ps -> (a < length (sampled_params ps))%nat ->
  nth a (kept ps l) d = nth (nth a (positions ps) 0%nat) l d.
Proof.
  intros L Ha. rewrite <- (kept_at d ps l L). rewrite (nth_indep _ d (nth 0%nat l d)) by (rewrite map_length, parind_length; auto).
  apply (map_nth (fun i => nth i l d)).
Qed.
Lemma positions_lt (ps : list (param XR)) i : In i (positions ps) -> (i < length ps)%nat.
Proof.
  intros Hi. apply flatnonzero_spec in Hi. rewrite <- (map_length (@a_sample XR)). apply nth_error_Some. congruence.
Qed.
Lemma kept_decls {A} (ps qs : list (param XR)) (l : list A) : same_decls ps qs -> kept ps l = kept qs l.
Proof.
  intros H. revert l. induction H as [|p q ps qs Hp H IH]; intros [|x l]; cbn; auto.
  destruct Hp as (_ & _ & _ & H3 & _). rewrite <- H3, IH. reflexivity.
Qed.
Lemma same_decls_len (ps qs : list (param XR)) : same_decls ps qs -> length ps = length qs.
Proof. induction 1; cbn; auto. Qed.
Lemma says_decls ps qs Q C : same_decls ps qs -> says ps Q C ->
  exists C', says qs Q C' /\ forall a b, C' a b = C a b.
Proof.
  intros D H. pose proof (same_decls_len _ _ D) as L. destruct H as [M H1 H2|v H|v H].
  - eexists. split; [apply SMatrix; rewrite <- L; assumption|]. intros a b. cbv beta.
    now rewrite (kept_decls ps qs M D), (kept_decls ps qs _ D).
  - eexists. split; [apply SRow; rewrite <- L; assumption|]. intros a b. cbv beta. now rewrite (kept_decls ps qs v D).
  - eexists. split; [apply SColumn; rewrite <- L; assumption|]. intros a b. cbv beta. now rewrite (kept_decls ps qs v D).
Qed.

Section Given.
Variable E : env XR.
Hypothesis HC : factorises (e_chol E).

(** Variances, as a row or as a column. *)
Lemma setup_R_variances Q n q ix fac sub : Nat.min (length Q) (ncols Q) = 1%nat -> concat Q = fin (vtab n q) ->
  (forall i, In i ix -> (i < n)%nat) -> (forall i, In i ix -> 0 <= q i) -> NoDup ix ->
  setup_R_matrix E Q ix = Ok (fac, sub) ->
  sub = finm (table (length ix) (length ix) (restricted ix (diagonal q))) /\
  scaled_factor (length ix) fac 1 (restricted ix (diagonal q)).
Proof.
  intros HM HQ Hix Hd Hnd H. unfold setup_R_matrix in H.
  rewrite HM, HQ, diagflat_tab in H. cbn [Nat.eqb] in H.
  change (fun i j => if (i =? j)%nat then q i else 0) with (diagonal q) in H.
  rewrite submat_tab in H by auto. cbn [bind] in H. fold (restricted ix (diagonal q)) in H.
  set (m := length ix) in *.
  assert (HT : table m m (restricted ix (diagonal q)) = table m m (diagonal (fun a => q (nth a ix 0%nat)))).
  { apply table_ext. intros i j Hi Hj. unfold restricted, diagonal.
    destruct (Nat.eqb_spec i j) as [->|Hij]; [now rewrite Nat.eqb_refl|].
    destruct (Nat.eqb_spec (nth i ix 0%nat) (nth j ix 0%nat)) as [He|]; auto.
    exfalso. apply Hij. eapply NoDup_nth; eauto. }
  assert (Hq : forall i, (i < m)%nat -> 0 <= q (nth i ix 0%nat)) by (intros; apply Hd, nth_In; auto).
  assert (HF : fac = map (map nsqrt) (finm (table m m (restricted ix (diagonal q))))) by congruence.
  rewrite HT, sqrt_diag in HF by auto. split; [congruence|]. eexists. split; [exact HF|]. split; [apply diag_upper|].
  intros i j Hi Hj. rewrite gram_diag by auto.
  rewrite <- (ent_table m m (diagonal (fun a => q (nth a ix 0%nat))) i j), <- HT, ent_table by auto. lra.
Qed.

Lemma setup_R_says ps Q C fac sub : let k := length (sampled_params ps) in (0 < k)%nat -> says ps Q C ->
  symmetric k C -> (forall a, (a < k)%nat -> 0 <= C a a) ->
  setup_R_matrix E Q (positions ps) = Ok (fac, sub) ->
  sub = finm (table k k C) /\ scaled_factor k fac 1 C.
Proof.
  intros k Hk HS Sy Hd H.
  assert (L : length (positions ps) = k) by apply parind_length.
  assert (Hne : positions ps <> []) by (intros X; rewrite X in L; cbn in L; lia).
  assert (Hn : (0 < length ps)%nat).
  { destruct ps; [cbn in k; unfold k in Hk; lia|cbn; lia]. }
  assert (Hnd : NoDup (positions ps)) by apply flatnonzero_NoDup.
  assert (X : exists C', (forall a b, (a < k)%nat -> (b < k)%nat -> C' a b = C a b) /\
     sub = finm (table k k C') /\ scaled_factor k fac 1 C').
  { assert (Idx : forall i, In i (positions ps) -> exists a, (a < k)%nat /\ nth a (positions ps) 0%nat = i).
    { intros i Hi. destruct (In_nth _ _ 0%nat Hi) as (a & Ha & <-). exists a. rewrite L in Ha. auto. }
    destruct HS as [M H1 H2|v Hv|v Hv].
    - assert (EQ : forall a b, (a < k)%nat -> (b < k)%nat ->
         restricted (positions ps) (ent M) a b = nth b (kept ps (nth a (kept ps M) [])) 0).
      { intros a b Ha Hb. destruct H2 as [H2 H3]. rewrite (kept_nth [] ps M a H2 Ha).
        rewrite kept_nth; [reflexivity| |exact Hb]. apply H3, nth_In. rewrite H2. apply positions_lt, nth_In. lia. }
      rewrite (table_ent _ _ M H2) in H.
      apply setup_R_square in H; auto.
      + rewrite L in H. eexists. split; [exact EQ|]. exact H.
      + apply positions_lt.
      + intros i Hi. destruct (Idx i Hi) as (a & Ha & <-).
        change (ent M _ _) with (restricted (positions ps) (ent M) a a). rewrite EQ by auto. now apply Hd.
      + intros i j Hi Hj. destruct (Idx i Hi) as (a & Ha & <-). destruct (Idx j Hj) as (b & Hb & <-).
        change (restricted (positions ps) (ent M) a b = restricted (positions ps) (ent M) b a). rewrite !EQ by auto. now apply Sy.
    - assert (EQ : forall a b, (a < k)%nat -> (b < k)%nat ->
         restricted (positions ps) (diagonal (fun i => nth i v 0)) a b = if Nat.eqb a b then nth a (kept ps v) 0 else 0).
      { intros a b Ha Hb. unfold restricted, diagonal. destruct (Nat.eqb_spec a b) as [->|Hab].
        - rewrite Nat.eqb_refl. now rewrite kept_nth.
        - destruct (Nat.eqb_spec (nth a (positions ps) 0%nat) (nth b (positions ps) 0%nat)) as [He|]; auto.
          exfalso. apply Hab. eapply NoDup_nth; eauto; lia. }
      apply (setup_R_variances _ (length v) (fun i => nth i v 0)) in H; auto.
      + rewrite L in H. eexists. split; [exact EQ|]. exact H.
      + cbn [finm map length ncols fin]. unfold fin. rewrite map_length. lia.
      + cbn [finm map concat]. rewrite app_nil_r. f_equal. apply vtab_nth.
      + intros i Hi. rewrite Hv. now apply positions_lt.
      + intros i Hi. destruct (Idx i Hi) as (a & Ha & <-). specialize (Hd a Ha). cbv beta in Hd.
        rewrite Nat.eqb_refl, kept_nth in Hd by auto. exact Hd.
    - assert (EQ : forall a b, (a < k)%nat -> (b < k)%nat ->
         restricted (positions ps) (diagonal (fun i => nth i v 0)) a b = if Nat.eqb a b then nth a (kept ps v) 0 else 0).
      { intros a b Ha Hb. unfold restricted, diagonal. destruct (Nat.eqb_spec a b) as [->|Hab].
        - rewrite Nat.eqb_refl. now rewrite kept_nth.
        - destruct (Nat.eqb_spec (nth a (positions ps) 0%nat) (nth b (positions ps) 0%nat)) as [He|]; auto.
          exfalso. apply Hab. eapply NoDup_nth; eauto; lia. }
      apply (setup_R_variances _ (length v) (fun i => nth i v 0)) in H; auto.
      + rewrite L in H. eexists. split; [exact EQ|]. exact H.
      + rewrite finm_length, map_length. destruct v as [|x v]; [cbn in Hv; lia|]. cbn [map finm ncols length fin]. lia.
      + transitivity (fin v); [|f_equal; apply vtab_nth]. clear. induction v as [|x v IH]; [reflexivity|].
        cbn [map finm concat fin app]. f_equal. exact IH.
      + intros i Hi. rewrite Hv. now apply positions_lt.
      + intros i Hi. destruct (Idx i Hi) as (a & Ha & <-). specialize (Hd a Ha). cbv beta in Hd.
        rewrite Nat.eqb_refl, kept_nth in Hd by auto. exact Hd. }
  destruct X as (C' & EQ & -> & P & P1 & P2 & P3). split; [f_equal; apply table_ext; auto|].
  exists P. split; [auto|]. split; [auto|]. intros i j Hi Hj. rewrite P3 by auto. now rewrite EQ.
Qed.

Lemma given_start ps meth ntry drscale rdr Q ada iq sg vl na ordr th c C : let k := length (sampled_params ps) in
  (0 < k)%nat -> says ps Q C -> symmetric k C -> (forall a, (a < k)%nat -> 0 <= C a a) ->
  uses_dr_setup meth = false \/ rdr = None ->
  initialize_covariance E meth ntry drscale rdr (Some Q) ada iq sg vl (positions ps) na ordr th = Ok c ->
  c_qcov c = finm (table k k C) /\ scaled_factor k (c_R c) 1 C /\
  (forall w, iq = Some w -> c_covchain c = Some (finm (table k k C)) /\ c_meanchain c = Some th /\ c_wsum c = Some w).
Proof.
  intros k Hk HS Sy Hd Hr H. unfold initialize_covariance in H. cbn [setup_covariance_matrix] in H.
  peel H. destruct a as [R sub]. apply (setup_R_says ps Q C) in E0; auto. destruct E0 as [-> HF].
  peel H. destruct a as [[R' rd] iv].
  assert (R' = R) as ->.
  { destruct (uses_dr_setup meth); [|inv E0; auto]. destruct Hr as [?| ->]; [discriminate|]. peel E0. destruct a as [[R1 l1] i1]. inv E0.
    unfold setup_RDR_matrix in E1. peel E1. peel E1. destruct a0. inv E1. auto. }
  inv H. cbn. split; [auto|]. split; [auto|]. intros w ->. auto.
Qed.
End Given.

Lemma run_qcov {F} `{NF : Num F} (E : env F) u m m' : run_simulation E u m = Ok m' ->
  exists r, m_results m' = Some r /\ rr_qcov r = matmul (transpose (rr_R r)) (rr_R r).
Proof.
  intros H. destruct (run_facts E u m m' H) as (ps & ini & st0 & st & ms & chains & HF). cbv zeta in HF.
  assert (X : m_results m' = Some (generate_results ini ms st)) by (clear -HF; repeat match goal with H : _ /\ _ |- _ => destruct H end; auto).
  eexists. split; [exact X|]. reflexivity.
Qed.
Lemma run_options_qcov u (m : mcmc XR) Q : starts_with u m Q ->
  o_qcov (run_options u m) = Some Q /\ o_method (run_options u m) = o_method (m_opts m) /\
  o_RDR (run_options u m) = o_RDR (m_opts m) /\ o_initqcovn (run_options u m) = o_initqcovn (m_opts m).
Proof.
  intros [Q' H1 H2|r -> H]; unfold run_options.
  - destruct u; [auto|]. destruct H1 as [H1|H1]; [discriminate|]. rewrite H1. auto.
  - rewrite H. cbn. auto.
Qed.
Lemma given_run (E : env XR) u m m' Q C : factorises (e_chol E) -> run_simulation E u m = Ok m' -> starts_with u m Q ->
  let k := length (sampled_params (m_params m)) in
  (0 < k)%nat -> says (m_params m) Q C -> symmetric k C -> (forall a, (a < k)%nat -> 0 <= C a a) ->
  uses_dr_setup (o_method (m_opts m)) = false \/ o_RDR (m_opts m) = None ->
  exists ps evs last r c0, proposal_course E u m m' ps evs last r /\
    nth_error (map (@ev_cov XR) evs ++ [last]) 0%nat = Some c0 /\
    c_qcov c0 = finm (table k k C) /\ scaled_factor k (c_R c0) 1 C /\
    (forall w, o_initqcovn (m_opts m) = Some w -> c_covchain c0 = Some (finm (table k k C)) /\ c_wsum c0 = Some w).
Proof.
  intros HC HR HQ k Hk HS Sy Hd Hr. destruct (run_covs E u m m' HR) as (ps & evs & last & r & PC).
  exists ps, evs, last, r. pose proof PC as PC'. destruct PC. destruct pc_start as (c0 & H0 & HI). exists c0.
  destruct (run_options_qcov u m Q HQ) as (Q1 & Q2 & Q3 & Q4). cbv zeta in HI. rewrite Q1, Q2, Q3, Q4 in HI.
  assert (K : length (sampled_params ps) = k) by (symmetry; now apply same_decls_sampled).
  destruct (says_decls _ _ _ _ pc_decls HS) as (C' & HS' & EQ).
  apply (given_start E HC ps) with (C := C') in HI; rewrite ?K; auto.
  - rewrite K in HI. destruct HI as (I1 & (P & P1 & P2 & P3) & I3).
    assert (T : table k k C' = table k k C) by (apply table_ext; auto).
    split; [auto|]. split; [auto|]. split; [congruence|]. split.
    + exists P. split; [auto|]. split; [auto|]. intros i j Hi Hj. rewrite P3, EQ; auto.
    + intros w Hw. destruct (I3 w Hw) as (-> & _ & ->). rewrite T. auto.
  - intros i j Hi Hj. rewrite !EQ. now apply Sy.
  - intros a Ha. rewrite EQ. auto.
Qed.

(** Without adaptation the covariance object stays what it is at the start. *)
Lemma constant_course {F} `{NF : Num F} (E : env F) u m m' ps evs last r c0 : proposal_course E u m m' ps evs last r ->
  (o_adaptint (m_opts m) <= 0)%Z -> nth_error (map (@ev_cov F) evs ++ [last]) 0%nat = Some c0 ->
  (forall e, In e evs -> ev_cov e = c0) /\ last = c0.
Proof.
  intros [] Ha H0.
  assert (HA : forall k c, nth_error (map (@ev_cov F) evs ++ [last]) k = Some c -> c = c0).
  { induction k as [|k IH]; intros c Hc; [congruence|].
    assert (Hk : (S k < o_nsimu (m_opts m))%nat).
    { assert (HH : (S k < List.length (map (@ev_cov F) evs ++ [last]))%nat) by (apply nth_error_Some; congruence).
      rewrite app_length, map_length in HH. cbn in HH. lia. }
    destruct (pc_moves (S k)) as (c1 & c2 & T1 & T2 & T3 & _); [lia|]. replace (S k - 1)%nat with k in T1 by lia.
    assert (c2 = c) by congruence. subst c2. rewrite T3; [auto|]. intros [? _]; lia. }
  split.
  - intros e He. apply In_nth_error in He as [k Hk]. apply (HA k).
    rewrite nth_error_app1 by (rewrite map_length; apply nth_error_Some; congruence).
    rewrite nth_error_map, Hk. reflexivity.
  - apply (HA (List.length evs)).
    rewrite nth_error_app2 by (rewrite map_length; lia). rewrite map_length, Nat.sub_diag. reflexivity.
Qed.
Lemma factor_product k fac C : (0 < k)%nat -> scaled_factor k fac 1 C -> matmul (transpose fac) fac = finm (table k k C).
Proof.
  intros Hk (P & -> & _ & H). rewrite transpose_tab, matmul_tab by auto. f_equal. apply table_ext. intros i j Hi Hj.
  transitivity (gram k P i j); [|rewrite H by auto; lra]. reflexivity.
Qed.
