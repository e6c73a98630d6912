(** Starting from a stored results file. *)

From Coq Require Import ZArith QArith Bool Lia List String.
From Verif Require Import Base Num Samplers SamplerFacts Adapt Settings Simulator RunSpec RunFacts RunLift SessionFacts ResumeFacts SettingsFacts LogSpec LogFacts.
Import ListNotations.
Close Scope Q_scope.
Open Scope list_scope.
Open Scope nat_scope.
Open Scope res_scope.

Section R.
Context {F : Type} `{NF : Num F}.
Variable E : env F.

(** The value the results file holds for a name: entry k of the stored names belongs to entry [parind[k]] of
    the stored parameter vector.  If a name occurs more than once the last occurrence counts. *)
Definition stored (r : restart F) (name : string) (v : F) : Prop :=
  exists k i, nth_error (rs_names r) k = Some name /\ nth_error (rs_parind r) k = Some i /\ nth_error (rs_theta r) i = Some v /\
    forall k', k < k' < List.length (rs_parind r) -> nth_error (rs_names r) k' <> Some name.
Definition not_stored (r : restart F) (name : string) : Prop :=
  forall k, k < List.length (rs_parind r) -> nth_error (rs_names r) k <> Some name.

(** What happens to one parameter. *)
Definition restarted (r : restart F) (p p' : param F) : Prop :=
  a_name p' = a_name p /\ a_min p' = a_min p /\ a_max p' = a_max p /\ a_sigma p' = a_sigma p /\ a_sample p' = a_sample p /\ a_adapt p' = a_adapt p /\
  (a_sample p = true -> forall v, stored r (a_name p) v -> a_theta0 p' = v) /\
  (a_sample p = false -> a_theta0 p' = a_theta0 p) /\ (not_stored r (a_name p) -> p' = p) /\
  (nisnan (a_mu p) = false -> a_mu p' = a_mu p).

Definition loop_one (names : list string) (theta : list F) (l : list (nat * nat)) (p : param F) : res (param F) :=
  fold_left (fun acc e => let* p := acc in
     let* name := of_option IndexError (nth_error names (fst e)) in
     let* v := of_option IndexError (nth_error theta (snd e)) in Ok (restart_one name v p)) l (Ok p).

Lemma restart_one_facts name v p : let p' := restart_one name v p in
  a_name p' = a_name p /\ a_min p' = a_min p /\ a_max p' = a_max p /\ a_sigma p' = a_sigma p /\ a_sample p' = a_sample p /\ a_adapt p' = a_adapt p /\
  (a_sample p = true -> a_theta0 p' = if String.eqb name (a_name p) then v else a_theta0 p) /\
  (a_sample p = false -> a_theta0 p' = a_theta0 p) /\ (name <> a_name p -> p' = p) /\
  (nisnan (a_mu p) = false -> a_mu p' = a_mu p).
Proof.
  unfold restart_one. destruct (String.eqb_spec name (a_name p)); cbn; repeat split; auto; intros H; rewrite ?H; auto. contradiction.
Qed.

(** Invariant over the stored entries seen so far. *)
Lemma loop_spec names theta : forall parind ii ps ps', results_to_params_loop ii names theta parind ps = Ok ps' ->
  Forall2 (fun p p' =>
    a_name p' = a_name p /\ a_min p' = a_min p /\ a_max p' = a_max p /\ a_sigma p' = a_sigma p /\ a_sample p' = a_sample p /\ a_adapt p' = a_adapt p /\
    (a_sample p = true -> forall k i v, nth_error parind k = Some i -> nth_error names (ii + k) = Some (a_name p) -> nth_error theta i = Some v ->
        (forall k', k < k' < List.length parind -> nth_error names (ii + k') <> Some (a_name p)) -> a_theta0 p' = v) /\
    (a_sample p = false -> a_theta0 p' = a_theta0 p) /\
    ((forall k, k < List.length parind -> nth_error names (ii + k) <> Some (a_name p)) -> p' = p) /\
    (nisnan (a_mu p) = false -> a_mu p' = a_mu p)) ps ps'.
Proof.
  induction parind as [|i0 parind IH]; intros ii ps ps' H; cbn [results_to_params_loop] in H.
  - inv H. induction ps'; constructor; auto. repeat split; auto. intros _ k i v X. destruct k; discriminate.
  - peel H. peel H. apply IH in H. 
    destruct (nth_error names ii) as [nm|] eqn:N0; [|discriminate]. destruct (nth_error theta i0) as [v0|] eqn:V0; [|discriminate].
    cbn in E0, E1. assert (a = nm) by congruence. assert (a0 = v0) by congruence. subst a a0. clear E0 E1.
    remember (map (restart_one nm v0) ps) as q eqn:Q. revert ps Q. induction H as [|x y q ps' HX HF IHF]; intros [|p ps] Q; try discriminate; constructor.
    + cbn [map] in Q. assert (x = restart_one nm v0 p) as -> by congruence. clear Q IHF HF.
      destruct (restart_one_facts nm v0 p) as (R1 & R2 & R3 & R4 & R5 & R6 & R7 & R8 & R9 & R10).
      destruct HX as (H1 & H2 & H3 & H4 & H5 & H6 & H7 & H8 & H9 & H10).
      rewrite R1, R2, R3, R4, R5, R6 in *. repeat split; auto.
      * intros SP k i v K1 K2 K3 K4. destruct k as [|k].
        -- cbn in K1. assert (i = i0) by congruence. subst i. rewrite Nat.add_0_r in K2. assert (nm = a_name p) by congruence.
           assert (v = v0) by congruence. subst v nm. rewrite H9.
           ++ rewrite R7, String.eqb_refl by auto. reflexivity.
           ++ intros k K. intros X. apply (K4 (S k)); [cbn; lia|]. rewrite <- X. f_equal. lia.
        -- cbn in K1. apply (H7 SP k i v); auto; [rewrite <- K2; f_equal; lia|].
           intros k' K' X. apply (K4 (S k')); [cbn; lia|]. rewrite <- X. f_equal. lia.
      * intros S. rewrite H8, R8; auto.
      * intros K. rewrite H9.
        -- apply R9. intros X. apply (K 0); [cbn; lia|]. rewrite Nat.add_0_r. congruence.
        -- intros k L X. apply (K (S k)); [cbn; lia|]. rewrite <- X. f_equal. lia.
      * intros X. rewrite H10; [apply R10; auto|]. rewrite R10; auto.
    + apply IHF. cbn in Q. congruence.
Qed.

Lemma restart_params r ps ps' : results_to_params r ps = Ok ps' -> Forall2 (restarted r) ps ps'.
Proof.
  intros H. unfold results_to_params in H. apply loop_spec in H. 
  induction H as [|p p' l l' X HF IH]; constructor; auto.
  destruct X as (X1 & X2 & X3 & X4 & X5 & X6 & X7 & X8 & X9 & X10). unfold restarted. repeat split; auto.
  intros S v (k & i & K1 & K2 & K3 & K4). eapply X7; eauto.
Qed.

(** ** Covariance *)

Definition square_mat (k : nat) (q : list (list F)) : Prop := List.length q = k /\ Forall (fun r => List.length r = k) q.

Lemma gather_bound {A} (x : list A) ix y : gather x ix = Ok y -> Forall (fun i => i < List.length x) ix.
Proof.
  revert y. induction ix; intros y H; constructor; cbn [gather] in H; peel H.
  - apply nth_error_Some. destruct (nth_error x a); [discriminate|discriminate].
  - peel H. eauto.
Qed.

Lemma gather_from {A} (x : list A) : forall pre, gather (pre ++ x) (seq (List.length pre) (List.length x)) = Ok x.
Proof.
  induction x as [|a x IH]; intros pre; cbn [gather seq List.length]; auto.
  rewrite nth_error_app2, Nat.sub_diag by lia. cbn [nth_error of_option bind].
  replace (pre ++ a :: x) with ((pre ++ [a]) ++ x) by (now rewrite <- app_assoc).
  replace (S (List.length pre)) with (List.length (pre ++ [a])) by (rewrite app_length; cbn; lia). now rewrite IH.
Qed.

Lemma gather_seq {A} (x : list A) : gather x (seq 0 (List.length x)) = Ok x.
Proof. exact (gather_from x []). Qed.

Lemma submat_id k q : square_mat k q -> submat q (seq 0 k) = Ok q.
Proof.
  intros [<- H]. unfold submat. rewrite gather_seq. cbn [bind].
  remember (List.length q) as n. clear Heqn. induction H; cbn; auto. subst n. rewrite gather_seq. cbn. now rewrite IHForall.
Qed.

Lemma flatnonzero_increasing b : forall k, exists l, flatnonzero_from k b = l /\ Forall (fun i => k <= i) l /\ Sorted.StronglySorted lt l.
Proof.
  induction b as [|[] b IH]; intros k; cbn [flatnonzero_from]; eexists; (split; [reflexivity|]).
  - split; constructor.
  - destruct (IH (S k)) as (l & -> & H1 & H2). split; constructor; auto. eapply Forall_impl; [|exact H1]. cbn. lia.
  - destruct (IH (S k)) as (l & -> & H1 & H2). split; auto. eapply Forall_impl; [|exact H1]. cbn. lia.
Qed.

Lemma sorted_bounded l : forall k, Sorted.StronglySorted lt l -> Forall (fun i => k <= i) l -> Forall (fun i => i < k + List.length l) l -> l = seq k (List.length l).
Proof.
  induction l as [|a l IH]; intros k SS H1 H2; cbn; auto.
  inversion SS as [|? ? S1 S2]; subst. inversion H1 as [|? ? A1 A2]; inversion H2 as [|? ? B1 B2]; subst. 
  assert (Ha : forall l a k, Sorted.StronglySorted lt l -> Forall (lt a) l -> Forall (fun i => i < k) l -> a < k -> a + List.length l < k).
  { clear. induction l as [|b l IH]; intros a k S1 H1 H2 H3; cbn; [lia|]. inversion S1; inversion H1; inversion H2; subst.
    specialize (IH b k). assert (b + List.length l < k) by (apply IH; auto). lia. }
  cbn [List.length] in *. assert (a + List.length l < k + S (List.length l)) by (eapply Ha; eauto).
  assert (a = k) by lia. subst a. f_equal. apply IH; auto.
  eapply Forall_impl; [|exact B2]. cbn. intros; lia.
Qed.

Lemma diagflat_one (x : F) : diagflat [x] = [[x]].
Proof. reflexivity. Qed.

Lemma setup_R_square q ps fac sub : let parind := flatnonzero (map (@a_sample F) ps) in let k := List.length parind in
  square_mat k q -> setup_R_matrix E q parind = Ok (fac, sub) -> parind = seq 0 k /\ sub = q.
Proof.
  intros parind k Hq H.
  destruct (flatnonzero_increasing (map (@a_sample F) ps) 0) as (l & L1 & L2 & L3). fold (flatnonzero (map (@a_sample F) ps)) in L1. fold parind in L1. subst l.
  assert (B : forall z s, square_mat k z -> submat z parind = Ok s -> parind = seq 0 k /\ s = z).
  { intros z s Hz X. assert (parind = seq 0 k).
    { apply sorted_bounded; auto. unfold submat in X. peel X. apply gather_bound in E0. destruct Hz as [Hz _]. fold k. rewrite Hz in E0. exact E0. }
    split; auto. rewrite H0, (submat_id k z Hz) in X. congruence. }
  unfold setup_R_matrix in H. destruct (Nat.min _ _ =? 1) eqn:M.
  - peel H. assert (q = [[nth 0 (nth 0 q []) n0]]) as Q1.
    { destruct Hq as [H1 H2]. destruct q as [|r0 q]; [cbn in M; discriminate|]. inversion H2 as [|? ? H3 H4]; subst.
      cbn [ncols] in M. apply Nat.eqb_eq in M. rewrite H3 in M. rewrite H1, Nat.min_id in M. rewrite M in *.
      destruct q; [|discriminate]. destruct r0 as [|x [|y r0]]; try discriminate. reflexivity. }
    assert (a = sub) by congruence. subst a. rewrite Q1 in E0. cbn [List.concat app] in E0. rewrite diagflat_one, <- Q1 in E0. now apply B.
  - peel H. assert (a = sub). { destruct (_ =? 1) in H; [congruence|]. peel H. congruence. } subst a. now apply B.
Qed.

Lemma flatnonzero_in i b : forall k, In i (flatnonzero_from k b) <-> k <= i /\ nth_error b (i - k) = Some true.
Proof.
  induction b as [|x b IH]; intros k; cbn [flatnonzero_from].
  - split; [intros []|]. intros [_ H]. destruct (i - k); discriminate.
  - assert (X : In i (flatnonzero_from (S k) b) <-> k < i /\ nth_error (x :: b) (i - k) = Some true).
    { rewrite IH. split.
      - intros [A B]. split; [lia|]. replace (i - k) with (S (i - S k)) by lia. exact B.
      - intros [A B]. split; [lia|]. replace (i - k) with (S (i - S k)) in B by lia. exact B. }
    destruct x; cbn [In]; rewrite X; (split; [|]).
    + intros [->|[A B]]; [rewrite Nat.sub_diag; auto|split; auto; lia].
    + intros [A B]. destruct (Nat.eq_dec k i); [auto|right; split; auto; lia].
    + intros [A B]. split; auto; lia.
    + intros [A B]. split; auto. destruct (Nat.eq_dec k i); [subst; rewrite Nat.sub_diag in B; discriminate|lia].
Qed.

Lemma Forall2_nth {A B} (P : A -> B -> Prop) l l' : Forall2 P l l' -> forall i a, nth_error l i = Some a -> exists b, nth_error l' i = Some b /\ P a b.
Proof. induction 1; intros [|i] a Ha; cbn in *; try discriminate; [inv Ha; eauto|eauto]. Qed.

Lemma execute_first K st0 st : r_trace st0 = [] -> 2 <= o_nsimu (k_opts K) -> execute E K st0 = Ok st ->
  exists e, nth_error (rev (r_trace st)) 0 = Some e /\ ev_cov e = r_cov st0.
Proof.
  intros T N H. unfold execute in H. peel H. destruct (_ <=? 1); [discriminate|]. peel H. peel H.
  match type of H with Ok ?x = _ => assert (st = x) as -> by congruence end. cbn [r_trace]. clear H E1 E2 a0 a1.
  assert (X := iterate_ind E K (fun i s => (i = 1 /\ s = st0) \/ (1 < i /\ exists e, nth_error (rev (r_trace s)) 0 = Some e /\ ev_cov e = r_cov st0))
     (o_nsimu (k_opts K) - 1) 1 st0 a (or_introl (conj eq_refl eq_refl))).
  destruct X as [X|X].
  - intros i s1 s2 _ P S. apply step_log in S as (_ & _ & (stage & outb & R) & _). right. split.
    + destruct P as [[-> _]|[P _]]; lia.
    + destruct P as [[-> ->]|[P (e & P1 & P2)]].
      * rewrite R, T. cbn. eauto.
      * exists e. split; auto. rewrite R. cbn [rev]. destruct (rev (r_trace s1)); [discriminate|]. exact P1.
  - exact E0.
  - destruct X as [X _]. lia.
  - tauto.
Qed.

(** A restarted run that gets going has its sampled parameters first and begins with the stored covariance. *)
Lemma restart_covariance m m' r : run_simulation E false m = Ok m' -> o_restart (m_opts m) = Some r ->
  square_mat (List.length (sampled_params (m_params m))) (rs_qcov r) ->
  (forall i p, nth_error (m_params m) i = Some p -> (a_sample p = true <-> i < List.length (sampled_params (m_params m)))) /\
  exists evs e, m_trace m' = rev evs ++ m_trace m /\ nth_error evs 0 = Some e /\ c_qcov (ev_cov e) = rs_qcov r.
Proof.
  intros H HR HQ. pose proof H as HF. apply run_model in H as (ini & ms1 & st0 & st & chains & H). cbv zeta in H.
  destruct H as (H1 & _ & _ & _ & H2 & H3 & H4 & H5 & H6 & H7 & _ & _ & _ & H8 & H9 & H10 & H11 & _ & H12 & H13 & H14 & H15 & _).
  assert (SD : same_decls (m_params m) (m_params m')).
  { apply run_facts in HF as (ps & ini' & st0' & st' & ms' & ch' & HF). cbv zeta in HF.
    destruct HF as (SD & _ & _ & _ & _ & _ & _ & _ & _ & _ & _ & PP & _). now rewrite PP. }
  assert (SL := same_decls_sampled _ _ SD).
  assert (OQ : o_qcov (run_options false m) = Some (rs_qcov r)) by (unfold run_options; rewrite HR; reflexivity).
  set (parind := flatnonzero (map (@a_sample F) (m_params m'))).
  assert (PL : List.length parind = List.length (sampled_params (m_params m))) by (unfold parind; rewrite parind_length; auto).
  assert (CQ : parind = seq 0 (List.length parind) /\ c_qcov (i_cov ini) = rs_qcov r).
  { unfold initialize_simulation in H1. peel H1. peel H1. peel H1. peel H1.
    destruct (evaluate_sos_function _ _ _ _) as [ss s1]. peel H1. match type of H1 with Ok ?x = _ => assert (ini = x) as -> by congruence end. cbn [i_cov].
    assert (OQ' : o_qcov (check_dependent_simulation_options (run_options false m) match ms_N0 (m_model m) with Some _ => true | None => false end) = Some (rs_qcov r)) by exact OQ.
    rewrite OQ' in E3. unfold initialize_covariance in E3. cbn [setup_covariance_matrix] in E3. peel E3.
    assert (PE : op_parind (check_prior_sigma (openparameterstructure (m_params m'))) = parind) by (unfold parind; rewrite <- op_parind_open; reflexivity).
    rewrite PE in *. destruct a4 as [fac sub].
    destruct (setup_R_square (rs_qcov r) (m_params m') fac sub) as [P1 P2]; [fold parind; rewrite PL; exact HQ|exact E5|].
    fold parind in P1. split; auto. peel E3. destruct a4 as [[R' rdr] inv]. match type of E3 with Ok ?x = _ => assert (a2 = x) as -> by congruence end. cbn [c_qcov]. exact P2. }
  destruct CQ as [C1 C2]. split.
  - intros i p Hp. destruct (Forall2_nth _ _ _ SD i p Hp) as (p' & Hp' & D). destruct D as (_ & _ & _ & D & _). rewrite D, <- PL.
    assert (IN : In i parind <-> a_sample p' = true).
    { unfold parind, flatnonzero. rewrite flatnonzero_in. rewrite nth_error_map, Nat.sub_0_r, Hp'. cbn. split; [intros [_ X]; congruence|intros ->; split; [lia|auto]]. }
    rewrite <- IN, C1, in_seq, seq_length. split; lia.
  - assert (X := execute_first (make_const ini chains) st0 st). destruct X as (e & X1 & X2); try (rewrite H5; reflexivity); auto.
    { cbn [k_opts make_const]. rewrite <- H3, H2. unfold check_dependent_simulation_options. cbn [o_nsimu]. unfold run_options. rewrite HR. cbn [set_qcov o_nsimu]. exact H9. }
    exists (rev (r_trace st)), e. rewrite rev_involutive. split; [auto|split; [auto|]]. rewrite X2, H5. exact C2.
Qed.

(** The file written by one object restarts another one at the last point. *)
Lemma restart_roundtrip ps m1 r m2 m2' : session E ps m1 -> m_results m1 = Some r -> m_status m1 = true ->
  NoDup (map (@a_name F) (sampled_params ps)) ->
  same_decls ps (m_params m2) -> o_restart (m_opts m2) = Some (restart_of r) -> run_simulation E false m2 = Ok m2' ->
  nth_error (m_chain m2') 0 = nth_error (m_chain m1) (m_index m1) /\ nth_error (m_chain m1) (m_index m1) <> None.
Proof.
  intros HS HR ST ND SD HO H. apply session_minv in HS. destruct (mi_results _ _ _ HS ST) as (r' & row & R1 & R2 & R3 & R4 & R5 & _).
  assert (r' = r) by congruence. subst r'.
  assert (IN : inside ps row). { apply (mi_rows _ _ _ HS). eapply nth_error_In; eauto. }
  apply run_facts in H as (ps' & ini & st0 & st & ms & ch & H). cbv zeta in H.
  destruct H as (D & (o & I & _) & RP & IC & S0 & EX & _ & RC & _ & _ & LT & _ & _ & _ & MC & _).
  rewrite HO in RP. rewrite MC. 
  assert (X : nth_error (r_chain st) 0 = nth_error (r_chain st0) 0).
  { apply (rc_frame _ _ _ _ _ RC 0). left. lia. }
  rewrite X. apply init_facts in I. cbv zeta in I. destruct I as (I1 & _ & _ & I2 & _ & _ & _ & _ & I3 & _).
  apply initialize_chains_facts in IC; [|rewrite I2, I1; unfold check_prior_sigma; cbn [op_parind]; rewrite op_parind_open, parind_length; now rewrite map_length|auto].
  cbv zeta in IC. destruct IC as (_ & _ & _ & C & _). rewrite C, I2, R2. split; [|discriminate]. f_equal.
  eapply (restart_from_row ps (m_params m2)); eauto. now apply inside_length.
  all: unfold restart_of; cbn [rs_names rs_parind rs_theta]; assumption.
Qed.
End R.
