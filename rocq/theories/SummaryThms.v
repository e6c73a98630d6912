(** The summary of a chain and the acceptance figures (Summary.v). *)

From Coq Require Import ZArith QArith Bool Lia List Reals Lra String Arith Qreals Permutation Sorted.
From Verif Require Import Base Num Samplers Adapt Settings Simulator RunFacts RunLift SessionFacts ChainFiles Results ChainStats PlotUtil Summary RVec RMat StatsSpec StatsFacts BatchFacts BatchReal GewekeFacts GewekeReal
  QuantSpec QuantFacts Dft SummaryFacts RunSpec RunThms ResultSpec ResultFacts ResultThms ResumeFacts.
Import ListNotations.
Close Scope Q_scope.
Open Scope list_scope.
Open Scope R_scope.

(** ** Different values *)

(** [l] has [n] different values. *)
Definition different (l : list R) (n : nat) : Prop := exists u, NoDup u /\ (forall v, In v u <-> In v l) /\ List.length u = n.

Lemma XR_neq x y : @neq XR _ (Fin x) (Fin y) = Reqb x y. Proof. reflexivity. Qed.
Lemma steps_fin t : forall y, StronglySorted Rle (y :: t) -> different (y :: t) (steps (Fin y) (fin t)).
Proof.
  induction t as [|z t IH]; intros y H.
  - exists [y]. split; [repeat constructor; auto|]. split; [reflexivity|reflexivity].
  - inversion H as [|? ? H1 H2]; subst. specialize (IH z H1). destruct IH as (u & N & I & L).
    cbn [fin map steps]. rewrite XR_neq. change (map Fin t) with (fin t). destruct (Reqb y z) eqn:E.
    + apply Reqb_true in E. subst z. exists u. split; auto. split; auto. intros v. rewrite I. cbn. tauto.
    + apply Reqb_false in E. exists (y :: u). split.
      * constructor; auto. rewrite I. intros [J|J]; [congruence|].
        rewrite Forall_forall in H2. inversion H1 as [|? ? _ H3]; subst. rewrite Forall_forall in H3.
        pose proof (H2 z (or_introl eq_refl)). pose proof (H3 y J). lra.
      * split; [|cbn; now rewrite L]. intros v. cbn [In]. rewrite I. cbn. tauto.
Qed.
Theorem unique_size_fin x : different x (unique_size (fin x)).
Proof.
  unfold unique_size. rewrite sort_fin. pose proof (rsort_sorted x) as H. pose proof (rsort_perm x) as P.
  destruct (rsort x) as [|y t].
  - apply Permutation_sym, Permutation_nil in P. subst. exists []. split; [constructor|]. split; reflexivity.
  - cbn [fin map]. change (map Fin t) with (fin t). destruct (steps_fin t y H) as (u & N & I & L). exists u. split; auto. split; auto.
    intros v. rewrite I. split; apply Permutation_in; auto. now apply Permutation_sym.
Qed.
Lemma different_bound x n w : different x n -> (forall v, In v x -> In v w) -> (n <= List.length w)%nat.
Proof. intros (u & N & I & <-) C. apply NoDup_incl_length; auto. intros v V. apply C, I, V. Qed.
Lemma different_pos x n : different x n -> x <> [] -> (1 <= n)%nat.
Proof. intros (u & N & I & <-) X. destruct x as [|v x]; [congruence|]. destruct u; [|cbn; lia]. exfalso. apply (proj2 (I v)). now left. Qed.

(** ** Rejected moves keep the value *)

Lemma kept_values {A Ev} (keep : Ev -> bool) evs : forall c : list A, List.length c = S (List.length evs) ->
  (forall k e, nth_error evs k = Some e -> exists a b, nth_error c k = Some a /\ nth_error c (S k) = Some b /\ (keep e = true -> b = a)) ->
  exists w, List.length w = S (count (fun e => negb (keep e)) evs) /\ forall v, In v c -> In v w.
Proof.
  induction evs as [|e evs IH]; intros c L H.
  - destruct c as [|a [|]]; try discriminate. exists [a]. split; auto.
  - destruct c as [|a c]; [discriminate|]. cbn in L. destruct (IH c) as (w & Lw & Iw); [lia| |].
    { intros k e' E. apply (H (S k) e' E). }
    destruct (H O e eq_refl) as (a' & b & Ea & Eb & K). cbn in Ea. injection Ea as <-. cbn [nth_error] in Eb.
    unfold count in *. cbn [filter]. destruct (keep e); cbn [negb].
    + exists w. split; auto. intros v [<-|V]; auto. apply Iw. rewrite <- (K eq_refl). now apply (nth_error_In c 0).
    + exists (a :: w). split; [cbn; now rewrite Lw|]. intros v [<-|V]; [now left|right; auto].
Qed.
Lemma count_negb {A} (p : A -> bool) l : (count (fun e => negb (p e)) l + count p l = List.length l)%nat.
Proof. unfold count. induction l as [|a l IH]; cbn [filter]; auto. destruct (p a); cbn; lia. Qed.

(** ** Acceptance figures *)

Definition printable (D : pydict XR) (iacce : list Z) (nsimu : nat) : Prop :=
  lookup "iacce"%string D = Some (PArrZ iacce) /\ lookup "nsimu"%string D = Some (PInt (Z.of_nat nsimu)).
Theorem figures_of_run (E : env XR) ps m m' chain :
  session E ps m -> run_simulation E false m = Ok m' -> (1 < o_ntry (m_opts m))%nat -> m_chain m' = finm chain ->
  exists r iacce, m_results m' = Some r /\ rr_iacce r = Some iacce /\
    let n := o_nsimu (m_opts m) in
    forall D, printable D iacce n ->
    exists u, acceptance_info (m_chain m') (Some D) = Ok (mkfigures (Some (iacce, fold_right Z.add 0%Z iacce, Z.of_nat n)) u n) /\
      different (Rcol 0 chain) u /\ (1 <= u)%nat /\ (Z.of_nat u <= fold_right Z.add 0 iacce <= Z.of_nat n)%Z.
Proof.
  intros HS HR HT HC.
  destruct (iacce_closes E ps false m m' HS ltac:(discriminate) HR HT) as (start & evs & r & iacce & C & R1 & R2 & _ & _ & _ & T).
  exists r, iacce. split; auto. split; auto. intros n D (D1 & D2).
  assert (N2 : (2 <= n)%nat).
  { pose proof (run_facts _ _ _ _ HR) as (q1 & q2 & q3 & q4 & q5 & q6 & HQ). cbv zeta in HQ. decompose [and] HQ; auto. }
  destruct C as [C1 C2 C3 _ C5 _]. cbn in C1. subst start. cbn [Nat.add] in C3, C5. fold n in C2, C3.
  destruct C3 as (L & _ & _). assert (LC : List.length chain = n) by (rewrite <- L, HC; unfold finm; now rewrite map_length).
  assert (EC : col 0 (m_chain m') = fin (Rcol 0 chain)) by (rewrite HC; apply col_fin).
  exists (unique_size (fin (Rcol 0 chain))). split; [|].
  { unfold acceptance_info. rewrite D1, D2. cbn [bind]. rewrite EC, L. reflexivity. }
  pose proof (unique_size_fin (Rcol 0 chain)) as U. split; auto. split.
  { eapply different_pos; [exact U|]. intros X. apply (f_equal (@List.length R)) in X. unfold Rcol in X. rewrite map_length in X. cbn in X. lia. }
  destruct (kept_values rejected_ev evs (Rcol 0 chain)) as (w & Lw & Iw).
  { unfold Rcol. rewrite map_length. lia. }
  { intros k e Ee. destruct (C5 k e Ee) as (row & row' & E1 & E2 & Fo). rewrite HC in E1, E2. unfold finm in E1, E2.
    rewrite nth_error_map in E1, E2. destruct (nth_error chain k) as [a|] eqn:X1; [|discriminate]. destruct (nth_error chain (S k)) as [b|] eqn:X2; [|discriminate].
    cbn in E1, E2. injection E1 as <-. injection E2 as <-. exists (nth 0 a 0), (nth 0 b 0). unfold Rcol. rewrite !nth_error_map, X1, X2.
    split; auto. split; auto. unfold rejected_ev. rewrite Nat.eqb_eq. intros Z. apply Fo in Z.
    assert (b = a); [|now subst]. unfold fin in Z. revert Z. clear. revert a. induction b as [|x b IH]; intros [|y a] H; try discriminate; auto.
    cbn in H. injection H as <- H. f_equal. now apply IH. }
  pose proof (different_bound _ _ _ U Iw) as B. pose proof (count_negb (@rejected_ev XR) evs) as K. fold n in T. lia.
Qed.

(** ** Summary *)

Lemma names_length npar given : List.length (get_parameter_names npar given) = Nat.max npar (match given with Some l => List.length l | None => O end).
Proof.
  destruct given as [l|]; cbn [get_parameter_names].
  - unfold extend_names_to_match_nparam. rewrite app_length, map_length, seq_length. lia.
  - unfold generate_default_names, range. rewrite map_length, seq_length. lia.
Qed.
Lemma default_batches n : (20 <= n)%nat -> (0 < Nat.max 10 (n / 20))%nat /\ (2 <= n / Nat.max 10 (n / 20))%nat.
Proof.
  intros N. split; [lia|]. pose proof (Nat.div_mod n 20). pose proof (Nat.mod_upper_bound n 20).
  apply Nat.div_le_lower_bound; lia.
Qed.
Lemma std0_fin x : x <> [] -> std0 (fin x) = Fin (sqrt (Rsum (map (fun v => (v - Rmean x)²) x) / INR (List.length x))).
Proof.
  intros X. unfold std0. rewrite mean_fin by auto. unfold fin at 1. rewrite map_map.
  rewrite (map_ext (fun v => nsqr (nsub (Fin v) (Fin (Rmean x)))) (fun v => Fin ((v - Rmean x)²))) by reflexivity.
  rewrite <- (map_map (fun v => (v - Rmean x)²) (@Fin R)). change (map Fin ?l) with (fin l). rewrite vsum_fin.
  assert (P : 0 < INR (List.length x)) by (apply lt_0_INR; destruct x; [congruence|cbn; lia]).
  replace (List.length (fin x)) with (List.length x) by (unfold fin; now rewrite map_length).
  rewrite XR_nnat, XR_ndiv by lra. rewrite XR_nsqrt; auto.
  apply Rmult_le_pos; [|apply Rlt_le, Rinv_0_lt_compat; auto].
  clear. induction x as [|a x IH]; cbn; [lra|]. revert IH. generalize (Rmean (a :: x)). intros mu _.
  apply Rplus_le_le_0_compat; [apply Rle_0_sqr|]. induction x; cbn; [lra|]. apply Rplus_le_le_0_compat; [apply Rle_0_sqr|auto].
Qed.

Section Values.
Variable fft : list XR -> list (XR * XR).
Variable cdf : XR -> XR.
Hypothesis DFT : is_dft fft.

(** Names given are no more than the columns. *)
Definition labelled (npar : nat) (results : option (pydict XR)) : Prop :=
  exists given, names_of results = Ok given /\ (match given with Some l => List.length l | None => O end <= npar)%nat.

Lemma iact_list n npar chain : List.length chain = n -> (2 <= n)%nat ->
  integrated_autocorrelation_time fft npar (finm chain) =
  Ok (map (fun j => fst (iact_column fft n (fin (Rcol j chain)))) (seq 0 npar), map (fun j => snd (iact_column fft n (fin (Rcol j chain)))) (seq 0 npar)).
Proof.
  intros L N. unfold integrated_autocorrelation_time. replace (List.length (finm chain)) with n by (unfold finm; now rewrite map_length).
  destruct (n =? 0)%nat eqn:Z; [apply Nat.eqb_eq in Z; lia|]. rewrite !map_map. unfold range.
  do 2 f_equal; apply map_ext; intros j; now rewrite col_fin.
Qed.

Theorem chainstats_value npar first mid last results : let chain := first ++ mid ++ last in let n := List.length chain in let b := Nat.max 10 (n / 20) in
  (40 <= n)%nat -> List.length first = (n / 10)%nat -> List.length last = (n / 2)%nat -> labelled npar results ->
  forall fg, acceptance_info (finm chain) results = Ok fg ->
  exists parts rest tau m, cut b chain parts rest /\ List.length parts = (n / b)%nat /\
    let bm := map (fun j => batch_error (map (fun p => Rmean (Rcol j p)) parts) (Rmean (Rcol j chain)) b) (seq 0 npar) in
    let z := map (fun j => ndiv (Fin (Rmean (Rcol j first) - Rmean (Rcol j last))) (Fin (sqrt (gvar j first last)))) (seq 0 npar) in
    chainstats fft (fun nw => fin (hann nw)) cdf npar (finm chain) results =
    Ok (mkstats (fin (map (fun j => Rmean (Rcol j chain)) (seq 0 npar)))
                (fin (map (fun j => sqrt (Rsum (map (fun v => (v - Rmean (Rcol j chain))²) (Rcol j chain)) / INR n)) (seq 0 npar)))
                (fin bm) (fin (map (fun s => s / sqrt (INR n)) bm)) z (map (fun v => nmul (nnat 2) (nsub n1 (cdf (nabs v)))) z)
                (fin tau) m fg) /\
    List.length tau = npar /\ List.length m = npar /\
    forall j, (j < npar)%nat -> iact_column fft n (fin (Rcol j chain)) = (Fin (nth j tau 0), nth j m O).
Proof.
  intros chain n b N LF LL (given & EN & LN) fg EF.
  destruct (default_batches n) as (B0 & B2); [lia|]. fold b in B0, B2.
  destruct (batch_value npar chain b B0 B2) as (parts & rest & C & LP & BV).
  assert (IC : forall j, exists t k, iact_column fft n (fin (Rcol j chain)) = (Fin t, k)).
  { intros j. assert (LR : List.length (Rcol j chain) = n) by (unfold Rcol; now rewrite map_length). rewrite <- LR.
    pose proof (autocov_0_nonneg (Rcol j chain)) as [P|P].
    - destruct (iact_value fft (Rcol j chain) DFT ltac:(lia) P) as (m & _ & _ & _ & V). eauto.
    - rewrite (iact_constant fft (Rcol j chain) DFT ltac:(lia)); eauto. }
  exists parts, rest, (map (fun j => unfin (fst (iact_column fft n (fin (Rcol j chain))))) (seq 0 npar)),
    (map (fun j => snd (iact_column fft n (fin (Rcol j chain)))) (seq 0 npar)).
  split; auto. split; auto. cbv zeta. split; [|].
  2: { rewrite !map_length, seq_length. split; auto. split; auto. intros j J.
       destruct (IC j) as (t & k & E). rewrite E.
       rewrite (nth_indep _ 0 (unfin (fst (iact_column fft n (fin (Rcol 0 chain)))))) by (now rewrite map_length, seq_length).
       rewrite (map_nth (fun j => unfin (fst (iact_column fft n (fin (Rcol j chain))))) (seq 0 npar) O j), seq_nth by auto.
       rewrite (nth_indep _ O (snd (iact_column fft n (fin (Rcol 0 chain))))) by (now rewrite map_length, seq_length).
       rewrite (map_nth (fun j => snd (iact_column fft n (fin (Rcol j chain)))) (seq 0 npar) O j), seq_nth by auto.
       cbn [Nat.add]. now rewrite E. }
  unfold chainstats. rewrite EN. cbn [bind].
  assert (LC : List.length (finm chain) = n) by (unfold finm; now rewrite map_length).
  assert (EB : batch_mean_standard_deviation npar (finm chain) None = batch_mean_standard_deviation npar (finm chain) (Some b)).
  { unfold batch_mean_standard_deviation. now rewrite LC. }
  rewrite EB, BV. cbn [bind]. rewrite (geweke_real cdf npar first mid last); try (vm_compute; congruence).
  2: { rewrite portion_tenth. now symmetry. } 2: { rewrite portion_half. now symmetry. }
  2: { rewrite LF, LL. pose proof (Nat.div_mod n 10). pose proof (Nat.mod_upper_bound n 10). pose proof (Nat.div_mod n 2). pose proof (Nat.mod_upper_bound n 2). lia. }
  cbv zeta. cbn [bind]. fold chain. rewrite (iact_list n) by (auto; lia). cbn [bind].
  destruct (npar <? List.length (get_parameter_names npar given))%nat eqn:T.
  { apply Nat.ltb_lt in T. rewrite names_length in T. lia. }
  rewrite EF. cbn [bind]. rewrite LC. f_equal.
  assert (NE : forall j, Rcol j chain <> []) by (intros j X; apply (f_equal (@List.length R)) in X; unfold Rcol in X; rewrite map_length in X; fold n in X; cbn in X; lia).
  f_equal.
  - unfold fin at 1. rewrite map_map. apply map_ext. intros j. rewrite col_fin. now apply mean_fin.
  - unfold fin at 1. rewrite map_map. apply map_ext. intros j. rewrite col_fin, std0_fin by auto.
    do 3 f_equal. unfold Rcol. now rewrite map_length.
  - unfold fin. rewrite !map_map. apply map_ext. intros j. rewrite XR_nnat, XR_nsqrt by apply pos_INR.
    rewrite XR_ndiv; auto. apply Rgt_not_eq, sqrt_lt_R0, lt_0_INR. lia.
  - unfold fin at 2. rewrite map_map. apply map_ext. intros j. destruct (IC j) as (t & k & E). now rewrite E.
Qed.
End Values.

(** ** Refused *)

Theorem chainstats_short {F} {NF : Num F} fft hanning cdf npar (chain : list (list F)) results : (0 < npar)%nat -> (exists g, names_of results = Ok g) ->
  ((List.length chain < 20)%nat -> chainstats fft hanning cdf npar chain results = Err SysExit) /\
  ((20 <= List.length chain < 40)%nat -> chainstats fft hanning cdf npar chain results = Err ZeroDivision).
Proof.
  intros P (g & G). split; intros L; unfold chainstats; rewrite G; cbn [bind].
  - now rewrite (proj2 (batch_default_rejects npar chain) L).
  - destruct (batches npar chain None) as (parts & rest & _ & LP & E); [cbv zeta; lia|]. cbv zeta in LP, E. rewrite E.
    destruct (default_batches (List.length chain)) as (_ & B); [lia|]. rewrite <- LP in B.
    destruct (List.length parts <? 2)%nat eqn:T; [apply Nat.ltb_lt in T; lia|]. cbn [bind].
    assert (PA : portion (1 # 10) (List.length chain) = (List.length chain / 10)%nat) by apply portion_tenth.
    assert (PB : portion (1 # 2) (List.length chain) = (List.length chain / 2)%nat) by apply portion_half.
    pose proof (Nat.div_mod (List.length chain) 10). pose proof (Nat.mod_upper_bound (List.length chain) 10).
    pose proof (Nat.div_mod (List.length chain) 2). pose proof (Nat.mod_upper_bound (List.length chain) 2).
    unfold geweke. cbv zeta. rewrite PA, PB.
    destruct (_ <=? _)%nat eqn:T2; [apply Nat.leb_le in T2; lia|].
    rewrite spectral_err; auto. unfold slice. cbn [skipn]. rewrite Nat.sub_0_r, firstn_length. lia.
Qed.
Theorem chainstats_names {F} {NF : Num F} fft hanning cdf npar (chain : list (list F)) results g : names_of results = Ok (Some g) ->
  (0 < npar)%nat -> (npar < List.length g)%nat -> (40 <= List.length chain)%nat -> chainstats fft hanning cdf npar chain results = Err IndexError.
Proof.
  intros G P L N. unfold chainstats. rewrite G. cbn [bind].
  destruct (batches npar chain None) as (parts & rest & _ & LP & E); [cbv zeta; lia|]. cbv zeta in LP, E. rewrite E.
  destruct (default_batches (List.length chain)) as (_ & B); [lia|]. rewrite <- LP in B.
  destruct (List.length parts <? 2)%nat eqn:T; [apply Nat.ltb_lt in T; lia|]. cbn [bind].
  destruct (proj2 (proj2 (geweke_default hanning cdf npar chain P)) N) as ((z & p) & ->). cbn [bind].
  unfold integrated_autocorrelation_time. destruct (List.length chain =? 0)%nat eqn:Z; [apply Nat.eqb_eq in Z; lia|]. cbn [bind].
  destruct (npar <? _)%nat eqn:T2; auto. apply Nat.ltb_ge in T2. rewrite names_length in T2. lia.
Qed.

(** ** The results of a run, and the same results read from their file *)

Lemma exported {F} {NF : Num F} ox mx x (r : results F) h (d : nat) f : Forall wf (option_values ox) -> wf (mx_Nshape mx) ->
  results_and_export ox mx x r = Ok (h, d, f) ->
  exists D, nth_error h d = Some D /\
    lookup "names"%string D = Some (PList (map PStr (rr_names r))) /\ lookup "nsimu"%string D = Some (PInt (Z.of_nat (rr_nsimu r))) /\
    (forall l, rr_iacce r = Some l -> lookup "iacce"%string D = Some (PArrZ l)).
Proof.
  intros WO WM H. destruct (results_file ox mx x r h d f WO WM H) as (D & so & sm & _ & _ & HD & _). exists D. split; auto.
  unfold results_and_export in H.
  destruct (options_keys (rr_opts r) ox) as [NO LO]. destruct (model_keys (rr_model r) mx) as [NM LM].
  destruct (generate_ok _ _ r (mx_prior_type mx) x NO NM LO LM) as (h0 & G & _ & _ & G2). rewrite G in H. cbn [bind] in H.
  set (D0 := sets (entries (options_dict (rr_opts r) ox) (model_dict (rr_model r) mx) r (mx_prior_type mx) x) []) in *.
  assert (HD0 : nth_error h d = Some D0).
  { destruct (o_save_to_json (rr_opts r)); [|now injection H as <- <- <-].
    destruct (o_save_lightly (rr_opts r)).
    - destruct (export_light_ok h0 2 D0 G2) as (h1 & K1 & E1).
      { apply sets_nodup. constructor. }
      { intros k I. enough (exists v, lookup k D0 = Some v) as (v & ->) by discriminate.
        cbn in I. destruct I as [<-|[<-|[<-|[]]]]; eexists; apply lookup_later; reflexivity. }
      rewrite E1 in H. clear E1. destruct (result_path D0) as [p|]; cbn [bind] in H; [|discriminate].
      destruct (encode _) as [j|]; cbn [bind] in H; [|discriminate]. injection H as <- <- <-. now apply K1.
    - destruct (export_simulation_results_to_json_file h0 2) as [[h1 [p j]]|] eqn:E1; cbn [bind] in H; [|discriminate].
      injection H as <- <- <-. apply (export_path_full _ _ D0) in E1 as (-> & _ & _); auto using kept_refl. }
  assert (D = D0) by congruence. subst D. split; [now apply lookup_basic|]. split; [now apply lookup_basic|].
  intros l L. apply lookup_entries. apply In_lookup; [apply entries_nodup|]. unfold entries. apply in_or_app. right. apply in_or_app. left.
  unfold dram_entries. rewrite L. right. now left.
Qed.

Theorem figures_exported (E : env XR) ps m m' chain ox mx x :
  session E ps m -> run_simulation E false m = Ok m' -> (1 < o_ntry (m_opts m))%nat -> m_chain m' = finm chain ->
  Forall wf (option_values ox) -> wf (mx_Nshape mx) ->
  exists r iacce, m_results m' = Some r /\ rr_iacce r = Some iacce /\
    let n := o_nsimu (m_opts m) in
    forall h (d : nat) f, results_and_export ox mx x r = Ok (h, d, f) ->
    exists D u, nth_error h d = Some D /\
      acceptance_info (m_chain m') (Some D) = Ok (mkfigures (Some (iacce, fold_right Z.add 0%Z iacce, Z.of_nat n)) u n) /\
      different (Rcol 0 chain) u /\ (1 <= u)%nat /\ (Z.of_nat u <= fold_right Z.add 0 iacce <= Z.of_nat n)%Z /\
      names_of (Some D) = Ok (Some (rr_names r)) /\
      match f with
      | None => True
      | Some (_, j) => exists L, load_json_object j = Ok L /\ acceptance_info (m_chain m') (Some L) = Err AttributeError
      end.
Proof.
  intros HS HR HT HC WO WM. destruct (figures_of_run E ps m m' chain HS HR HT HC) as (r & iacce & R1 & R2 & H).
  exists r, iacce. split; auto. split; auto. intros n h d f X.
  destruct (exported ox mx x r h d f WO WM X) as (D & HD & D1 & D2 & D3). specialize (D3 _ R2).
  assert (NS : rr_nsimu r = n).
  { destruct (run_course E ps false m m' (session_minv _ _ _ HS) ltac:(discriminate) HR) as (start & evs & _ & _ & _ & r' & Q1 & Q2 & _). unfold n. congruence. }
  rewrite NS in D2. destruct (H D (conj D3 D2)) as (u & U1 & U2 & U3 & U4). exists D, u. repeat (split; [assumption|]). split.
  { unfold names_of. rewrite D1. rewrite (BatchFacts.mapM_ok _ (fun v => match v with PStr s => s | _ => EmptyString end)).
    - cbn [bind]. rewrite map_map. now rewrite map_id.
    - intros a I. apply in_map_iff in I as (s & <- & _). reflexivity. }
  destruct (results_file ox mx x r h d f WO WM X) as (D' & so & sm & _ & _ & HD' & _ & _ & _ & _ & _ & _ & _ & FF).
  assert (D' = D) by congruence. subst D'. destruct f as [[p j]|]; auto. destruct FF as (_ & _ & L & L1 & _ & L3).
  exists L. split; auto. unfold acceptance_info.
  assert (G : forall k, mem arrays k = false -> forall v, lookup k D = Some v -> exists w, lookup k L = Some w /\ reads_as v w).
  { intros k K v. specialize (L3 k). rewrite K, andb_false_r in L3. apply L3. }
  destruct (G "iacce"%string eq_refl _ D3) as (w & W1 & W2). inversion W2; subst. rewrite W1.
  destruct (G "nsimu"%string eq_refl _ D2) as (w' & W3 & W4). inversion W4; subst. rewrite W3. reflexivity.
Qed.
