(** Continued runs of well-formed problems come to an end. *)

From Coq Require Import ZArith QArith Bool Lia List String.
From Verif Require Import Base Num Samplers Adapt Settings Simulator SamplerFacts RunSpec RunFacts RunLift SessionFacts ResumeFacts AdaptRun CleanFacts CompleteSpec CompleteFacts CompleteRun.
Import ListNotations.
Open Scope list_scope.
Open Scope nat_scope.
Open Scope res_scope.

Section Resume.
Context {F : Type} `{NF : Num F}.
Variable E : env F.

Lemma fine_params G names theta : forall parind ii (ps : list (param F)), ii + List.length parind <= List.length names ->
  Forall (fun i => i < List.length theta) parind -> fine G (fun _ => True) (results_to_params_loop ii names theta parind ps).
Proof.
  induction parind as [|i t IH]; intros ii ps H1 H2; cbn [results_to_params_loop]; [exact I|]. cbn [List.length] in H1. inversion H2; subst.
  eapply fine_bind; [apply fine_nth; lia|]. intros name _ _. eapply fine_bind; [apply fine_nth; auto|]. intros v _ _. apply IH; [lia|auto].
Qed.

Lemma fill_length : forall (ps : list (param F)) row, List.length (fill ps row) = List.length ps.
Proof. induction ps as [|p ps IH]; intros row; cbn [fill]; [reflexivity|]. destruct (a_sample p); [destruct row|]; cbn [List.length]; f_equal; apply IH. Qed.

Lemma inside_in (ps : list (param F)) : inside ps (map (@a_theta0 F) (sampled_params ps)) ->
  forall p, In p ps -> a_sample p = true -> nlt (a_theta0 p) (a_min p) = false /\ nlt (a_max p) (a_theta0 p) = false.
Proof.
  unfold inside. intros H p H1 H2. assert (X : In p (sampled_params ps)) by (apply filter_In; auto). revert H X. generalize (sampled_params ps). intros l.
  induction l as [|a l IH]; [intros _ []|]. cbn [map]. intros H. inversion H; subst. intros [->|X]; auto.
Qed.

Lemma other_starts (ps ps' : list (param F)) : same_decls ps ps' ->
  (forall p, In p ps' -> a_sample p = true -> nlt (a_theta0 p) (a_min p) = false /\ nlt (a_max p) (a_theta0 p) = false) -> Forall2 other_start ps ps'.
Proof.
  intros H. induction H as [|p q l l' Hp H IH]; intros HX; constructor.
  - destruct Hp as (A1 & A2 & A3 & A4 & A5 & A6 & A7). unfold other_start. do 6 (split; [congruence|]). split.
    + intros Hs. symmetry. auto.
    + intros Hs. rewrite A2, A3. apply HX; [left; auto|congruence].
  - apply IH. intros; apply HX; auto. right; auto.
Qed.

Variables (ps : list (param F)) (d : data F) (ms : modset F) (o : simopts F) (nsos : nat).
Hypothesis W : settings_fit E ps d ms nsos.
Hypothesis C : can_continue ps d ms o nsos.

Definition ready (m : mcmc F) : Prop :=
  session E ps m /\ m_data m = d /\ m_status m = true /\ sized nsos (m_model m) /\
  (exists x, m_s2chain m = Some x /\ Forall (fun r => List.length r = nsos) x) /\
  agrees nsos (dt_n d) (lst (ms_N (m_model m))) /\ (nsos = 1 -> List.length (lst (ms_N (m_model m))) = 1).

Lemma session_step m a m' : session E ps m -> act E a m = Ok m' -> session E ps m'.
Proof.
  intros (d0 & ms0 & o0 & pos & l & acs & H) Ha. exists d0, ms0, o0, pos, l, (acs ++ [a]). revert H. generalize (new_mcmc ps d0 ms0 o0 pos l).
  induction acs as [|b acs IH]; intros m0 H; cbn [acts app] in *.
  - injection H as ->. rewrite Ha. reflexivity.
  - destruct (act E b m0) as [m1|]; [|discriminate]. cbn [bind] in *. auto.
Qed.

Lemma ready_options m o' : ready m -> ready (with_opts m o').
Proof. intros (R1 & R). split; [exact (session_step m (SetOptions o') _ R1 eq_refl)|exact R]. Qed.

Lemma fine_resumed m : ready m -> next_options E ps (m_opts m) -> fine True ready (run_simulation E true m).
Proof.
  intros R [Hbin HO]. set (o' := m_opts m) in *.
  assert (HS : forall m', run_simulation E true m = Ok m' -> session E ps m') by (intros m' H; exact (session_step m (Run true) m' (proj1 R) H)).
  cut (fine True (fun m' => m_data m' = d /\ m_status m' = true /\ sized nsos (m_model m') /\
    (exists x, m_s2chain m' = Some x /\ Forall (fun r => List.length r = nsos) x) /\
    agrees nsos (dt_n d) (lst (ms_N (m_model m'))) /\ (nsos = 1 -> List.length (lst (ms_N (m_model m'))) = 1)) (run_simulation E true m)).
  { intros H. destruct (run_simulation E true m) as [m'|e] eqn:Hm; [|exact H]. cbn [fine] in *. split; [apply HS; reflexivity|exact H]. }
  clear HS. destruct R as (R1 & R2 & R3 & R4 & (x & R5 & R6) & R7 & R8).
  pose proof (session_minv E ps m R1) as M.
  destruct (mi_results _ _ _ M R3) as (r & row & M1 & M2 & M3 & M4 & M5 & _). destruct (mi_len _ _ _ M R3) as (L1 & L2 & L3).
  assert (Hrow : inside ps row) by (apply (mi_rows _ _ _ M); eapply nth_error_In; eauto).
  pose proof (mi_decl _ _ _ M) as D.
  unfold run_simulation. rewrite R3, M1.
  apply fine_bind with (P := fun _ => True).
  { unfold results_to_params, restart_of. cbn [rs_names rs_theta rs_parind]. apply fine_params.
    - rewrite M4, M5, map_length, parind_length. reflexivity.
    - rewrite M3, M4, fill_length. apply Forall_forall. intros i Hi. apply flatnonzero_spec in Hi. rewrite <- (map_length (@a_sample F)). apply nth_error_Some. congruence. }
  intros ps' Hps _.
  assert (D' : same_decls ps ps') by (eapply same_decls_trans; [exact D|eapply results_to_params_same; exact Hps]).
  assert (Hth : map (@a_theta0 F) (sampled_params ps') = row).
  { eapply (restart_from_row ps (m_params m) ps' row (restart_of r)); auto; [exact (cc_names _ _ _ _ _ C)|exact (inside_length _ _ Hrow)]. }
  assert (Hin : inside ps' (map (@a_theta0 F) (sampled_params ps'))).
  { rewrite Hth. destruct (same_decls_maps _ _ D') as (_ & _ & _ & Q1 & Q2). unfold inside in *. revert Hrow Q1 Q2. clear. generalize (sampled_params ps') (sampled_params ps). intros l l0 H. revert l.
    induction H as [|p t l0 l1 Hp H IH]; intros [|q l]; cbn [map]; try discriminate; intros Q1 Q2; constructor.
    - injection Q1 as <- _. injection Q2 as <- _. exact Hp.
    - apply IH; congruence. }
  assert (OS : Forall2 other_start ps ps') by (apply other_starts; [exact D'|apply inside_in; exact Hin]).
  specialize (HO ps' OS).
  assert (Hlen : List.length ps' = List.length ps) by (symmetry; eapply RunLift.Forall2_len; exact OS).
  destruct R4 as ((sg & S1 & S1') & (N & S2 & S2') & (z & S3 & S3') & S4).
  assert (W1 : settings_fit E ps' d (m_model m) nsos).
  { destruct W as [W3 W4 W5 W6 W7 W8 W9 W10 W11 W12]. constructor; auto.
    - destruct W3 as (p & P1 & P2). apply In_nth_error in P1 as [k Hk].
      assert (Y : exists p', nth_error ps' k = Some p' /\ other_start p p').
      { revert Hk. clear -OS. revert k. induction OS as [|a b l l' H O IH]; intros [|k] Hk; try discriminate; cbn in *; [injection Hk as ->; eauto|eauto]. }
      destruct Y as (p' & Hk' & (_ & _ & _ & _ & Y & _)). exists p'. split; [eapply nth_error_In; eauto|congruence].
    - intros p' Hp Hs. split; [|apply (inside_in ps' Hin); auto].
      assert (Y : exists p, In p ps /\ other_start p p').
      { revert Hp. clear -OS. induction OS as [|a b l l' H O IH]; [intros []|]. intros [->|Hp]; [exists a; split; [left; auto|auto]|]. destruct (IH Hp) as (p & ? & ?). exists p. split; [right|]; auto. }
      destruct Y as (p & Hp' & (_ & Y1 & Y2 & _ & Y3 & _)). rewrite Y1, Y2. apply W4; [auto|congruence].
    - intros v Hv. apply W6. congruence.
    - intros s Hs. right. congruence.
    - intros s Hs. right. congruence.
    - right. exact S4.
    - intros Hs. congruence.
    - intros N' HN. rewrite HN in R7. exact R7. }
  assert (C1 : can_continue ps' d (m_model m) o' nsos).
  { destruct C as [C1 C2 C3 C4 C5]. constructor; auto.
    - right. congruence.
    - destruct (same_decls_maps _ _ D') as (_ & _ & Q & _). rewrite <- Q. exact C2.
    - intros H1 N' HN. specialize (R8 H1). rewrite HN in R8. exact R8. }
  destruct (given_inverses E _ _ _ HO) as [Fac HF]. set (n := List.length (positions ps')) in *.
  pose proof (fine_init E True ps' d (m_model m) o' [] nsos (m_RDR m) (m_pos m) (m_calls m) Fac W1 HO HF) as HI. cbv zeta in HI. fold n in HI.
  rewrite R2. eapply fine_bind; [exact HI|]. intros ini _ (A1 & A2 & A3 & A4 & A5 & A6 & A7 & A8 & A9 & A10). clear HI.
  rewrite S3 in A2. assert (Hu : o_updatesigma (i_opts ini) = true) by (rewrite A2; reflexivity).
  assert (Hop : List.length (op_parind (i_op ini)) = n) by (rewrite A1; change (op_parind (check_prior_sigma (openparameterstructure ps'))) with (op_parind (openparameterstructure ps')); rewrite op_parind_open; reflexivity).
  assert (Hsim : o_nsimu (i_opts ini) = o_nsimu o') by (rewrite A2; reflexivity).
  pose proof (wf_nsimu _ _ _ _ HO) as H2.
  assert (Hn : n = List.length (sampled_params ps)).
  { unfold n, positions. rewrite parind_length. destruct (same_decls_maps _ _ D') as (_ & _ & Q & _). apply (f_equal (@List.length _)) in Q. rewrite !map_length in Q. auto. }
  assert (Hch : Forall (fun q => List.length q = n) (m_chain m)).
  { apply Forall_forall. intros q Hq. rewrite Hn. apply inside_length. apply (mi_rows _ _ _ M). exact Hq. }
  assert (Hss : Forall (fun q => List.length q = nsos) (m_sschain m)).
  { apply Forall_forall. intros q Hq. apply In_nth_error in Hq as [k Hk].
    assert (Hk' : k < List.length (m_chain m)) by (rewrite L1, <- L2; apply nth_error_Some; congruence).
    apply nth_error_Some in Hk'. destruct (nth_error (m_chain m) k) as [rw|] eqn:Hrw; [|congruence].
    destruct (mi_ss _ _ _ M k rw q Hrw Hk) as (v & (th & _ & ->) & Hv).
    apply fit_length in Hv. rewrite Hv. apply (wf_sos _ _ _ _ _ W). apply fill_length. }
  assert (HE : forall a w, Forall (fun q : list F => List.length q = w) a -> List.length a = S (m_index m) -> extend a (o_nsimu o' - 1) w = Ok (a ++ zeros (o_nsimu o' - 1) w)).
  { intros a w H1 HL. unfold extend. destruct a as [|q a]; [discriminate HL|]. inversion H1; subst. cbn [ncols]. now rewrite Nat.eqb_refl. }
  assert (HZ : forall w k, Forall (fun q : list F => List.length q = w) (zeros k w)).
  { intros w k. apply Forall_forall. intros y Hy. unfold zeros in Hy. apply repeat_spec in Hy. subst y. apply repeat_length. }
  assert (HX : expand_chains m ini = Ok (m_chain m ++ zeros (o_nsimu o' - 1) n, m_sschain m ++ zeros (o_nsimu o' - 1) nsos, Some (x ++ zeros (o_nsimu o' - 1) nsos),
                map (fun e => (fst e, freeze m (snd e))) (m_chains m))).
  { unfold expand_chains. rewrite Hu, Hsim, Hop, A4, R5. rewrite (HE _ _ Hch L1), (HE _ _ Hss L2). cbn [bind of_option]. rewrite (HE _ _ R6 (L3 x R5)). reflexivity. }
  rewrite HX. cbn [bind].
  assert (Hz : forall w k, List.length (zeros (F:=F) k w) = k) by (intros; apply repeat_length).
  pose proof (fine_prepared E m ps' d (m_model m) o' [] nsos ini (m_index m) (m_chain m ++ zeros (o_nsimu o' - 1) n) (m_sschain m ++ zeros (o_nsimu o' - 1) nsos)
     (Some (x ++ zeros (o_nsimu o' - 1) nsos)) (map (fun e => (fst e, freeze m (snd e))) (m_chains m)) Fac true W1 HO) as X. fold n in X.
  assert (P1 : o_save_to_bin o' = true -> [] = m_fs m) by congruence.
  assert (P2 : List.length (m_chain m ++ zeros (o_nsimu o' - 1) n) = m_index m + o_nsimu o') by (rewrite app_length, Hz, L1; lia).
  assert (P3 : Forall (fun q => List.length q = n) (m_chain m ++ zeros (o_nsimu o' - 1) n)) by (apply Forall_app; auto).
  assert (P4 : List.length (m_sschain m ++ zeros (o_nsimu o' - 1) nsos) = m_index m + o_nsimu o') by (rewrite app_length, Hz, L2; lia).
  assert (P5 : o_updatesigma (i_opts ini) = true -> exists y, Some (x ++ zeros (o_nsimu o' - 1) nsos) = Some y /\ List.length y = m_index m + o_nsimu o' /\ Forall (fun q => List.length q = nsos) y).
  { intros _. eexists. split; [reflexivity|]. split; [rewrite app_length, Hz, (L3 x R5); lia|apply Forall_app; auto]. }
  specialize (X P1 HF A1 A2 A3 A4 A5 A6 A7 A8 A9 P2 P3 P4 P5 ltac:(congruence)).
  destruct (run_prepared _ _ _ _ _ _) as [m'|e]; [|destruct e; try contradiction X; exact I]. cbn [fine] in *.
  destruct X as (X1 & X2 & X3). destruct (X3 Hu) as (Y1 & Y2 & Y3). destruct (A10 C1) as [Y4 Y5]. rewrite Y2. rewrite R2 in X1. auto 10.
Qed.

Lemma fine_continued os : Forall (next_options E ps) os -> forall m, ready m -> fine True ready (acts E (continued os) m).
Proof.
  induction 1 as [|o' os H1 H2 IH]; intros m R; [exact R|]. cbn [continued flat_map app acts act bind].
  eapply fine_bind; [apply (fine_resumed (with_opts m o') (ready_options m o' R) H1)|]. intros m' _ R'. exact (IH m' R').
Qed.
End Resume.
