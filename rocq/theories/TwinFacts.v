(** Two runs with the same sampling options go through the same iterations. *)

From Coq Require Import ZArith QArith Bool Lia List String.
From Verif Require Import Base Num Samplers Adapt Settings Simulator SamplerFacts RunSpec RunFacts RunLift SessionFacts AdaptRun TwinSpec.
Import ListNotations.
Open Scope list_scope.
Open Scope nat_scope.
Open Scope res_scope.

Definition upto {A} (n : nat) (a b : list A) : Prop := firstn n a = firstn n b.
Definition upto_opt {A} (n : nat) (a b : option (list A)) : Prop :=
  match a, b with Some x, Some y => upto n x y | None, None => True | _, _ => False end.

Lemma firstn_S_set {A} i (v : A) : forall l, i < List.length l -> firstn (S i) (set_nth i v l) = firstn i l ++ [v].
Proof.
  induction i as [|i IH]; intros [|h t] H; simpl in *; try lia; auto.
  f_equal. apply IH. lia.
Qed.

Lemma upto_set {A} i (v : A) a b : upto i a b -> i < List.length a -> i < List.length b ->
  upto (S i) (set_nth i v a) (set_nth i v b).
Proof. unfold upto. intros H La Lb. now rewrite !firstn_S_set, H by auto. Qed.

Lemma upto_le {A} n k (a b : list A) : k <= n -> upto n a b -> upto k a b.
Proof.
  unfold upto. intros Hk H.
  assert (E : forall l : list A, firstn k l = firstn k (firstn n l)) by (intros l; now rewrite firstn_firstn, Nat.min_l).
  now rewrite (E a), (E b), H.
Qed.

Lemma slice_upto {A} a b (x y : list A) : upto b x y -> slice a b x = slice a b y.
Proof. unfold upto. intros H. rewrite !slice_firstn, H. reflexivity. Qed.

Section Twin.
Context {F : Type} `{NF : Num F}.
Variable E : env F.

(** What must agree of the constants of the two loops. *)
Record same_const (K1 K2 : rconst F) : Prop := {
  sc_view : k_view K1 = k_view K2;
  sc_nsos : k_nsos K1 = k_nsos K2;
  sc_N0 : k_N0 K1 = k_N0 K2;
  sc_N : k_N K1 = k_N K2;
  sc_alias : k_alias K1 = k_alias K2;
  sc_opts : sampling_of (k_opts K1) = sampling_of (k_opts K2)
}.

Record twin (s1 s2 : rstate F) : Prop := {
  tw_index : r_index s1 = r_index s2;
  tw_iiadapt : r_iiadapt s1 = r_iiadapt s2;
  tw_old : r_old s1 = r_old s2;
  tw_rej : r_rej s1 = r_rej s2;
  tw_rejin : r_rejin s1 = r_rejin s2;
  tw_rejout : r_rejout s1 = r_rejout s2;
  tw_chain : upto (S (r_index s1)) (r_chain s1) (r_chain s2);
  tw_ss : upto (S (r_index s1)) (r_ss s1) (r_ss s2);
  tw_s2 : upto_opt (S (r_index s1)) (r_s2 s1) (r_s2 s2);
  tw_cov : r_cov s1 = r_cov s2;
  tw_sigma2 : r_sigma2 s1 = r_sigma2 s2;
  tw_S20 : r_S20 s1 = r_S20 s2;
  tw_iacce : r_iacce s1 = r_iacce s2;
  tw_io : r_io s1 = r_io s2;
  tw_trace : map what_happened (r_trace s1) = map what_happened (r_trace s2)
}.

Section Loop.
Variables K1 K2 : rconst F.
Hypothesis HK : same_const K1 K2.

Lemma opts_ntry : o_ntry (k_opts K1) = o_ntry (k_opts K2).
Proof. pose proof (sc_opts _ _ HK) as H. unfold sampling_of in H. congruence. Qed.
Lemma opts_adaptint : o_adaptint (k_opts K1) = o_adaptint (k_opts K2).
Proof. pose proof (sc_opts _ _ HK) as H. unfold sampling_of in H. congruence. Qed.
Lemma opts_updatesigma : o_updatesigma (k_opts K1) = o_updatesigma (k_opts K2).
Proof. pose proof (sc_opts _ _ HK) as H. unfold sampling_of in H. congruence. Qed.
Lemma opts_ado : ado_of (k_opts K1) = ado_of (k_opts K2).
Proof. pose proof (sc_opts _ _ HK) as H. unfold sampling_of in H. unfold ado_of. congruence. Qed.

Lemma sample_twin s1 s2 : twin s1 s2 -> sample_step E K1 s1 = sample_step E K2 s2.
Proof.
  intros T. unfold sample_step, delayed_rejection_call.
  rewrite (tw_cov _ _ T), (tw_old _ _ T), (tw_io _ _ T), (tw_iacce _ _ T), (sc_view _ _ HK), opts_ntry. reflexivity.
Qed.

(** As [twin], with the two arrays of error variances one row behind. *)
Record half (s1 s2 : rstate F) : Prop := {
  hf_index : r_index s1 = r_index s2;
  hf_iiadapt : r_iiadapt s1 = r_iiadapt s2;
  hf_old : r_old s1 = r_old s2;
  hf_rej : r_rej s1 = r_rej s2;
  hf_rejin : r_rejin s1 = r_rejin s2;
  hf_rejout : r_rejout s1 = r_rejout s2;
  hf_chain : upto (S (r_index s1)) (r_chain s1) (r_chain s2);
  hf_ss : upto (S (r_index s1)) (r_ss s1) (r_ss s2);
  hf_s2 : upto_opt (r_index s1) (r_s2 s1) (r_s2 s2);
  hf_cov : r_cov s1 = r_cov s2;
  hf_sigma2 : r_sigma2 s1 = r_sigma2 s2;
  hf_S20 : r_S20 s1 = r_S20 s2;
  hf_iacce : r_iacce s1 = r_iacce s2;
  hf_io : r_io s1 = r_io s2;
  hf_trace : map what_happened (r_trace s1) = map what_happened (r_trace s2)
}.

Lemma update_twin s1 s2 smp t1 t2 : twin s1 s2 -> update_chain K1 s1 smp = Ok t1 -> update_chain K2 s2 smp = Ok t2 ->
  half t1 t2.
Proof.
  intros T H1 H2. destruct smp as [[[[[stage new] outb] z] iacce] s]. unfold update_chain in H1, H2.
  rewrite (tw_old _ _ T), (sc_view _ _ HK), (sc_nsos _ _ HK) in H1.
  peel H1. peel H1. peel H1. peel H1. inv H1. peel H2. peel H2. peel H2. peel H2. inv H2.
  rewrite E4 in E0. inv E0. rewrite E6 in E2. inv E2.
  apply write_ok in E1 as [L1 ->]; apply write_ok in E3 as [L2 ->]; apply write_ok in E5 as [L3 ->]; apply write_ok in E7 as [L4 ->].
  destruct T as [T1 T2 T3 T4 T5 T6 T7 T8 T9 T10 T11 T12 T13 T14 T15].
  split; cbn [r_index r_iiadapt r_old r_rej r_rejin r_rejout r_chain r_ss r_s2 r_cov r_sigma2 r_S20 r_iacce r_io r_trace];
    rewrite <- ?T1 in *; rewrite ?T2, ?T3, ?T4, ?T5, ?T6; auto.
  - apply upto_set; auto.
  - apply upto_set; auto.
  - cbn [map]. f_equal; auto. unfold what_happened. cbn. now rewrite T10, T14.
Qed.

Lemma adapt_twin i z al s1 s2 t1 t2 : half s1 s2 -> adapt_step E K1 i z al s1 = Ok t1 -> adapt_step E K2 i z al s2 = Ok t2 ->
  half t1 t2.
Proof.
  intros T H1 H2. unfold adapt_step in H1, H2. rewrite opts_adaptint, (hf_iiadapt _ _ T) in H1.
  destruct ((0 <? o_adaptint (k_opts K2)) && (Z.of_nat (r_iiadapt s2) =? o_adaptint (k_opts K2)))%Z; [|inv H1; inv H2; exact T].
  peel H1. inv H1. peel H2. inv H2.
  assert (a = a0).
  { unfold run_adaptation in E0, E1.
    rewrite (hf_cov _ _ T), (hf_rejin _ _ T), (sc_view _ _ HK), opts_ado,
      (slice_upto _ _ _ _ (upto_le _ _ _ _ (Nat.le_succ_diag_r _) (hf_chain _ _ T))), (hf_index _ _ T) in E0. congruence. }
  subst a0. destruct T as [T1 T2 T3 T4 T5 T6 T7 T8 T9 T10 T11 T12 T13 T14 T15].
  split; cbn [r_index r_iiadapt r_old r_rej r_rejin r_rejout r_chain r_ss r_s2 r_cov r_sigma2 r_S20 r_iacce r_io r_trace]; auto.
Qed.

Lemma sigma_twin s1 s2 t1 t2 : half s1 s2 -> sigma_step E K1 s1 = Ok t1 -> sigma_step E K2 s2 = Ok t2 ->
  (o_updatesigma (k_opts K2) = false -> upto_opt (S (r_index s1)) (r_s2 s1) (r_s2 s2)) -> twin t1 t2.
Proof.
  intros T H1 H2 Hn. unfold sigma_step in H1, H2. rewrite opts_updatesigma in H1.
  destruct (o_updatesigma (k_opts K2)).
  - clear Hn. rewrite (hf_old _ _ T), (hf_sigma2 _ _ T), (hf_S20 _ _ T), (hf_io _ _ T), (sc_N0 _ _ HK), (sc_N _ _ HK), (sc_alias _ _ HK), (sc_nsos _ _ HK) in H1.
    peel H1. destruct a as [[sg S0] io0]. peel H1. peel H1. peel H1. inv H1.
    peel H2. destruct a2 as [[sg' S0'] io0']. peel H2. peel H2. peel H2. inv H2.
    rewrite E4 in E0. inv E0. rewrite E5 in E1. inv E1.
    apply write_ok in E3 as [L1 ->]; apply write_ok in E7 as [L2 ->].
    destruct T as [T1 T2 T3 T4 T5 T6 T7 T8 T9 T10 T11 T12 T13 T14 T15].
    destruct (r_s2 s1) as [x1|]; [|discriminate]. destruct (r_s2 s2) as [x2|]; [|discriminate].
    cbn in E2, E6. inv E2. inv E6. cbn in T9.
    split; cbn [r_index r_iiadapt r_old r_rej r_rejin r_rejout r_chain r_ss r_s2 r_cov r_sigma2 r_S20 r_iacce r_io r_trace];
      rewrite <- ?T1 in *; rewrite ?T3; auto.
    apply upto_set; auto.
  - inv H1. inv H2. specialize (Hn eq_refl).
    destruct T as [T1 T2 T3 T4 T5 T6 T7 T8 T9 T10 T11 T12 T13 T14 T15]. split; auto.
Qed.

Lemma save_twin i s1 s2 t1 t2 : twin s1 s2 -> save_step K1 i s1 = Ok t1 -> save_step K2 i s2 = Ok t2 -> twin t1 t2.
Proof.
  intros T H1 H2. destruct T as [T1 T2 T3 T4 T5 T6 T7 T8 T9 T10 T11 T12 T13 T14 T15].
  unfold save_step in H1, H2.
  destruct (Z.of_nat (r_savecount s1) =? o_savesize (k_opts K1))%Z.
  - peel H1. peel H1. inv H1.
    destruct (Z.of_nat (r_savecount s2) =? o_savesize (k_opts K2))%Z; [peel H2; peel H2|]; inv H2; split; auto.
  - inv H1.
    destruct (Z.of_nat (r_savecount s2) =? o_savesize (k_opts K2))%Z; [peel H2; peel H2|]; inv H2; split; auto.
Qed.

(** Without error-variance updates the two arrays are [None]. *)
Definition no_s2 (K : rconst F) (s : rstate F) : Prop := o_updatesigma (k_opts K) = false -> r_s2 s = None.

Lemma step_no_s2 K i s t : no_s2 K s -> step E K i s = Ok t -> no_s2 K t.
Proof.
  intros Hn H Hu. specialize (Hn Hu). unfold step in H. peel H. destruct a as [[[[[stage new] outb] z] iacce] io0].
  peel H. peel H. peel H.
  assert (r_s2 a = None).
  { unfold update_chain in E1. peel E1. peel E1. peel E1. peel E1. inv E1. exact Hn. }
  assert (r_s2 a0 = None).
  { unfold adapt_step in E2. destruct (_ && _)%bool; [peel E2|]; inv E2; auto. }
  assert (r_s2 a1 = None).
  { unfold sigma_step in E3. rewrite Hu in E3. inv E3. auto. }
  unfold save_step in H. destruct (_ =? _)%Z; [peel H; peel H|]; inv H; auto.
Qed.

Lemma step_twin i s1 s2 t1 t2 : twin s1 s2 -> no_s2 K1 s1 -> no_s2 K2 s2 ->
  step E K1 i s1 = Ok t1 -> step E K2 i s2 = Ok t2 -> twin t1 t2.
Proof.
  intros T N1 N2 H1 H2. unfold step in H1, H2. rewrite (sample_twin _ _ T) in H1.
  peel H1. rewrite E0 in H2. cbn [bind] in H2. destruct a as [[[[[stage new] outb] z] iacce] io0].
  peel H1. peel H1. peel H1. peel H2. peel H2. peel H2.
  assert (Q1 := update_twin _ _ _ _ _ T E1 E4). assert (Q2 := adapt_twin _ _ _ _ _ _ _ Q1 E2 E5).
  assert (Q3 : twin a1 a4).
  { refine (sigma_twin _ _ _ _ Q2 E3 E6 _). intros Hu.
    assert (Z1 : r_s2 a = None).
    { unfold update_chain in E1. peel E1. peel E1. peel E1. peel E1. inv E1. apply N1. now rewrite opts_updatesigma. }
    assert (Z2 : r_s2 a2 = None).
    { unfold update_chain in E4. peel E4. peel E4. peel E4. peel E4. inv E4. apply N2. auto. }
    assert (Z3 : r_s2 a0 = None).
    { unfold adapt_step in E2. destruct (_ && _)%bool; [peel E2|]; inv E2; auto. }
    assert (Z4 : r_s2 a3 = None).
    { unfold adapt_step in E5. destruct (_ && _)%bool; [peel E5|]; inv E5; auto. }
    rewrite Z3, Z4. exact I. }
  exact (save_twin _ _ _ _ _ Q3 H1 H2).
Qed.

Lemma iterate_twin is : forall s1 s2 t1 t2, twin s1 s2 -> no_s2 K1 s1 -> no_s2 K2 s2 ->
  iterate E K1 is s1 = Ok t1 -> iterate E K2 is s2 = Ok t2 -> twin t1 t2 /\ no_s2 K1 t1 /\ no_s2 K2 t2.
Proof.
  induction is as [|i is IH]; intros s1 s2 t1 t2 T N1 N2 H1 H2; cbn in H1, H2.
  - inv H1. inv H2. auto.
  - peel H1. peel H2. eapply (IH a a0); eauto using step_no_s2. eapply step_twin; eauto.
Qed.

(** ** The second run does not fail where the first did not, unless writing a binary log fails *)

Definition room (k : nat) (s : rstate F) : Prop :=
  r_index s + k < List.length (r_chain s) /\ r_index s + k < List.length (r_ss s) /\
  (forall x, r_s2 s = Some x -> r_index s + k < List.length x).

Lemma write_lt {A} i (v : A) l : i < List.length l -> write i v l = Ok (set_nth i v l).
Proof. intros H. unfold write. apply Nat.ltb_lt in H. now rewrite H. Qed.

Lemma save_chains_txt dir a b chains : forall l, exists l', save_chains false dir a b chains l = Ok (l' : list (fop F)).
Proof.
  induction chains as [|[f m] t IH]; intros l; cbn; eauto.
Qed.

Lemma save_step_ok i s : o_save_to_bin (k_opts K2) = false -> exists t, save_step K2 i s = Ok t.
Proof.
  intros Hb. unfold save_step. destruct (_ =? _)%Z; [|eauto].
  unfold save_to_log_file, save_covmtx. rewrite Hb. cbn [bind].
  destruct (o_save_to_txt (k_opts K2)); cbn [bind]; [|eauto].
  destruct (save_chains_txt (o_savedir (k_opts K2)) (i - Z.to_nat (o_savesize (k_opts K2))) i (logged K2 s)
             (r_fs s ++ [FLog (txtlog (o_savedir (k_opts K2))) (i - Z.to_nat (o_savesize (k_opts K2))) (i - 1)])) as (l' & ->).
  cbn [bind]. eauto.
Qed.

Lemma step_twin_ok i k s1 s2 t1 : twin s1 s2 -> no_s2 K1 s1 -> no_s2 K2 s2 -> o_save_to_bin (k_opts K2) = false ->
  room (S k) s2 -> step E K1 i s1 = Ok t1 -> exists t2, step E K2 i s2 = Ok t2 /\ room k t2.
Proof.
  intros T N1 N2 Hb (R1 & R2 & R3) H1. pose proof H1 as H1'.
  unfold step in H1. rewrite (sample_twin _ _ T) in H1. peel H1. destruct a as [[[[[stage new] outb] z] iacce] io0].
  peel H1. peel H1. peel H1.
  assert (U : exists a', update_chain K2 s2 (stage, new, outb, z, iacce, io0) = Ok a').
  { unfold update_chain in E1 |- *. rewrite (tw_old _ _ T), (sc_view _ _ HK), (sc_nsos _ _ HK) in E1.
    peel E1. rewrite E4. cbn [bind]. rewrite (write_lt (S (r_index s2)) _ (r_chain s2)) by lia. cbn [bind]. peel E1. peel E1. rewrite E6. cbn [bind].
    rewrite (write_lt (S (r_index s2)) _ (r_ss s2)) by lia. cbn [bind]. eauto. }
  destruct U as (a' & U). pose proof (update_twin _ _ _ _ _ T E1 U) as Q1.
  assert (V : exists b', adapt_step E K2 i z (p_alpha new) a' = Ok b').
  { unfold adapt_step in E2 |- *. rewrite opts_adaptint, (hf_iiadapt _ _ Q1) in E2.
    destruct (_ && _)%bool; [|eauto]. peel E2.
    unfold run_adaptation in E4 |- *.
    rewrite (hf_cov _ _ Q1), (hf_rejin _ _ Q1), (sc_view _ _ HK), opts_ado,
      (slice_upto _ _ _ _ (upto_le _ _ _ _ (Nat.le_succ_diag_r _) (hf_chain _ _ Q1))), (hf_index _ _ Q1) in E4.
    rewrite E4. cbn [bind]. eauto. }
  destruct V as (b' & V). pose proof (adapt_twin _ _ _ _ _ _ _ Q1 E2 V) as Q2.
  assert (Fa : r_index a' = S (r_index s2) /\ r_s2 a' = r_s2 s2).
  { unfold update_chain in U. peel U. peel U. peel U. peel U. inv U. auto. }
  assert (Fb : r_index b' = S (r_index s2) /\ r_s2 b' = r_s2 s2).
  { unfold adapt_step in V. destruct (_ && _)%bool; [peel V|]; inv V; auto. }
  destruct Fb as (Fb1 & Fb2).
  assert (W : exists c', sigma_step E K2 b' = Ok c').
  { unfold sigma_step in E3 |- *. rewrite opts_updatesigma in E3. destruct (o_updatesigma (k_opts K2)); [|eauto].
    rewrite (hf_old _ _ Q2), (hf_sigma2 _ _ Q2), (hf_S20 _ _ Q2), (hf_io _ _ Q2), (sc_N0 _ _ HK), (sc_N _ _ HK), (sc_alias _ _ HK), (sc_nsos _ _ HK) in E3.
    peel E3. rewrite E4. destruct a2 as [[sg S0] io1]. cbn [bind]. peel E3. rewrite E5. cbn [bind]. peel E3.
    pose proof (hf_s2 _ _ Q2) as X. destruct (r_s2 a0) as [x|]; [|discriminate]. destruct (r_s2 b') as [y|]; [|destruct X].
    cbn [of_option bind]. symmetry in Fb2. specialize (R3 _ Fb2). rewrite (write_lt (r_index b') _ y) by lia. cbn [bind]. eauto. }
  destruct W as (c' & W).
  destruct (save_step_ok i c' Hb) as (t2 & X).
  assert (St : step E K2 i s2 = Ok t2).
  { unfold step. rewrite <- (sample_twin _ _ T), (sample_twin _ _ T), E0. cbn [bind]. rewrite U. cbn [bind].
    rewrite V. cbn [bind]. rewrite W. cbn [bind]. exact X. }
  exists t2. split; [exact St|].
  apply step_summary in St as (? & ? & ? & ? & ? & ? & _ & St). cbv zeta in St.
  destruct St as (A1 & _ & _ & _ & (? & _ & _ & A2) & (? & _ & _ & A3) & _ & _ & _ & _ & _ & _ & _ & A4 & _).
  unfold room. rewrite A1, A2, A3, !set_nth_length. split; [lia|]. split; [lia|].
  intros x' Hx. rewrite Hx in A4. cbn in A4. destruct (r_s2 s2) as [y|]; [|discriminate]. cbn in A4. injection A4 as A4.
  specialize (R3 _ eq_refl). lia.
Qed.

Lemma iterate_twin_ok is : forall k s1 s2 t1, twin s1 s2 -> no_s2 K1 s1 -> no_s2 K2 s2 -> o_save_to_bin (k_opts K2) = false ->
  room (List.length is + k) s2 -> iterate E K1 is s1 = Ok t1 -> exists t2, iterate E K2 is s2 = Ok t2.
Proof.
  induction is as [|i is IH]; intros k s1 s2 t1 T N1 N2 Hb HR H1; cbn [iterate] in H1 |- *.
  - eauto.
  - peel H1. destruct (step_twin_ok i (List.length is + k) s1 s2 a T N1 N2 Hb HR E0) as (a2 & S2 & R2).
    rewrite S2. cbn [bind]. apply (IH k a a2 t1); eauto using step_no_s2. exact (step_twin i s1 s2 a a2 T N1 N2 E0 S2).
Qed.

End Loop.

Lemma upto_nth {A} n : forall a b : list A, (forall k, k < n -> nth_error a k = nth_error b k) -> upto n a b.
Proof.
  unfold upto. induction n as [|n IH]; intros a b H; [reflexivity|].
  pose proof (H 0 ltac:(lia)) as H0. destruct a as [|x a], b as [|y b]; try discriminate; [reflexivity|].
  inversion H0; subst. cbn [firstn]. f_equal. apply IH. intros k Hk. exact (H (S k) ltac:(lia)).
Qed.

Lemma upto_trans {A} n (a b c : list A) : upto n a b -> upto n b c -> upto n a c.
Proof. unfold upto. congruence. Qed.

Lemma upto_opt_trans {A} n (a b c : option (list A)) : upto_opt n a b -> upto_opt n b c -> upto_opt n a c.
Proof. destruct a, b, c; cbn; try tauto. apply upto_trans. Qed.

Lemma upto_opt_le {A} n k (a b : option (list A)) : k <= n -> upto_opt n a b -> upto_opt k a b.
Proof. destruct a, b; cbn; try tauto. apply upto_le. Qed.

Lemma upto_zeros (a : list (list F)) n1 n2 w k : k <= List.length a + n1 -> k <= List.length a + n2 ->
  upto k (a ++ zeros n1 w) (a ++ zeros n2 w).
Proof.
  intros H1 H2. unfold upto. rewrite !firstn_app. f_equal. unfold zeros.
  assert (G : forall j n (x : list F), j <= n -> firstn j (repeat x n) = repeat x j).
  { induction j as [|j IH]; intros n x Hj; [reflexivity|]. destruct n; [lia|]. cbn. f_equal. apply IH. lia. }
  rewrite !G by lia. reflexivity.
Qed.

(** Later iterations leave the rows written so far alone. *)
Lemma step_keeps K i s t : step E K i s = Ok t ->
  r_index t = S (r_index s) /\ upto (S (r_index s)) (r_chain s) (r_chain t) /\ upto (S (r_index s)) (r_ss s) (r_ss t) /\
  upto_opt (S (r_index s)) (r_s2 s) (r_s2 t) /\ (exists e, r_trace t = e :: r_trace s).
Proof.
  intros H. apply step_summary in H as (stage & new & outb & z & iacce & io0 & _ & H). cbv zeta in H.
  destruct H as (H1 & _ & _ & _ & (r1 & _ & _ & H2) & (r2 & _ & _ & H3) & _ & _ & _ & _ & _ & H4 & _ & H5 & H6).
  split; [auto|]. split; [|split; [|split]].
  - rewrite H2. unfold upto. now rewrite firstn_set_nth by lia.
  - rewrite H3. unfold upto. now rewrite firstn_set_nth by lia.
  - destruct (r_s2 s) as [x|], (r_s2 t) as [y|]; cbn in *; try discriminate; auto.
    apply upto_nth. intros k Hk. specialize (H6 k ltac:(lia)). congruence.
  - eauto.
Qed.

Lemma upto_refl {A} n (a : list A) : upto n a a.
Proof. reflexivity. Qed.
Lemma upto_opt_refl {A} n (a : option (list A)) : upto_opt n a a.
Proof. destruct a; cbn; auto. apply upto_refl. Qed.

Lemma iterate_keeps K is : forall s t, iterate E K is s = Ok t ->
  r_index t = r_index s + List.length is /\
  upto (S (r_index s)) (r_chain s) (r_chain t) /\ upto (S (r_index s)) (r_ss s) (r_ss t) /\
  upto_opt (S (r_index s)) (r_s2 s) (r_s2 t) /\ (exists l, r_trace t = l ++ r_trace s).
Proof.
  induction is as [|i is IH]; intros s t H; cbn in H.
  - inv H. cbn. split; [lia|]. split; [apply upto_refl|]. split; [apply upto_refl|]. split; [apply upto_opt_refl|]. exists []. reflexivity.
  - peel H. apply step_keeps in E0 as (A1 & A2 & A3 & A4 & (e & A5)).
    apply IH in H as (B1 & B2 & B3 & B4 & (l & B5)). cbn.
    split; [lia|]. rewrite A1 in B2, B3, B4.
    split; [eapply upto_trans; [exact A2|]; eapply upto_le; [|exact B2]; lia|].
    split; [eapply upto_trans; [exact A3|]; eapply upto_le; [|exact B3]; lia|].
    split; [eapply upto_opt_trans; [exact A4|]; eapply upto_opt_le; [|exact B4]; lia|].
    exists (l ++ [e]). rewrite B5, A5, <- app_assoc. reflexivity.
Qed.

(** What an execution returns apart from files. *)
Lemma execute_iterate K s t : execute E K s = Ok t ->
  exists u, iterate E K (seq 1 (o_nsimu (k_opts K) - 1)) s = Ok u /\ 2 <= o_nsimu (k_opts K) /\
    t = mkst (r_index u) (r_iiadapt u) (r_savecount u) (r_lastbin u) (r_old u) (r_rej u) (r_rejin u) (r_rejout u)
             (r_chain u) (r_ss u) (r_s2 u) (r_cov u) (r_sigma2 u) (r_S20 u) (r_iacce u) (r_io u) (r_fs t) (r_trace u).
Proof.
  intros H. unfold execute in H. peel H. destruct (o_nsimu (k_opts K) <=? 1) eqn:Hn; [discriminate|].
  apply Nat.leb_gt in Hn. peel H. peel H. inv H. exists a. split; [auto|]. split; [lia|]. reflexivity.
Qed.

Lemma execute_twin K1 K2 s1 s2 t1 t2 : same_const K1 K2 -> twin s1 s2 -> no_s2 K1 s1 -> no_s2 K2 s2 ->
  o_nsimu (k_opts K1) <= o_nsimu (k_opts K2) ->
  execute E K1 s1 = Ok t1 -> execute E K2 s2 = Ok t2 ->
  exists mid, twin t1 mid /\
    (o_nsimu (k_opts K1) = o_nsimu (k_opts K2) -> twin t1 t2) /\
    r_index t1 = r_index mid /\ r_index t1 = r_index s1 + (o_nsimu (k_opts K1) - 1) /\
    upto (S (r_index mid)) (r_chain mid) (r_chain t2) /\ upto (S (r_index mid)) (r_ss mid) (r_ss t2) /\
    upto_opt (S (r_index mid)) (r_s2 mid) (r_s2 t2) /\ (exists l, r_trace t2 = l ++ r_trace mid).
Proof.
  intros HK T N1 N2 Hn H1 H2.
  apply execute_iterate in H1 as (u1 & A1 & A2 & A3). apply execute_iterate in H2 as (u2 & B1 & B2 & B3).
  set (n1 := o_nsimu (k_opts K1)) in *. set (n2 := o_nsimu (k_opts K2)) in *.
  replace (n2 - 1) with ((n1 - 1) + (n2 - n1)) in B1 by lia. rewrite seq_app, iterate_app in B1.
  destruct (iterate E K2 (seq 1 (n1 - 1)) s2) as [mid|] eqn:Em; [|discriminate]. cbn [bind] in B1.
  destruct (iterate_twin K1 K2 HK _ _ _ _ _ T N1 N2 A1 Em) as (T' & _ & _).
  assert (T1 : twin t1 mid).
  { destruct T' as [T1 T2 T3 T4 T5 T6 T7 T8 T9 T10 T11 T12 T13 T14 T15]. rewrite A3. split; auto. }
  exists mid. split; [exact T1|].
  pose proof (iterate_keeps _ _ _ _ B1) as (C1 & C2 & C3 & C4 & C5).
  pose proof (iterate_keeps _ _ _ _ A1) as (D1 & _).
  assert (X : r_chain t2 = r_chain u2 /\ r_ss t2 = r_ss u2 /\ r_s2 t2 = r_s2 u2 /\ r_trace t2 = r_trace u2) by (rewrite B3; auto).
  destruct X as (X1 & X2 & X3 & X4). rewrite X1, X2, X3, X4.
  split.
  { intros Heq. replace (n2 - n1) with 0 in B1 by lia. cbn in B1. inv B1.
    destruct T1 as [T1 T2 T3 T4 T5 T6 T7 T8 T9 T10 T11 T12 T13 T14 T15]. rewrite B3. split; auto. }
  split; [exact (tw_index _ _ T1)|]. split; [rewrite A3; cbn [r_index]; rewrite D1, seq_length; reflexivity|]. auto.
Qed.

(** Setting up. *)
Lemma init_twin ps d ms o1 o2 R pos calls i1 i2 : sampling_of o1 = sampling_of o2 ->
  initialize_simulation E ps d ms o1 R pos calls = Ok i1 -> initialize_simulation E ps d ms o2 R pos calls = Ok i2 ->
  sampling_of (i_opts i1) = sampling_of (i_opts i2) /\ o_nsimu (i_opts i1) = o_nsimu o1 /\ o_nsimu (i_opts i2) = o_nsimu o2 /\
  i_model i1 = i_model i2 /\ i_op i1 = i_op i2 /\ i_cov i1 = i_cov i2 /\ i_set i1 = i_set i2 /\ i_nsos i1 = i_nsos i2 /\
  i_iacce i1 = i_iacce i2 /\ i_io i1 = i_io i2.
Proof.
  intros Ho H1 H2. unfold initialize_simulation in H1, H2.
  set (g := match ms_N0 ms with Some _ => true | None => false end) in *.
  assert (Ho' : sampling_of (check_dependent_simulation_options o1 g) = sampling_of (check_dependent_simulation_options o2 g)).
  { unfold sampling_of in *. cbn. injection Ho. intros. destruct g; congruence. }
  assert (N1 : o_nsimu (check_dependent_simulation_options o1 g) = o_nsimu o1) by reflexivity.
  assert (N2 : o_nsimu (check_dependent_simulation_options o2 g) = o_nsimu o2) by reflexivity.
  set (c1 := check_dependent_simulation_options o1 g) in *. set (c2 := check_dependent_simulation_options o2 g) in *.
  clearbody c1 c2.
  assert (P : o_method c1 = o_method c2 /\ o_ntry c1 = o_ntry c2 /\ o_drscale c1 = o_drscale c2 /\ o_RDR c1 = o_RDR c2 /\
              o_qcov c1 = o_qcov c2 /\ o_adascale c1 = o_adascale c2 /\ o_initqcovn c1 = o_initqcovn c2).
  { unfold sampling_of in Ho'. injection Ho'. intros. repeat split; assumption. }
  destruct P as (P1 & P2 & P3 & P4 & P5 & P6 & P7). rewrite P1, P2, P3, P4, P5, P6, P7 in H1.
  peel H1. rewrite E0 in H2. cbn [bind] in H2. peel H1. rewrite E1 in H2. cbn [bind] in H2.
  peel H1. rewrite E2 in H2. cbn [bind] in H2. peel H1. rewrite E3 in H2. cbn [bind] in H2.
  destruct (evaluate_sos_function E _ _ _) as [ss s1] in H1, H2.
  peel H1. rewrite E4 in H2. cbn [bind] in H2. inv H1. inv H2. cbn.
  repeat split; auto.
Qed.

(** ** Whole runs *)

Lemma run_open b m m' : run_simulation E b m = Ok m' ->
  exists ps ini arrays,
    (if b then exists r, m_results m = Some r /\ m_status m = true /\ results_to_params (restart_of r) (m_params m) = Ok ps
     else match o_restart (m_opts m) with
          | None => ps = m_params m
          | Some r => results_to_params r (m_params m) = Ok ps
          end) /\
    initialize_simulation E ps (m_data m) (m_model m) (run_options b m) (m_RDR m) (m_pos m) (m_calls m) = Ok ini /\
    (if b then expand_chains m ini else initialize_chains ini (lst (ms_sigma2 (i_model ini)))) = Ok arrays /\
    run_prepared E m ps ini (if b then m_index m else 0) arrays = Ok m'.
Proof.
  intros H. unfold run_simulation in H. destruct b.
  - destruct (m_status m) eqn:Hst; [|discriminate]. destruct (m_results m) as [r|] eqn:Hr; [|discriminate].
    peel H. peel H. peel H. exists a, a0, a1. split; [eauto|]. auto.
  - peel H. destruct a as [ps o]. peel H. peel H. exists ps, a, a0. unfold run_options.
    destruct (o_restart (m_opts m)) as [r|].
    + peel E0. inv E0. auto.
    + inv E0. auto.
Qed.

Lemma run_options_twin b (m1 m2 : mcmc F) : sampling_of (m_opts m1) = sampling_of (m_opts m2) ->
  sampling_of (run_options b m1) = sampling_of (run_options b m2) /\
  o_nsimu (run_options b m1) = o_nsimu (m_opts m1) /\ o_nsimu (run_options b m2) = o_nsimu (m_opts m2) /\
  o_restart (m_opts m1) = o_restart (m_opts m2).
Proof.
  intros H. pose proof H as H'. unfold sampling_of in H'. injection H'. intros.
  unfold run_options. destruct b; [auto|].
  assert (X : o_restart (m_opts m1) = o_restart (m_opts m2)) by assumption. rewrite X.
  destruct (o_restart (m_opts m2)) eqn:Hr; [|auto]. split; [|auto]. unfold sampling_of. cbn. congruence.
Qed.

Lemma numbers_restart (r1 r2 : results F) : numbers_of r1 = numbers_of r2 -> restart_of r1 = restart_of r2.
Proof. unfold numbers_of, restart_of. intros H. injection H. intros. congruence. Qed.

(** The arrays agree on the rows that exist before the loop. *)
Lemma arrays_twin b m1 m2 i1 i2 c1 ss1 s21 ch1 c2 ss2 s22 ch2 :
  same_object m1 m2 -> o_updatesigma (i_opts i1) = o_updatesigma (i_opts i2) ->
  i_op i1 = i_op i2 -> i_set i1 = i_set i2 -> i_nsos i1 = i_nsos i2 -> i_model i1 = i_model i2 ->
  (b = true -> List.length (m_chain m1) = S (m_index m1) /\ List.length (m_sschain m1) = S (m_index m1) /\
               (forall s2, m_s2chain m1 = Some s2 -> List.length s2 = S (m_index m1))) ->
  (if b then expand_chains m1 i1 else initialize_chains i1 (lst (ms_sigma2 (i_model i1)))) = Ok (c1, ss1, s21, ch1) ->
  (if b then expand_chains m2 i2 else initialize_chains i2 (lst (ms_sigma2 (i_model i2)))) = Ok (c2, ss2, s22, ch2) ->
  let idx := if b then m_index m1 else 0 in
  upto (S idx) c1 c2 /\ upto (S idx) ss1 ss2 /\ upto_opt (S idx) s21 s22 /\
  (o_updatesigma (i_opts i1) = false -> s21 = None) /\ (o_updatesigma (i_opts i2) = false -> s22 = None).
Proof.
  intros SO Hu Hop Hset Hns Hmod HL H1 H2. destruct b.
  - destruct (HL eq_refl) as (L1 & L2 & L3). unfold expand_chains, extend in H1, H2.
    rewrite Hop, Hns, Hu, (so_chain _ _ SO), (so_sschain _ _ SO), (so_s2chain _ _ SO) in H1.
    rewrite (so_chain _ _ SO) in L1. rewrite (so_sschain _ _ SO) in L2. rewrite (so_s2chain _ _ SO) in L3.
    destruct (ncols (m_chain m2) =? _); [|discriminate]. destruct (ncols (m_sschain m2) =? _); [|discriminate].
    cbn [bind] in H1, H2. cbv zeta. rewrite <- L1. split; [|split; [|]].
    1,2: destruct (o_updatesigma (i_opts i2)); [peel H1; peel H1; peel H2; peel H2|]; inv H1; inv H2; apply upto_zeros; lia.
    rewrite Hu. destruct (o_updatesigma (i_opts i2)).
    + peel H1. peel H1. peel H2. peel H2. inv H1. inv H2.
      destruct (m_s2chain m2) as [x|]; [|discriminate]. cbn in E0, E2. inv E0. inv E2. specialize (L3 _ eq_refl).
      destruct (ncols _ =? _) in E1, E3; [|discriminate]. inv E1. inv E3.
      split; [|split; discriminate]. cbn. apply upto_zeros; lia.
    + inv H1. inv H2. split; [exact I|auto].
  - cbv zeta. unfold initialize_chains in H1, H2. rewrite Hop, Hset, Hns, Hu, Hmod in H1.
    peel H1. rewrite E0 in H2. cbn [bind] in H2. peel H1. peel H2. peel H1. rewrite E3 in H2. cbn [bind] in H2. peel H1. peel H2.
    apply write_ok in E1 as [La ->]; apply write_ok in E2 as [Lb ->]; apply write_ok in E4 as [Lc ->]; apply write_ok in E5 as [Ld ->].
    split; [|split].
    1,2: destruct (o_updatesigma (i_opts i2)); [peel H1; peel H1; peel H2; peel H2|]; inv H1; inv H2; apply (upto_set 0 _ (zeros _ _) (zeros _ _)); auto; reflexivity.
    rewrite Hu. destruct (o_updatesigma (i_opts i2)).
    + peel H1. rewrite E1 in H2. cbn [bind] in H2. peel H1. peel H2. inv H1. inv H2.
      apply write_ok in E2 as [Le ->]; apply write_ok in E4 as [Lf ->].
      split; [|split; discriminate]. apply (upto_set 0 _ (zeros _ _) (zeros _ _)); auto. reflexivity.
    + inv H1. inv H2. split; [exact I|auto].
Qed.

(** Two runs of different lengths from objects that agree. *)
Lemma run_twin b m1 m2 m1' m2' :
  same_object m1 m2 -> o_nsimu (m_opts m1) <= o_nsimu (m_opts m2) ->
  (b = true -> List.length (m_chain m1) = S (m_index m1) /\ List.length (m_sschain m1) = S (m_index m1) /\
               (forall s2, m_s2chain m1 = Some s2 -> List.length s2 = S (m_index m1))) ->
  run_simulation E b m1 = Ok m1' -> run_simulation E b m2 = Ok m2' ->
  m_index m1' = (if b then m_index m1 else 0) + (o_nsimu (m_opts m1) - 1) /\
  upto (S (m_index m1')) (m_chain m1') (m_chain m2') /\ upto (S (m_index m1')) (m_sschain m1') (m_sschain m2') /\
  upto_opt (S (m_index m1')) (m_s2chain m1') (m_s2chain m2') /\
  (exists l, map what_happened (m_trace m2') = l ++ map what_happened (m_trace m1')) /\
  sampling_of (m_opts m1') = sampling_of (m_opts m2') /\
  o_nsimu (m_opts m1') = o_nsimu (m_opts m1) /\ o_nsimu (m_opts m2') = o_nsimu (m_opts m2) /\
  (o_nsimu (m_opts m1) = o_nsimu (m_opts m2) -> m_chain m1' = m_chain m2' -> m_sschain m1' = m_sschain m2' ->
   m_s2chain m1' = m_s2chain m2' -> same_object m1' m2').
Proof.
  intros SO Hn HL H1 H2.
  apply run_open in H1 as (ps1 & i1 & [[[c1 ss1] s21] ch1] & A1 & A2 & A3 & A4).
  apply run_open in H2 as (ps2 & i2 & [[[c2 ss2] s22] ch2] & B1 & B2 & B3 & B4).
  destruct (run_options_twin b m1 m2 (so_opts _ _ SO)) as (RO & RN1 & RN2 & RR).
  assert (Hps : ps1 = ps2).
  { destruct b.
    - destruct A1 as (r1 & R1 & _ & A1). destruct B1 as (r2 & R2 & _ & B1).
      pose proof (so_results _ _ SO) as SR. rewrite R1, R2 in SR. cbn in SR.
      rewrite (numbers_restart r1 r2), (so_params _ _ SO) in A1 by (injection SR; auto; congruence). congruence.
    - rewrite RR in A1. destruct (o_restart (m_opts m2)).
      + rewrite (so_params _ _ SO) in A1. congruence.
      + rewrite (so_params _ _ SO) in A1. congruence. }
  subst ps2.
  rewrite (so_data _ _ SO), (so_model _ _ SO), (so_RDR _ _ SO), (so_pos _ _ SO), (so_calls _ _ SO) in A2.
  destruct (init_twin _ _ _ _ _ _ _ _ _ _ RO A2 B2) as (I1 & I2 & I3 & I4 & I5 & I6 & I7 & I8 & I9 & I10).
  rewrite RN1 in I2. rewrite RN2 in I3.
  assert (Hu : o_updatesigma (i_opts i1) = o_updatesigma (i_opts i2)).
  { unfold sampling_of in I1. injection I1. intros. assumption. }
  assert (Hnt : o_ntry (i_opts i1) = o_ntry (i_opts i2)).
  { unfold sampling_of in I1. injection I1. intros. assumption. }
  destruct (arrays_twin b m1 m2 i1 i2 _ _ _ _ _ _ _ _ SO Hu I5 I7 I8 I4 HL A3 B3) as (C1 & C2 & C3 & C4 & C5).
  unfold run_prepared in A4, B4. peel A4. peel B4. inv A4. inv B4.
  cbn [m_index m_chain m_sschain m_s2chain m_trace m_opts].
  assert (Hidx : (if b then m_index m1 else 0) = (if b then m_index m2 else 0)) by (destruct b; auto; apply (so_index _ _ SO)).
  assert (SC : same_const (make_const i1 ch1) (make_const i2 ch2)).
  { split; cbn [make_const k_view k_nsos k_N0 k_N k_alias k_opts]; rewrite ?I5, ?I4, ?I8; auto. }
  assert (TW : twin (start_state i1 (if b then m_index m1 else 0) c1 ss1 s21 (m_fs m1))
                    (start_state i2 (if b then m_index m2 else 0) c2 ss2 s22 (m_fs m2))).
  { split; cbn [start_state r_index r_iiadapt r_old r_rej r_rejin r_rejout r_chain r_ss r_s2 r_cov r_sigma2 r_S20 r_iacce r_io r_trace];
      rewrite ?I4, ?I6, ?I7, ?I9, ?I10; auto. }
  assert (Hn' : o_nsimu (k_opts (make_const i1 ch1)) <= o_nsimu (k_opts (make_const i2 ch2))).
  { cbn [make_const k_opts]. rewrite I2, I3. exact Hn. }
  destruct (execute_twin _ _ _ _ _ _ SC TW C4 C5 Hn' E0 E1) as (mid & T1 & T2 & T3 & T4 & T5 & T6 & T7 & (l & T8)).
  split; [rewrite T4; cbn [start_state r_index make_const k_opts]; now rewrite I2|].
  rewrite T3.
  pose proof (tw_chain _ _ T1) as U1. pose proof (tw_ss _ _ T1) as U2. pose proof (tw_s2 _ _ T1) as U3.
  rewrite T3 in U1, U2, U3.
  split; [eapply upto_trans; eauto|]. split; [eapply upto_trans; eauto|]. split; [eapply upto_opt_trans; eauto|].
  split; [exists (map what_happened l); rewrite !map_app, T8, map_app, (tw_trace _ _ T1), (so_trace _ _ SO), app_assoc; reflexivity|].
  split; [auto|]. split; [auto|]. split; [auto|].
  intros Heq Q1 Q2 Q3.
  assert (T : twin a a0) by (apply T2; cbn [make_const k_opts]; rewrite I2, I3; exact Heq). clear T1 T2 U1 U2 U3.
  split; cbn [m_params m_data m_model m_opts m_RDR m_status m_chain m_sschain m_s2chain m_index m_pos m_calls m_results m_trace]; auto.
  - apply (so_data _ _ SO).
  - rewrite I4, (tw_sigma2 _ _ T), (tw_S20 _ _ T). reflexivity.
  - now rewrite (tw_cov _ _ T).
  - rewrite <- T3. apply (tw_index _ _ T).
  - now rewrite (tw_io _ _ T).
  - now rewrite (tw_io _ _ T).
  - cbn [option_map]. f_equal. unfold numbers_of, generate_results, proposal_cov.
    cbn [rr_theta rr_parind rr_total_rejected rr_outside rr_R rr_qcov rr_cov rr_mean rr_names rr_allnames rr_lower rr_upper rr_nsimu rr_iacce rr_model rr_chain rr_sschain rr_s2chain].
    rewrite I5, I4, I2, I3, Hnt, Heq, Q1, Q2, Q3, (tw_old _ _ T), (tw_rej _ _ T), (tw_rejout _ _ T), (tw_cov _ _ T), (tw_iacce _ _ T), (tw_sigma2 _ _ T), (tw_S20 _ _ T).
    reflexivity.
  - now rewrite !map_app, (tw_trace _ _ T), (so_trace _ _ SO).
Qed.

(** ** Sessions *)
Variable ps0 : list (param F).

Lemma upto_all {A} n (a b : list A) : List.length a = n -> upto n a b -> a = firstn n b.
Proof. unfold upto. intros <- H. now rewrite <- H, firstn_all. Qed.

Lemma run_prefix b m1 m2 m1' m2' : session E ps0 m1 -> session E ps0 m2 ->
  same_object m1 m2 -> o_nsimu (m_opts m1) <= o_nsimu (m_opts m2) ->
  run_simulation E b m1 = Ok m1' -> run_simulation E b m2 = Ok m2' ->
  m_chain m1' = firstn (List.length (m_chain m1')) (m_chain m2') /\
  m_sschain m1' = firstn (List.length (m_chain m1')) (m_sschain m2') /\
  m_s2chain m1' = option_map (firstn (List.length (m_chain m1'))) (m_s2chain m2') /\
  List.length (m_chain m1') = S ((if b then m_index m1 else 0) + (o_nsimu (m_opts m1) - 1)) /\
  (exists l, map what_happened (m_trace m2') = l ++ map what_happened (m_trace m1')).
Proof.
  intros S1 S2 SO Hn H1 H2.
  assert (M1' : minv E ps0 m1').
  { apply session_minv. destruct S1 as (d & ms & o & pos & l & acs & A). exists d, ms, o, pos, l, (acs ++ [Run b]).
    clear - A H1. revert A. generalize (new_mcmc ps0 d ms o pos l). induction acs as [|a t IH]; intros m0 A; cbn in A |- *.
    - inv A. cbn [act]. rewrite H1. reflexivity.
    - peel A. rewrite E0. cbn [bind]. auto. }
  pose proof (session_minv _ _ _ S1) as M1.
  assert (HL : b = true -> List.length (m_chain m1) = S (m_index m1) /\ List.length (m_sschain m1) = S (m_index m1) /\
               (forall s2, m_s2chain m1 = Some s2 -> List.length s2 = S (m_index m1))).
  { intros ->. apply (mi_len _ _ _ M1). unfold run_simulation in H1. destruct (m_status m1); [reflexivity|discriminate]. }
  assert (St : m_status m1' = true).
  { pose proof (run_facts _ _ _ _ H1) as (p & q & r & s & t & u & X). cbv zeta in X. tauto. }
  destruct (mi_len _ _ _ M1' St) as (L1 & L2 & L3).
  destruct (run_twin _ _ _ _ _ SO Hn HL H1 H2) as (X0 & X1 & X2 & X3 & X4 & _).
  rewrite <- L1 in X1, X2, X3.
  split; [apply upto_all; auto|]. split; [apply upto_all; auto; congruence|].
  split.
  { destruct (m_s2chain m1') as [x|], (m_s2chain m2') as [y|]; cbn in *; try tauto. f_equal. apply upto_all; auto. rewrite L1. auto. }
  split; [rewrite L1, X0; reflexivity|]. exact X4.
Qed.

Lemma session_act m a m' : session E ps0 m -> act E a m = Ok m' -> session E ps0 m'.
Proof.
  intros (d & ms & o & pos & l & acs & A) H1. exists d, ms, o, pos, l, (acs ++ [a]).
  revert A. generalize (new_mcmc ps0 d ms o pos l). induction acs as [|x t IH]; intros m0 A; cbn [acts app] in A |- *.
  - inv A. rewrite H1. reflexivity.
  - peel A. rewrite E0. cbn [bind]. auto.
Qed.

Lemma session_snoc m b m' : session E ps0 m -> run_simulation E b m = Ok m' -> session E ps0 m'.
Proof.
  intros (d & ms & o & pos & l & acs & A) H1. exists d, ms, o, pos, l, (acs ++ [Run b]).
  revert A. generalize (new_mcmc ps0 d ms o pos l). induction acs as [|a t IH]; intros m0 A; cbn in A |- *.
  - inv A. cbn [act]. rewrite H1. reflexivity.
  - peel A. rewrite E0. cbn [bind]. auto.
Qed.

Lemma run_same b m1 m2 m1' m2' : session E ps0 m1 -> session E ps0 m2 ->
  same_object m1 m2 -> o_nsimu (m_opts m1) = o_nsimu (m_opts m2) ->
  run_simulation E b m1 = Ok m1' -> run_simulation E b m2 = Ok m2' ->
  same_object m1' m2' /\ o_nsimu (m_opts m1') = o_nsimu (m_opts m2').
Proof.
  intros S1 S2 SO Hn H1 H2.
  destruct (run_prefix _ _ _ _ _ S1 S2 SO ltac:(lia) H1 H2) as (A1 & A2 & A3 & A4 & _).
  pose proof (session_minv _ _ _ (session_snoc _ _ _ S2 H2)) as M2.
  pose proof (session_minv _ _ _ S1) as M1.
  assert (St : m_status m2' = true).
  { pose proof (run_facts _ _ _ _ H2) as (p & q & r & s & t & u & X). cbv zeta in X. tauto. }
  destruct (mi_len _ _ _ M2 St) as (L1 & L2 & L3).
  assert (HL : b = true -> List.length (m_chain m1) = S (m_index m1) /\ List.length (m_sschain m1) = S (m_index m1) /\
               (forall s2, m_s2chain m1 = Some s2 -> List.length s2 = S (m_index m1))).
  { intros ->. apply (mi_len _ _ _ M1). unfold run_simulation in H1. destruct (m_status m1); [reflexivity|discriminate]. }
  assert (SO' : same_object m2 m1) by (destruct SO; split; auto).
  assert (HL' : b = true -> List.length (m_chain m2) = S (m_index m2) /\ List.length (m_sschain m2) = S (m_index m2) /\
               (forall s2, m_s2chain m2 = Some s2 -> List.length s2 = S (m_index m2))).
  { rewrite <- (so_chain _ _ SO), <- (so_sschain _ _ SO), <- (so_s2chain _ _ SO), <- (so_index _ _ SO). exact HL. }
  destruct (run_twin _ _ _ _ _ SO' ltac:(lia) HL' H2 H1) as (X0 & _).
  destruct (run_twin _ _ _ _ _ SO ltac:(lia) HL H1 H2) as (Y0 & Y).
  assert (Len : List.length (m_chain m1') = S (m_index m2')).
  { rewrite A4, X0, Hn. f_equal. f_equal. destruct b; auto. apply (so_index _ _ SO). }
  rewrite Len in A1, A2, A3.
  rewrite <- L1, firstn_all in A1. rewrite <- L2, firstn_all in A2.
  assert (A3' : m_s2chain m1' = m_s2chain m2').
  { rewrite A3. destruct (m_s2chain m2') as [x|]; cbn [option_map]; auto. rewrite <- (L3 x eq_refl), firstn_all. reflexivity. }
  destruct Y as (_ & _ & _ & _ & _ & N1 & N2 & Y). split; [apply Y; auto|]. congruence.
Qed.

Lemma acts_same : forall l1 l2, same_actions l1 l2 -> forall m1 m2 m1' m2', session E ps0 m1 -> session E ps0 m2 ->
  same_object m1 m2 -> o_nsimu (m_opts m1) = o_nsimu (m_opts m2) ->
  acts E l1 m1 = Ok m1' -> acts E l2 m2 = Ok m2' -> same_object m1' m2' /\ o_nsimu (m_opts m1') = o_nsimu (m_opts m2').
Proof.
  assert (Snoc : forall m a m', session E ps0 m -> act E a m = Ok m' -> session E ps0 m').
  { intros m a m' (d & ms & o & pos & l & acs & A) H1. exists d, ms, o, pos, l, (acs ++ [a]).
    revert A. generalize (new_mcmc ps0 d ms o pos l). induction acs as [|x t IH]; intros m0 A; cbn [acts app] in A |- *.
    - inv A. rewrite H1. reflexivity.
    - peel A. rewrite E0. cbn [bind]. auto. }
  induction 1 as [|o1 o2 l1 l2 Ho Hno HS IH|ms l1 l2 HS IH|b l1 l2 HS IH]; intros m1 m2 m1' m2' S1 S2 SO Hn H1 H2.
  - inv H1. inv H2. auto.
  - cbn in H1, H2. eapply (IH (with_opts m1 o1) (with_opts m2 o2)); eauto.
    + exact (Snoc _ (SetOptions o1) _ S1 eq_refl).
    + exact (Snoc _ (SetOptions o2) _ S2 eq_refl).
    + destruct SO; split; auto.
  - cbn in H1, H2. eapply (IH (with_model m1 ms) (with_model m2 ms)); eauto.
    + exact (Snoc _ (SetModel ms) _ S1 eq_refl).
    + exact (Snoc _ (SetModel ms) _ S2 eq_refl).
    + destruct SO; split; auto.
  - cbn in H1, H2. peel H1. peel H2.
    destruct (run_same _ _ _ _ _ S1 S2 SO Hn E0 E1) as (R1 & R2).
    eapply (IH a a0); eauto using session_snoc.
Qed.

(** If a run ends normally, so does one that is not longer and writes no binary log. *)
Lemma init_twin_ok ps d ms o1 o2 R pos calls i1 : sampling_of o1 = sampling_of o2 ->
  initialize_simulation E ps d ms o1 R pos calls = Ok i1 ->
  exists i2, initialize_simulation E ps d ms o2 R pos calls = Ok i2 /\ o_save_to_bin (i_opts i2) = o_save_to_bin o2.
Proof.
  intros Ho H1. unfold initialize_simulation in H1 |- *.
  set (g := match ms_N0 ms with Some _ => true | None => false end) in *.
  assert (Ho' : sampling_of (check_dependent_simulation_options o1 g) = sampling_of (check_dependent_simulation_options o2 g)).
  { unfold sampling_of in *. cbn. injection Ho. intros. destruct g; congruence. }
  assert (Hb : o_save_to_bin (check_dependent_simulation_options o2 g) = o_save_to_bin o2) by reflexivity.
  set (c1 := check_dependent_simulation_options o1 g) in *. set (c2 := check_dependent_simulation_options o2 g) in *.
  clearbody c1 c2.
  assert (P : o_method c1 = o_method c2 /\ o_ntry c1 = o_ntry c2 /\ o_drscale c1 = o_drscale c2 /\ o_RDR c1 = o_RDR c2 /\
              o_qcov c1 = o_qcov c2 /\ o_adascale c1 = o_adascale c2 /\ o_initqcovn c1 = o_initqcovn c2).
  { unfold sampling_of in Ho'. injection Ho'. intros. repeat split; assumption. }
  destruct P as (P1 & P2 & P3 & P4 & P5 & P6 & P7). rewrite P1, P2, P3, P4, P5, P6, P7 in H1.
  peel H1. rewrite E0. cbn [bind]. peel H1. rewrite E1. cbn [bind].
  peel H1. rewrite E2. cbn [bind]. peel H1. rewrite E3. cbn [bind].
  match type of H1 with context [evaluate_sos_function ?x ?y ?z ?w] => destruct (evaluate_sos_function x y z w) as [ss s1] end.
  peel H1. rewrite E4. cbn [bind]. eexists. split; [reflexivity|]. exact Hb.
Qed.

Lemma run_twin_ok b m1 m2 m1' : session E ps0 m1 ->
  same_object m1 m2 -> 2 <= o_nsimu (m_opts m2) <= o_nsimu (m_opts m1) -> o_save_to_bin (m_opts m2) = false ->
  run_simulation E b m1 = Ok m1' -> exists m2', run_simulation E b m2 = Ok m2'.
Proof.
  intros S1 SO Hn Hb H1. pose proof (session_minv _ _ _ S1) as M1.
  assert (HL : b = true -> List.length (m_chain m1) = S (m_index m1) /\ List.length (m_sschain m1) = S (m_index m1) /\
               (forall s2, m_s2chain m1 = Some s2 -> List.length s2 = S (m_index m1))).
  { intros ->. apply (mi_len _ _ _ M1). unfold run_simulation in H1. destruct (m_status m1); [reflexivity|discriminate]. }
  apply run_open in H1 as (ps1 & i1 & [[[c1 ss1] s21] ch1] & A1 & A2 & A3 & A4).
  destruct (run_options_twin b m1 m2 (so_opts _ _ SO)) as (RO & RN1 & RN2 & RR).
  rewrite (so_data _ _ SO), (so_model _ _ SO), (so_RDR _ _ SO), (so_pos _ _ SO), (so_calls _ _ SO) in A2.
  destruct (init_twin_ok _ _ _ _ _ _ _ _ _ RO A2) as (i2 & B2 & Hb2).
  destruct (init_twin _ _ _ _ _ _ _ _ _ _ RO A2 B2) as (I1 & I2 & I3 & I4 & I5 & I6 & I7 & I8 & I9 & I10).
  rewrite RN1 in I2. rewrite RN2 in I3.
  assert (Hbin : o_save_to_bin (i_opts i2) = false).
  { rewrite Hb2. unfold run_options. destruct b; auto. destruct (o_restart (m_opts m2)); auto. }
  assert (Hu : o_updatesigma (i_opts i1) = o_updatesigma (i_opts i2)).
  { unfold sampling_of in I1. injection I1. intros. assumption. }
  assert (B3 : exists c2 ss2 s22 ch2,
    (if b then expand_chains m2 i2 else initialize_chains i2 (lst (ms_sigma2 (i_model i2)))) = Ok (c2, ss2, s22, ch2) /\
    (if b then m_index m2 else 0) + (o_nsimu (m_opts m2) - 1) < List.length c2 /\
    (if b then m_index m2 else 0) + (o_nsimu (m_opts m2) - 1) < List.length ss2 /\
    (forall x, s22 = Some x -> (if b then m_index m2 else 0) + (o_nsimu (m_opts m2) - 1) < List.length x)).
  { destruct b.
    - destruct (HL eq_refl) as (L1 & L2 & L3). unfold expand_chains, extend in A3 |- *.
      rewrite I5, I8, Hu, (so_chain _ _ SO), (so_sschain _ _ SO), (so_s2chain _ _ SO) in A3.
      rewrite (so_chain _ _ SO), (so_index _ _ SO) in L1. rewrite (so_sschain _ _ SO), (so_index _ _ SO) in L2.
      rewrite (so_s2chain _ _ SO), (so_index _ _ SO) in L3. rewrite I3.
      destruct (ncols (m_chain m2) =? _); [|discriminate]. destruct (ncols (m_sschain m2) =? _); [|discriminate].
      cbn [bind] in A3 |- *. destruct (o_updatesigma (i_opts i2)).
      + peel A3. rewrite E0. cbn [bind]. peel A3. destruct (ncols _ =? _) in E1 |- *; [|discriminate]. cbn [bind].
        do 4 eexists. split; [reflexivity|]. rewrite !app_length. unfold zeros. rewrite !repeat_length. split; [lia|]. split; [lia|].
        intros x Hx. injection Hx as <-. rewrite app_length, repeat_length.
        destruct (m_s2chain m2) as [y|]; [|discriminate]. cbn in E0. inv E0. rewrite (L3 _ eq_refl). lia.
      + do 4 eexists. split; [reflexivity|]. rewrite !app_length. unfold zeros. rewrite !repeat_length. split; [lia|]. split; [lia|]. discriminate.
    - unfold initialize_chains in A3 |- *. rewrite I5, I7, I8, Hu, I4 in A3. rewrite I3.
      assert (Z0 : forall w, 0 < List.length (zeros (o_nsimu (m_opts m2)) w)) by (intros w; unfold zeros; rewrite repeat_length; lia).
      peel A3. rewrite E0. cbn [bind]. rewrite write_lt by apply Z0. cbn [bind]. peel A3. peel A3. rewrite E2. cbn [bind].
      rewrite write_lt by apply Z0. cbn [bind]. peel A3. destruct (o_updatesigma (i_opts i2)).
      + peel A3. rewrite E4. cbn [bind]. rewrite write_lt by apply Z0. cbn [bind].
        do 4 eexists. split; [reflexivity|]. rewrite !set_nth_length. unfold zeros. rewrite !repeat_length. split; [lia|]. split; [lia|].
        intros x Hx. apply (f_equal (fun o => match o with Some v => List.length v | None => 0 end)) in Hx. cbv beta iota in Hx.
        rewrite (set_nth_length 0), repeat_length in Hx. lia.
      + do 4 eexists. split; [reflexivity|]. rewrite !set_nth_length. unfold zeros. rewrite !repeat_length. split; [lia|]. split; [lia|]. discriminate. }
  destruct B3 as (c2 & ss2 & s22 & ch2 & B3 & G1 & G2 & G3).
  destruct (arrays_twin b m1 m2 i1 i2 _ _ _ _ _ _ _ _ SO Hu I5 I7 I8 I4 HL A3 B3) as (C1 & C2 & C3 & C4 & C5).
  assert (Hidx : (if b then m_index m1 else 0) = (if b then m_index m2 else 0)) by (destruct b; auto; apply (so_index _ _ SO)).
  assert (SC : same_const (make_const i1 ch1) (make_const i2 ch2)).
  { split; cbn [make_const k_view k_nsos k_N0 k_N k_alias k_opts]; rewrite ?I5, ?I4, ?I8; auto. }
  assert (TW : twin (start_state i1 (if b then m_index m1 else 0) c1 ss1 s21 (m_fs m1))
                    (start_state i2 (if b then m_index m2 else 0) c2 ss2 s22 (m_fs m2))).
  { split; cbn [start_state r_index r_iiadapt r_old r_rej r_rejin r_rejout r_chain r_ss r_s2 r_cov r_sigma2 r_S20 r_iacce r_io r_trace];
      rewrite ?I4, ?I6, ?I7, ?I9, ?I10; auto. }
  assert (X : exists t2, execute E (make_const i2 ch2) (start_state i2 (if b then m_index m2 else 0) c2 ss2 s22 (m_fs m2)) = Ok t2).
  { unfold run_prepared in A4. peel A4. apply execute_iterate in E0 as (u & U1 & _).
    cbn [make_const k_opts] in U1. rewrite I2 in U1.
    replace (o_nsimu (m_opts m1) - 1) with ((o_nsimu (m_opts m2) - 1) + (o_nsimu (m_opts m1) - o_nsimu (m_opts m2))) in U1 by lia.
    rewrite seq_app, iterate_app in U1. destruct (iterate E _ (seq 1 (o_nsimu (m_opts m2) - 1)) _) as [mid|] eqn:Em in U1; [|discriminate].
    assert (HR : room (List.length (seq 1 (o_nsimu (m_opts m2) - 1)) + 0) (start_state i2 (if b then m_index m2 else 0) c2 ss2 s22 (m_fs m2))).
    { rewrite seq_length, Nat.add_0_r. unfold room. cbn [start_state r_index r_chain r_ss r_s2]. auto. }
    destruct (iterate_twin_ok _ _ SC _ 0 _ _ _ TW C4 C5 Hbin HR Em) as (t2 & It).
    unfold execute. cbn [make_const k_opts]. rewrite I3.
    rewrite It. cbn [bind]. replace (o_nsimu (m_opts m2) <=? 1) with false by (symmetry; apply Nat.leb_gt; lia).
    unfold save_to_log_file, save_covmtx. cbn [k_opts make_const]. rewrite Hbin. cbn [bind].
    destruct (o_save_to_txt (i_opts i2)); cbn [bind]; [|eauto].
    match goal with |- context [save_chains false ?d ?a ?b ?c ?l] => destruct (save_chains_txt d a b c l) as (l' & ->) end.
    cbn [bind]. eauto. }
  destruct X as (t2 & X).
  assert (RP : exists m2', run_prepared E m2 ps1 i2 (if b then m_index m2 else 0) (c2, ss2, s22, ch2) = Ok m2').
  { unfold run_prepared. rewrite X. cbn [bind]. eauto. }
  destruct RP as (m2' & RP). exists m2'.
  unfold run_simulation. unfold run_options in B2. destruct b.
  - destruct A1 as (r1 & R1 & St & A1).
    pose proof (so_results _ _ SO) as SR. rewrite R1 in SR. destruct (m_results m2) as [r2|]; [|discriminate]. cbn in SR.
    rewrite <- (so_status _ _ SO), St.
    rewrite (numbers_restart r1 r2), (so_params _ _ SO) in A1 by (injection SR; auto; congruence). rewrite A1. cbn [bind].
    rewrite B2. cbn [bind]. rewrite B3. cbn [bind]. exact RP.
  - rewrite RR in A1. destruct (o_restart (m_opts m2)).
    + rewrite (so_params _ _ SO) in A1. rewrite A1. cbn [bind]. rewrite B2. cbn [bind]. rewrite B3. cbn [bind]. exact RP.
    + rewrite <- (so_params _ _ SO), <- A1. cbn [bind]. rewrite B2. cbn [bind]. rewrite B3. cbn [bind]. exact RP.
Qed.

End Twin.
