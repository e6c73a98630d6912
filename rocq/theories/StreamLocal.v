(** A run reads the random stream only between the position it starts at and the position it ends at. *)

From Coq Require Import ZArith QArith Bool Lia List String.
From Verif Require Import Base Num Samplers Adapt Settings Simulator SamplerFacts RunSpec RunFacts RunLift SettingsFacts.
Import ListNotations.
Close Scope Q_scope.
Open Scope list_scope.
Open Scope nat_scope.
Open Scope res_scope.

Section Local.
Context {F : Type} `{NF : Num F}.

(** Two streams that hold the same numbers at the positions from [a] up to (not including) [b]. *)
Definition same_draws (x y : stream F) (a b : nat) : Prop :=
  forall k, a <= k < b -> s_normal x k = s_normal y k /\ s_unif x k = s_unif y k.

Definition with_stream (E : env F) (y : stream F) : env F :=
  mkenv (e_sos E) (e_prior E) y (e_chol E) (e_inv E) (e_fuel E).

Variable E : env F.
Variable y : stream F.
Let E' := with_stream E y.

(** [s] leads to [s'], and the same computation with the other stream gives [P]. *)
Definition local (s s' : io F) (P : Prop) : Prop :=
  io_pos s <= io_pos s' /\ (same_draws (e_str E) y (io_pos s) (io_pos s') -> P).

Lemma same_draws_sub (x z : stream F) a b c d : a <= c -> d <= b -> same_draws x z a b -> same_draws x z c d.
Proof. intros H1 H2 H k Hk. apply H. lia. Qed.

Lemma randn_local n s z s' : randn E n s = (z, s') -> local s s' (randn E' n s = (z, s')).
Proof.
  unfold randn. intros H. inv H. split; cbn [io_pos]; [lia|]. intros H. f_equal.
  apply map_ext_in. intros k Hk. apply in_seq in Hk. symmetry. now apply H.
Qed.

Lemma rand_local s u s' : rand E s = (u, s') -> local s s' (rand E' s = (u, s')).
Proof.
  unfold rand. intros H. inv H. split; cbn [io_pos]; [lia|]. intros H. f_equal. symmetry. apply H. lia.
Qed.

Lemma sample_candidate_local n old P s t z s' : sample_candidate E n old P s = Ok (t, z, s') ->
  local s s' (sample_candidate E' n old P s = Ok (t, z, s')).
Proof.
  unfold sample_candidate. destruct (_ && _); [|discriminate]. destruct (randn E n s) as [z1 s1] eqn:R. intros H. inv H.
  apply randn_local in R as [R1 R2]. split; auto. intros X. now rewrite (R2 X).
Qed.

Lemma metropolis_local V P old s acc nw ob z s' : run_metropolis_step E V P old s = Ok (acc, nw, ob, z, s') ->
  local s s' (run_metropolis_step E' V P old s = Ok (acc, nw, ob, z, s')).
Proof.
  unfold run_metropolis_step. intros H. peel H. destruct a as [[newpar zz] s1]. apply sample_candidate_local in E0 as [C1 C2].
  destruct (is_sample_outside_bounds newpar (v_lower V) (v_upper V)) eqn:O.
  - inv H. split; auto. intros X. rewrite (C2 X). cbn [bind]. now rewrite O.
  - cbv zeta in H. unfold evaluate_sos_function in *. peel H. peel H.
    unfold log_posterior_ratio_acceptance_test in *.
    match type of H with context [rand E ?x] => destruct (rand E x) as [u s3] eqn:R end.
    inv H. apply rand_local in R as [R1 R2]. cbn [io_pos] in R1, R2. split; [lia|]. intros X.
    rewrite C2 by (eapply same_draws_sub; [| |exact X]; lia). cbn [bind]. rewrite O. cbv zeta.
    change (e_sos E') with (e_sos E). rewrite E0. cbn [bind]. rewrite E1. cbn [bind].
    change (evaluate_prior E' V newpar) with (evaluate_prior E V newpar).
    rewrite R2 by (eapply same_draws_sub; [| |exact X]; lia). reflexivity.
Qed.

Lemma ratio_local a s b s' : posterior_ratio_acceptance_test E a s = (b, s') ->
  local s s' (posterior_ratio_acceptance_test E' a s = (b, s')).
Proof.
  unfold posterior_ratio_acceptance_test. destruct (nle n1 a); [intros H; inv H; split; auto; lia|].
  destruct (rand E s) as [u s1] eqn:R. intros H. inv H. apply rand_local in R as [R1 R2]. split; auto. intros X. now rewrite R2.
Qed.

Lemma dr_loop_local V RDR invR old new : forall n itry path iacce cur s acc out outb ia p s',
  dr_loop E V RDR invR old new n itry path iacce cur s = Ok (acc, out, outb, ia, p, s') ->
  local s s' (dr_loop E' V RDR invR old new n itry path iacce cur s = Ok (acc, out, outb, ia, p, s')).
Proof.
  induction n as [|n IH]; intros itry path iacce cur s acc out outb ia p s' H; cbn [dr_loop] in *.
  - destruct cur as [[? ?] ?]. inv H. split; auto; lia.
  - peel H. peel H. destruct a0 as [[th z] s1]. apply sample_candidate_local in E1 as [C1 C2].
    destruct (is_sample_outside_bounds th (v_lower V) (v_upper V)) eqn:O.
    + apply IH in H as [H1 H2]. split; [lia|]. intros X. rewrite E0. cbn [bind].
      rewrite C2 by (eapply same_draws_sub; [| |exact X]; lia). cbn [bind]. rewrite O.
      apply H2. eapply same_draws_sub; [| |exact X]; lia.
    + unfold evaluate_sos_function in *. peel H.
      match type of H with context [posterior_ratio_acceptance_test E ?x ?t] => destruct (posterior_ratio_acceptance_test E x t) as [ac s3] eqn:R end.
      apply ratio_local in R as [R1 R2]. cbn [io_pos] in R1, R2. peel H.
      assert (Y : local s3 s' ((if ac then Ok (true, update_set_based_on_acceptance ac old
                       (mkpset th (e_sos E (scatter (io_value s1) (v_parind V) th)) (evaluate_prior E V th) (p_sigma2 new) (Some a0)), false,
              set_nth (S itry - 1) (a1 + if ac then 1 else 0) iacce,
              path ++ [mkpset th (e_sos E (scatter (io_value s1) (v_parind V) th)) (evaluate_prior E V th) (p_sigma2 new) (Some a0)], s3)
            else dr_loop E' V RDR invR old new n (S itry)
              (path ++ [mkpset th (e_sos E (scatter (io_value s1) (v_parind V) th)) (evaluate_prior E V th) (p_sigma2 new) (Some a0)])
              (set_nth (S itry - 1) (a1 + if ac then 1 else 0) iacce)
              (false, update_set_based_on_acceptance ac old
                       (mkpset th (e_sos E (scatter (io_value s1) (v_parind V) th)) (evaluate_prior E V th) (p_sigma2 new) (Some a0)), false) s3)
            = Ok (acc, out, outb, ia, p, s'))).
      { destruct ac; [split; [inv H; lia|auto]|]. apply IH in H. exact H. }
      destruct Y as [Y1 Y2]. split; [lia|]. intros X. rewrite E0. cbn [bind].
      rewrite C2 by (eapply same_draws_sub; [| |exact X]; lia). cbn [bind]. rewrite O. cbv zeta.
      change (e_sos E') with (e_sos E). change (evaluate_prior E' V th) with (evaluate_prior E V th).
      rewrite E1. cbn [bind]. rewrite R2 by (eapply same_draws_sub; [| |exact X]; lia). rewrite E2. cbn [bind].
      apply Y2. eapply same_draws_sub; [| |exact X]; lia.
Qed.

Lemma draw_v_local c : forall fuel s x v s', draw_v E fuel c s = Ok (x, v, s') ->
  local s s' (draw_v E' fuel c s = Ok (x, v, s')).
Proof.
  induction fuel as [|f IH]; intros s x v s' H; cbn [draw_v] in *; [discriminate|].
  destruct (randn E 1 s) as [z s1] eqn:R. apply randn_local in R as [R1 R2].
  destruct (nlt n0 (nadd n1 (nmul c (nth 0 z n0)))) eqn:L.
  - inv H. split; auto. intros X. rewrite (R2 X). now rewrite L.
  - apply IH in H as [H1 H2]. split; [lia|]. intros X. rewrite R2 by (eapply same_draws_sub; [| |exact X]; lia).
    rewrite L. apply H2. eapply same_draws_sub; [| |exact X]; lia.
Qed.

Lemma gamma_loop_local c d : forall fuel s v s', gamma_mt_loop E fuel c d s = Ok (v, s') ->
  local s s' (gamma_mt_loop E' fuel c d s = Ok (v, s')).
Proof.
  induction fuel as [|f IH]; intros s v s' H; cbn [gamma_mt_loop] in *; [discriminate|].
  peel H. destruct a as [[x v1] s1]. apply draw_v_local in E0 as [D1 D2].
  destruct (rand E s1) as [u s2] eqn:R. apply rand_local in R as [R1 R2]. cbv zeta in *.
  match type of H with (if ?a then _ else if ?b then _ else _) = _ => destruct a eqn:A; [|destruct b eqn:B] end.
  - inv H. split; [lia|]. intros X. rewrite D2 by (eapply same_draws_sub; [| |exact X]; lia). cbn [bind].
    rewrite R2 by (eapply same_draws_sub; [| |exact X]; lia). now rewrite A.
  - inv H. split; [lia|]. intros X. rewrite D2 by (eapply same_draws_sub; [| |exact X]; lia). cbn [bind].
    rewrite R2 by (eapply same_draws_sub; [| |exact X]; lia). now rewrite A, B.
  - apply IH in H as [H1 H2]. split; [lia|]. intros X. rewrite D2 by (eapply same_draws_sub; [| |exact X]; lia). cbn [bind].
    rewrite R2 by (eapply same_draws_sub; [| |exact X]; lia). rewrite A, B. apply H2. eapply same_draws_sub; [| |exact X]; lia.
Qed.

Lemma ge1_local a b s v s' : gammar_ge1 E a b s = Ok (v, s') -> local s s' (gammar_ge1 E' a b s = Ok (v, s')).
Proof.
  unfold gammar_ge1. intros H. peel H. destruct a0 as [w s1]. inv H. apply gamma_loop_local in E0 as [H1 H2].
  split; auto. intros X. change (e_fuel E') with (e_fuel E). now rewrite (H2 X).
Qed.

Lemma gammar_local a b s v s' : gammar E a b s = Ok (v, s') -> local s s' (gammar E' a b s = Ok (v, s')).
Proof.
  unfold gammar, gammar_mt1. destruct (nle a n0); [intros H; inv H; split; auto; lia|].
  destruct (nlt a n1); [|apply ge1_local]. intros H. peel H. destruct a0 as [w s1]. apply ge1_local in E0 as [G1 G2].
  destruct (rand E s1) as [u s2] eqn:R. apply rand_local in R as [R1 R2]. inv H. split; [lia|]. intros X.
  rewrite G2 by (eapply same_draws_sub; [| |exact X]; lia). cbn [bind]. now rewrite R2 by (eapply same_draws_sub; [| |exact X]; lia).
Qed.

Lemma variance_local al N0v N sos : forall n jj sg S20 s sg' S20' s',
  update_error_variance E al N0v N sos jj n sg S20 s = Ok (sg', S20', s') ->
  local s s' (update_error_variance E' al N0v N sos jj n sg S20 s = Ok (sg', S20', s')).
Proof.
  induction n as [|n IH]; intros jj sg S20 s sg' S20' s' H; cbn [update_error_variance] in *.
  - inv H. split; auto; lia.
  - peel H. peel H. peel H. peel H. peel H. destruct a3 as [v s1]. peel H. unfold draw_sigma2 in *. peel E4. destruct a4 as [w s2]. inv E4.
    apply gammar_local in E6 as [G1 G2]. apply IH in H as [H1 H2]. split; [lia|]. intros X. rewrite E0, E1, E2, E3. cbn [bind].
    rewrite G2 by (eapply same_draws_sub; [| |exact X]; lia). cbn [bind]. rewrite E5. cbn [bind].
    apply H2. eapply same_draws_sub; [| |exact X]; lia.
Qed.

Lemma step_local K i st st' : step E K i st = Ok st' -> local (r_io st) (r_io st') (step E' K i st = Ok st').
Proof.
  intros H. unfold step in *. peel H. destruct a as [[[[[stage new] outb] z] iacce] s]. peel H. peel H. peel H.
  assert (SL : local (r_io st) s (sample_step E' K st = Ok (stage, new, outb, z, iacce, s))).
  { clear - E0. unfold sample_step in *. peel E0. destruct a as [[[[acc nw] ob] zz] s1]. apply metropolis_local in E1 as [M1 M2].
    destruct ((1 <? o_ntry (k_opts K)) && negb acc) eqn:C.
    - peel E0. destruct a as [[[[[acc' out] ob'] ia] path] s2]. inv E0. unfold delayed_rejection_call, run_delayed_rejection in *.
      destruct (c_RDR (r_cov st)); try discriminate. apply dr_loop_local in E1 as [D1 D2]. split; [lia|]. intros X.
      rewrite M2 by (eapply same_draws_sub; [| |exact X]; lia). cbn [bind]. rewrite C.
      rewrite D2 by (eapply same_draws_sub; [| |exact X]; lia). reflexivity.
    - inv E0. split; auto. intros X. rewrite (M2 X). cbn [bind]. now rewrite C. }
  destruct SL as [S1 S2]. pose proof (adapt_frame E K _ _ _ _ _ E2) as AF. pose proof (save_frame K _ _ _ H) as SF.
  assert (I2 : r_io a0 = s).
  { replace (r_io a0) with (r_io a) by (decompose [and] AF; congruence). clear - E1. unfold update_chain in E1.
    peel E1. peel E1. peel E1. peel E1. inv E1. reflexivity. }
  assert (I3 : r_io st' = r_io a1) by (decompose [and] SF; congruence).
  assert (SG : local (r_io a0) (r_io a1) (sigma_step E' K a0 = Ok a1)).
  { clear - E3. unfold sigma_step in *. destruct (o_updatesigma (k_opts K)); [|inv E3; split; auto; lia].
    peel E3. destruct a as [[sg S20] s]. peel E3. peel E3. peel E3. inv E3. cbn [r_io]. apply variance_local in E0 as [V1 V2].
    split; auto. intros X. rewrite (V2 X). cbn [bind]. rewrite E1. cbn [bind]. rewrite E2. cbn [bind]. rewrite E4. reflexivity. }
  destruct SG as [G1 G2]. rewrite I3. rewrite I2 in *. split; [lia|]. intros X.
  rewrite S2 by (eapply same_draws_sub; [| |exact X]; lia). cbn [bind]. rewrite E1. cbn [bind].
  change (adapt_step E' K i z (p_alpha new) a) with (adapt_step E K i z (p_alpha new) a). rewrite E2. cbn [bind].
  rewrite G2 by (eapply same_draws_sub; [| |exact X]; lia). exact H.
Qed.

Lemma iterate_local K : forall l st st', iterate E K l st = Ok st' -> local (r_io st) (r_io st') (iterate E' K l st = Ok st').
Proof.
  induction l as [|i l IH]; intros st st' H; cbn [iterate] in *.
  - inv H. split; auto; lia.
  - peel H. apply step_local in E0 as [S1 S2]. apply IH in H as [H1 H2]. split; [lia|]. intros X.
    rewrite S2 by (eapply same_draws_sub; [| |exact X]; lia). cbn [bind]. apply H2. eapply same_draws_sub; [| |exact X]; lia.
Qed.

Lemma prepared_local m ps ini idx arrays m' : io_pos (i_io ini) = m_pos m -> run_prepared E m ps ini idx arrays = Ok m' ->
  m_pos m <= m_pos m' /\ (same_draws (e_str E) y (m_pos m) (m_pos m') -> run_prepared E' m ps ini idx arrays = Ok m').
Proof.
  intros HP H. unfold run_prepared in *. destruct arrays as [[[chain ss] s2] chains]. peel H. inv H. cbn [m_pos].
  unfold execute in *. peel E0. apply iterate_local in E1 as [I1 I2]. cbn [r_io start_state] in I1, I2. rewrite HP in *.
  destruct (_ <=? 1) eqn:N; [discriminate|]. peel E0. peel E0. inv E0. cbn [r_io]. split; auto. intros X.
  rewrite (I2 X). cbn [bind]. rewrite E1. cbn [bind]. rewrite E2. reflexivity.
Qed.

Lemma run_local b m m' : run_simulation E b m = Ok m' ->
  m_pos m <= m_pos m' /\ (same_draws (e_str E) y (m_pos m) (m_pos m') -> run_simulation E' b m = Ok m').
Proof.
  intros H. unfold run_simulation in *. destruct b.
  - destruct (m_status m); [|discriminate]. destruct (m_results m); [|discriminate]. peel H. peel H. peel H.
    pose proof (init_facts E _ _ _ _ _ _ _ _ E1) as IF. cbv zeta in IF.
    apply prepared_local in H; [|apply IF]. destruct H as [H1 H2]. split; auto. intros X. rewrite ?E0. cbn [bind].
    match type of E1 with initialize_simulation E ?a ?b ?c ?d ?e ?f ?g = _ =>
      change (initialize_simulation E' a b c d e f g) with (initialize_simulation E a b c d e f g) end.
    rewrite E1. cbn [bind]. rewrite E2. cbn [bind]. auto.
  - peel H. destruct a as [ps o]. peel H. peel H.
    pose proof (init_facts E _ _ _ _ _ _ _ _ E1) as IF. cbv zeta in IF.
    apply prepared_local in H; [|apply IF]. destruct H as [H1 H2]. split; auto. intros X. rewrite ?E0. cbn [bind].
    match type of E1 with initialize_simulation E ?a ?b ?c ?d ?e ?f ?g = _ =>
      change (initialize_simulation E' a b c d e f g) with (initialize_simulation E a b c d e f g) end.
    rewrite E1. cbn [bind]. rewrite E2. cbn [bind]. auto.
Qed.
End Local.
