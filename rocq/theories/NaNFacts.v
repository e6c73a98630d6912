(** Candidates with an undefined sum of squares are never accepted: proofs for C13, for any arithmetic in
    which 1 - 1 is 0 and 1 <= 0 is false. *)

From Coq Require Import ZArith QArith Bool Lia List.
From Verif Require Import Base Num Samplers SamplerFacts.
Import ListNotations.
Close Scope Q_scope.
Open Scope list_scope.
Open Scope nat_scope.

Section NaNFacts.
Context {A : Type} `{AA : Arith A}.
Hypothesis H11 : neq (nmul n1 (nsub n1 n1)) (@n0 (X A) _) = true.
Hypothesis H10 : nle n1 (@n0 (X A) _) = false.
Notation F := (X A).

Lemma fold_nan l (a : F) : a = NaN \/ In NaN l -> fold_left (@nadd F _) l a = NaN.
Proof.
  revert a; induction l as [|b l IH]; intros a [H|H]; simpl in *; auto; try contradiction.
  - apply IH. left. subst. reflexivity.
  - destruct H as [->|H]; apply IH; auto. left. destruct a; reflexivity.
Qed.

Lemma nan_div (s : F) : ndiv NaN s = NaN. Proof. destruct s; reflexivity. Qed.

Lemma nan_loglik ss (sg : list F) l : loglik ss sg = Ok l -> sg <> [] -> In NaN ss -> l = NaN.
Proof.
  intros H HN Hx. unfold loglik in H. peel H.
  assert (HB : vsum a = NaN).
  { apply fold_nan. right. unfold bcast2 in E.
    destruct (Nat.eqb_spec (length ss) (length sg)) as [HL|HL].
    - inversion E; subst a. apply (In_nth_error) in Hx as (k & Hk).
      destruct (nth_error sg k) as [s|] eqn:Hs.
      + apply (nth_error_In _ k). rewrite map2_nth_error, Hk, Hs. reflexivity.
      + apply nth_error_None in Hs. assert (k < length ss)%nat by (apply nth_error_Some; congruence). lia.
    - destruct ss as [|p [|q ss]].
      + contradiction.
      + inversion E; subst a. destruct Hx as [->|[]]. destruct sg as [|s sg]; [contradiction|].
        left; reflexivity.
      + destruct sg as [|s [|s2 sg]]; try discriminate.
        assert (Ha : a = map (fun a => ndiv a s) (p :: q :: ss)) by congruence. rewrite Ha.
        exact (in_map (fun a => ndiv a s) _ NaN Hx). }
  assert (Hl : l = nmul mhalf (vsum a)) by congruence. rewrite Hl, HB. reflexivity.
Qed.

(** the sum of squares at the point is undefined *)
Definition undef (p : pset F) : Prop := p_sigma2 p <> [] /\ In NaN (p_ss p).

Lemma nan_add (x : F) : nadd x NaN = NaN. Proof. destruct x; reflexivity. Qed.
Lemma nan_add_l (x : F) : nadd NaN x = NaN. Proof. destruct x; reflexivity. Qed.
Lemma nan_sub (x : F) : nsub x NaN = NaN. Proof. destruct x; reflexivity. Qed.
Lemma nan_sub_l (x : F) : nsub NaN x = NaN. Proof. destruct x; reflexivity. Qed.
Lemma nan_mul_l (x : F) : nmul NaN x = NaN. Proof. destruct x; reflexivity. Qed.
Lemma nan_lt (x : F) : nlt x NaN = false. Proof. destruct x; reflexivity. Qed.

Lemma ratio_nan (b c d : F) : calculate_log_posterior_ratio NaN b c d = NaN.
Proof. unfold calculate_log_posterior_ratio. rewrite nan_add_l. generalize (nadd b d). intros x; destruct x; reflexivity. Qed.

(** Paths of two points, one of which is undefined: the move is accepted with probability one. *)
Lemma alpha_two f invR p q (a : F) : undef p \/ undef q -> alphafun (S f) invR [p; q] = Ok a -> a = n1.
Proof.
  intros HP H. cbn [alphafun length Nat.sub range seq alpha_loop bind] in H. peel H.
  unfold alpha_exponent in E. cbn [nth_error length Nat.sub of_option bind] in E. peel E. peel E.
  cbn [range seq fold_left bind] in E. unfold nth_stage_log_proposal_ratio in E.
  cbn [length Nat.sub Nat.eqb bind] in E.
  assert (Hr : a = pymin n1 (nmul (nmul (nexp a0) n1) (ninv n1))) by congruence. rewrite Hr. clear H Hr.
  assert (HY : a0 = NaN).
  { assert (Ha : nadd (calculate_log_posterior_ratio a1 a2 (nmul mhalf (p_prior q)) (nmul mhalf (p_prior p))) n0 = a0)
      by congruence.
    rewrite <- Ha. unfold calculate_log_posterior_ratio. destruct HP as [[H1 H2]|[H1 H2]].
    - rewrite (nan_loglik _ _ _ E1 H1 H2). rewrite nan_add_l, nan_sub, nan_add_l. reflexivity.
    - rewrite (nan_loglik _ _ _ E0 H1 H2). rewrite nan_add_l. reflexivity. }
  rewrite HY. reflexivity.
Qed.

(** Hence a longer path with an undefined last point, or an undefined last but one, is accepted with
    probability zero. *)
Lemma alpha_undef f invR path x y (a : F) : undef x \/ undef y -> path <> [] ->
  alphafun (S (S f)) invR (path ++ [x; y]) = Ok a -> a = n0.
Proof.
  intros HP HL H. remember (S f) as g. cbn [alphafun] in H. subst g.
  assert (HLn : length (path ++ [x; y]) = length path + 2) by (rewrite app_length; reflexivity).
  rewrite HLn in H.
  destruct path as [|x0 path]; [congruence|]. cbn [length] in H.
  replace (range (S (length path) + 2 - 1 - 1)) with (O :: seq 1 (length path)) in H.
  2:{ unfold range. replace (S (length path) + 2 - 1 - 1)%nat with (S (length path)) by lia. reflexivity. }
  cbn [alpha_loop] in H. peel H. peel E. peel E.
  rewrite rev_app_distr in E1. cbn [rev app Nat.add firstn] in E1.
  apply alpha_two in E1; [|tauto]. subst a2. rewrite H11 in E.
  inversion E; subst. inversion H; subst. reflexivity.
Qed.

Variable E : env F.
Hypothesis Hu : forall k, nlt (s_unif (e_str E) k) n0 = false.

Lemma zero_rejects s : fst (posterior_ratio_acceptance_test E n0 s) = false.
Proof. unfold posterior_ratio_acceptance_test. rewrite H10. unfold rand. cbn [fst]. apply Hu. Qed.

Lemma dr_loop_undef V RDR invR old new n :
  forall itry path iacce cur s acc out outb iacce' path' s1,
  cur = (false, old, snd cur) -> 2 <= length path ->
  dr_loop E V RDR invR old new n itry path iacce cur s = Ok (acc, out, outb, iacce', path', s1) ->
  acc = true -> ~ undef out /\ p_sigma2 out = p_sigma2 new.
Proof.
  induction n as [|n IH]; intros itry path iacce cur s acc out outb iacce' path' s1 Hc HL H Ha.
  - cbn [dr_loop] in H. rewrite Hc in H. inversion H; subst. discriminate.
  - cbn [dr_loop] in H. peel H. peel H. destruct a0 as [[theta z] s2].
    destruct (is_sample_outside_bounds theta (v_lower V) (v_upper V)) eqn:Hb.
    + apply IH in H; auto. rewrite app_length; lia.
    + destruct (evaluate_sos_function E V theta s2) as [ss s3]. peel H.
      destruct (posterior_ratio_acceptance_test E a0 s3) as [ac s4] eqn:HT. peel H.
      destruct ac.
      * inversion H; subst. cbn [update_set_based_on_acceptance p_sigma2]. split; auto. intros HP.
        destruct path as [|x path] using rev_ind; [simpl in HL; lia|]. clear IHpath.
        assert (HNe : path <> []) by (destruct path; simpl in HL; [lia|discriminate]).
        rewrite <- app_assoc in E2. cbn [app] in E2.
        rewrite app_length in E2. replace (length path + length [_; _])%nat with (S (S (length path))) in E2
          by (simpl; lia).
        apply alpha_undef in E2; [|right; exact HP|exact HNe]. subst a0.
        pose proof (zero_rejects s3) as HZ. rewrite HT in HZ. discriminate.
      * apply IH in H; auto. rewrite app_length; lia.
Qed.

Lemma dr_undef V RDR invR ntry old new iacce s out outb iacce' path' s1 :
  run_delayed_rejection E V RDR invR ntry old new iacce s = Ok (true, out, outb, iacce', path', s1) ->
  ~ undef out /\ p_sigma2 out = p_sigma2 new.
Proof. intros H. unfold run_delayed_rejection in H. eapply dr_loop_undef in H; eauto. Qed.

Lemma metropolis_sigma2 V R old s acc new outb z s1 :
  run_metropolis_step E V R old s = Ok (acc, new, outb, z, s1) -> p_sigma2 new = p_sigma2 old.
Proof.
  intros H. unfold run_metropolis_step in H. peel H. destruct a as [[a1 a2] a3]. destruct (is_sample_outside_bounds _ _ _).
  - inversion H; reflexivity.
  - destruct (evaluate_sos_function _ _ _ _). peel H. peel H.
    destruct (log_posterior_ratio_acceptance_test _ _ _). inversion H; reflexivity.
Qed.

Lemma metropolis_undef V R old s new outb z s1 :
  run_metropolis_step E V R old s = Ok (true, new, outb, z, s1) -> ~ undef new.
Proof.
  intros H [HP1 HP2].
  unfold run_metropolis_step in H. peel H. destruct a as [[a1 a2] a3]. destruct (is_sample_outside_bounds _ _ _);
    [discriminate|].
  destruct (evaluate_sos_function _ _ _ _). peel H. peel H.
  unfold log_posterior_ratio_acceptance_test in H. destruct (rand E i) as [u s3] eqn:HR.
  assert (Hl : nlt (nlog u) (calculate_log_posterior_ratio a a0 (nmul mhalf (evaluate_prior E V a1)) (nmul mhalf (p_prior old))) = true)
    by congruence.
  assert (Hn : new = mkpset a1 l (evaluate_prior E V a1) (p_sigma2 old)
     (Some (calculate_log_posterior_ratio a a0 (nmul mhalf (evaluate_prior E V a1)) (nmul mhalf (p_prior old)))))
    by congruence.
  subst new. cbn [p_sigma2 p_ss] in *.
  rewrite (nan_loglik _ _ _ E1 HP1 HP2) in Hl.
  rewrite ratio_nan, nan_lt in Hl. discriminate.
Qed.
End NaNFacts.
