(** Facts about the error variance draws (C24). *)

From Coq Require Import ZArith QArith Bool Lia List Reals Lra.
From Verif Require Import Base Num Samplers SamplerFacts Adapt Settings Simulator RVec RMat GammaSpec SettingsFacts.
Import ListNotations.
Close Scope Q_scope.
Open Scope list_scope.
Open Scope R_scope.

Lemma Q2R_331 : Q2R (331 # 10000) = 331 / 10000. Proof. unfold Q2R; simpl; lra. Qed.
Lemma Q2R_half : Q2R (1 # 2) = 1 / 2. Proof. unfold Q2R; simpl; lra. Qed.
Lemma Q2R_third : Q2R (1 # 3) = 1 / 3. Proof. unfold Q2R; simpl; lra. Qed.
Lemma Q2R_9 : Q2R 9 = 9. Proof. unfold Q2R; simpl; lra. Qed.
Lemma Q2R_2 : Q2R 2 = 2. Proof. unfold Q2R; simpl; lra. Qed.
Lemma XR_nQ q : @nQ XR _ q = Fin (Q2R q). Proof. reflexivity. Qed.
Lemma XR_add a b : @nadd XR _ (Fin a) (Fin b) = Fin (a + b). Proof. reflexivity. Qed.
Lemma XR_sub a b : @nsub XR _ (Fin a) (Fin b) = Fin (a - b). Proof. reflexivity. Qed.
Lemma XR_mul a b : @nmul XR _ (Fin a) (Fin b) = Fin (a * b). Proof. reflexivity. Qed.
Lemma XR_lt a b : @nlt XR _ (Fin a) (Fin b) = Rltb a b. Proof. reflexivity. Qed.
Lemma XR_le a b : @nle XR _ (Fin a) (Fin b) = Rleb a b. Proof. reflexivity. Qed.
Lemma XR_log a : 0 < a -> @nlog XR _ (Fin a) = Fin (ln a).
Proof. intros H. cbn [nlog Num_X xlog alt Arith_R]. rewrite XR_a0. apply Rltb_true in H. now rewrite H. Qed.
Lemma XR_log0 : @nlog XR _ (Fin 0) = NInf.
Proof. cbn [nlog Num_X xlog alt Arith_R]. rewrite XR_a0. unfold Rltb. destruct (Rlt_dec 0 0); [lra|reflexivity]. Qed.
Lemma XR_pow a b : 0 < a -> @npow XR _ (Fin a) (Fin b) = Fin (Rpower a b).
Proof. intros H. cbn [npow Num_X xpow alt Arith_R]. rewrite XR_a0. apply Rltb_true in H. now rewrite H. Qed.
Lemma XR_pow0 b : 0 < b -> @npow XR _ (Fin 0) (Fin b) = Fin 0.
Proof.
  intros H. cbn [npow Num_X xpow alt Arith_R]. rewrite XR_a0. unfold Rltb.
  destruct (Rlt_dec 0 0); [lra|]. destruct (Rlt_dec 0 b); [reflexivity|lra].
Qed.

Section Var.
Variable E : env XR.
Variables (nrm unif : nat -> R).
Hypothesis Hn : forall k, s_normal (e_str E) k = Fin (nrm k).
Hypothesis Hu : forall k, s_unif (e_str E) k = Fin (unif k).
Hypothesis Hu0 : forall k, 0 <= unif k.

Definition same_io (s s' : io XR) : Prop := io_value s' = io_value s /\ io_calls s' = io_calls s.
Definition at_pos (s : io XR) (p : nat) : io XR := mkio p (io_value s) (io_calls s).

(** One inner draw. *)
Lemma draw_v_ok c : forall fuel s x v s', draw_v E fuel (Fin c) s = Ok (x, v, s') ->
  exists q, first_usable nrm c (io_pos s) q /\ x = Fin (nrm q) /\ v = Fin (1 + c * nrm q) /\ s' = at_pos s (S q).
Proof.
  induction fuel as [|f IH]; intros s x v s' H; [discriminate|]. cbn [draw_v] in H. unfold randn in H. cbn [seq map nth] in H.
  rewrite Hn, XR_n1, XR_n0, XR_mul, XR_add, XR_lt in H. destruct (Rltb 0 (1 + c * nrm (io_pos s))) eqn:D.
  - inv H. apply Rltb_true in D. exists (io_pos s). repeat split; auto.
    + intros r Hr. lia.
    + unfold at_pos. f_equal. lia.
  - apply Rltb_false in D. apply IH in H as (q & (H1 & H2 & H3) & -> & -> & ->). cbn [io_pos] in *.
    exists q. repeat split; auto; [lia|]. intros r Hr. destruct (Nat.eq_dec r (io_pos s)) as [->|].
    + unfold usable. lra.
    + apply H3. lia.
Qed.
Lemma draw_v_complete c q : forall k fuel s, (q - io_pos s = k)%nat -> first_usable nrm c (io_pos s) q -> (k < fuel)%nat ->
  draw_v E fuel (Fin c) s = Ok (Fin (nrm q), Fin (1 + c * nrm q), at_pos s (S q)).
Proof.
  induction k as [|k IH]; intros fuel s Hk (H1 & H2 & H3) Hf; (destruct fuel as [|f]; [lia|]);
    cbn [draw_v]; unfold randn; cbn [seq map nth]; rewrite Hn, XR_n1, XR_n0, XR_mul, XR_add, XR_lt.
  - assert (io_pos s = q) as -> by lia. unfold usable in H2. apply Rltb_true in H2. rewrite H2. unfold at_pos.
    repeat f_equal. lia.
  - assert (Hnu : ~ usable nrm c (io_pos s)) by (apply H3; lia). unfold usable in Hnu.
    destruct (Rltb 0 (1 + c * nrm (io_pos s))) eqn:D; [apply Rltb_true in D; lra|].
    rewrite IH; try (cbn [io_pos]; lia); [reflexivity|]. cbn [io_pos]. split; [lia|]. split; auto. intros r Hr. apply H3. lia.
Qed.

(** The test of a pair. *)
Definition test (c d : R) (q : nat) : bool :=
  let x := @Fin R (nrm q) in let v := cube (@Fin R (1 + c * nrm q)) in let u := @Fin R (unif (S q)) in
  let x2 := nmul x x in
  nlt u (nsub n1 (nmul (nQ (331 # 10000)) (nmul x2 x2))) ||
  nlt (nlog u) (nadd (nmul (nQ (1 # 2)) x2) (nmul (Fin d) (nadd (nsub n1 v) (nlog v)))).

Lemma cube_fin w : cube (@Fin R w) = Fin (w ^ 3).
Proof. unfold cube. rewrite !XR_mul. f_equal. ring. Qed.

Lemma test_spec c d q : usable nrm c q -> test c d q = true <-> pair_ok nrm unif c d q.
Proof.
  intros H. unfold usable in H. unfold test, pair_ok. rewrite cube_fin. fold (cubed nrm c q).
  assert (Hv : 0 < cubed nrm c q) by (unfold cubed; apply pow_lt; auto).
  rewrite XR_n1, !XR_nQ, !XR_mul, !XR_sub, XR_lt, (XR_log (cubed nrm c q)) by auto.
  rewrite XR_add, XR_mul, XR_add, Q2R_331, Q2R_half.
  replace (331 / 10000 * (nrm q * nrm q * (nrm q * nrm q))) with (331 / 10000 * nrm q ^ 4) by ring.
  replace (1 / 2 * (nrm q * nrm q)) with (1 / 2 * nrm q ^ 2) by ring.
  rewrite orb_true_iff, Rltb_true. split; (intros [A|B]; [now left|right]).
  - destruct (Req_dec (unif (S q)) 0) as [->|Hne]; [now left|right].
    specialize (Hu0 (S q)). rewrite XR_log, XR_lt in B by lra. now apply Rltb_true in B.
  - destruct B as [B|B].
    + rewrite B, XR_log0. reflexivity.
    + destruct (Req_dec (unif (S q)) 0) as [->|Hne]; [rewrite XR_log0; reflexivity|].
      specialize (Hu0 (S q)). rewrite XR_log, XR_lt by lra. now apply Rltb_true.
Qed.

Lemma loop_step f c d s q :
  draw_v E (S f) (Fin c) s = Ok (Fin (nrm q), Fin (1 + c * nrm q), at_pos s (S q)) ->
  gamma_mt_loop E (S f) (Fin c) (Fin d) s =
  if test c d q then Ok (Fin (cubed nrm c q), at_pos s (S (S q))) else gamma_mt_loop E f (Fin c) (Fin d) (at_pos s (S (S q))).
Proof.
  intros H. cbn [gamma_mt_loop]. rewrite H. cbn [bind]. unfold rand. cbn [io_pos at_pos io_value io_calls]. rewrite Hu.
  unfold test. destruct (nlt _ (nsub _ _)); cbn [orb]; [now rewrite cube_fin|].
  destruct (nlt (nlog _) _); [now rewrite cube_fin|]. reflexivity.
Qed.

Lemma mt_ok c d : forall fuel s v s', gamma_mt_loop E fuel (Fin c) (Fin d) s = Ok (v, s') ->
  exists w, v = Fin w /\ first_accepted nrm unif c d (io_pos s) w (io_pos s') /\ s' = at_pos s (io_pos s').
Proof.
  induction fuel as [|f IH]; intros s v s' H; [discriminate|].
  destruct (draw_v E (S f) (Fin c) s) as [[[x w] s1]|e] eqn:D; [|cbn [gamma_mt_loop] in H; rewrite D in H; discriminate].
  apply draw_v_ok in D as HD. destruct HD as (q & Hq & -> & -> & ->).
  rewrite (loop_step _ _ _ _ _ D) in H. destruct (test c d q) eqn:T.
  - inv H. apply test_spec in T; [|apply Hq]. exists (cubed nrm c q). split; auto. split; [|reflexivity]. cbn [io_pos at_pos].
    now apply take.
  - apply IH in H as (w & -> & Hw & Hs). cbn [io_pos at_pos io_value io_calls] in *. exists w. split; auto. split.
    + apply next with (q := q); auto. intros Hp. apply test_spec in Hp; [congruence|apply Hq].
    + rewrite Hs. reflexivity.
Qed.

Lemma mt_complete c d p v p' : first_accepted nrm unif c d p v p' ->
  exists k, forall fuel s, (k <= fuel)%nat -> io_pos s = p -> gamma_mt_loop E fuel (Fin c) (Fin d) s = Ok (Fin v, at_pos s p').
Proof.
  induction 1 as [p q H1 H2|p q v p' H1 H2 H3 [k IH]].
  - exists (S (q - p)). intros fuel s Hf <-. destruct fuel as [|f]; [lia|].
    rewrite (loop_step f c d s q).
    + apply (test_spec c d q) in H2; [|apply H1]. now rewrite H2.
    + apply draw_v_complete with (k := (q - io_pos s)%nat); auto; lia.
  - exists (S (Nat.max (q - p) k)). intros fuel s Hf <-. destruct fuel as [|f]; [lia|].
    rewrite (loop_step f c d s q).
    + destruct (test c d q) eqn:T; [apply test_spec in T; [contradiction|apply H1]|].
      rewrite IH; [reflexivity|lia|reflexivity].
    + apply draw_v_complete with (k := (q - io_pos s)%nat); auto; lia.
Qed.

Lemma c_fin d : 0 < d -> @ninv XR _ (nsqrt (nmul (nQ 9) (Fin d))) = Fin (/ sqrt (9 * d)).
Proof.
  intros H. rewrite XR_nQ, XR_mul, Q2R_9, XR_nsqrt by lra. rewrite XR_ninv; [reflexivity|].
  apply Rgt_not_eq, sqrt_lt_R0. lra.
Qed.

Lemma ge1_unfold a b s : 1 <= a ->
  gammar_ge1 E (Fin a) (Fin b) s =
  match gamma_mt_loop E (e_fuel E) (Fin (/ sqrt (9 * (a - 1 / 3)))) (Fin (a - 1 / 3)) s with
  | Ok (v, s1) => Ok (nmul (Fin (b * (a - 1 / 3))) v, s1) | Err e => Err e end.
Proof.
  intros H. unfold gammar_ge1. rewrite (XR_nQ (1 # 3)), XR_sub, Q2R_third, c_fin, XR_mul by lra.
  destruct (gamma_mt_loop _ _ _ _ _) as [[v s1]|]; reflexivity.
Qed.

Lemma ge1_ok a b s y s' : 1 <= a -> gammar_ge1 E (Fin a) (Fin b) s = Ok (y, s') ->
  exists w, y = Fin w /\ draw_ge1 nrm unif a b (io_pos s) w (io_pos s') /\ s' = at_pos s (io_pos s').
Proof.
  intros Ha H. rewrite ge1_unfold in H by auto. destruct (gamma_mt_loop _ _ _ _ _) as [[v s1]|] eqn:G; [|discriminate].
  inv H. apply mt_ok in G as (w & -> & Hw & Hs). eexists. split; [reflexivity|]. split; [|auto]. exists w. split; auto.
Qed.
Lemma ge1_complete a b p y p' : 1 <= a -> draw_ge1 nrm unif a b p y p' ->
  exists k, forall s, (k <= e_fuel E)%nat -> io_pos s = p -> gammar_ge1 E (Fin a) (Fin b) s = Ok (Fin y, at_pos s p').
Proof.
  intros Ha (v & Hv & ->). apply mt_complete in Hv as (k & Hk). exists k. intros s Hf Hp.
  rewrite ge1_unfold, Hk by auto. reflexivity.
Qed.

Lemma accepted_pos c d p v p' : first_accepted nrm unif c d p v p' -> 0 < v /\ (p + 2 <= p')%nat.
Proof.
  induction 1 as [p q H1 H2|p q v p' H1 H2 H3 [IH1 IH2]].
  - split; [unfold cubed; apply pow_lt; apply H1|]. destruct H1. lia.
  - split; auto. destruct H1. lia.
Qed.

Lemma gammar_ok a b s y s' : 0 < a -> gammar E (Fin a) (Fin b) s = Ok (y, s') ->
  exists w, y = Fin w /\ gamma_draw nrm unif a b (io_pos s) w (io_pos s') /\ s' = at_pos s (io_pos s').
Proof.
  intros Ha H. unfold gammar in H. rewrite XR_n0, XR_le in H. unfold Rleb in H. destruct (Rle_dec a 0); [lra|].
  unfold gammar_mt1 in H. rewrite XR_n1, XR_lt in H. unfold gamma_draw. unfold Rltb in H. destruct (Rlt_dec a 1).
  - rewrite XR_add in H. destruct (gammar_ge1 E (Fin (1 + a)) (Fin b) s) as [[y1 s1]|] eqn:G; [|discriminate]. cbn [bind] in H.
    apply ge1_ok in G as (w & -> & Hw & Hs); [|lra]. unfold rand in H. rewrite Hu in H. rewrite XR_ninv in H by lra.
    destruct (Rlt_dec 0 (unif (io_pos s1))) as [Hp|Hp].
    + rewrite XR_pow, XR_mul in H by auto. inv H. eexists. split; [reflexivity|]. split.
      * exists w, (io_pos s1). split; auto. split; [reflexivity|]. destruct (Rlt_dec 0 (unif (io_pos s1))); [reflexivity|contradiction].
      * cbn [io_pos]. rewrite Hs. reflexivity.
    + assert (H0 : unif (io_pos s1) = 0) by (specialize (Hu0 (io_pos s1)); lra).
      rewrite H0, XR_pow0, XR_mul in H by (now apply Rinv_0_lt_compat). inv H. eexists. split; [reflexivity|]. split.
      * exists w, (io_pos s1). split; auto. split; [reflexivity|]. destruct (Rlt_dec 0 (unif (io_pos s1))); [contradiction|reflexivity].
      * cbn [io_pos]. rewrite Hs. reflexivity.
  - apply ge1_ok in H; auto. lra.
Qed.

Lemma gammar_complete a b p y p' : 0 < a -> gamma_draw nrm unif a b p y p' ->
  exists k, forall s, (k <= e_fuel E)%nat -> io_pos s = p -> gammar E (Fin a) (Fin b) s = Ok (Fin y, at_pos s p').
Proof.
  intros Ha H. unfold gamma_draw in H. unfold gammar, gammar_mt1.
  rewrite XR_n0, XR_n1, XR_le, XR_lt, XR_add. unfold Rleb, Rltb. destruct (Rle_dec a 0); [lra|]. destruct (Rlt_dec a 1).
  - destruct H as (y1 & p1 & H1 & -> & ->). apply ge1_complete in H1 as (k & Hk); [|lra]. exists k. intros s Hf Hp.
    rewrite Hk by auto. cbn [bind]. unfold rand. cbn [at_pos io_pos io_value io_calls]. rewrite Hu, XR_ninv by lra.
    destruct (Rlt_dec 0 (unif p1)) as [Hq|Hq].
    + now rewrite XR_pow, XR_mul by auto.
    + assert (H0 : unif p1 = 0) by (specialize (Hu0 p1); lra). rewrite H0, XR_pow0, XR_mul by (now apply Rinv_0_lt_compat). reflexivity.
  - apply ge1_complete in H; auto. lra.
Qed.

Lemma gamma_positive a b p y p' : 0 < a -> 0 < b -> gamma_draw nrm unif a b p y p' ->
  0 <= y /\ ((forall k, unif k <> 0) -> 0 < y) /\ (1 <= a -> 0 < y).
Proof.
  intros Ha Hb H.
  assert (G : forall a' p y p', 1 <= a' -> draw_ge1 nrm unif a' b p y p' -> 0 < y).
  { intros a' q z q' H' (v & Hv & ->). apply accepted_pos in Hv as [Hv _].
    apply Rmult_lt_0_compat; auto. apply Rmult_lt_0_compat; lra. }
  unfold gamma_draw in H. destruct (Rlt_dec a 1).
  - destruct H as (y1 & p1 & H1 & _ & ->). apply G in H1; [|lra].
    assert (HP : forall z, 0 < Rpower (unif p1) z) by (intros; unfold Rpower; apply exp_pos).
    destruct (Rlt_dec 0 (unif p1)).
    + assert (0 < y1 * Rpower (unif p1) (/ a)) by (apply Rmult_lt_0_compat; auto). repeat split; intros; lra.
    + rewrite Rmult_0_r. repeat split; intros; try lra. specialize (Hu0 p1). specialize (H p1). lra.
  - apply G in H; [|lra]. repeat split; intros; lra.
Qed.

(** ** The variances *)

Lemma draw_sigma2_ok N0 S20 N sos s v s' : 0 < N0 + N -> N0 * S20 + sos <> 0 ->
  draw_sigma2 E (Fin N0) (Fin S20) (Fin N) (Fin sos) s = Ok (v, s') ->
  variance_draw nrm unif N0 S20 N sos (io_pos s) v (io_pos s') /\ s' = at_pos s (io_pos s').
Proof.
  intros HN HS H. unfold draw_sigma2 in H. rewrite !XR_nQ, !XR_add, !XR_mul, !XR_add, Q2R_half, Q2R_2, XR_ninv, XR_mul in H by auto.
  destruct (gammar _ _ _ _) as [[y s1]|] eqn:G; [|discriminate]. cbn [bind] in H. inv H.
  replace (1 / 2 * (N0 + N)) with ((N0 + N) / 2) in G by lra.
  replace (2 * / (N0 * S20 + sos)) with (2 / (N0 * S20 + sos)) in G by reflexivity.
  apply gammar_ok in G as (w & -> & Hw & Hs); [|lra]. split; auto. exists w. split; auto.
  destruct (Req_EM_T w 0) as [->|]; [apply XR_ninv_0|now apply XR_ninv].
Qed.

Definition finq (c : R * R * R * R) : XR * XR * XR * XR :=
  let '(a, b, c, d) := c in (Fin a, Fin b, Fin c, Fin d).

Lemma drawn_ok : forall q s vs s', drawn E (map finq q) s vs s' -> Forall proper q ->
  variance_draws nrm unif q (io_pos s) vs (io_pos s').
Proof.
  induction q as [|[[[a b] c] d] q IH]; intros s vs s' H Hp; cbn [map finq] in H.
  - inv H. constructor.
  - inversion H as [|n0v s20 nv sj q' s0 v s1 vs' s2 HD HR Eq]; subst. inversion Hp as [|? ? P P3]; subst. cbn [proper] in P. destruct P as [P1 P2].
    apply draw_sigma2_ok in HD as [HD _]; [|lra|lra]. econstructor; eauto.
Qed.

Lemma quads_fin N0 S20 N sos n : quads (fin N0) (fin S20) (fin N) (fin sos) 0 n = map finq (components N0 S20 N sos n).
Proof.
  unfold quads, components. rewrite map_map. apply map_ext. intros i. rewrite XR_n0, !nth_fin. reflexivity.
Qed.

Lemma update_ok al N0 S20 N sos sigma2 s sigma2' S20' s' :
  update_error_variance E al (fin N0) (fin N) (fin sos) 0 (length sos) sigma2 (fin S20) s = Ok (sigma2', S20', s') ->
  (length sos <= length sigma2)%nat -> Forall proper (components N0 S20 N sos (length sos)) ->
  exists vs, sigma2' = (vs ++ skipn (length sos) sigma2)%list /\ length vs = length sos /\
    variance_draws nrm unif (components N0 S20 N sos (length sos)) (io_pos s) vs (io_pos s').
Proof.
  intros H Hl Hp. apply update_error_variance_drawn in H as (vs & Hd & -> & _); [|exact Hl]. exists vs.
  split; [reflexivity|]. split.
  - rewrite (drawn_length _ _ _ _ _ Hd). unfold quads. now rewrite map_length, seq_length.
  - rewrite quads_fin in Hd. now apply drawn_ok.
Qed.

Lemma variances_positive q p vs p' : variance_draws nrm unif q p vs p' -> Forall proper q -> (forall k, unif k <> 0) ->
  Forall (fun v => exists x, v = Fin x /\ 0 < x) vs.
Proof.
  intros H Hp Hz. induction H as [|N0 S20 N sos rest p v p1 vs p' (y & Hy & ->) H IH]; constructor.
  - inversion Hp as [|? ? P P3]; subst. cbn [proper] in P. destruct P as [P1 P2]. apply gamma_positive in Hy as (Y1 & Y2 & Y3).
    + destruct (Req_EM_T y 0) as [->|]; [specialize (Y2 Hz); lra|]. exists (/ y). split; auto. apply Rinv_0_lt_compat. now apply Y2.
    + lra.
    + apply Rdiv_lt_0_compat; lra.
  - apply IH. now inversion Hp.
Qed.

Lemma run_variances sos n b m m' N0 S20 N :
  (forall v, e_sos E v = fin (sos v)) -> (forall v, length (sos v) = n) ->
  run_simulation E b m = Ok m' -> o_updatesigma (m_opts m') = true -> ms_alias (m_model m') = false ->
  ms_N0 (m_model m') = Some (fin N0) -> ms_S20 (m_model m') = fin S20 -> ms_N (m_model m') = Some (fin N) ->
  (forall v, Forall proper (components N0 S20 N (sos v) n)) ->
  exists evs s2, m_trace m' = rev evs ++ m_trace m /\ length evs = (o_nsimu (m_opts m) - 1)%nat /\ m_s2chain m' = Some s2 /\
  forall k e, nth_error evs k = Some e ->
    exists v row p, let i := ((if b then m_index m else 0) + S k)%nat in
      nth_error (m_sschain m') i = Some (fin (sos v)) /\ nth_error s2 i = Some row /\ (ev_pos e <= p)%nat /\
      variance_draws nrm unif (components N0 S20 N (sos v) n) p row (nth (S k) (map (@ev_pos XR) evs) (m_pos m')).
Proof.
  intros Hs Hns H Hup Ha E0 E1 E2 Hp.
  assert (HL : forall v, length (e_sos E v) = n) by (intros; rewrite Hs, fin_length; auto).
  assert (H2 : (2 <= o_nsimu (m_opts m))%nat).
  { apply run_model in H as (ini & ms1 & st0 & st & chains & HM). cbv zeta in HM. tauto. }
  apply (variance_course E b m m' n HL) in H as (evs & T1 & T2 & _ & _ & T3); auto.
  assert (HS2 : exists s2, m_s2chain m' = Some s2).
  { destruct evs as [|e evs]; [cbn in T2; lia|]. destruct (T3 O e eq_refl) as (s2 & _ & _ & _ & _ & X & _). eauto. }
  destruct HS2 as (s2 & HS2). exists evs, s2. split; [exact T1|]. split; [exact T2|]. split; [exact HS2|].
  intros k e Hk. destruct (T3 k e Hk) as (s2' & ssrow & row & s & s' & X1 & X2 & X3 & (v & X4) & X5 & X6 & X7 & X8).
  assert (s2' = s2) as -> by congruence. rewrite Hs in X4. subst ssrow. exists v, row, (io_pos s). cbv zeta.
  split; [exact X2|]. split; [exact X3|]. split; [exact X6|]. rewrite <- X7. apply drawn_ok; [|apply Hp].
  rewrite <- quads_fin. rewrite E0, E1, E2 in X5. exact X5.
Qed.

End Var.
