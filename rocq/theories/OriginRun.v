(** A session seen from another origin: the loop, the files, and whole sequences of user actions. *)

From Coq Require Import ZArith QArith Bool Lia List String Reals Lra.
From Verif Require Import Base Num Samplers Adapt Settings Simulator SamplerFacts RunSpec ScaleNum ScaleSpec ScaleFacts OriginSpec OriginFacts OriginAdapt.
Import ListNotations.
Close Scope Q_scope.
Close Scope R_scope.
Open Scope list_scope.
Open Scope nat_scope.
Open Scope res_scope.

Lemma out_rmap {A B} (f : A -> B) x : outcomes (fun a b => b = f a) x (rmap f x).
Proof. destruct x; reflexivity. Qed.

Section Origin.
Variables d ds : list R.
Variable pi : list nat.
Hypothesis Hds : ds = map (fun i => nth i d 0%R) pi.
Variable E : env XR.
Notation E' := (moved_env d ds E).
Notation npar := (List.length ds).

(** ** Files *)
Notation orel := (Forall2 (moved_op ds)).
Lemma sets_exist p a c l l' : orel l l' ->
  existsb (fun e : nat * nat * list (list XR) => match e with (a', c', _) => (a =? a') && (c =? c') end) (h5_sets p l') =
  existsb (fun e => match e with (a', c', _) => (a =? a') && (c =? c') end) (h5_sets p l).
Proof.
  unfold h5_sets. induction 1 as [|x y l l' H _ IH]; [reflexivity|]. cbn [map List.concat]. rewrite !existsb_app, IH. f_equal.
  destruct x, y; cbn in H; try contradiction; try reflexivity. destruct H as (<- & <- & <- & _). destruct (path_eqb p p0); reflexivity.
Qed.
Lemma snoc_same l l' x y : orel l l' -> moved_op ds x y -> orel (l ++ [x]) (l' ++ [y]).
Proof. intros H1 H2. apply Forall2_app; [exact H1|]. now constructor. Qed.
Lemma put_same p a c x y l l' : orel l l' -> moved_rows ds x y -> outcomes orel (h5_put p a c x l) (h5_put p a c y l').
Proof.
  intros H1 H2. unfold h5_put. rewrite (sets_exist p a c l l' H1). destruct (existsb _ _); [reflexivity|]. cbn. apply snoc_same; [exact H1|]. cbn. auto.
Qed.
Definition named a c (x y : string * list (list XR)) : Prop := fst x = fst y /\ moved_rows ds (slice a c (snd x)) (slice a c (snd y)).
Lemma save_same h5 dir a c ch ch' : Forall2 (named a c) ch ch' -> forall l l', orel l l' ->
  outcomes orel (save_chains h5 dir a c ch l) (save_chains h5 dir a c ch' l').
Proof.
  induction 1 as [|[f m] [f' m'] ch ch' [H1 H2] H3 IH]; intros l l' H; cbn [save_chains]; [exact H|].
  cbn [fst snd] in H1, H2. subst f'. apply out_bind with (R := orel).
  - destruct h5; [now apply put_same|]. cbn. apply snoc_same; [exact H|]. cbn. auto.
  - intros u v Huv. now apply IH.
Qed.
Lemma log_same o ch ch' a c l l' : Forall2 (named a c) ch ch' -> orel l l' ->
  outcomes orel (save_to_log_file o ch a c l) (save_to_log_file o ch' a c l').
Proof.
  intros Hc H. unfold save_to_log_file. apply out_bind with (R := orel).
  - destruct (o_save_to_bin o); [|exact H]. apply save_same; [exact Hc|]. apply snoc_same; [exact H|]. cbn. auto.
  - intros u v Huv. destruct (o_save_to_txt o); [|exact Huv]. apply save_same; [exact Hc|]. apply snoc_same; [exact Huv|]. cbn. auto.
Qed.
Lemma cov_same o m a c l l' : orel l l' -> outcomes orel (save_covmtx o m a c l) (save_covmtx o m a c l').
Proof.
  intros H. unfold save_covmtx. apply out_bind with (R := orel).
  - destruct (o_save_to_bin o); [|exact H]. apply put_same; [exact H|now left].
  - intros u v Huv. destruct (o_save_to_txt o); [|exact Huv]. cbn. apply snoc_same; [exact Huv|]. cbn. split; [reflexivity|now left].
Qed.

(** ** Chains: the rows that have been written are moved, the others are still zero *)
Definition mixed (n : nat) (a b : list (list XR)) : Prop :=
  exists w u, a = w ++ u /\ b = map (mv ds) w ++ u /\ List.length w = n /\ wide ds w.
Lemma mixed_slice n a b i j : mixed n a b -> j <= n -> slice i j b = map (mv ds) (slice i j a) /\ wide ds (slice i j a).
Proof.
  intros (w & u & -> & -> & L & W) H. destruct (Nat.le_gt_cases j i) as [G|G].
  - unfold slice. replace (j - i) with 0 by lia. split; [reflexivity|constructor].
  - assert (S1 : forall v : list (list XR), List.length v = n -> slice i j (v ++ u) = slice i j v).
    { intros v Lv. unfold slice. rewrite skipn_app. replace (i - List.length v) with 0 by lia. cbn [skipn]. rewrite firstn_app, skipn_length.
      replace (j - i - (List.length v - i)) with 0 by lia. cbn [firstn]. apply app_nil_r. }
    rewrite !S1 by (rewrite ?map_length; exact L). split; [unfold slice; now rewrite skipn_map, firstn_map|].
    unfold slice. apply Forall_forall. intros r Hr. unfold wide in W. rewrite Forall_forall in W. apply W.
    assert (I1 : In r (skipn i w)) by (rewrite <- (firstn_skipn (j - i) (skipn i w)); apply in_or_app; now left).
    rewrite <- (firstn_skipn i w). apply in_or_app. now right.
Qed.
Lemma set_at {A} (w : list A) x u v : set_nth (List.length w) v (w ++ x :: u) = (w ++ [v]) ++ u.
Proof. induction w as [|y w IH]; cbn; [reflexivity|]. now rewrite IH. Qed.
Lemma mixed_write n a b row : mixed n a b -> List.length row = npar ->
  outcomes (fun x y => mixed (S n) x y /\ List.length x = List.length a) (write n row a) (write n (mv ds row) b).
Proof.
  intros (w & u & -> & -> & L & W) Lr. unfold write. rewrite !app_length, map_length. destruct (n <? _) eqn:Z; [|reflexivity]. apply Nat.ltb_lt in Z. cbn [outcomes].
  split; [|rewrite set_nth_length; now rewrite app_length]. destruct u as [|x u]; [cbn in Z; lia|]. exists (w ++ [row]), u. split; [rewrite <- L; apply set_at|].
  split; [|split].
  - rewrite <- L at 1. rewrite <- (map_length (mv ds) w) at 1. rewrite set_at. now rewrite map_app.
  - rewrite app_length. cbn. lia.
  - apply Forall_app. split; [exact W|]. now constructor.
Qed.
Lemma mixed_full n a b : mixed n a b -> List.length a = n -> b = map (mv ds) a /\ wide ds a.
Proof.
  intros (w & u & -> & -> & L & W) La. rewrite app_length in La. destruct u; [|cbn in La; lia]. now rewrite !app_nil_r.
Qed.

(** ** The loop *)
Definition mset (p : pset XR) : pset XR := mkpset (mv ds (p_theta p)) (p_ss p) (p_prior p) (p_sigma2 p) (p_alpha p).
Record srel (L : nat) (s s' : rstate XR) : Prop := {
  sr_plain : (r_index s', r_iiadapt s', r_savecount s', r_lastbin s', (r_rej s', r_rejin s', r_rejout s'), r_ss s', r_s2 s', (r_sigma2 s', r_S20 s', r_iacce s')) =
             (r_index s, r_iiadapt s, r_savecount s, r_lastbin s, (r_rej s, r_rejin s, r_rejout s), r_ss s, r_s2 s, (r_sigma2 s, r_S20 s, r_iacce s));
  sr_old : r_old s' = mset (r_old s) /\ List.length (p_theta (r_old s)) = npar;
  sr_chain : mixed (S (r_index s)) (r_chain s) (r_chain s') /\ List.length (r_chain s) = L;
  sr_cov : r_cov s' = moved_cov ds (r_cov s);
  sr_io : r_io s' = moved_io d (r_io s);
  sr_fs : orel (r_fs s) (r_fs s');
  sr_trace : r_trace s' = map (moved_event ds) (r_trace s)
}.
Definition krel (K K' : rconst XR) : Prop :=
  v_parind (k_view K) = pi /\ v_npar (k_view K) = npar /\
  K' = mkrc (k_opts K) (moved_view d (k_view K)) (k_nsos K) (k_N0 K) (k_N K) (k_alias K) (k_chains K') /\ Forall2 (moved_ref ds) (k_chains K) (k_chains K').

Definition smrel (x y : sampled XR) : Prop :=
  let '(stage, new, outb, z, iacce, s) := x in let '(stage', new', outb', z', iacce', s') := y in
  stage' = stage /\ outb' = outb /\ z' = z /\ iacce' = iacce /\ s' = moved_io d s /\ new' = mset new /\ List.length (p_theta new) = npar.

Lemma sets_agree V p : v_parind V = pi -> moved_set d V p = mset p.
Proof. intros HV. unfold moved_set. rewrite HV, <- Hds. reflexivity. Qed.
Lemma metropolis_at V R old s : v_parind V = pi -> run_metropolis_step E' (moved_view d V) R (mset old) (moved_io d s) =
  rmap (fun '(acc, new, outb, z, s) => (acc, mset new, outb, z, moved_io d s)) (run_metropolis_step E V R old s).
Proof.
  intros HV. pose proof (metropolis_moved d E V R old s) as X. rewrite HV, <- Hds, sets_agree in X by exact HV. rewrite X.
  destruct (run_metropolis_step E V R old s) as [[[[[a n] o] z] t]|]; [|reflexivity]. cbn. now rewrite sets_agree.
Qed.
Lemma metropolis_len V R old s acc new outb z t : run_metropolis_step E V R old s = Ok (acc, new, outb, z, t) -> List.length (p_theta new) = v_npar V.
Proof.
  unfold run_metropolis_step. destruct (sample_candidate _ _ _ _ _) as [[[th z'] s1]|] eqn:C; [|discriminate]. apply sample_candidate_facts in C as (_ & _ & L1 & L2 & _).
  cbn [bind]. destruct (is_sample_outside_bounds _ _ _); [intros H; inversion H; subst; cbn; congruence|].
  destruct (evaluate_sos_function E V th s1) as [ss s2]. destruct (loglik ss _); cbn [bind]; [|discriminate]. destruct (loglik (p_ss old) _); cbn [bind]; [|discriminate].
  destruct (log_posterior_ratio_acceptance_test _ _ _) as [x s3]. intros H. inversion H; subst. cbn. congruence.
Qed.
Lemma dr_len V RDR invR old new n : List.length (p_theta old) = v_npar V -> forall itry path iacce a0 o0 b0 s acc out outb ia p t,
  List.length (p_theta o0) = v_npar V ->
  dr_loop E V RDR invR old new n itry path iacce (a0, o0, b0) s = Ok (acc, out, outb, ia, p, t) -> List.length (p_theta out) = v_npar V.
Proof.
  intros Lo. induction n as [|n IH]; intros itry path iacce a0 o0 b0 s acc out outb ia p t L0 H; cbn [dr_loop] in H; [inversion H; congruence|].
  destruct (nth_error RDR _) as [P|]; [|discriminate]. cbn [of_option bind] in H.
  destruct (sample_candidate _ _ _ _ _) as [[[th z] s1]|] eqn:C; [|discriminate]. apply sample_candidate_facts in C as (_ & _ & L1 & L2 & _). cbn [bind] in H.
  destruct (is_sample_outside_bounds _ _ _); [now apply IH in H|]. destruct (evaluate_sos_function E V th s1) as [ss s2].
  destruct (alphafun _ _ _) as [al|]; [|discriminate]. cbn [bind] in H. destruct (posterior_ratio_acceptance_test _ _ _) as [x s3].
  destruct (nth_error iacce _); [|discriminate]. cbn [of_option bind] in H. destruct x; [inversion H; subst; cbn; congruence|]. now apply IH in H.
Qed.

Lemma sample_same L K K' s s' : krel K K' -> srel L s s' -> outcomes smrel (sample_step E K s) (sample_step E' K' s').
Proof.
  intros (KV & KN & HK & _) [P [O OL] Ch Cv Io Fs Tr]. inversion P as [[P1 P2 P3 P4 P5 P6 P7 P8 P9 P10 P11 P12]]. clear P.
  unfold sample_step. rewrite HK. cbn [k_view k_opts]. rewrite Cv, O, Io, P12. cbn [moved_cov c_R].
  rewrite (metropolis_at (k_view K) _ _ _ KV). pose proof (metropolis_len (k_view K) (c_R (r_cov s)) (r_old s) (r_io s)) as ML.
  destruct (run_metropolis_step E (k_view K) (c_R (r_cov s)) (r_old s) (r_io s)) as [[[[[acc new] outb] z] s1]|]; [|reflexivity]. cbn [rmap bind].
  specialize (ML _ _ _ _ _ eq_refl). rewrite KN in ML.
  destruct ((1 <? o_ntry (k_opts K)) && negb acc).
  - assert (DR : delayed_rejection_call E' K' (moved_cov ds (r_cov s)) (mset (r_old s)) (mset new) (r_iacce s) (moved_io d s1) =
      rmap (fun '(acc, out, outb, iacce, path, s) => (acc, mset out, outb, iacce, map mset path, moved_io d s)) (delayed_rejection_call E K (r_cov s) (r_old s) new (r_iacce s) s1)).
    { unfold delayed_rejection_call. rewrite HK. cbn [moved_cov c_RDR c_invR k_view k_opts]. destruct (c_RDR (r_cov s)) as [| |l]; try reflexivity. unfold run_delayed_rejection.
      pose proof (dr_moved d E (k_view K) l (match c_invR (r_cov s) with Some i => i | None => [] end) (r_old s) new (o_ntry (k_opts K) - 1) 1 [r_old s; new] (r_iacce s) false false (r_old s) s1) as X.
      cbn [map] in X. rewrite KV, <- Hds, !sets_agree in X by exact KV. rewrite X.
      destruct (dr_loop E _ _ _ _ _ _ _ _ _ _ _) as [[[[[[a1 o1] b1] i1] p1] t1]|]; [|reflexivity]. cbn [rmap moved_dr]. rewrite (sets_agree _ _ KV), (map_ext _ mset) by (intros; now apply sets_agree). reflexivity. }
    rewrite HK in DR. rewrite DR. pose proof (fun l => dr_len (k_view K) l (match c_invR (r_cov s) with Some i => i | None => [] end) (r_old s) new (o_ntry (k_opts K) - 1)) as DL.
    assert (DL2 : forall a1 o1 b1 i1 p1 t1, delayed_rejection_call E K (r_cov s) (r_old s) new (r_iacce s) s1 = Ok (a1, o1, b1, i1, p1, t1) -> List.length (p_theta o1) = npar).
    { intros a1 o1 b1 i1 p1 t1 H. unfold delayed_rejection_call in H. destruct (c_RDR (r_cov s)) as [| |l]; try discriminate. unfold run_delayed_rejection in H.
      apply DL in H; congruence. }
    destruct (delayed_rejection_call E K (r_cov s) (r_old s) new (r_iacce s) s1) as [[[[[[a1 o1] b1] i1] p1] t1]|]; [|reflexivity]. cbn [rmap bind outcomes smrel]. rewrite map_length.
    repeat (split; [reflexivity|]). now apply (DL2 _ _ _ _ _ _ eq_refl).
  - cbn. repeat (split; [reflexivity|]). exact ML.
Qed.
Ltac fields := cbn [r_index r_iiadapt r_savecount r_lastbin r_rej r_rejin r_rejout r_chain r_cov r_iacce r_io r_trace r_old r_ss r_s2 r_sigma2 r_S20 r_fs].
Lemma fit_len {A} n (x : list XR) (f : list XR -> res A) : List.length x = n -> bind (fit_row n x) f = f x.
Proof. intros L. unfold fit_row. rewrite L, Nat.eqb_refl. reflexivity. Qed.
Lemma update_same L K K' s s' x y : krel K K' -> srel L s s' -> smrel x y ->
  outcomes (fun t t' => srel L t t' /\ r_index t = S (r_index s)) (update_chain K s x) (update_chain K' s' y).
Proof.
  intros (KV & KN & HK & _) [P [O OL] [Ch CL] Cv Io Fs Tr] H. inversion P as [[P1 P2 P3 P4 P5 P6 P7 P8 P9 P10 P11 P12]]. clear P.
  destruct x as [[[[[st new] outb] z] ia] t], y as [[[[[st' new'] outb'] z'] ia'] t']. destruct H as (-> & -> & -> & -> & -> & -> & NL).
  unfold update_chain. rewrite HK. cbn [k_view k_nsos moved_view v_npar]. rewrite KN, P1, P2, P3, P4, P5, P6, P7, P8, P9, P10, P11, O.
  set (cur := if negb (st =? 0) then new else r_old s).
  replace (if negb (st =? 0) then mset new else mset (r_old s)) with (mset cur) by (unfold cur; destruct (negb _); reflexivity).
  assert (CuL : List.length (p_theta cur) = npar) by (unfold cur; destruct (negb _); assumption).
  cbn [mset p_theta p_ss]. rewrite !fit_len by (rewrite ?mv_length; exact CuL).
  eapply out_bind; [apply (mixed_write _ _ _ _ Ch CuL)|]. intros c c' [Hc Lc]. apply out_same. intros r1 _. apply out_same. intros ss _.
  cbn. split; [|reflexivity]. constructor; fields; auto.
  - split; [exact Hc|congruence].
  - rewrite Cv, Io, Tr. replace (List.length (r_fs s')) with (List.length (r_fs s)); [reflexivity|]. clear -Fs. induction Fs; cbn; congruence.
Qed.
Lemma adapt_same L K K' i u al s s' : krel K K' -> srel L s s' ->
  outcomes (fun t t' => srel L t t' /\ r_index t = r_index s) (adapt_step E K i u al s) (adapt_step E' K' i u al s').
Proof.
  intros (KV & KN & HK & _) H. pose proof H as [P [O OL] [Ch CL] Cv Io Fs Tr]. inversion P as [[P1 P2 P3 P4 P5 P6 P7 P8 P9 P10 P11 P12]]. clear P.
  unfold adapt_step. rewrite HK. cbn [k_view k_opts moved_view v_npar]. rewrite P2. destruct (_ && _)%bool; [|now split].
  destruct (mixed_slice _ _ _ (c_last (r_cov s)) (r_index s) Ch) as [SL W]; [lia|].
  rewrite P1, P3, P4, P5, P6, P7, P8, P9, P10, P11, P12, Cv.
  rewrite (adaptation_mv ds E E' (r_cov s) _ i _ _ (r_chain s) (r_chain s') _ u _ al eq_refl eq_refl SL W).
  destruct (run_adaptation E _ _ _ _ _ _ _ _ _ _) as [c|]; [|reflexivity]. cbn [rmap bind outcomes]. split; [|reflexivity]. constructor; fields; auto.
Qed.
Lemma draw_moved f : forall c s, draw_v E' f c (moved_io d s) = rmap (fun '(x, v, t) => (x, v, moved_io d t)) (draw_v E f c s).
Proof.
  induction f as [|f IH]; intros c s; [reflexivity|]. cbn [draw_v]. unfold randn. change (e_str E') with (e_str E). cbn [moved_io io_pos io_value io_calls seq map nth].
  destruct (nlt n0 _); [reflexivity|]. apply (IH c (mkio (io_pos s + 1) (io_value s) (io_calls s))).
Qed.
Lemma gamma_moved f : forall c g s, gamma_mt_loop E' f c g (moved_io d s) = rmap (fun '(v, t) => (v, moved_io d t)) (gamma_mt_loop E f c g s).
Proof.
  induction f as [|f IH]; intros c g s; cbn [gamma_mt_loop]; [reflexivity|]. rewrite draw_moved, bind_rmap, rmap_bind. apply bind_ext. intros [[x v] s1] _.
  unfold rand. change (e_str E') with (e_str E). cbn [moved_io io_pos io_value io_calls]. destruct (nlt _ _); [reflexivity|]. destruct (nlt _ _); [reflexivity|].
  apply (IH c g (mkio (S (io_pos s1)) (io_value s1) (io_calls s1))).
Qed.
Lemma sigma2_moved a1 a2 a3 a4 s : draw_sigma2 E' a1 a2 a3 a4 (moved_io d s) = rmap (fun '(v, t) => (v, moved_io d t)) (draw_sigma2 E a1 a2 a3 a4 s).
Proof.
  assert (G : forall a b s, gammar_ge1 E' a b (moved_io d s) = rmap (fun '(v, t) => (v, moved_io d t)) (gammar_ge1 E a b s)).
  { intros a b t. unfold gammar_ge1. change (e_fuel E') with (e_fuel E). rewrite gamma_moved, bind_rmap, rmap_bind. apply bind_ext. intros [v s1] _. reflexivity. }
  unfold draw_sigma2. rewrite rmap_bind. unfold gammar. destruct (nle _ _); [reflexivity|]. unfold gammar_mt1. destruct (nlt _ _).
  - rewrite G. destruct (gammar_ge1 E _ _ _) as [[y t]|]; reflexivity.
  - rewrite G. destruct (gammar_ge1 E _ _ _) as [[y t]|]; reflexivity.
Qed.
Lemma variance_moved alias N0 N sos : forall n jj s2 s0 s,
  update_error_variance E' alias N0 N sos jj n s2 s0 (moved_io d s) = rmap (fun '(x, y, t) => (x, y, moved_io d t)) (update_error_variance E alias N0 N sos jj n s2 s0 s).
Proof.
  induction n as [|n IH]; intros jj s2 s0 s; cbn [update_error_variance]; [reflexivity|].
  do 4 (rewrite rmap_bind; apply bind_ext; intros ? _). rewrite rmap_bind.
  rewrite sigma2_moved, bind_rmap. apply bind_ext. intros [v s1] _. rewrite rmap_bind. apply bind_ext. intros ? _. apply IH.
Qed.
Lemma sigma_same L K K' s s' : krel K K' -> srel L s s' ->
  outcomes (fun t t' => srel L t t' /\ r_index t = r_index s) (sigma_step E K s) (sigma_step E' K' s').
Proof.
  intros (KV & KN & HK & _) H. pose proof H as [P [O OL] [Ch CL] Cv Io Fs Tr]. inversion P as [[P1 P2 P3 P4 P5 P6 P7 P8 P9 P10 P11 P12]]. clear P.
  unfold sigma_step. rewrite HK. cbn [k_nsos k_opts k_alias k_N0 k_N]. destruct (o_updatesigma _); [|now split].
  rewrite O. cbn [mset p_ss p_theta p_prior p_alpha]. rewrite P1, P2, P3, P4, P5, P6, P7, P8, P9, P10, P11, P12, Io, variance_moved.
  destruct (update_error_variance E _ _ _ _ _ _ _ _ _) as [[[x y] t]|]; [|reflexivity]. cbn [rmap bind]. apply out_same. intros r _. apply out_same. intros m _. apply out_same. intros w _.
  cbn. split; [|reflexivity]. constructor; fields; auto.
Qed.
Lemma logged_same L K K' s s' a c : krel K K' -> srel L s s' -> c <= S (r_index s) -> Forall2 (named a c) (logged K s) (logged K' s').
Proof.
  intros (_ & _ & _ & HC) [P [O OL] [Ch CL] Cv Io Fs Tr] Hc. inversion P as [[P1 P2 P3 P4 P5 P6 P7 P8 P9 P10 P11 P12]]. unfold logged.
  induction HC as [|[n r] [n' r'] l l' [H1 H2] H3 IH]; cbn [map]; constructor; [|exact IH]. cbn [fst snd] in *. split; [exact H1|]. cbn [snd].
  destruct r, r'; try contradiction; cbn [resolve].
  - right. now apply (mixed_slice _ _ _ _ _ Ch).
  - left. now rewrite P8.
  - left. now rewrite P9.
  - destruct H2 as [->| ->]; [now left|right]. unfold slice. now rewrite skipn_map, firstn_map.
Qed.
Lemma save_step_same L K K' i s s' : krel K K' -> srel L s s' -> i <= S (r_index s) ->
  outcomes (fun t t' => srel L t t' /\ r_index t = r_index s) (save_step K i s) (save_step K' i s').
Proof.
  intros HK0 H Hi. pose proof (fun a => logged_same L K K' s s' a i HK0 H Hi) as HL. destruct HK0 as (_ & _ & HK & _). pose proof H as [P [O OL] [Ch CL] Cv Io Fs Tr].
  inversion P as [[P1 P2 P3 P4 P5 P6 P7 P8 P9 P10 P11 P12]]. clear P. unfold save_step.
  replace (k_opts K') with (k_opts K) by (rewrite HK; reflexivity). rewrite P3. destruct (_ =? _)%Z; [|now split].
  eapply out_bind; [apply log_same; [apply HL|exact Fs]|]. intros l l' Hl.
  replace (proposal_cov s') with (proposal_cov s) by (unfold proposal_cov; now rewrite Cv).
  eapply out_bind; [apply cov_same; exact Hl|]. intros u v Huv. rewrite P1, P2, P5, P6, P7, P8, P9, P10, P11, P12.
  cbn. split; [|reflexivity]. constructor; fields; auto.
Qed.
Lemma step_same L K K' i s s' : krel K K' -> srel L s s' -> i <= S (r_index s) ->
  outcomes (fun t t' => srel L t t' /\ r_index t = S (r_index s)) (step E K i s) (step E' K' i s').
Proof.
  intros HK H Hi. unfold step. eapply out_bind; [apply (sample_same L); [exact HK|exact H]|]. intros x y Hxy.
  destruct x as [[[[[st new] outb] z] ia] t], y as [[[[[st' new'] outb'] z'] ia'] t']. pose proof Hxy as (-> & -> & -> & -> & -> & -> & _).
  eapply out_bind; [apply (update_same L); [exact HK|exact H|exact Hxy]|]. intros s1 s1' [H1 I1]. cbn [mset p_alpha].
  eapply out_bind; [apply (adapt_same L); [exact HK|exact H1]|]. intros s2 s2' [H2 I2].
  eapply out_bind; [apply (sigma_same L); [exact HK|exact H2]|]. intros s3 s3' [H3 I3].
  eapply out_weaken; [|apply (save_step_same L); [exact HK|exact H3|lia]]. intros u v [X Y]. split; [exact X|congruence].
Qed.
Lemma iterate_same L K K' n : krel K K' -> forall k s s', srel L s s' -> k <= S (r_index s) ->
  outcomes (fun t t' => srel L t t' /\ r_index t = r_index s + n) (iterate E K (seq k n) s) (iterate E' K' (seq k n) s').
Proof.
  intros HK. induction n as [|n IH]; intros k s s' H Hk; cbn [seq iterate]; [cbn; split; [exact H|lia]|].
  eapply out_bind; [apply (step_same L); [exact HK|exact H|exact Hk]|]. intros u v [Huv Iu].
  eapply out_weaken; [|apply IH; [exact Huv|lia]]. intros x y [X Y]. split; [exact X|lia].
Qed.
Lemma execute_same L K K' s s' : krel K K' -> srel L s s' ->
  outcomes (fun t t' => srel L t t' /\ r_index t = r_index s + (o_nsimu (k_opts K) - 1)) (execute E K s) (execute E' K' s').
Proof.
  intros HK H. unfold execute. replace (k_opts K') with (k_opts K) by (destruct HK as (_ & _ & -> & _); reflexivity).
  eapply out_bind; [apply (iterate_same L); [exact HK|exact H|lia]|]. intros t t' [Ht It]. destruct (_ <=? _) eqn:Z; [reflexivity|]. apply Nat.leb_gt in Z.
  assert (B : S (o_nsimu (k_opts K) - 1) <= S (r_index t)) by lia.
  pose proof (fun a => logged_same L K K' t t' a _ HK Ht B) as HL. pose proof Ht as [P [O OL] [Ch CL] Cv Io Fs Tr].
  inversion P as [[P1 P2 P3 P4 P5 P6 P7 P8 P9 P10 P11 P12]]. clear P. rewrite P4.
  eapply out_bind; [apply log_same; [apply HL|exact Fs]|]. intros l l' Hl.
  replace (proposal_cov t') with (proposal_cov t) by (unfold proposal_cov; now rewrite Cv).
  eapply out_bind; [apply cov_same; exact Hl|]. intros u v Huv. rewrite P1, P2, P3, P5, P6, P7, P8, P9, P10, P11, P12.
  cbn. split; [|exact It]. constructor; fields; auto.
Qed.
End Origin.
