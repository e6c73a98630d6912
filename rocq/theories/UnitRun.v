(** A session in other units: the loop and the files. *)

From Coq Require Import ZArith QArith Bool Lia List String Reals Lra.
From Verif Require Import Base Num Samplers Adapt Settings Simulator SamplerFacts RunSpec ScaleNum ScaleSpec ScaleFacts OriginFacts OriginRun UnitSpec UnitNum UnitFacts UnitAdapt.
Import ListNotations.
Close Scope Q_scope.
Close Scope R_scope.
Open Scope list_scope.
Open Scope nat_scope.
Open Scope res_scope.

Section Units.
Variable k : R.
Variables c cs : list R.
Variable pi : list nat.
Hypothesis Hcs : cs = map (fun i => nth i c 1%R) pi.
Hypothesis Hk : (0 < k)%R.
Hypothesis Hc : posl c.
Variable E : env XR.
Hypothesis HE : unit_free cs E.
Notation E' := (unit_env c cs E).
Notation npar := (List.length cs).

(** ** Files *)
Notation orel := (Forall2 (unit_op cs)).
Lemma sets_exist p a j l l' : orel l l' ->
  existsb (fun e : nat * nat * list (list XR) => match e with (a', c', _) => (a =? a') && (j =? c') end) (h5_sets p l') =
  existsb (fun e => match e with (a', c', _) => (a =? a') && (j =? c') end) (h5_sets p l).
Proof.
  unfold h5_sets. induction 1 as [|x y l l' H _ IH]; [reflexivity|]. cbn [map List.concat]. rewrite !existsb_app, IH. f_equal.
  destruct x, y; cbn in H; try contradiction; try reflexivity. destruct H as (<- & <- & <- & _). destruct (path_eqb p p0); reflexivity.
Qed.
Lemma snoc_same l l' x y : orel l l' -> unit_op cs x y -> orel (l ++ [x]) (l' ++ [y]).
Proof. intros H1 H2. apply Forall2_app; [exact H1|]. now constructor. Qed.
Lemma put_same p a j x y l l' : orel l l' -> unit_rows cs x y -> outcomes orel (h5_put p a j x l) (h5_put p a j y l').
Proof.
  intros H1 H2. unfold h5_put. rewrite (sets_exist p a j l l' H1). destruct (existsb _ _); [reflexivity|]. cbn. apply snoc_same; [exact H1|]. cbn. auto.
Qed.
Definition named a j (x y : string * list (list XR)) : Prop := fst x = fst y /\ unit_rows cs (slice a j (snd x)) (slice a j (snd y)).
Lemma save_same h5 dir a j ch ch' : Forall2 (named a j) ch ch' -> forall l l', orel l l' ->
  outcomes orel (save_chains h5 dir a j ch l) (save_chains h5 dir a j ch' l').
Proof.
  induction 1 as [|[f m] [f' m'] ch ch' [H1 H2] H3 IH]; intros l l' H; cbn [save_chains]; [exact H|].
  cbn [fst snd] in H1, H2. subst f'. apply out_bind with (R := orel).
  - destruct h5; [now apply put_same|]. cbn. apply snoc_same; [exact H|]. cbn. auto.
  - intros u v Huv. now apply IH.
Qed.
Lemma log_same o ch ch' a j l l' : Forall2 (named a j) ch ch' -> orel l l' ->
  outcomes orel (save_to_log_file o ch a j l) (save_to_log_file o ch' a j l').
Proof.
  intros Hch H. unfold save_to_log_file. apply out_bind with (R := orel).
  - destruct (o_save_to_bin o); [|exact H]. apply save_same; [exact Hch|]. apply snoc_same; [exact H|]. cbn. auto.
  - intros u v Huv. destruct (o_save_to_txt o); [|exact Huv]. apply save_same; [exact Hch|]. apply snoc_same; [exact Huv|]. cbn. auto.
Qed.
Lemma cov_same o m a j l l' : orel l l' -> outcomes orel (save_covmtx o m a j l) (save_covmtx o (both cs m) a j l').
Proof.
  intros H. unfold save_covmtx. apply out_bind with (R := orel).
  - destruct (o_save_to_bin o); [|exact H]. apply put_same; [exact H|now right].
  - intros u v Huv. destruct (o_save_to_txt o); [|exact Huv]. cbn. apply snoc_same; [exact Huv|]. cbn. split; [reflexivity|now right].
Qed.

(** ** Chains *)
Lemma set_map {A B} (f : A -> B) : forall i v l, set_nth i (f v) (map f l) = map f (set_nth i v l).
Proof. induction i as [|i IH]; intros v [|y l]; cbn [set_nth map]; auto. now rewrite IH. Qed.
Lemma write_us n row ch : outcomes (fun x y => y = map (us cs) x) (write n row ch) (write n (us cs row) (map (us cs) ch)).
Proof. unfold write. rewrite map_length. destruct (n <? _); [|reflexivity]. cbn [outcomes]. apply set_map. Qed.
Lemma Hpos : posl cs.
Proof. rewrite Hcs. clear -Hc. induction pi as [|i l IH]; cbn [map]; constructor; [now apply pos_nth|exact IH]. Qed.

(** ** The loop *)
Definition mset (p : pset XR) : pset XR := mkpset (us cs (p_theta p)) (p_ss p) (p_prior p) (p_sigma2 p) (p_alpha p).
Record srel (s s' : rstate XR) : Prop := {
  sr_plain : (r_index s', r_iiadapt s', r_savecount s', r_lastbin s', (r_rej s', r_rejin s', r_rejout s'), r_ss s', r_s2 s', (r_sigma2 s', r_S20 s', r_iacce s')) =
             (r_index s, r_iiadapt s, r_savecount s, r_lastbin s, (r_rej s, r_rejin s, r_rejout s), r_ss s, r_s2 s, (r_sigma2 s, r_S20 s, r_iacce s));
  sr_old : r_old s' = mset (r_old s) /\ List.length (p_theta (r_old s)) = npar;
  sr_chain : r_chain s' = map (us cs) (r_chain s);
  sr_cov : r_cov s' = unit_cov cs (r_cov s);
  sr_io : r_io s' = unit_io c (r_io s);
  sr_fs : orel (r_fs s) (r_fs s');
  sr_trace : r_trace s' = map (unit_event cs) (r_trace s)
}.
Definition krel (K K' : rconst XR) : Prop :=
  v_parind (k_view K) = pi /\ v_npar (k_view K) = npar /\
  K' = mkrc (unit_opts k c cs (k_opts K)) (unit_view c (k_view K)) (k_nsos K) (k_N0 K) (k_N K) (k_alias K) (k_chains K') /\ Forall2 (unit_ref cs) (k_chains K) (k_chains K') /\ convertible k cs (k_opts K).

Definition smrel (x y : sampled XR) : Prop :=
  let '(stage, new, outb, z, iacce, s) := x in let '(stage', new', outb', z', iacce', s') := y in
  stage' = stage /\ outb' = outb /\ z' = z /\ iacce' = iacce /\ s' = unit_io c s /\ new' = mset new /\ List.length (p_theta new) = npar.

Lemma sets_agree V p : v_parind V = pi -> unit_set c V p = mset p.
Proof. intros HV. unfold unit_set. rewrite HV, <- Hcs. reflexivity. Qed.
Lemma metropolis_at V R old s : v_parind V = pi -> run_metropolis_step E' (unit_view c V) (map (us cs) R) (mset old) (unit_io c s) =
  rmap (fun '(acc, new, outb, z, s) => (acc, mset new, outb, z, unit_io c s)) (run_metropolis_step E V R old s).
Proof.
  intros HV. pose proof (metropolis_unit c E V Hc R old s) as X. rewrite HV, <- Hcs, sets_agree in X by exact HV. rewrite X.
  destruct (run_metropolis_step E V R old s) as [[[[[a n] o] z] t]|]; [|reflexivity]. cbn. now rewrite sets_agree.
Qed.
Lemma sample_same K K' s s' : krel K K' -> srel s s' -> outcomes smrel (sample_step E K s) (sample_step E' K' s').
Proof.
  intros (KV & KN & HK & _) [P [O OL] Ch Cv Io Fs Tr]. inversion P as [[P1 P2 P3 P4 P5 P6 P7 P8 P9 P10 P11 P12]]. clear P.
  unfold sample_step. rewrite HK. cbn [k_view k_opts]. rewrite Cv, O, Io, P12. cbn [unit_cov c_R].
  rewrite (metropolis_at (k_view K) _ _ _ KV). pose proof (metropolis_len E (k_view K) (c_R (r_cov s)) (r_old s) (r_io s)) as ML.
  destruct (run_metropolis_step E (k_view K) (c_R (r_cov s)) (r_old s) (r_io s)) as [[[[[acc new] outb] z] s1]|]; [|reflexivity]. cbn [rmap bind].
  specialize (ML _ _ _ _ _ eq_refl). rewrite KN in ML.
  cbn [unit_opts o_ntry]. destruct ((1 <? o_ntry (k_opts K)) && negb acc).
  - assert (DR : delayed_rejection_call E' K' (unit_cov cs (r_cov s)) (mset (r_old s)) (mset new) (r_iacce s) (unit_io c s1) =
      rmap (fun '(acc, out, outb, iacce, path, s) => (acc, mset out, outb, iacce, map mset path, unit_io c s)) (delayed_rejection_call E K (r_cov s) (r_old s) new (r_iacce s) s1)).
    { unfold delayed_rejection_call. rewrite HK. cbn [unit_cov c_RDR c_invR k_view k_opts]. destruct (c_RDR (r_cov s)) as [| |l]; try reflexivity. cbn [unit_rdr]. unfold run_delayed_rejection.
      pose proof (dr_unit c E (k_view K) Hc l (match c_invR (r_cov s) with Some i => i | None => [] end) (r_old s) new (o_ntry (k_opts K) - 1) 1 [r_old s; new] (r_iacce s) false false (r_old s) s1) as X. unfold invs in X.
      cbn [map] in X. rewrite KV, <- Hcs, !sets_agree in X by exact KV. cbn [unit_opts o_ntry].
      destruct (c_invR (r_cov s)) as [iv|]; cbn [option_map]; cbn [map] in X; (etransitivity; [exact X|]);
      match goal with |- rmap _ ?x = rmap _ ?y => change y with x; destruct x as [[[[[[a1 o1] b1] i1] p1] t1]|] end; try reflexivity; cbn [rmap unit_dr]; rewrite (sets_agree _ _ KV), (map_ext _ mset) by (intros; now apply sets_agree); reflexivity. }
    rewrite HK in DR. rewrite DR. pose proof (fun l => dr_len E (k_view K) l (match c_invR (r_cov s) with Some i => i | None => [] end) (r_old s) new (o_ntry (k_opts K) - 1)) as DL.
    assert (DL2 : forall a1 o1 b1 i1 p1 t1, delayed_rejection_call E K (r_cov s) (r_old s) new (r_iacce s) s1 = Ok (a1, o1, b1, i1, p1, t1) -> List.length (p_theta o1) = npar).
    { intros a1 o1 b1 i1 p1 t1 H. unfold delayed_rejection_call in H. destruct (c_RDR (r_cov s)) as [| |l]; try discriminate. unfold run_delayed_rejection in H.
      apply DL in H; congruence. }
    destruct (delayed_rejection_call E K (r_cov s) (r_old s) new (r_iacce s) s1) as [[[[[[a1 o1] b1] i1] p1] t1]|]; [|reflexivity]. cbn [rmap bind outcomes smrel]. rewrite map_length.
    repeat (split; [reflexivity|]). now apply (DL2 _ _ _ _ _ _ eq_refl).
  - cbn. repeat (split; [reflexivity|]). exact ML.
Qed.
Ltac fields := cbn [r_index r_iiadapt r_savecount r_lastbin r_rej r_rejin r_rejout r_chain r_cov r_iacce r_io r_trace r_old r_ss r_s2 r_sigma2 r_S20 r_fs].
Lemma fit_len {A} n (x : list XR) (f : list XR -> res A) : List.length x = n -> bind (fit_row n x) f = f x.
Proof. intros L. unfold fit_row. rewrite L, Nat.eqb_refl. reflexivity. Qed.
Lemma update_same K K' s s' x y : krel K K' -> srel s s' -> smrel x y ->
  outcomes (fun t t' => srel t t' /\ r_index t = S (r_index s)) (update_chain K s x) (update_chain K' s' y).
Proof.
  intros (KV & KN & HK & _) [P [O OL] Ch Cv Io Fs Tr] H. inversion P as [[P1 P2 P3 P4 P5 P6 P7 P8 P9 P10 P11 P12]]. clear P.
  destruct x as [[[[[st new] outb] z] ia] t], y as [[[[[st' new'] outb'] z'] ia'] t']. destruct H as (-> & -> & -> & -> & -> & -> & NL).
  unfold update_chain. rewrite HK. cbn [k_view k_nsos unit_view v_npar]. rewrite KN, P1, P2, P3, P4, P5, P6, P7, P8, P9, P10, P11, O.
  set (cur := if negb (st =? 0) then new else r_old s).
  replace (if negb (st =? 0) then mset new else mset (r_old s)) with (mset cur) by (unfold cur; destruct (negb _); reflexivity).
  assert (CuL : List.length (p_theta cur) = npar) by (unfold cur; destruct (negb _); assumption).
  cbn [mset p_theta p_ss]. rewrite !fit_len by (rewrite ?us_length; exact CuL).
  rewrite Ch. eapply out_bind; [apply write_us|]. intros ch ch' ->. apply out_same. intros r1 _. apply out_same. intros ss _.
  cbn. split; [|reflexivity]. constructor; fields; auto.
  - rewrite Cv, Io, Tr. replace (List.length (r_fs s')) with (List.length (r_fs s)); [reflexivity|]. clear -Fs. induction Fs; cbn; congruence.
Qed.
Lemma adapt_same K K' i u al s s' : krel K K' -> srel s s' ->
  outcomes (fun t t' => srel t t' /\ r_index t = r_index s) (adapt_step E K i u al s) (adapt_step E' K' i u al s').
Proof.
  intros (KV & KN & HK & _ & (_ & AD)) H. pose proof H as [P [O OL] Ch Cv Io Fs Tr]. inversion P as [[P1 P2 P3 P4 P5 P6 P7 P8 P9 P10 P11 P12]]. clear P.
  unfold adapt_step. rewrite HK. cbn [k_view k_opts unit_view v_npar unit_opts o_adaptint]. rewrite P2. destruct (_ && _)%bool; [|now split].
  change (ado_of (unit_opts k c cs (k_opts K))) with (unit_ado k (ado_of (k_opts K))).
  rewrite P1, P3, P4, P5, P6, P7, P8, P9, P10, P11, P12, Cv, Ch.
  rewrite (adaptation_us cs Hpos E E' HE eq_refl eq_refl k) by (auto; destruct AD as [AD|AD]; auto).
  destruct (run_adaptation E _ _ _ _ _ _ _ _ _ _) as [cv|]; [|reflexivity]. cbn [rmap bind outcomes]. split; [|reflexivity]. constructor; fields; auto.
Qed.
Lemma draw_unit f : forall b s, draw_v E' f b (unit_io c s) = rmap (fun '(x, v, t) => (x, v, unit_io c t)) (draw_v E f b s).
Proof.
  induction f as [|f IH]; intros b s; [reflexivity|]. cbn [draw_v]. unfold randn. change (e_str E') with (e_str E). cbn [unit_io io_pos io_value io_calls seq map nth].
  destruct (nlt n0 _); [reflexivity|]. apply (IH b (mkio (io_pos s + 1) (io_value s) (io_calls s))).
Qed.
Lemma gamma_unit f : forall b g s, gamma_mt_loop E' f b g (unit_io c s) = rmap (fun '(v, t) => (v, unit_io c t)) (gamma_mt_loop E f b g s).
Proof.
  induction f as [|f IH]; intros b g s; cbn [gamma_mt_loop]; [reflexivity|]. rewrite draw_unit, bind_rmap, rmap_bind. apply bind_ext. intros [[x v] s1] _.
  unfold rand. change (e_str E') with (e_str E). cbn [unit_io io_pos io_value io_calls]. destruct (nlt _ _); [reflexivity|]. destruct (nlt _ _); [reflexivity|].
  apply (IH b g (mkio (S (io_pos s1)) (io_value s1) (io_calls s1))).
Qed.
Lemma sigma2_unit a1 a2 a3 a4 s : draw_sigma2 E' a1 a2 a3 a4 (unit_io c s) = rmap (fun '(v, t) => (v, unit_io c t)) (draw_sigma2 E a1 a2 a3 a4 s).
Proof.
  assert (G : forall a b s, gammar_ge1 E' a b (unit_io c s) = rmap (fun '(v, t) => (v, unit_io c t)) (gammar_ge1 E a b s)).
  { intros a b t. unfold gammar_ge1. change (e_fuel E') with (e_fuel E). rewrite gamma_unit, bind_rmap, rmap_bind. apply bind_ext. intros [v s1] _. reflexivity. }
  unfold draw_sigma2. rewrite rmap_bind. unfold gammar. destruct (nle _ _); [reflexivity|]. unfold gammar_mt1. destruct (nlt _ _).
  - rewrite G. destruct (gammar_ge1 E _ _ _) as [[y t]|]; reflexivity.
  - rewrite G. destruct (gammar_ge1 E _ _ _) as [[y t]|]; reflexivity.
Qed.
Lemma variance_unit alias N0 N sos : forall n jj s2 s0 s,
  update_error_variance E' alias N0 N sos jj n s2 s0 (unit_io c s) = rmap (fun '(x, y, t) => (x, y, unit_io c t)) (update_error_variance E alias N0 N sos jj n s2 s0 s).
Proof.
  induction n as [|n IH]; intros jj s2 s0 s; cbn [update_error_variance]; [reflexivity|].
  do 4 (rewrite rmap_bind; apply bind_ext; intros ? _). rewrite rmap_bind.
  rewrite sigma2_unit, bind_rmap. apply bind_ext. intros [v s1] _. rewrite rmap_bind. apply bind_ext. intros ? _. apply IH.
Qed.
Lemma sigma_same K K' s s' : krel K K' -> srel s s' ->
  outcomes (fun t t' => srel t t' /\ r_index t = r_index s) (sigma_step E K s) (sigma_step E' K' s').
Proof.
  intros (KV & KN & HK & _) H. pose proof H as [P [O OL] Ch Cv Io Fs Tr]. inversion P as [[P1 P2 P3 P4 P5 P6 P7 P8 P9 P10 P11 P12]]. clear P.
  unfold sigma_step. rewrite HK. cbn [k_nsos k_opts k_alias k_N0 k_N]. destruct (o_updatesigma _); [|now split].
  rewrite O. cbn [mset p_ss p_theta p_prior p_alpha]. rewrite P1, P2, P3, P4, P5, P6, P7, P8, P9, P10, P11, P12, Io, variance_unit.
  destruct (update_error_variance E _ _ _ _ _ _ _ _ _) as [[[x y] t]|]; [|reflexivity]. cbn [rmap bind]. apply out_same. intros r _. apply out_same. intros m _. apply out_same. intros w _.
  cbn. split; [|reflexivity]. constructor; fields; auto.
Qed.
Lemma logged_same K K' s s' a j : krel K K' -> srel s s' -> Forall2 (named a j) (logged K s) (logged K' s').
Proof.
  intros (_ & _ & _ & HC & _) [P [O OL] Ch Cv Io Fs Tr]. inversion P as [[P1 P2 P3 P4 P5 P6 P7 P8 P9 P10 P11 P12]]. unfold logged.
  induction HC as [|[n r] [n' r'] l l' [H1 H2] H3 IH]; cbn [map]; constructor; [|exact IH]. cbn [fst snd] in *. split; [exact H1|]. cbn [snd].
  destruct r, r'; try contradiction; cbn [resolve].
  - left. right. rewrite Ch. apply slice_map.
  - left. left. now rewrite P8.
  - left. left. now rewrite P9.
  - left. destruct H2 as [->| ->]; [now left|right]. apply slice_map.
Qed.
Lemma save_step_same K K' i s s' : krel K K' -> srel s s' ->
  outcomes (fun t t' => srel t t' /\ r_index t = r_index s) (save_step K i s) (save_step K' i s').
Proof.
  intros HK0 H. pose proof (fun a => logged_same K K' s s' a i HK0 H) as HL. destruct HK0 as (_ & _ & HK & _). pose proof H as [P [O OL] Ch Cv Io Fs Tr].
  inversion P as [[P1 P2 P3 P4 P5 P6 P7 P8 P9 P10 P11 P12]]. clear P. unfold save_step.
  assert (KO : k_opts K' = unit_opts k c cs (k_opts K)) by (rewrite HK; reflexivity). rewrite KO. change (o_savesize (unit_opts k c cs (k_opts K))) with (o_savesize (k_opts K)). rewrite P3. destruct (_ =? _)%Z; [|now split].
  change (save_to_log_file (unit_opts k c cs (k_opts K))) with (save_to_log_file (k_opts K)).
  change (save_covmtx (unit_opts k c cs (k_opts K))) with (save_covmtx (k_opts K)). eapply out_bind; [apply log_same; [apply HL|exact Fs]|]. intros l l' Hl.
  replace (proposal_cov s') with (both cs (proposal_cov s)) by (unfold proposal_cov; rewrite Cv; symmetry; apply gram_both; apply Hpos).
  eapply out_bind; [apply cov_same; exact Hl|]. intros u v Huv. rewrite P1, P2, P5, P6, P7, P8, P9, P10, P11, P12.
  cbn. split; [|reflexivity]. constructor; fields; auto.
Qed.
Lemma step_same K K' i s s' : krel K K' -> srel s s' ->
  outcomes (fun t t' => srel t t' /\ r_index t = S (r_index s)) (step E K i s) (step E' K' i s').
Proof.
  intros HK H. unfold step. eapply out_bind; [apply sample_same; [exact HK|exact H]|]. intros x y Hxy.
  destruct x as [[[[[st new] outb] z] ia] t], y as [[[[[st' new'] outb'] z'] ia'] t']. pose proof Hxy as (-> & -> & -> & -> & -> & -> & _).
  eapply out_bind; [apply update_same; [exact HK|exact H|exact Hxy]|]. intros s1 s1' [H1 I1]. cbn [mset p_alpha].
  eapply out_bind; [apply adapt_same; [exact HK|exact H1]|]. intros s2 s2' [H2 I2].
  eapply out_bind; [apply sigma_same; [exact HK|exact H2]|]. intros s3 s3' [H3 I3].
  eapply out_weaken; [|apply save_step_same; [exact HK|exact H3]]. intros u v [X Y]. split; [exact X|congruence].
Qed.
Lemma iterate_same K K' n : krel K K' -> forall i s s', srel s s' ->
  outcomes (fun t t' => srel t t' /\ r_index t = r_index s + n) (iterate E K (seq i n) s) (iterate E' K' (seq i n) s').
Proof.
  intros HK. induction n as [|n IH]; intros i s s' H; cbn [seq iterate]; [cbn; split; [exact H|lia]|].
  eapply out_bind; [apply step_same; [exact HK|exact H]|]. intros u v [Huv Iu].
  eapply out_weaken; [|apply IH; exact Huv]. intros x y [X Y]. split; [exact X|lia].
Qed.
Lemma execute_same K K' s s' : krel K K' -> srel s s' ->
  outcomes (fun t t' => srel t t' /\ r_index t = r_index s + (o_nsimu (k_opts K) - 1)) (execute E K s) (execute E' K' s').
Proof.
  intros HK H. unfold execute. assert (KO : k_opts K' = unit_opts k c cs (k_opts K)) by (destruct HK as (_ & _ & -> & _); reflexivity). rewrite KO. change (o_nsimu (unit_opts k c cs (k_opts K))) with (o_nsimu (k_opts K)).
  eapply out_bind; [apply iterate_same; [exact HK|exact H]|]. intros t t' [Ht It]. destruct (_ <=? _) eqn:Z; [reflexivity|]. apply Nat.leb_gt in Z.
  pose proof (fun a => logged_same K K' t t' a (S (o_nsimu (k_opts K) - 1)) HK Ht) as HL. pose proof Ht as [P [O OL] Ch Cv Io Fs Tr].
  inversion P as [[P1 P2 P3 P4 P5 P6 P7 P8 P9 P10 P11 P12]]. clear P. rewrite P4.
  change (save_to_log_file (unit_opts k c cs (k_opts K))) with (save_to_log_file (k_opts K)).
  change (save_covmtx (unit_opts k c cs (k_opts K))) with (save_covmtx (k_opts K)). eapply out_bind; [apply log_same; [apply HL|exact Fs]|]. intros l l' Hl.
  replace (proposal_cov t') with (both cs (proposal_cov t)) by (unfold proposal_cov; rewrite Cv; symmetry; apply gram_both; apply Hpos).
  eapply out_bind; [apply cov_same; exact Hl|]. intros u v Huv. rewrite P1, P2, P3, P5, P6, P7, P8, P9, P10, P11, P12.
  cbn. split; [|exact It]. constructor; fields; auto.
Qed.
End Units.
