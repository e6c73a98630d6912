(** The display of a run: rejection statistics and progress bar. *)

From Coq Require Import ZArith QArith Bool Lia List String Ascii Arith Reals Lra.
From Verif Require Import Base Num Samplers Adapt Settings Simulator SamplerFacts RunFacts RunSpec RunLift RunThms RVec StatsFacts
  Names Display DisplaySpec.
Import ListNotations.
Close Scope Q_scope.
Close Scope R_scope.
Open Scope list_scope.
Open Scope nat_scope.
Open Scope res_scope.

Lemma update_bar_ok clock i b : b_iterations b <> 0 -> exists b', update_bar clock i b = Ok b' /\ b_iterations b' = b_iterations b.
Proof.
  intros H. unfold update_bar, animate. apply Nat.eqb_neq in H. rewrite H. cbn [bind].
  destruct (negb _); [eauto|]. destruct (i + 1 =? b_iterations b); eauto.
Qed.

Lemma Ok_inj' {A} (a b : A) : Ok a = Ok b -> a = b.
Proof. congruence. Qed.

Section Facts.
Context {F : Type} `{NF : Num F}.
Variable E : env F.

Definition bar_fine (sc : screen F) : Prop := match s_bar sc with Some b => b_iterations b <> 0 | None => True end.

Lemma bar_step_ok clock i (sc : screen F) : bar_fine sc ->
  exists sc', bar_step clock i sc = Ok sc' /\ s_iiprint sc' = S (s_iiprint sc) /\ s_lines sc' = s_lines sc /\ bar_fine sc' /\
    match s_bar sc with None => s_bar sc' = None | Some b => exists b', s_bar sc' = Some b' /\ update_bar clock i b = Ok b' end.
Proof.
  unfold bar_step, bar_fine. destruct (s_bar sc) as [b|] eqn:Eb.
  - intros H. destruct (update_bar_ok clock i b H) as (b' & -> & I). cbn [bind]. eexists. split; [reflexivity|].
    cbn [s_iiprint s_lines s_bar]. repeat (split; [congruence|]). exists b'. auto.
  - intros _. eexists. split; [reflexivity|]. cbn [s_iiprint s_lines s_bar]. repeat split; auto.
Qed.

Definition next_print (p : option Z) (i : nat) : nat :=
  match p with Some p => if (0 <? p)%Z then i mod Z.to_nat p else i | None => i end.

Lemma mod_succ i p : 0 < p -> S i mod p = if S (i mod p) =? p then 0 else S (i mod p).
Proof.
  intros Hp. pose proof (Nat.mod_upper_bound i p ltac:(lia)) as B. pose proof (Nat.div_mod i p ltac:(lia)) as D.
  destruct (Nat.eqb_spec (S (i mod p)) p) as [e|e].
  - symmetry. apply (Nat.mod_unique _ _ (S (i / p))); [lia|]. nia.
  - symmetry. apply (Nat.mod_unique _ _ (i / p)); lia.
Qed.

(** After iterations [1..j] of a run: [tr] is the trace, newest first. *)
Record shown_inv (K : rconst F) (v : Z) (j : nat) (st : rstate F) (sc : screen F) : Prop := {
  si_len : List.length (r_trace st) = j;
  si_rej : r_rej st = count rejected_ev (r_trace st);
  si_out : r_rejout st = count outside_ev (r_trace st);
  si_ad : r_iiadapt st = if (0 <? o_adaptint (k_opts K))%Z then j mod Z.to_nat (o_adaptint (k_opts K)) else j;
  si_in : r_rejin st = count rejected_ev (firstn (r_iiadapt st) (r_trace st));
  si_print : s_iiprint sc = next_print (o_printint (k_opts K)) j;
  si_lines : s_lines sc = if (2 <=? v)%Z then lines_for (rev (r_trace st)) (o_adaptint (k_opts K)) (o_printint (k_opts K)) else [];
  si_bar : bar_fine sc
}.

Lemma line_for_prefix (l1 l2 : list (event F)) a i : i <= List.length l1 -> line_for (l1 ++ l2) a i = line_for l1 a i.
Proof.
  intros H. unfold line_for. rewrite firstn_app. replace (i - List.length l1) with 0 by lia. cbn [firstn]. now rewrite app_nil_r.
Qed.

Lemma lines_snoc (l : list (event F)) e a p : lines_for (l ++ [e]) a p =
  lines_for l a p ++ if line_due p (S (List.length l)) then [line_for (l ++ [e]) a (S (List.length l))] else [].
Proof.
  unfold lines_for. rewrite app_length. cbn [List.length]. rewrite Nat.add_1_r, seq_S. cbn [Nat.add].
  rewrite filter_app, map_app. f_equal.
  - apply map_ext_in. intros i Hi. apply filter_In in Hi as [Hi _]. apply in_seq in Hi. apply line_for_prefix. lia.
  - cbn [filter]. destruct (line_due p (S (List.length l))); reflexivity.
Qed.

Lemma count_rev {A} (p : A -> bool) l : count p (rev l) = count p l.
Proof.
  unfold count. induction l as [|x t IH]; [reflexivity|]. cbn [rev filter]. rewrite filter_app, app_length, IH. cbn [filter].
  destruct (p x); cbn [List.length]; lia.
Qed.

Lemma skipn_rev_count {A} (p : A -> bool) l k : k <= List.length l ->
  count p (skipn (List.length l - k) (rev l)) = count p (firstn k l).
Proof.
  intros H. rewrite <- (count_rev p (firstn k l)). f_equal. rewrite <- (firstn_skipn k l) at 1 2.
  rewrite rev_app_distr. rewrite skipn_app. rewrite app_length, firstn_length, rev_length, skipn_length.
  rewrite (Nat.min_l k) by lia. replace (k + (List.length l - k) - k - (List.length l - k)) with 0 by lia.
  rewrite skipn_all2 by (rewrite rev_length, skipn_length; lia). reflexivity.
Qed.

Lemma update_chain_counts (K : rconst F) st smp st1 : update_chain K st smp = Ok st1 ->
  exists e, r_trace st1 = e :: r_trace st /\ r_iiadapt st1 = S (r_iiadapt st) /\
    r_rej st1 = (if rejected_ev e then S (r_rej st) else r_rej st) /\
    r_rejin st1 = (if rejected_ev e then S (r_rejin st) else r_rejin st) /\
    r_rejout st1 = (if outside_ev e then S (r_rejout st) else r_rejout st).
Proof.
  destruct smp as [[[[[stage new] outb] z] iacce] s]. unfold update_chain. intros H. repeat peel H. apply Ok_inj' in H. subst st1.
  eexists. cbn [r_trace r_iiadapt r_rej r_rejin r_rejout]. split; [reflexivity|]. unfold outside_ev, rejected_ev. cbn [ev_stage ev_outb].
  destruct (stage =? 0); cbn [negb andb]; auto.
Qed.

Lemma adapt_counts (K : rconst F) i u al st st' : adapt_step E K i u al st = Ok st' ->
  r_trace st' = r_trace st /\ r_rej st' = r_rej st /\ r_rejout st' = r_rejout st /\
  (r_iiadapt st' = if ((0 <? o_adaptint (k_opts K)) && (Z.of_nat (r_iiadapt st) =? o_adaptint (k_opts K)))%Z then 0 else r_iiadapt st) /\
  (r_rejin st' = if ((0 <? o_adaptint (k_opts K)) && (Z.of_nat (r_iiadapt st) =? o_adaptint (k_opts K)))%Z then 0 else r_rejin st).
Proof.
  unfold adapt_step. destruct (_ && _).
  - intros H. cbv zeta in H. repeat peel H. repeat match goal with H : context [let '(_, _) := ?x in _] |- _ => destruct x end. repeat peel H. apply Ok_inj' in H. subst st'. cbn. auto 10.
  - intros H. inv H. auto 10.
Qed.

Lemma sigma_counts (K : rconst F) st st' : sigma_step E K st = Ok st' ->
  r_trace st' = r_trace st /\ r_rej st' = r_rej st /\ r_rejout st' = r_rejout st /\ r_iiadapt st' = r_iiadapt st /\ r_rejin st' = r_rejin st.
Proof.
  unfold sigma_step. destruct (o_updatesigma _).
  - intros H. cbv zeta in H. repeat peel H. repeat match goal with H : context [let '(_, _) := ?x in _] |- _ => destruct x end. repeat peel H. apply Ok_inj' in H. subst st'. cbn. auto 10.
  - intros H. inv H. auto 10.
Qed.
Lemma save_counts (K : rconst F) i st st' : save_step K i st = Ok st' ->
  r_trace st' = r_trace st /\ r_rej st' = r_rej st /\ r_rejout st' = r_rejout st /\ r_iiadapt st' = r_iiadapt st /\ r_rejin st' = r_rejin st.
Proof.
  unfold save_step. destruct (_ =? _)%Z.
  - intros H. cbv zeta in H. repeat peel H. repeat match goal with H : context [let '(_, _) := ?x in _] |- _ => destruct x end. repeat peel H. apply Ok_inj' in H. subst st'. cbn. auto 10.
  - intros H. inv H. auto 10.
Qed.

Lemma print_ok (K : rconst F) v j st sc st1 sc1 e :
  shown_inv K v j st sc -> r_trace st1 = e :: r_trace st -> r_iiadapt st1 = S (r_iiadapt st) ->
  r_rej st1 = (if rejected_ev e then S (r_rej st) else r_rej st) ->
  r_rejin st1 = (if rejected_ev e then S (r_rejin st) else r_rejin st) ->
  r_rejout st1 = (if outside_ev e then S (r_rejout st) else r_rejout st) ->
  s_iiprint sc1 = S (s_iiprint sc) -> s_lines sc1 = s_lines sc ->
  exists sc2, print_step K v (S j) st1 sc1 = Ok sc2 /\ s_bar sc2 = s_bar sc1 /\
    s_iiprint sc2 = next_print (o_printint (k_opts K)) (S j) /\
    s_lines sc2 = if (2 <=? v)%Z then lines_for (rev (r_trace st1)) (o_adaptint (k_opts K)) (o_printint (k_opts K)) else [].
Proof.
  intros I T A R RI RO P L. destruct I as [I1 I2 I3 I4 I5 I6 I7 _].
  set (a := o_adaptint (k_opts K)) in *. set (p := o_printint (k_opts K)) in *.
  assert (SA : since_adapted a (S j) = S (r_iiadapt st)).
  { unfold since_adapted. rewrite I4. destruct (0 <? a)%Z; [|reflexivity]. replace (S j - 1) with j by lia. lia. }
  assert (AJ : r_iiadapt st <= j).
  { rewrite I4. destruct (Z.ltb_spec 0 a); [|lia]. apply Nat.mod_le. lia. }
  assert (LN : line_for (rev (r_trace st1)) a (S j) =
     mkline (S j) (percent (r_rej st1) (S j)) (percent (r_rejin st1) (r_iiadapt st1)) (percent (r_rejout st1) (S j))).
  { unfold line_for. rewrite firstn_all2 by (rewrite rev_length, T; cbn; lia). rewrite SA, A.
    replace (S j) with (List.length (r_trace st1)) at 3 by (rewrite T; cbn; lia).
    rewrite skipn_rev_count by (rewrite T; cbn; lia). rewrite !count_rev, T. cbn [firstn]. rewrite !count_cons.
    rewrite R, RI, RO, I2, I3, I5. f_equal; f_equal; [destruct (rejected_ev e)|destruct (rejected_ev e)|destruct (outside_ev e)]; reflexivity. }
  assert (LS : lines_for (rev (r_trace st1)) a p = lines_for (rev (r_trace st)) a p ++
     if line_due p (S j) then [line_for (rev (r_trace st1)) a (S j)] else []).
  { rewrite T. cbn [rev]. rewrite lines_snoc, rev_length, I1. reflexivity. }
  unfold print_step. fold p.
  assert (D : match p with Some p => (negb (p =? 0) && (Z.of_nat (s_iiprint sc1) =? p))%Z | None => false end = line_due p (S j)).
  { destruct p as [q|]; [|reflexivity]. rewrite P, I6. unfold line_due, next_print.
    destruct (Z.ltb_spec 0 q) as [Q|Q]; cbn [andb].
    - rewrite mod_succ by lia. destruct (Z.eqb_spec q 0); [lia|]. cbn [negb andb].
      destruct (Nat.eqb_spec (S (j mod Z.to_nat q)) (Z.to_nat q)) as [e1|e1].
      + transitivity true; [apply Z.eqb_eq; lia|reflexivity].
      + transitivity false; [apply Z.eqb_neq; lia|reflexivity].
    - destruct (Z.eqb_spec (Z.of_nat (S j)) q); [lia|]. apply andb_false_r. }
  assert (NP : next_print p (S j) = if line_due p (S j) then 0 else S (s_iiprint sc)).
  { rewrite I6. unfold next_print, line_due. destruct p as [q|]; [|reflexivity].
    destruct (Z.ltb_spec 0 q) as [Q|Q]; cbn [andb]; [|reflexivity]. rewrite mod_succ by lia.
    destruct (S (j mod Z.to_nat q) =? Z.to_nat q); reflexivity. }
  rewrite NP, LS. destruct p as [q|].
  - rewrite D. destruct (line_due (Some q) (S j)).
    + unfold print_rejection_statistics. rewrite A. cbn [Nat.eqb orb bind]. eexists. split; [reflexivity|].
      cbn [s_bar s_iiprint s_lines]. split; [reflexivity|]. split; [reflexivity|]. rewrite L, I7, LN, A.
      destruct (2 <=? v)%Z; [reflexivity|]. reflexivity.
    + eexists. split; [reflexivity|]. rewrite L, I7, app_nil_r. auto.
  - cbn [line_due] in *. eexists. split; [reflexivity|]. rewrite L, I7, app_nil_r. auto.
Qed.

(** One iteration with display is one iteration; what is shown keeps the description. *)
Lemma step_shown_eq K v clock j st sc : shown_inv K v j st sc ->
  (exists e, step E K (S j) st = Err e /\ step_shown E K v clock (S j) st sc = Err e) \/
  (exists st' sc', step E K (S j) st = Ok st' /\ step_shown E K v clock (S j) st sc = Ok (st', sc') /\ shown_inv K v (S j) st' sc' /\
     (exists ev, r_trace st' = ev :: r_trace st) /\
     match s_bar sc with None => s_bar sc' = None | Some b => exists b', s_bar sc' = Some b' /\ update_bar clock (S j) b = Ok b' end).
Proof.
  intros I. destruct (bar_step_ok clock (S j) sc (si_bar _ _ _ _ _ I)) as (sc1 & B1 & B2 & B3 & B4 & B5).
  unfold step_shown, step. rewrite B1. cbn [bind].
  destruct (sample_step E K st) as [smp|e]; cbn [bind]; [|left; eauto].
  destruct smp as [[[[[stage new] outb] z] iacce] s] eqn:ES.
  destruct (update_chain K st (stage, new, outb, z, iacce, s)) as [st1|e] eqn:EU; cbn [bind]; [|left; eauto].
  destruct (update_chain_counts _ _ _ _ EU) as (ev & U1 & U2 & U3 & U4 & U5).
  destruct (print_ok K v j st sc st1 sc1 ev I U1 U2 U3 U4 U5 B2 B3) as (sc2 & P1 & P2 & P3 & P4). rewrite P1. cbn [bind].
  destruct (adapt_step E K (S j) z (p_alpha new) st1) as [st2|e] eqn:EA; cbn [bind]; [|left; eauto].
  destruct (sigma_step E K st2) as [st3|e] eqn:EG; cbn [bind]; [|left; eauto].
  destruct (save_step K (S j) st3) as [st4|e] eqn:EV; cbn [bind]; [|left; eauto].
  right. exists st4, sc2. split; [reflexivity|]. split; [reflexivity|].
  apply adapt_counts in EA as (A1 & A2 & A3 & A4 & A5). apply sigma_counts in EG as (G1 & G2 & G3 & G4 & G5).
  apply save_counts in EV as (V1 & V2 & V3 & V4 & V5). destruct I as [I1 I2 I3 I4 I5 I6 I7 I8].
  assert (T4 : r_trace st4 = ev :: r_trace st) by congruence.
  split; [|split; [eauto|rewrite P2; exact B5]].
  split.
  - rewrite T4. cbn. lia.
  - rewrite T4, V2, G2, A2, U3, count_cons, I2. destruct (rejected_ev ev); reflexivity.
  - rewrite T4, V3, G3, A3, U5, count_cons, I3. destruct (outside_ev ev); reflexivity.
  - rewrite V4, G4, A4, U2, I4. destruct (Z.ltb_spec 0 (o_adaptint (k_opts K))) as [Q|Q]; cbn [andb]; [|reflexivity].
    rewrite mod_succ by lia. destruct (Nat.eqb_spec (S (j mod Z.to_nat (o_adaptint (k_opts K)))) (Z.to_nat (o_adaptint (k_opts K)))).
    + destruct (Z.eqb_spec (Z.of_nat (S (j mod Z.to_nat (o_adaptint (k_opts K))))) (o_adaptint (k_opts K))); [reflexivity|lia].
    + destruct (Z.eqb_spec (Z.of_nat (S (j mod Z.to_nat (o_adaptint (k_opts K))))) (o_adaptint (k_opts K))); [lia|reflexivity].
  - rewrite V4, G4, A4, V5, G5, A5, T4. destruct (_ && _)%Z; [reflexivity|]. rewrite U2, U4, I5. cbn [firstn]. rewrite count_cons.
    destruct (rejected_ev ev); reflexivity.
  - exact P3.
  - rewrite P4, U1, T4. reflexivity.
  - unfold bar_fine in *. rewrite P2. exact B4.
Qed.

Lemma init_nsimu ps d ms o rdr pos calls ini :
  initialize_simulation E ps d ms o rdr pos calls = Ok ini -> o_nsimu (i_opts ini) = o_nsimu o.
Proof. intros H. apply init_facts in H. tauto. Qed.

(** What the progress bar does over a list of calls. *)
Fixpoint updates (clock : nat -> Q) (is : list nat) (b : progress) : res progress :=
  match is with [] => Ok b | i :: t => let* b' := update_bar clock i b in updates clock t b' end.

Lemma iterate_shown_eq K v clock n : forall j st sc, shown_inv K v j st sc ->
  (exists e, iterate E K (seq (S j) n) st = Err e /\ iterate_shown E K v clock (seq (S j) n) st sc = Err e) \/
  (exists st' sc' evs, iterate E K (seq (S j) n) st = Ok st' /\ iterate_shown E K v clock (seq (S j) n) st sc = Ok (st', sc') /\
     shown_inv K v (j + n) st' sc' /\ r_trace st' = evs ++ r_trace st /\
     match s_bar sc with None => s_bar sc' = None | Some b => exists b', s_bar sc' = Some b' /\ updates clock (seq (S j) n) b = Ok b' end).
Proof.
  induction n as [|n IH]; intros j st sc I.
  - right. exists st, sc, []. cbn. rewrite Nat.add_0_r. repeat split; auto; try apply I. destruct (s_bar sc); eauto.
  - cbn [seq iterate iterate_shown]. destruct (step_shown_eq K v clock j st sc I) as [(e & -> & ->)|(st1 & sc1 & -> & -> & I1 & (ev & T1) & B1)].
    + left. exists e. auto.
    + cbn [bind]. destruct (IH (S j) st1 sc1 I1) as [(e & -> & ->)|(st2 & sc2 & evs & -> & -> & I2 & T2 & B2)]; [left; eauto|].
      right. exists st2, sc2, (evs ++ [ev]). rewrite Nat.add_succ_r. split; [auto|]. split; [auto|]. split; [exact I2|].
      split; [rewrite T2, T1, <- app_assoc; reflexivity|].
      destruct (s_bar sc) as [b|].
      * destruct B1 as (b1 & Hb1 & Hu). rewrite Hb1 in B2. destruct B2 as (b2 & Hb2 & Hus). exists b2. split; [auto|].
        cbn [updates]. rewrite Hu. exact Hus.
      * rewrite B1 in B2. exact B2.
Qed.

Lemma start_shown I chains v index chain ss s2 l sc : s_iiprint sc = 0 -> s_lines sc = [] -> bar_fine sc ->
  shown_inv (make_const I chains) v 0 (start_state I index chain ss s2 l) sc.
Proof.
  intros H1 H2 H3. split; auto.
  - cbn. destruct (0 <? _)%Z eqn:Ez; [|reflexivity]. rewrite Nat.mod_0_l; [reflexivity|]. apply Z.ltb_lt in Ez. cbn in Ez. lia.
  - rewrite H1. cbn [make_const k_opts]. unfold next_print. destruct (o_printint _) as [p|]; [|reflexivity].
    destruct (Z.ltb_spec 0 p); [|reflexivity]. rewrite Nat.mod_0_l; lia.
  - rewrite H2. destruct (2 <=? v)%Z; reflexivity.
Qed.

Definition drawn (waitbar : bool) (clock : nat -> Q) (n : nat) (sc : screen F) : Prop :=
  if waitbar then exists b, s_bar sc = Some b /\ (let* b := progress_bar clock n in updates clock (seq 1 (n - 1)) b) = Ok b
  else s_bar sc = None.

Lemma run_prepared_shown_eq wb v clock m ps I index arrays : o_nsimu (i_opts I) <> 0 ->
  (exists e, run_prepared E m ps I index arrays = Err e /\ run_prepared_shown E wb v clock m ps I index arrays = Err e) \/
  (exists m' sc evs, run_prepared E m ps I index arrays = Ok m' /\ run_prepared_shown E wb v clock m ps I index arrays = Ok (m', sc) /\
     m_opts m' = i_opts I /\ m_trace m' = rev evs ++ m_trace m /\ List.length evs = o_nsimu (i_opts I) - 1 /\
     s_lines sc = (if (2 <=? v)%Z then lines_for evs (o_adaptint (i_opts I)) (o_printint (i_opts I)) else []) /\
     drawn wb clock (o_nsimu (i_opts I)) sc).
Proof.
  intros N. unfold run_prepared_shown, run_prepared. destruct arrays as [[[chain ss] s2] chains].
  set (n := o_nsimu (i_opts I)) in *.
  assert (SC : exists sc0 : screen F, blank wb clock n = Ok sc0 /\ s_iiprint sc0 = 0 /\ s_lines sc0 = [] /\ bar_fine sc0 /\
    (wb = true -> exists b, s_bar sc0 = Some b /\ progress_bar clock n = Ok b) /\ (wb = false -> s_bar sc0 = None)).
  { unfold blank. destruct wb.
    - destruct (update_bar_ok clock 0 (mkprogress n 0 0 [])) as (b & Hb & Hi); [exact N|]. unfold progress_bar. rewrite Hb. cbn [bind].
      eexists. split; [reflexivity|]. cbn [s_iiprint s_lines s_bar]. unfold bar_fine. cbn [s_bar]. rewrite Hi. cbn [b_iterations].
      repeat split; auto; try discriminate. eauto.
    - eexists. split; [reflexivity|]. unfold bar_fine. cbn. repeat split; auto; discriminate. }
  destruct SC as (sc0 & -> & S1 & S2 & S3 & S4 & S5). cbn [bind].
  set (K := make_const I chains). set (st0 := start_state I index chain ss s2 (m_fs m)).
  pose proof (start_shown I chains v index chain ss s2 (m_fs m) sc0 S1 S2 S3) as I0. fold K st0 in I0.
  unfold execute_shown, execute. change (o_nsimu (k_opts K)) with n.
  destruct (iterate_shown_eq K v clock (n - 1) 0 st0 sc0 I0) as [(e & -> & ->)|(st & sc & evs & -> & -> & I1 & T1 & B1)]; [left; eexists; split; reflexivity|].
  cbn [bind]. destruct (n <=? 1); [left; eexists; split; reflexivity|].
  destruct (save_to_log_file (k_opts K) (logged K st) (r_lastbin st) (S (n - 1)) (r_fs st)) as [l1|e]; cbn [bind]; [|left; eexists; split; reflexivity].
  destruct (save_covmtx (k_opts K) (proposal_cov st) (r_lastbin st) (n - 1) l1) as [l2|e]; cbn [bind]; [|left; eexists; split; reflexivity].
  right. eexists _, sc, (rev evs). split; [reflexivity|]. split; [reflexivity|]. split; [reflexivity|]. cbn [m_trace r_trace].
  assert (T0 : r_trace st = evs) by (rewrite T1; apply app_nil_r).
  rewrite rev_involutive. split; [rewrite T0; reflexivity|].
  split. { rewrite rev_length, <- T0. rewrite (si_len _ _ _ _ _ I1). reflexivity. }
  split. { rewrite (si_lines _ _ _ _ _ I1), T0. reflexivity. }
  unfold drawn. destruct wb.
  - destruct (S4 eq_refl) as (b0 & Hb0 & Hp). rewrite Hb0 in B1. destruct B1 as (b1 & Hb1 & Hu). exists b1. split; [auto|]. rewrite Hp. exact Hu.
  - rewrite (S5 eq_refl) in B1. exact B1.
Qed.

Theorem run_shown_eq wb v clock b m : o_nsimu (m_opts m) <> 0 ->
  (exists e, run_simulation E b m = Err e /\ run_simulation_shown E wb v clock b m = Err e) \/
  (exists m' sc evs, run_simulation E b m = Ok m' /\ run_simulation_shown E wb v clock b m = Ok (m', sc) /\
     m_trace m' = rev evs ++ m_trace m /\ List.length evs = o_nsimu (m_opts m) - 1 /\
     s_lines sc = (if (2 <=? v)%Z then lines_for evs (o_adaptint (m_opts m')) (o_printint (m_opts m')) else []) /\
     drawn wb clock (o_nsimu (m_opts m)) sc).
Proof.
  intros N. unfold run_simulation, run_simulation_shown.
  assert (P : forall o ps ini index arrays, o_nsimu o = o_nsimu (m_opts m) ->
    initialize_simulation E ps (m_data m) (m_model m) o (m_RDR m) (m_pos m) (m_calls m) = Ok ini ->
    (exists e, run_prepared E m ps ini index arrays = Err e /\ run_prepared_shown E wb v clock m ps ini index arrays = Err e) \/
    (exists m' sc evs, run_prepared E m ps ini index arrays = Ok m' /\
       run_prepared_shown E wb v clock m ps ini index arrays = Ok (m', sc) /\
       m_trace m' = rev evs ++ m_trace m /\ List.length evs = o_nsimu (m_opts m) - 1 /\
       s_lines sc = (if (2 <=? v)%Z then lines_for evs (o_adaptint (m_opts m')) (o_printint (m_opts m')) else []) /\
       drawn wb clock (o_nsimu (m_opts m)) sc)).
  { intros o ps ini index arrays Ho Hi. assert (Hn : o_nsimu (i_opts ini) = o_nsimu (m_opts m)).
    { rewrite <- Ho. eapply init_nsimu; eauto. }
    destruct (run_prepared_shown_eq wb v clock m ps ini index arrays) as [H|(m' & sc & evs & H1 & H2 & H3 & H4 & H5 & H6 & H7)]; [congruence|auto|].
    right. exists m', sc, evs. rewrite H3, <- Hn. auto 10. }
  destruct b.
  - destruct (m_status m); [|left; eexists; split; reflexivity]. destruct (m_results m) as [r|]; [|left; eexists; split; reflexivity].
    destruct (results_to_params _ _) as [ps|e]; cbn [bind]; [|left; eexists; split; reflexivity].
    destruct (initialize_simulation E ps (m_data m) (m_model m) (m_opts m) (m_RDR m) (m_pos m) (m_calls m)) as [ini|e] eqn:Ei; cbn [bind]; [|left; eexists; split; reflexivity].
    destruct (expand_chains m ini) as [arrays|e]; cbn [bind]; [|left; eexists; split; reflexivity]. exact (P _ _ _ _ _ eq_refl Ei).
  - set (X := match o_restart (m_opts m) with None => _ | Some _ => _ end).
    assert (HX : forall ps o, X = Ok (ps, o) -> o_nsimu o = o_nsimu (m_opts m)).
    { unfold X. intros ps o. destruct (o_restart (m_opts m)) as [r|].
      - destruct (results_to_params r (m_params m)); cbn [bind]; [|discriminate]. intros [= _ <-]. reflexivity.
      - intros [= _ <-]. reflexivity. }
    destruct X as [[ps o]|e]; cbn [bind]; [|left; eexists; split; reflexivity].
    destruct (initialize_simulation E ps (m_data m) (m_model m) o (m_RDR m) (m_pos m) (m_calls m)) as [ini|e] eqn:Ei; cbn [bind]; [|left; eexists; split; reflexivity].
    destruct (initialize_chains ini (lst (ms_sigma2 (i_model ini)))) as [arrays|e]; cbn [bind]; [|left; eexists; split; reflexivity]. exact (P _ _ _ _ _ (HX _ _ eq_refl) Ei).
Qed.

End Facts.
