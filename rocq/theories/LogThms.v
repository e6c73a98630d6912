(** What the log files contain after a run, and after a run that was cut short. *)

From Coq Require Import ZArith QArith Bool Lia List String.
From Verif Require Import Base Num Samplers SamplerFacts Adapt Settings Simulator RunSpec RunFacts RunLift SettingsFacts LogSpec LogFacts.
Import ListNotations.
Close Scope Q_scope.
Open Scope list_scope.
Open Scope nat_scope.
Open Scope res_scope.

(** ** Files as concatenations *)

Section Pick.
Context {F A : Type}.
Variable g : fop F -> list A.
Definition pick (l : fs F) : list A := List.concat (map g l).

Lemma pick_app a b : pick (a ++ b) = pick a ++ pick b.
Proof. unfold pick. now rewrite map_app, concat_app. Qed.

Lemma pick_prefix_nil l j : pick l = [] -> pick (firstn j l) = [].
Proof. intros H. rewrite <- (firstn_skipn j l), pick_app in H. now apply app_eq_nil in H as [-> _]. Qed.

(** One operation matters. *)
Definition single (l : fs F) (v : list A) : Prop :=
  exists l1 op l2, l = l1 ++ op :: l2 /\ pick l1 = [] /\ g op = v /\ pick l2 = [].

Lemma single_value l v : single l v -> pick l = v.
Proof. intros (l1 & op & l2 & -> & A1 & <- & A2). rewrite pick_app, A1. unfold pick in *. cbn. now rewrite A2, app_nil_r. Qed.

Lemma single_prefix l v j : single l v -> pick (firstn j l) = [] \/ pick (firstn j l) = v.
Proof.
  intros (l1 & op & l2 & -> & A1 & <- & A2). rewrite firstn_app, pick_app, (pick_prefix_nil l1 j A1). cbn.
  destruct (j - List.length l1); cbn; auto. right. unfold pick in *. cbn. 
  pose proof (pick_prefix_nil l2 n A2) as X. unfold pick in X. now rewrite X, app_nil_r.
Qed.

Lemma single_app_l l l' v : pick l' = [] -> single l v -> single (l' ++ l) v.
Proof. intros H (l1 & op & l2 & -> & A1 & A3 & A2). exists (l' ++ l1), op, l2. rewrite pick_app, H, app_assoc. auto. Qed.
Lemma single_app_r l l' v : pick l' = [] -> single l v -> single (l ++ l') v.
Proof. intros H (l1 & op & l2 & -> & A1 & A3 & A2). exists l1, op, (l2 ++ l'). rewrite pick_app, H, app_nil_r, <- app_assoc. auto. Qed.

(** Prefixes of a sequence of blocks of [w] operations, one of which matters in each. *)
Lemma blocks_prefix {B} (ops : B -> fs F) (val : B -> list A) w :
  (forall b, List.length (ops b) = w) -> forall bs,
  Forall (fun b => single (ops b) (val b)) bs -> forall j, exists q, q <= List.length bs /\
    pick (firstn j (List.concat (map ops bs))) = List.concat (map val (firstn q bs)) /\
    forall i, i <= List.length bs -> i * w <= j -> i <= q.
Proof.
  intros Hw bs HF. induction HF as [|b bs Hb HF IH]; intros j.
  - exists 0. rewrite firstn_nil. cbn. repeat split; auto; lia.
  - cbn [map List.concat]. rewrite firstn_app, pick_app, Hw. destruct (le_lt_dec w j) as [L|L].
    + destruct (IH (j - w)) as (q & Q1 & Q2 & Q3). exists (S q). cbn [firstn map List.concat List.length].
      rewrite Q2, firstn_all2, (single_value _ _ Hb) by (rewrite Hw; lia). repeat split; auto; [lia|].
      intros [|i] I1 I2; [lia|]. assert (i <= q); [apply Q3; [lia|cbn in I2; lia]|lia].
    + replace (j - w) with 0 by lia. cbn [firstn]. replace (pick []) with (@nil A) by reflexivity. rewrite app_nil_r.
      destruct (single_prefix _ _ j Hb) as [X|X].
      * exists 0. cbn. repeat split; auto; [lia|]. intros [|i] I1 I2; [lia|]. cbn in I2. lia.
      * exists 1. cbn. rewrite app_nil_r. repeat split; auto; [lia|]. intros [|i] I1 I2; [lia|]. cbn in I2. lia.
Qed.

Lemma blocks_all {B} (ops : B -> fs F) (val : B -> list A) bs :
  Forall (fun b => single (ops b) (val b)) bs -> pick (List.concat (map ops bs)) = List.concat (map val bs).
Proof. induction 1; cbn [map List.concat]; auto. now rewrite pick_app, IHForall, (single_value _ _ H). Qed.
End Pick.

Section Files.
Context {F : Type} `{NF : Num F}.

Definition g_txt (p : path) (op : fop F) : list (list F) :=
  match op with FTxt q rows => if path_eqb p q then rows else [] | _ => [] end.
Definition g_h5 (p : path) (op : fop F) : list (nat * nat * list (list F)) :=
  match op with FH5 q a b rows => if path_eqb p q then [(a, b, rows)] else [] | _ => [] end.
Definition g_log (p : path) (op : fop F) : list (nat * nat) :=
  match op with FLog q a b => if path_eqb p q then [(a, b)] else [] | _ => [] end.

Lemma path_eqb_refl p : path_eqb p p = true.
Proof. destruct p as [[a b] c]. cbn. now rewrite !String.eqb_refl. Qed.
Lemma path_eqb_name d f f' e : f <> f' -> path_eqb (d, f, e) (d, f', e) = false.
Proof. intros H. cbn. apply String.eqb_neq in H. now rewrite H, andb_false_r. Qed.

Lemma pick_map_nil {A B} (g : fop F -> list A) (h : B -> fop F) l : (forall b, In b l -> g (h b) = []) -> pick g (map h l) = [].
Proof. intros H. induction l; cbn; auto. unfold pick in *. cbn. rewrite H, IHl; cbn; auto; intros; apply H; cbn; auto. Qed.

Lemma NoDup_entry (ch : list (string * list (list F))) f M : NoDup (map fst ch) -> In (f, M) ch ->
  exists c1 c2, ch = c1 ++ (f, M) :: c2 /\ (forall x, In x c1 \/ In x c2 -> f <> fst x).
Proof.
  intros N I. apply in_split in I as (c1 & c2 & ->). exists c1, c2. split; auto.
  rewrite map_app in N. cbn in N. apply NoDup_remove_2 in N. intros x [X|X] ->; apply N, in_or_app.
  - left. now apply in_map. - right. now apply in_map.
Qed.

Variable o : simopts F.
Variable ch : list (string * list (list F)).
Hypothesis ND : NoDup (map fst ch ++ [o_covchainfile o]).

Lemma names_ok : NoDup (map fst ch) /\ forall x, In x ch -> fst x <> o_covchainfile o.
Proof.
  pose proof (NoDup_remove_1 _ _ _ ND) as X. rewrite app_nil_r in X. split; auto.
  pose proof (NoDup_remove_2 _ _ _ ND) as Y. rewrite app_nil_r in Y. intros x I J. apply Y. rewrite <- J. now apply in_map.
Qed.

Lemma txt_single f M b : In (f, M) ch -> o_save_to_txt o = true ->
  single (g_txt (o_savedir o, f, "txt"%string)) (blk_ops o ch b) (rows_of M (span b)).
Proof.
  intros I T. destruct names_ok as [N1 N2]. destruct (NoDup_entry _ _ _ N1 I) as (c1 & c2 & EQ & NE).
  unfold blk_ops, chain_ops, cov_ops. rewrite T. apply single_app_r.
  { rewrite pick_app. destruct (o_save_to_bin o); cbn; rewrite String.eqb_refl;
    specialize (N2 _ I); cbn in N2; apply String.eqb_neq in N2; now rewrite N2. }
  apply single_app_l.
  { destruct (o_save_to_bin o); auto. change (pick ?g (?x :: ?y)) with (g x ++ pick g y). cbn [g_txt app]. apply pick_map_nil. reflexivity. }
  rewrite EQ, map_app. cbn [map fst snd]. rewrite app_comm_cons. eexists _, _, _. split; [reflexivity|]. split; [|split].
  - change (pick ?g (?x :: ?y)) with (g x ++ pick g y). cbn [g_txt app]. apply pick_map_nil. intros x X. cbn [g_txt]. rewrite path_eqb_name; auto.
  - cbn [g_txt]. rewrite path_eqb_refl. reflexivity.
  - apply pick_map_nil. intros x X. cbn [g_txt]. rewrite path_eqb_name; auto.
Qed.

Lemma h5_single f M b : In (f, M) ch -> o_save_to_bin o = true ->
  single (g_h5 (o_savedir o, f, "h5"%string)) (blk_ops o ch b) [(b_lo b, b_hi b - 1, rows_of M (span b))].
Proof.
  intros I T. destruct names_ok as [N1 N2]. destruct (NoDup_entry _ _ _ N1 I) as (c1 & c2 & EQ & NE).
  unfold blk_ops, chain_ops, cov_ops. rewrite T. apply single_app_r.
  { rewrite pick_app. destruct (o_save_to_txt o); cbn; rewrite String.eqb_refl;
    specialize (N2 _ I); cbn in N2; apply String.eqb_neq in N2; now rewrite N2. }
  apply single_app_r.
  { destruct (o_save_to_txt o); auto. change (pick ?g (?x :: ?y)) with (g x ++ pick g y). cbn [g_h5 app]. apply pick_map_nil. reflexivity. }
  rewrite EQ, map_app. cbn [map fst snd]. rewrite app_comm_cons. eexists _, _, _. split; [reflexivity|]. split; [|split].
  - change (pick ?g (?x :: ?y)) with (g x ++ pick g y). cbn [g_h5 app]. apply pick_map_nil. intros x X. cbn [g_h5]. rewrite path_eqb_name; auto.
  - cbn [g_h5]. rewrite path_eqb_refl. reflexivity.
  - apply pick_map_nil. intros x X. cbn [g_h5]. rewrite path_eqb_name; auto.
Qed.

Lemma binlog_single b : o_save_to_bin o = true -> single (g_log (binlog (o_savedir o))) (blk_ops o ch b) [(b_lo b, b_hi b - 1)].
Proof.
  intros T. unfold blk_ops, chain_ops, cov_ops. rewrite T. apply single_app_r; [destruct (o_save_to_txt o); reflexivity|].
  apply single_app_r.
  { destruct (o_save_to_txt o); auto. change (pick ?g (?x :: ?y)) with (g x ++ pick g y). cbn [g_log]. unfold binlog, txtlog.
    rewrite path_eqb_name by discriminate. cbn [app]. apply pick_map_nil. reflexivity. }
  eexists [], _, _. split; [reflexivity|]. split; [reflexivity|]. split.
  - cbn [g_log]. now rewrite path_eqb_refl.
  - apply pick_map_nil. reflexivity.
Qed.

Lemma txtlog_single b : o_save_to_txt o = true -> single (g_log (txtlog (o_savedir o))) (blk_ops o ch b) [(b_lo b, b_hi b - 1)].
Proof.
  intros T. unfold blk_ops, chain_ops, cov_ops. rewrite T. apply single_app_r; [destruct (o_save_to_bin o); reflexivity|].
  apply single_app_l.
  { destruct (o_save_to_bin o); auto. change (pick ?g (?x :: ?y)) with (g x ++ pick g y). cbn [g_log]. unfold binlog, txtlog.
    rewrite path_eqb_name by discriminate. cbn [app]. apply pick_map_nil. reflexivity. }
  eexists [], _, _. split; [reflexivity|]. split; [reflexivity|]. split.
  - cbn [g_log]. now rewrite path_eqb_refl.
  - apply pick_map_nil. reflexivity.
Qed.
End Files.

(** ** Runs *)

Section Runs.
Context {F : Type} `{NF : Num F}.
Variable E : env F.

(** The arrays under which a run logs. *)
Definition log_arrays (b : bool) (m m' : mcmc F) : list (string * list (list F)) :=
  if b then map (fun e => (fst e, match snd e with
                                  | RefChain => m_chain m | RefSS => m_sschain m
                                  | RefS2 => match m_s2chain m with Some s => s | None => [] end
                                  | Frozen x => x end)) (m_chains m)
  else chain_files m'.

Lemma savesize_pos (x : simopts F) g : 1 <= o_nsimu x -> (1 <= o_savesize (check_dependent_simulation_options x g))%Z.
Proof.
  intros H. unfold check_dependent_simulation_options. cbn [o_savesize].
  repeat match goal with |- context [if ?c then _ else _] => destruct c eqn:? end; try lia.
  all: repeat match goal with H : (_ || _)%bool = false |- _ => apply orb_false_iff in H as [? ?] end; lia.
Qed.

(** A run from scratch logs its own chains; a resumed run logs the arrays of the object before it. *)
Lemma run_ops b m m' : run_simulation E b m = Ok m' ->
  let o := m_opts m' in let s := Z.to_nat (o_savesize o) in let n := o_nsimu o in let ch := log_arrays b m m' in
  1 <= s /\ 2 <= n /\ (b = false -> Forall (fun c => List.length (snd c) = n) ch) /\
  exists bs J evs, map span bs = all_blocks s n /\ m_fs m' = m_fs m ++ blks_ops o ch bs ++ J /\
    (forall op, In op J -> op = FJson (o_savedir o, match o_results_filename o with Some f => f | None => EmptyString end, EmptyString) (o_save_lightly o)) /\
    m_trace m' = rev evs ++ m_trace m /\ List.length evs = n - 1 /\
    forall k e, nth_error evs k = Some e -> ev_files e = List.length (m_fs m) + (k / s) * width o (List.length ch).
Proof.
  intros H. apply run_model in H as (ini & ms1 & st0 & st & chains & H). cbv zeta in H.
  destruct H as (H1 & _ & _ & _ & H2 & H3 & H4 & H5 & H6 & H7 & _ & _ & _ & H8 & H9 & H10 & H11 & _ & H12 & H13 & H14 & H15 & _).
  cbv zeta. rewrite H3 in *. 
  pose proof (init_facts _ _ _ _ _ _ _ _ _ H1) as IF. cbv zeta in IF. destruct IF as (I1 & I2 & _ & I3 & _ & _ & _ & _ & I4 & _).
  assert (N : o_nsimu (i_opts ini) = o_nsimu (m_opts m)).
  { rewrite I2. unfold run_options. destruct b; auto. destruct (o_restart (m_opts m)); auto. }
  assert (S1 : (1 <= o_savesize (i_opts ini))%Z).
  { rewrite H2. apply savesize_pos. rewrite <- I2. lia. }
  assert (LA : logged (make_const ini chains) st = log_arrays b m m' /\
     (b = false -> Forall (fun c => List.length (snd c) = o_nsimu (i_opts ini)) (log_arrays b m m'))).
  { unfold log_arrays, logged. cbn [k_chains make_const]. destruct b.
    - apply expand_chains_facts in H4. cbv zeta in H4. destruct H4 as (_ & _ & _ & ->). split; [|discriminate].
      rewrite map_map. apply map_ext. intros [f r]. cbn [fst snd freeze]. destruct r; reflexivity.
    - unfold chain_files. apply initialize_chains_facts in H4; [|rewrite I3, I1; unfold check_prior_sigma; cbn [op_parind]; rewrite op_parind_open, parind_length; now rewrite map_length|auto].
      cbv zeta in H4. destruct H4 as (C0 & C1 & C2 & _ & _ & C3 & C4 & C5). rewrite H3, H10, H13.
      rewrite H11. destruct H7. rewrite C3 in rc_s2len. rewrite C1 in rc_len. rewrite C2 in rc_sslen.
      assert (X : map (fun e => (fst e, resolve st (snd e))) chains =
         [(o_chainfile (i_opts ini), r_chain st); (o_sschainfile (i_opts ini), r_ss st)] ++
         match r_s2 st with Some s0 => [(o_s2chainfile (i_opts ini), s0)] | None => [] end /\
         match r_s2 st with Some s0 => List.length s0 = o_nsimu (i_opts ini) | None => True end).
      { destruct (o_updatesigma (i_opts ini)); destruct (r_s2 st) as [s2'|] eqn:R2; try discriminate;
        repeat (destruct chains as [|[? ?] chains]; try discriminate); cbn in C4, C5; inv C4; inv C5; cbn in *; rewrite ?R2; split; auto; congruence. }
      destruct X as [X1 X2]. split; [exact X1|]. intros _. repeat constructor; cbn; auto.
      destruct (r_s2 st); repeat constructor; auto. }
  destruct LA as [LA LB].
  split; [lia|]. split; [lia|]. split; [exact LB|].
  assert (X := execute_log E (make_const ini chains) st0 st). cbn [k_opts make_const] in X.
  destruct X as ((bs & X1 & X2) & X3); try (rewrite H5; reflexivity); try lia; auto.
  rewrite LA in X2. exists bs. eexists. exists (rev (r_trace st)). split; [exact X1|].
  split; [rewrite H14, X2, H5; cbn [r_fs start_state]; rewrite <- app_assoc; reflexivity|].
  split; [|split; [rewrite H12, rev_involutive; reflexivity|split; [rewrite rev_length; lia|]]].
  - intros op. destruct (o_save_to_json (i_opts ini)); cbn; [intros [<-|[]]; reflexivity|intros []].
  - intros k e Hk. apply X3 in Hk. rewrite Hk, H5. cbn [r_fs start_state]. 
    rewrite <- LA. unfold logged. rewrite map_length. reflexivity.
Qed.

Lemma pick_json {A} (g : fop F -> list A) J : (forall p l, g (FJson p l) = []) ->
  (forall op, In op J -> exists p l, op = FJson p l) -> pick g J = [].
Proof.
  intros Hg HJ. induction J as [|x J IH]; cbn; auto. unfold pick in *. cbn.
  destruct (HJ x) as (p & l & ->); [cbn; auto|]. rewrite Hg, IH; auto. intros; apply HJ; cbn; auto.
Qed.

Lemma concat_single {A B} (h : A -> B) l : List.concat (map (fun x => [h x]) l) = map h l.
Proof. induction l; cbn; congruence. Qed.

Lemma tiles_firstn q : forall a c bs, tiles a c bs -> exists d, a <= d <= c /\ tiles a d (firstn q bs).
Proof.
  induction q; intros a c bs H.
  - exists a. split; [split; [lia|eapply tiles_le; eauto]|constructor].
  - inv H; cbn.
    + exists c. split; [lia|constructor].
    + destruct (IHq _ _ _ H1) as (d & D1 & D2). exists d. split; [lia|constructor; auto].
Qed.

Lemma tiles_end_unique bs : forall a c d, tiles a c bs -> tiles a d bs -> bs <> [] -> c = d.
Proof.
  induction bs as [|b bs IH]; intros a c d H1 H2 N; [congruence|]. inversion H1 as [|x y z w L1 T1]; subst. inversion H2 as [|x' y' z' w' L2 T2]; subst.
  destruct bs; [inversion T1; inversion T2; congruence|]. eapply IH; [exact T1|exact T2|discriminate].
Qed.

Lemma firstn_seq' q : forall a k, firstn q (seq a k) = seq a (Nat.min q k).
Proof. induction q; intros a [|k]; cbn; auto. now rewrite IHq. Qed.

(** The end of the first [q] blocks. *)
Lemma blocks_end s n q d : 1 <= s -> 1 <= n -> tiles 0 d (firstn q (all_blocks s n)) -> q <= S ((n - 1) / s) ->
  d = if q <=? (n - 1) / s then q * s else n.
Proof.
  intros Hs Hn T L. unfold all_blocks in T. destruct (q <=? (n - 1) / s) eqn:Q.
  - apply Nat.leb_le in Q. rewrite firstn_app, full_length in T. replace (q - (n - 1) / s) with 0 in T by lia. rewrite firstn_O, app_nil_r in T.
    unfold full in T. rewrite firstn_map, firstn_seq', Nat.min_l in T by lia. fold (full s q) in T.
    destruct q; [inv T; auto|]. eapply tiles_end_unique; [exact T|apply full_tiles; auto|]. unfold full. cbn [seq map]. intros X; discriminate X.
  - apply Nat.leb_gt in Q. rewrite firstn_all2 in T by (rewrite app_length, full_length; cbn; lia).
    eapply tiles_end_unique; [exact T|apply blocks_tile; auto|]. intros X. apply app_eq_nil in X as [_ X]. discriminate.
Qed.

Lemma log_contents b m m' : run_simulation E b m = Ok m' ->
  let o := m_opts m' in let s := Z.to_nat (o_savesize o) in let n := o_nsimu o in let ch := log_arrays b m m' in
  NoDup (map fst ch ++ [o_covchainfile o]) ->
  1 <= s /\ 2 <= n /\ (b = false -> Forall (fun c => List.length (snd c) = n) ch) /\
  exists new evs bs, m_fs m' = m_fs m ++ new /\ m_trace m' = rev evs ++ m_trace m /\ List.length evs = n - 1 /\
    tiles 0 n bs /\ small s bs /\ bs = all_blocks s n /\
    (o_save_to_bin o = true ->
       log_lines (binlog (o_savedir o)) new = map label bs /\
       forall f M, In (f, M) ch ->
         h5_sets (o_savedir o, f, "h5"%string) new = map (fun x => (label x, rows_of M x)) bs /\
         forall j, exists q, h5_sets (o_savedir o, f, "h5"%string) (firstn j new) = map (fun x => (label x, rows_of M x)) (firstn q bs) /\
           forall k e, nth_error evs k = Some e -> ev_files e <= List.length (m_fs m) + j -> k < (q + 1) * s) /\
    (o_save_to_txt o = true ->
       log_lines (txtlog (o_savedir o)) new = map label bs /\
       forall f M, In (f, M) ch ->
         txt_rows (o_savedir o, f, "txt"%string) new = firstn n M /\
         forall j, exists c, c <= n /\ txt_rows (o_savedir o, f, "txt"%string) (firstn j new) = firstn c M /\
           forall k e, nth_error evs k = Some e -> ev_files e <= List.length (m_fs m) + j -> k + 1 <= c + s).
Proof.
  intros H o s n ch ND. pose proof (run_ops _ _ _ H) as R. cbv zeta in R. fold o in R. fold s in R. fold n in R. fold ch in R.
  destruct R as (Hs & Hn & R1 & bs & J & evs & R2 & R3 & RJ & R5 & R6 & R7).
  assert (R4 : forall op, In op J -> exists p l, op = FJson p l) by (intros op Hop; apply RJ in Hop; eauto).
  split; [auto|]. split; [auto|]. split; [auto|].
  destruct (blocks_tile s n Hs ltac:(lia)) as [T1 T2].
  exists (blks_ops o ch bs ++ J), evs, (all_blocks s n). split; [auto|]. split; [auto|]. split; [auto|]. split; [auto|]. split; [auto|]. split; [auto|].
  assert (LB : List.length bs = S ((n - 1) / s)).
  { rewrite <- (map_length span), R2. unfold all_blocks. rewrite app_length, full_length. cbn. lia. }
  assert (KB : forall k e, nth_error evs k = Some e -> k / s <= List.length bs /\ k < n - 1).
  { intros k e X. assert (k < n - 1) by (rewrite <- R6; apply nth_error_Some; rewrite X; discriminate). split; auto.
    rewrite LB. assert (k / s <= (n - 1) / s) by (apply Nat.div_le_mono; lia). lia. }
  assert (LW : forall b0, List.length (blk_ops o ch b0) = width o (List.length ch)) by (intros; apply blk_ops_length).
  assert (KS : forall k q, k / s <= q -> k < (q + 1) * s).
  { intros k q X. assert (DM := Nat.div_mod k s ltac:(lia)). assert (MB := Nat.mod_upper_bound k s ltac:(lia)). nia. }
  assert (pick_firstn : forall A (g : fop F -> list A), (forall p l, g (FJson p l) = []) -> forall j, pick g (firstn j (blks_ops o ch bs ++ J)) = pick g (firstn j (blks_ops o ch bs))).
  { intros A g Hg j. rewrite firstn_app, pick_app. rewrite (pick_prefix_nil g J); [apply app_nil_r|]. now apply pick_json. }
  assert (pick_all : forall A (g : fop F -> list A), (forall p l, g (FJson p l) = []) -> pick g (blks_ops o ch bs ++ J) = pick g (blks_ops o ch bs)).
  { intros A g Hg. rewrite pick_app, (pick_json g J); auto. apply app_nil_r. }
  split; intros Ho.
  - split.
    + change (log_lines ?p) with (pick (g_log (F:=F) p)). rewrite pick_all by reflexivity. unfold blks_ops.
      rewrite (blocks_all _ _ (fun x => [label (span x)])).
      * rewrite concat_single, <- R2, map_map. reflexivity.
      * apply Forall_forall. intros x _. apply (binlog_single o ch); auto.
    + intros f M I. change (h5_sets ?p) with (pick (g_h5 (F:=F) p)).
      assert (SI : Forall (fun x => single (g_h5 (o_savedir o, f, "h5"%string)) (blk_ops o ch x) [(label (span x), rows_of M (span x))]) bs).
      { apply Forall_forall. intros x _. exact (h5_single o ch ND f M x I Ho). }
      split.
      * rewrite pick_all by reflexivity. unfold blks_ops. rewrite (blocks_all _ _ _ _ SI), concat_single, <- R2, map_map. reflexivity.
      * intros j. destruct (blocks_prefix _ _ _ _ LW bs SI j) as (q & Q1 & Q2 & Q3). exists q. split.
        -- rewrite pick_firstn by reflexivity. unfold blks_ops. rewrite Q2, concat_single, <- R2, firstn_map, map_map. reflexivity.
        -- intros k e X Y. apply KS. apply Q3; [eapply KB; eauto|]. rewrite (R7 _ _ X) in Y. lia.
  - split.
    + change (log_lines ?p) with (pick (g_log (F:=F) p)). rewrite pick_all by reflexivity. unfold blks_ops.
      rewrite (blocks_all _ _ (fun x => [label (span x)])).
      * rewrite concat_single, <- R2, map_map. reflexivity.
      * apply Forall_forall. intros x _. apply (txtlog_single o ch); auto.
    + intros f M I. change (txt_rows ?p) with (pick (g_txt (F:=F) p)).
      assert (SI : Forall (fun x => single (g_txt (o_savedir o, f, "txt"%string)) (blk_ops o ch x) (rows_of M (span x))) bs).
      { apply Forall_forall. intros x _. exact (txt_single o ch ND f M x I Ho). }
      assert (MM : forall l : list (blk (F:=F)), map (fun x => rows_of M (span x)) l = map (rows_of M) (map span l)) by (intros; now rewrite map_map).
      split.
      * rewrite pick_all by reflexivity. unfold blks_ops. rewrite (blocks_all _ _ _ _ SI), MM, R2, (tiles_rows _ _ _ _ T1). apply rows_of_0.
      * intros j. destruct (blocks_prefix _ _ _ _ LW bs SI j) as (q & Q1 & Q2 & Q3).
        destruct (tiles_firstn q _ _ _ T1) as (d & D1 & D2). exists d. split; [lia|]. split.
        -- rewrite pick_firstn by reflexivity. unfold blks_ops. rewrite Q2, MM, <- firstn_map, R2, (tiles_rows _ _ _ _ D2). apply rows_of_0.
        -- intros k e X Y. destruct (KB _ _ X) as [K1 K2]. rewrite (R7 _ _ X) in Y.
           assert (k < (q + 1) * s) by (apply KS, Q3; auto; lia).
           rewrite (blocks_end s n q d Hs ltac:(lia) D2 ltac:(lia)). destruct (q <=? (n - 1) / s); lia.
Qed.
End Runs.
