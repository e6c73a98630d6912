(** The file operations of a run, block by block. *)

From Coq Require Import ZArith QArith Bool Lia List String.
From Verif Require Import Base Num Samplers SamplerFacts Adapt Settings Simulator RunSpec RunFacts RunLift SettingsFacts LogSpec.
Import ListNotations.
Close Scope Q_scope.
Open Scope list_scope.
Open Scope nat_scope.
Open Scope res_scope.

Section Ops.
Context {F : Type} `{NF : Num F}.
Notation fs := (fs F). Notation fop := (fop F).

Definition chain_ops (o : simopts F) (ch : list (string * list (list F))) (a b : nat) : fs :=
  (if o_save_to_bin o then FLog (binlog (o_savedir o)) a (b - 1) ::
      map (fun c : string * list (list F) => FH5 (o_savedir o, fst c, "h5"%string) a (b - 1) (slice a b (snd c))) ch else []) ++
  (if o_save_to_txt o then FLog (txtlog (o_savedir o)) a (b - 1) ::
      map (fun c : string * list (list F) => FTxt (o_savedir o, fst c, "txt"%string) (slice a b (snd c))) ch else []).
Definition cov_ops (o : simopts F) (C : list (list F)) (a b : nat) : fs :=
  (if o_save_to_bin o then [FH5 (o_savedir o, o_covchainfile o, "h5"%string) a (b - 1) C] else []) ++
  (if o_save_to_txt o then [FTxt (o_savedir o, o_covchainfile o, "txt"%string) C] else []).

Lemma save_chains_h5 dir a b ch : forall l l', save_chains true dir a b ch l = Ok l' ->
  l' = l ++ map (fun c : string * list (list F) => FH5 (dir, fst c, "h5"%string) a (b - 1) (slice a b (snd c))) ch.
Proof.
  induction ch as [|[f m] t IH]; cbn [save_chains]; intros l l' H.
  - inv H. now rewrite app_nil_r.
  - peel H. unfold h5_put in E. destruct (existsb _ _); [discriminate|]. inv E. apply IH in H. subst l'. rewrite <- app_assoc. reflexivity.
Qed.

Lemma save_chains_txt dir a b ch : forall l l', save_chains false dir a b ch l = Ok l' ->
  l' = l ++ map (fun c : string * list (list F) => FTxt (dir, fst c, "txt"%string) (slice a b (snd c))) ch.
Proof.
  induction ch as [|[f m] t IH]; cbn [save_chains]; intros l l' H.
  - inv H. now rewrite app_nil_r.
  - cbn [bind] in H. apply IH in H. subst l'. rewrite <- app_assoc. reflexivity.
Qed.

Lemma save_log_ops o ch a b l l' : save_to_log_file o ch a b l = Ok l' -> l' = l ++ chain_ops o ch a b.
Proof.
  unfold save_to_log_file, chain_ops. intros H. peel H. 
  assert (a0 = l ++ (if o_save_to_bin o then FLog (binlog (o_savedir o)) a (b - 1) ::
      map (fun c : string * list (list F) => FH5 (o_savedir o, fst c, "h5"%string) a (b - 1) (slice a b (snd c))) ch else [])) as ->.
  { destruct (o_save_to_bin o); [apply save_chains_h5 in E; subst a0; now rewrite <- app_assoc|inv E; now rewrite app_nil_r]. }
  clear E. destruct (o_save_to_txt o).
  - apply save_chains_txt in H. subst l'. now rewrite <- !app_assoc.
  - inv H. now rewrite app_nil_r.
Qed.

Lemma save_cov_ops o C a b l l' : save_covmtx o C a b l = Ok l' -> l' = l ++ cov_ops o C a b.
Proof.
  unfold save_covmtx, cov_ops. intros H. peel H.
  assert (a0 = l ++ (if o_save_to_bin o then [FH5 (o_savedir o, o_covchainfile o, "h5"%string) a (b - 1) C] else [])) as ->.
  { destruct (o_save_to_bin o); [|inv E; now rewrite app_nil_r]. unfold h5_put in E. destruct (existsb _ _); [discriminate|]. inv E. reflexivity. }
  destruct (o_save_to_txt o); inv H; now rewrite <- ?app_assoc, ?app_nil_r.
Qed.

(** One block: the chains, then the covariance matrix. *)
Record blk : Type := mkblk { b_lo : nat; b_hi : nat; b_cend : nat; b_C : list (list F) }.
Definition blk_ops (o : simopts F) (ch : list (string * list (list F))) (b : blk) : fs :=
  chain_ops o ch (b_lo b) (b_hi b) ++ cov_ops o (b_C b) (b_lo b) (b_cend b).
Definition blks_ops o ch (l : list blk) : fs := List.concat (map (blk_ops o ch) l).
Definition span (b : blk) : nat * nat := (b_lo b, b_hi b).

Definition width (o : simopts F) (n : nat) : nat :=
  (if o_save_to_bin o then n + 2 else 0) + (if o_save_to_txt o then n + 2 else 0).
Lemma blk_ops_length o ch b : List.length (blk_ops o ch b) = width o (List.length ch).
Proof.
  unfold blk_ops, chain_ops, cov_ops, width. rewrite !app_length.
  destruct (o_save_to_bin o), (o_save_to_txt o); cbn [List.length]; rewrite ?map_length; lia.
Qed.
Lemma blks_ops_length o ch l : List.length (blks_ops o ch l) = List.length l * width o (List.length ch).
Proof. unfold blks_ops. induction l; cbn; auto. rewrite app_length, blk_ops_length, IHl. lia. Qed.

(** Rows not yet reached do not matter. *)
Lemma slice_firstn {A} a b (l : list A) : slice a b l = skipn a (firstn b l).
Proof. unfold slice. now rewrite skipn_firstn_comm. Qed.

Definition agree (c : nat) (ch ch' : list (string * list (list F))) : Prop :=
  Forall2 (fun x y => fst x = fst y /\ firstn c (snd x) = firstn c (snd y)) ch ch'.

Lemma agree_refl c ch : agree c ch ch.
Proof. unfold agree. induction ch; constructor; auto. Qed.

Lemma agree_trans c x y z : agree c x y -> agree c y z -> agree c x z.
Proof. unfold agree. intros H. revert z. induction H; intros z Hz; inv Hz; constructor; auto. intuition congruence. Qed.

Lemma agree_le c d ch ch' : d <= c -> agree c ch ch' -> agree d ch ch'.
Proof.
  intros L H. induction H; constructor; auto. destruct H as [H1 H2]. split; auto.
  rewrite <- (Nat.min_l d c) by lia. rewrite <- !firstn_firstn. congruence.
Qed.

Lemma agree_slice c ch ch' a b : agree c ch ch' -> b <= c -> forall o, chain_ops o ch a b = chain_ops o ch' a b.
Proof.
  intros H L o. unfold chain_ops.
  assert (X : forall (g : string -> list (list F) -> fop),
      map (fun x => g (fst x) (slice a b (snd x))) ch = map (fun x => g (fst x) (slice a b (snd x))) ch').
  { intros g. apply (agree_le _ _ _ _ L) in H. clear L.
    induction H; cbn; auto. destruct H as [H1 H2]. rewrite H1, !slice_firstn, H2. f_equal. auto. }
  rewrite (X (fun f r => FH5 (o_savedir o, f, "h5"%string) a (b - 1) r)), (X (fun f r => FTxt (o_savedir o, f, "txt"%string) r)). reflexivity.
Qed.

Lemma agree_blks c ch ch' o l : agree c ch ch' -> Forall (fun b => b_hi b <= c) l -> blks_ops o ch l = blks_ops o ch' l.
Proof.
  intros H. unfold blks_ops. induction 1; cbn; auto. rewrite IHForall. unfold blk_ops. now rewrite (agree_slice _ _ _ _ _ H H0).
Qed.

Lemma firstn_set_nth {A} i (v : A) l c : c <= i -> firstn c (set_nth i v l) = firstn c l.
Proof. revert i l. induction c; intros [|i] [|x l]; cbn; auto; try lia. intros. f_equal. apply IHc. lia. Qed.
End Ops.

(** The blocks of a run with [n] rows that saves every [s] iterations. *)
Definition full (s q : nat) : list (nat * nat) := map (fun k => (k * s, S k * s)) (seq 0 q).
Definition all_blocks (s n : nat) : list (nat * nat) := full s ((n - 1) / s) ++ [(s * ((n - 1) / s), n)].

Lemma full_length s q : List.length (full s q) = q.
Proof. unfold full. now rewrite map_length, seq_length. Qed.

Lemma full_tiles s q : 1 <= s -> tiles 0 (q * s) (full s q).
Proof.
  intros Hs. induction q.
  - constructor.
  - unfold full. rewrite seq_S, map_app. eapply tiles_app; [exact IHq|]. cbn [map plus]. apply tiles_cons; [lia|constructor].
Qed.

Lemma blocks_tile s n : 1 <= s -> 1 <= n -> tiles 0 n (all_blocks s n) /\ small s (all_blocks s n).
Proof.
  intros Hs Hn. assert (DM := Nat.div_mod (n - 1) s ltac:(lia)). assert (MB := Nat.mod_upper_bound (n - 1) s ltac:(lia)).
  split.
  - unfold all_blocks. eapply tiles_app; [apply full_tiles; auto|]. replace ((n - 1) / s * s) with (s * ((n - 1) / s)) by lia.
    apply tiles_cons; [lia|constructor].
  - apply Forall_app. split.
    + apply Forall_forall. intros b Hb. apply in_map_iff in Hb as (k & <- & _). cbn. lia.
    + constructor; [cbn; lia|constructor].
Qed.
Section Loop.
Context {F : Type} `{NF : Num F}.
Variable E : env F.
Variable K : rconst F.
Let o := k_opts K.
Let s := Z.to_nat (o_savesize o).

Lemma sigma_s2 st st' : sigma_step E K st = Ok st' ->
  match r_s2 st' with Some m => m | None => [] end = match r_s2 st with Some m => m | None => [] end \/
  exists row m, r_s2 st = Some m /\ r_s2 st' = Some (set_nth (r_index st) row m).
Proof.
  unfold sigma_step. destruct (o_updatesigma (k_opts K)).
  - intros H. peel H. destruct a as [[sg s20] s']. peel H. peel H. peel H. inv H. simpl.
    destruct (r_s2 st) as [m|]; [|discriminate]. inv E2. apply write_ok in E3 as [_ ->]. eauto.
  - intros H. inv H. auto.
Qed.

(** A step writes only row [S r_index] of the current arrays and appends at most one block. *)
Lemma step_log i st st' : step E K i st = Ok st' ->
  agree (S (r_index st)) (logged K st) (logged K st') /\ r_index st' = S (r_index st) /\
  (exists stage outb, r_trace st' = mkev (r_cov st) (io_pos (r_io st)) stage outb (List.length (r_fs st)) :: r_trace st) /\
  if (Z.of_nat (S (r_savecount st)) =? o_savesize o)%Z
  then r_savecount st' = 0 /\ r_lastbin st' = i /\
       exists C, r_fs st' = r_fs st ++ blk_ops o (logged K st') (mkblk (i - s) i i C)
  else r_savecount st' = S (r_savecount st) /\ r_lastbin st' = r_lastbin st /\ r_fs st' = r_fs st.
Proof.
  intros H. apply step_parts in H as (stage & new & outb & z & iacce & sio & st1 & st2 & st3 & _ & H1 & H2 & H3 & H4).
  unfold update_chain in H1. peel H1. peel H1. peel H1. peel H1. apply write_ok in E1 as [_ ->], E3 as [_ ->]. match type of H1 with Ok ?x = _ => assert (st1 = x) as -> by congruence end.
  apply adapt_frame in H2 as (A1 & A2 & A3 & A4 & A5 & A6 & A7 & A8 & A9 & A10 & A11 & A12 & A13 & A14 & A15). 
  pose proof (sigma_frame _ _ _ _ H3) as (B1 & _ & B2 & B3 & _ & _ & _ & _ & _ & _ & _ & B4 & B5 & _ & _ & _ & _ & B6 & B7 & _).
  apply sigma_s2 in H3. 
  pose proof (save_frame _ _ _ _ H4) as (C1 & _ & _ & _ & _ & _ & C2 & C3 & C4 & _ & _ & _ & _ & _ & C5).
  cbn [r_index r_savecount r_lastbin r_chain r_ss r_s2 r_fs r_trace] in *.
  split; [|split; [congruence|split; [exists stage, outb; congruence|]]].
  - unfold logged, agree. induction (k_chains K) as [|[f r] t IH]; cbn [map]; constructor; auto. split; auto. cbn [fst snd].
    destruct r; cbn [resolve].
    + rewrite C2, B4, A7, firstn_set_nth; auto.
    + rewrite C3, B5, A8, firstn_set_nth; auto.
    + rewrite C4. destruct H3 as [H3|(rw & m & X1 & X2)].
      * rewrite H3, A9. reflexivity.
      * rewrite X2, firstn_set_nth by lia. rewrite A9 in X1. rewrite X1. reflexivity.
    + reflexivity.
  - rewrite <- A2, <- B2 in *. unfold save_step in H4. fold o in H4. fold s in H4. destruct (_ =? _)%Z eqn:Hz in H4; rewrite Hz.
    + peel H4. peel H4. injection H4 as H4. apply save_log_ops in E1. apply save_cov_ops in E3. subst st'.
      cbn [r_savecount r_lastbin r_fs]. split; [auto|split; [auto|]]. exists (proposal_cov st3).
      rewrite E3, E1, B6, A14. rewrite <- app_assoc. reflexivity.
    + inv H4. repeat split; congruence.
Qed.

(** The whole loop. *)
Definition loop_inv (st0 : rstate F) (d : nat) (st : rstate F) : Prop :=
  r_index st = r_index st0 + d /\ List.length (r_trace st) = d /\ r_savecount st = d mod s /\ r_lastbin st = s * (d / s) /\
  (exists bs, map span bs = full s (d / s) /\ Forall (fun b => b_cend b = b_hi b) bs /\ r_fs st = r_fs st0 ++ blks_ops o (logged K st) bs) /\
  forall k e, nth_error (rev (r_trace st)) k = Some e -> ev_files e = List.length (r_fs st0) + (k / s) * width o (List.length (k_chains K)).

Lemma logged_length st : List.length (logged K st) = List.length (k_chains K).
Proof. unfold logged. now rewrite map_length. Qed.

Lemma loop_log n : 1 <= s -> (Z.of_nat s = o_savesize o) -> forall st0 st,
  r_trace st0 = [] -> r_savecount st0 = 0 -> r_lastbin st0 = 0 ->
  iterate E K (seq 1 n) st0 = Ok st -> loop_inv st0 n st.
Proof.
  intros Hs Hz st0 st T0 T1 T2 H.
  replace n with (1 + n - 1) by lia. refine (iterate_ind E K (fun i st => loop_inv st0 (i - 1) st) n 1 st0 st _ _ H).
  - cbn. unfold loop_inv. rewrite T0, T1, T2, Nat.add_0_r, Nat.mod_0_l, Nat.div_0_l, Nat.mul_0_r by lia. repeat split; auto.
    + exists []. repeat split; auto. cbn. now rewrite app_nil_r.
    + cbn. intros [|k] e X; discriminate.
  - intros i st1 st2 Hi I Hstep. remember (i - 1) as d. replace (S i - 1) with (S d) by lia. assert (i = S d) as -> by lia.
    apply step_log in Hstep as (G & I1 & (stage & outb & I2) & R). destruct I as (J1 & J2 & J3 & J4 & (bs & J5 & J6 & J7) & J8).
    assert (L : Forall (fun b => b_hi b <= S (r_index st1)) bs).
    { apply Forall_forall. intros b Hb. apply (in_map span) in Hb. rewrite J5 in Hb. unfold full in Hb.
      apply in_map_iff in Hb as (k & X & Y). apply in_seq in Y. unfold span in X. injection X as X1 X2. rewrite <- X2, J1.
      assert (S k * s <= d / s * s) by (apply Nat.mul_le_mono_r; lia).
      pose proof (Nat.mul_div_le d s ltac:(lia)). lia. }
    assert (T : forall k e, nth_error (rev (r_trace st2)) k = Some e ->
       ev_files e = List.length (r_fs st0) + (k / s) * width o (List.length (k_chains K))).
    { intros k e. rewrite I2. cbn [rev]. destruct (Nat.eq_dec k d) as [->|Hk].
      - rewrite nth_error_app2 by (rewrite rev_length; lia). rewrite rev_length, J2, Nat.sub_diag. cbn. intros X; inv X. cbn [ev_files].
        rewrite J7, app_length, blks_ops_length, logged_length.
        rewrite <- (map_length span bs), J5, full_length. reflexivity.
      - intros X. assert (k < d).
        { assert (k < List.length (rev (r_trace st1) ++ [mkev (r_cov st1) (io_pos (r_io st1)) stage outb (List.length (r_fs st1))])) by
            (apply nth_error_Some; rewrite X; discriminate). rewrite app_length, rev_length in H0. cbn in H0. lia. }
        rewrite nth_error_app1 in X by (rewrite rev_length; lia). eauto. }
    assert (DM := Nat.div_mod d s ltac:(lia)). assert (MB := Nat.mod_upper_bound d s ltac:(lia)).
    destruct (Z.of_nat (S (r_savecount st1)) =? o_savesize o)%Z eqn:Hq.
    + apply Z.eqb_eq in Hq. assert (Q : S (r_savecount st1) = s) by lia. rewrite J3 in Q.
      assert (D1 : S d / s = S (d / s)) by (symmetry; apply (Nat.div_unique (S d) s (S (d / s)) 0); lia).
      assert (D2 : S d mod s = 0) by (symmetry; apply (Nat.mod_unique (S d) s (S (d / s)) 0); lia).
      destruct R as (R1 & R2 & C & R3).
      split; [lia|]. split; [rewrite I2; cbn; lia|]. split; [congruence|]. split; [rewrite R2, D1; lia|]. split; [|exact T].
      exists (bs ++ [mkblk (S d - s) (S d) (S d) C]). split; [|split].
      * rewrite map_app, J5, D1. unfold full. rewrite seq_S, map_app. apply f_equal. cbn [map plus]. unfold span. cbn [b_lo b_hi].
        assert (X1 : S d - s = d / s * s) by lia. assert (X2 : S d = S (d / s) * s) by lia. rewrite X1. rewrite X2 at 1. reflexivity.
      * apply Forall_app. auto.
      * rewrite R3, J7, (agree_blks _ _ _ o bs G L). unfold blks_ops. rewrite map_app, concat_app. cbn [map List.concat]. now rewrite app_nil_r, <- app_assoc.
    + apply Z.eqb_neq in Hq. assert (Q : S (r_savecount st1) <> s) by lia. rewrite J3 in Q.
      assert (D1 : S d / s = d / s) by (symmetry; apply (Nat.div_unique (S d) s (d / s) (S (d mod s))); lia).
      assert (D2 : S d mod s = S (d mod s)) by (symmetry; apply (Nat.mod_unique (S d) s (d / s) (S (d mod s))); lia).
      destruct R as (R1 & R2 & R3).
      split; [lia|]. split; [rewrite I2; cbn; lia|]. split; [congruence|]. split; [congruence|]. split; [|exact T].
      exists bs. split; [congruence|]. split; [auto|]. rewrite R3, J7. now rewrite (agree_blks _ _ _ o bs G L).
Qed.

Lemma execute_log st0 st : 1 <= s -> Z.of_nat s = o_savesize o ->
  r_trace st0 = [] -> r_savecount st0 = 0 -> r_lastbin st0 = 0 -> execute E K st0 = Ok st ->
  (exists bs, map span bs = all_blocks s (o_nsimu o) /\ r_fs st = r_fs st0 ++ blks_ops o (logged K st) bs) /\
  forall k e, nth_error (rev (r_trace st)) k = Some e -> ev_files e = List.length (r_fs st0) + (k / s) * width o (List.length (k_chains K)).
Proof.
  intros Hs Hz T0 T1 T2 H. unfold execute in H. fold o in H. peel H. destruct (o_nsimu o <=? 1) eqn:Hn; [discriminate|]. apply Nat.leb_gt in Hn.
  peel H. peel H. apply loop_log in E0 as (J1 & J2 & J3 & J4 & (bs & J5 & J6 & J7) & J8); auto.
  apply save_log_ops in E1. apply save_cov_ops in E2.
  match type of H with Ok ?x = _ => assert (st = x) as -> by congruence end. cbn [r_fs r_trace]. split; [|exact J8].
  eexists (bs ++ [mkblk _ _ _ _]). split.
  - rewrite map_app, J5. unfold all_blocks. cbn [map span b_lo b_hi]. rewrite <- J4. reflexivity.
  - unfold blks_ops. rewrite map_app, concat_app. cbn [map List.concat]. rewrite app_nil_r. unfold blk_ops. cbn [b_lo b_hi b_C b_cend].
    rewrite E2, E1, J7. rewrite <- !app_assoc. f_equal. 
    replace (S (o_nsimu o - 1)) with (o_nsimu o) by lia. reflexivity.
Qed.

End Loop.
