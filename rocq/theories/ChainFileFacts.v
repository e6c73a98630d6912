(** Reading back what a run has written. *)

From Coq Require Import ZArith QArith Bool Lia List String Sorting.Sorted.
From Verif Require Import Base Num Samplers SamplerFacts Adapt Settings Simulator RunSpec RunFacts RunLift SettingsFacts LogSpec LogFacts LogThms Names ChainFiles.
Import ListNotations.
Close Scope Q_scope.
Open Scope list_scope.
Open Scope nat_scope.
Open Scope res_scope.

Lemma insert_head {A} (key : A -> string) x l : (forall y t, l = y :: t -> String.leb (key x) (key y) = true) -> insert_by key x l = x :: l.
Proof. destruct l; cbn; auto. intros H. now rewrite (H _ _ eq_refl). Qed.

Lemma sort_sorted {A} (key : A -> string) l : Sorted (fun x y => String.leb (key x) (key y) = true) l -> sort_by key l = l.
Proof.
  induction 1 as [|x l S IH H]; auto. change (sort_by key (x :: l)) with (insert_by key x (sort_by key l)). rewrite IH. apply insert_head. intros y t ->. now inversion H.
Qed.

Section Read.
Context {F : Type} `{NF : Num F}.

Lemma mapM_fit nc (r : list (list F)) : Forall (fun x => List.length x = nc) r -> mapM (fit_row nc) r = Ok r.
Proof. induction 1; cbn; auto. unfold fit_row at 1. rewrite H, Nat.eqb_refl. cbn. now rewrite IHForall. Qed.

Definition total (ds : list (list (list F))) : nat := fold_right (fun x k => List.length x + k) 0 ds.

(** Equal blocks, except that the last may be shorter. *)
Inductive regular (w : nat) : list (list (list F)) -> Prop :=
| reg_last r : List.length r <= w -> regular w [r]
| reg_cons r t : List.length r = w -> regular w t -> regular w (r :: t).

Lemma assign_block nc (r done tail : list (list F)) : Forall (fun x => List.length x = nc) r -> List.length r <= List.length tail -> forall b,
  Nat.min b (List.length done + List.length tail) = List.length done + List.length r ->
  assign_rows (List.length done) b r (done ++ tail) nc = Ok ((done ++ r) ++ skipn (List.length r) tail).
Proof.
  intros HC HL b Hb. unfold assign_rows. rewrite mapM_fit by auto. cbn [bind]. rewrite app_length, Hb, Nat.min_l by lia.
  replace (_ + _ - _) with (List.length r) by lia. rewrite Nat.eqb_refl. cbn [bind].
  rewrite firstn_app, Nat.sub_diag, firstn_all, firstn_O, app_nil_r, <- app_assoc. do 3 f_equal.
  rewrite skipn_app, skipn_all2 by lia. cbn. f_equal. lia.
Qed.

Lemma fill_regular nc w : forall ds, regular w ds -> Forall (Forall (fun x => List.length x = nc)) ds ->
  forall k a done tail, a + k = List.length done -> List.length tail = total ds ->
  fill_sets a (a + w) nc (Some k) ds (done ++ tail) = Ok (done ++ List.concat ds).
Proof.
  induction 1; intros HC k a done tl HA HT; cbn [fill_sets]; inversion HC as [|? ? C1 C2]; subst.
  - cbn in HT. rewrite HA, assign_block; auto; try lia. cbn. rewrite skipn_all2, !app_nil_r by lia. reflexivity.
  - cbn in HT. rewrite HA, assign_block; auto; try lia. cbn [bind].
    replace (a + List.length r + k) with (List.length done + List.length r) by lia.
    rewrite IHregular; auto.
    + cbn. now rewrite <- app_assoc.
    + now rewrite app_length.
    + rewrite skipn_length. unfold total. lia.
Qed.

Lemma fill_all nc ds r t : ds = r :: t -> t = [] \/ regular (List.length r) t -> Forall (Forall (fun x => List.length x = nc)) ds ->
  forall out, List.length out = total ds -> fill_sets 0 0 nc None ds out = Ok (List.concat ds).
Proof.
  intros -> HR HC out HT. cbn [fill_sets]. inversion HC as [|? ? C1 C2]; subst. cbn in HT.
  rewrite (assign_block nc r [] out C1 ltac:(lia)) by (cbn; lia). cbn [bind List.concat].
  destruct HR as [->|HR].
  - cbn in *. rewrite skipn_all2, !app_nil_r by lia. reflexivity.
  - rewrite (fill_regular nc (List.length r)); auto. rewrite skipn_length. unfold total. lia.
Qed.

Lemma read_sorted nc (sets : list (nat * nat * list (list F))) r t :
  Sorted (fun x y => String.leb x y = true) (map (fun e => dataset_name (fst (fst e)) (snd (fst e))) sets) ->
  map snd sets = r :: t -> r <> [] -> t = [] \/ regular (List.length r) t ->
  Forall (Forall (fun x => List.length x = nc)) (map snd sets) ->
  read_in_bin_file sets = List.concat (map snd sets).
Proof.
  intros HS HM HN HR HC. unfold read_in_bin_file. rewrite sort_sorted.
  - rewrite HM in *. assert (ncols r = nc) as ->.
    { destruct r as [|x r]; [congruence|]. inversion HC as [|? ? C1 _]; subst. now inversion C1. }
    rewrite (fill_all nc (r :: t) r t eq_refl HR HC); auto. now rewrite repeat_length.
  - clear - HS. remember (map _ sets) as l eqn:EL. revert sets EL. induction HS as [|x l S IH H]; intros [|e sets] EL; try discriminate; constructor.
    + injection EL as EL1 EL2. apply IH; auto.
    + injection EL as EL1 EL2. destruct sets; constructor. subst. now inversion H.
Qed.
End Read.

(** ** The order of the names of the blocks *)

Definition block_name (b : nat * nat) : string := dataset_name (fst (label b)) (snd (label b)).

Lemma name_le k a b a' b' : (a = 0 \/ 10 ^ k <= a) -> 10 ^ k <= a' -> a < a' -> a' < 10 ^ S k ->
  String.leb (dataset_name a b) (dataset_name a' b') = true.
Proof.
  intros H1 H2 H3 H4. unfold String.leb, dataset_name. rewrite compare_prefix.
  assert (String.compare (dec a ++ "_" ++ dec b) (dec a' ++ "_" ++ dec b') = Lt) as ->; auto.
  destruct H1 as [->|H1]; [apply dec_0_lt; lia|]. apply (dec_lt k); lia.
Qed.

Lemma nth_blocks s n i b : nth_error (all_blocks s n) i = Some b -> fst b = i * s /\ i <= (n - 1) / s.
Proof.
  unfold all_blocks. intros H. destruct (le_lt_dec ((n - 1) / s) i) as [L|L].
  - rewrite nth_error_app2, full_length in H by (rewrite full_length; auto). destruct (i - (n - 1) / s) as [|x] eqn:X; cbn in H; [|destruct x; discriminate].
    injection H as <-. cbn. assert (i = (n - 1) / s) by lia. subst. split; lia.
  - rewrite nth_error_app1 in H by (rewrite full_length; auto). unfold full in H. rewrite nth_error_map in H.
    destruct (nth_error (seq 0 ((n - 1) / s)) i) eqn:E; [|discriminate]. injection H as <-. cbn [fst].
    apply nth_error_nth with (d := 0) in E. rewrite seq_nth in E by lia. subst. split; lia.
Qed.

Lemma Sorted_nth {A} (R : A -> A -> Prop) l : (forall i x y, nth_error l i = Some x -> nth_error l (S i) = Some y -> R x y) -> Sorted R l.
Proof.
  induction l; intros H; constructor.
  - apply IHl. intros i x y X Y. exact (H (S i) x y X Y).
  - destruct l; constructor. exact (H 0 _ _ eq_refl eq_refl).
Qed.

(** All but the first block start at numbers with the same number of digits. *)
Lemma names_sorted s n k : 1 <= s -> 1 <= n -> n <= s \/ (10 ^ k <= s /\ n <= 10 ^ S k) ->
  Sorted (fun x y => String.leb x y = true) (map block_name (all_blocks s n)).
Proof.
  intros Hs Hn H. apply Sorted_nth. intros i x y X Y. rewrite nth_error_map in X, Y.
  destruct (nth_error (all_blocks s n) i) as [b|] eqn:B; [|discriminate]. destruct (nth_error (all_blocks s n) (S i)) as [c|] eqn:C; [|discriminate].
  injection X as <-. injection Y as <-. apply nth_blocks in B as [B1 B2], C as [C1 C2].
  pose proof (Nat.mul_div_le (n - 1) s ltac:(lia)).
  assert (S i * s <= (n - 1) / s * s) by (apply Nat.mul_le_mono_r; lia). cbn [Nat.mul] in H1.
  destruct H as [H|[H2 H3]].
  - assert ((n - 1) / s = 0) by (apply Nat.div_small; lia). lia.
  - unfold block_name, label. cbn [fst]. apply (name_le k); rewrite ?B1, ?C1; cbn [Nat.mul]; try lia.
    destruct i; [left; lia|right; cbn [Nat.mul]; lia].
Qed.

(** ** Runs *)

Section Runs.
Context {F : Type} `{NF : Num F}.
Variable E : env F.

Lemma rows_length {A} (M : list A) a b : b <= List.length M -> a <= b -> List.length (rows_of M (a, b)) = b - a.
Proof. intros. unfold rows_of. cbn. rewrite firstn_length, skipn_length. lia. Qed.

Lemma blocks_regular (M : list (list F)) s n : 1 <= s -> 2 <= n -> List.length M = n ->
  exists r t, map (rows_of M) (all_blocks s n) = r :: t /\ r <> [] /\ (t = [] \/ regular (List.length r) t).
Proof.
  intros Hs Hn HM. assert (DM := Nat.div_mod (n - 1) s ltac:(lia)). assert (MB := Nat.mod_upper_bound (n - 1) s ltac:(lia)).
  unfold all_blocks. destruct ((n - 1) / s) as [|q] eqn:Q.
  - cbn [full seq map app]. eexists _, []. split; [reflexivity|]. split; [|auto].
    intros X. apply (f_equal (@List.length _)) in X. rewrite rows_length in X by lia. cbn in X. lia.
  - unfold full. cbn [seq map app]. eexists _, _. split; [reflexivity|].
    assert (L0 : List.length (rows_of M (0 * s, 1 * s)) = s) by (rewrite rows_length by nia; lia).
    split; [intros X; rewrite X in L0; cbn in L0; lia|]. right. rewrite L0.
    assert (G : forall j k, k + j = S q -> 
      regular s (map (rows_of M) (map (fun k0 => (k0 * s, S k0 * s)) (seq k j) ++ [(s * S q, n)]))).
    { induction j; intros k K.
      - cbn [seq map app]. apply reg_last. rewrite rows_length by nia. nia.
      - cbn [seq map app]. apply reg_cons; [|apply IHj; lia]. rewrite rows_length; nia. }
    apply (G q 1). lia.
Qed.

(** All rows of an array have the same width. *)
Definition wide (w : nat) (M : list (list F)) : Prop := Forall (fun x => List.length x = w) M.

Lemma wide_set w i v M : wide w M -> List.length v = w -> wide w (set_nth i v M).
Proof.
  unfold wide. intros H V. revert i. induction H; intros [|i]; cbn; constructor; auto.
Qed.
Lemma fit_row_length n (x row : list F) : fit_row n x = Ok row -> List.length row = n.
Proof.
  unfold fit_row. destruct (Nat.eqb_spec (List.length x) n); [intros H; inv H; auto|].
  destruct x as [|a [|b t]]; try discriminate. intros H; inv H. apply repeat_length.
Qed.
Lemma wide_zeros w n : wide w (zeros (F:=F) n w).
Proof. unfold wide, zeros. apply Forall_forall. intros x X. apply repeat_spec in X. subst. apply repeat_length. Qed.

Definition wide_state (K : rconst F) (st : rstate F) : Prop :=
  wide (v_npar (k_view K)) (r_chain st) /\ wide (k_nsos K) (r_ss st) /\ match r_s2 st with Some s => wide (k_nsos K) s | None => True end.

Lemma step_wide K i st st' : step E K i st = Ok st' -> wide_state K st -> wide_state K st'.
Proof.
  intros H (W1 & W2 & W3). apply step_parts in H as (stage & new & outb & z & iacce & sio & st1 & st2 & st3 & _ & H1 & H2 & H3 & H4).
  unfold update_chain in H1. peel H1. peel H1. peel H1. peel H1. apply write_ok in E1 as [_ ->], E3 as [_ ->].
  match type of H1 with Ok ?x = _ => assert (st1 = x) as -> by congruence end.
  apply adapt_frame in H2 as (A1 & A2 & A3 & A4 & A5 & A6 & A7 & A8 & A9 & _).
  pose proof (sigma_frame _ _ _ _ H3) as (_ & _ & _ & _ & _ & _ & _ & _ & _ & _ & _ & B4 & B5 & _).
  pose proof (save_frame _ _ _ _ H4) as (C1 & _ & _ & _ & _ & _ & C2 & C3 & C4 & _).
  cbn [r_chain r_ss r_s2] in *. unfold wide_state. rewrite C2, B4, A7, C3, B5, A8, C4. 
  split; [apply wide_set; auto; eapply fit_row_length; eauto|]. split; [apply wide_set; auto; eapply fit_row_length; eauto|].
  unfold sigma_step in H3. destruct (o_updatesigma (k_opts K)).
  - peel H3. destruct a0 as [[sg s20] s']. peel H3. peel H3. peel H3. match type of H3 with Ok ?x = _ => assert (st3 = x) as -> by congruence end. cbn [r_s2].
    rewrite A9 in E4. destruct (r_s2 st) as [m|]; [|discriminate]. inv E4. apply write_ok in E5 as [_ ->].
    apply wide_set; auto. eapply fit_row_length; eauto.
  - inv H3. now rewrite A9.
Qed.

Lemma execute_wide K st0 st : execute E K st0 = Ok st -> wide_state K st0 -> wide_state K st.
Proof.
  intros H W. unfold execute in H. peel H. 
  assert (wide_state K a). { refine (iterate_ind E K (fun _ s => wide_state K s) _ _ _ _ W _ E0). intros. eapply step_wide; eauto. }
  destruct (_ <=? 1); [discriminate|]. peel H. peel H. inv H. exact H0.
Qed.

Lemma chain_widths m m' : run_simulation E false m = Ok m' -> 
  forall f M, In (f, M) (chain_files m') -> exists w, wide w M.
Proof.
  intros H. apply run_model in H as (ini & ms1 & st0 & st & chains & H). cbv zeta in H.
  destruct H as (H1 & _ & _ & _ & H2 & H3 & H4 & H5 & H6 & H7 & _ & _ & _ & H8 & H9 & H10 & H11 & _ & H12 & H13 & H14 & H15 & _).
  assert (W0 : wide_state (make_const ini chains) st0).
  { pose proof (init_facts _ _ _ _ _ _ _ _ _ H1) as IF. cbv zeta in IF. destruct IF as (I1 & _).
    unfold initialize_chains in H4. peel H4. peel H4. peel H4. peel H4. apply write_ok in E1 as [_ ->], E3 as [_ ->].
    apply fit_row_length in E0, E2. unfold wide_state. cbn [k_view make_const k_nsos].
    assert (V : v_npar (view (i_op ini)) = List.length (op_parind (i_op ini))) by reflexivity. rewrite V.
    destruct (o_updatesigma (i_opts ini)).
    - peel H4. peel H4. apply fit_row_length in E1. apply write_ok in E3 as [_ ->]. match type of H4 with Ok (?p, ?q, ?r, _) = _ => assert (r_chain st0 = p /\ r_ss st0 = q /\ r_s2 st0 = r) as (X1 & X2 & X3) by (repeat split; congruence) end. rewrite X1, X2, X3.
      repeat split; apply wide_set; auto; apply wide_zeros.
    - match type of H4 with Ok (?p, ?q, ?r, _) = _ => assert (r_chain st0 = p /\ r_ss st0 = q /\ r_s2 st0 = r) as (X1 & X2 & X3) by (repeat split; congruence) end. rewrite X1, X2, X3. repeat split; apply wide_set; auto; apply wide_zeros. }
  apply (execute_wide _ _ _ H6) in W0. destruct W0 as (W1 & W2 & W3).
  unfold chain_files. rewrite H10, H11, H13. intros f M [X|[X|X]]; [inv X; eauto|inv X; eauto|].
  destruct (r_s2 st); [|destruct X]. destruct X as [X|[]]. inv X. eauto.
Qed.

(** Block names in string order are enough for the h5 file to read back as the chain. *)
Lemma h5_reads_back m m' : run_simulation E false m = Ok m' -> distinct_files m' -> o_save_to_bin (m_opts m') = true ->
  forall f M, In (f, M) (chain_files m') -> h5_sets (o_savedir (m_opts m'), f, "h5"%string) (m_fs m) = [] ->
  Sorted (fun x y => String.leb x y = true) (map block_name (all_blocks (Z.to_nat (o_savesize (m_opts m'))) (o_nsimu (m_opts m')))) ->
  read_in_bin_file (h5_sets (o_savedir (m_opts m'), f, "h5"%string) (m_fs m')) = M.
Proof.
  intros H D B f M I Z0 S. pose proof (chain_widths _ _ H _ _ I) as [w W].
  assert (ND : NoDup (map fst (log_arrays false m m') ++ [o_covchainfile (m_opts m')])).
  { unfold log_arrays, chain_files. unfold distinct_files in D. 
    destruct (m_s2chain m'); cbn [map fst app]; auto. inversion D as [|? ? D1 D2]; inversion D2 as [|? ? D3 D4]; inversion D4 as [|? ? D5 D6]; subst.
    constructor; [cbn in *; tauto|]. constructor; [cbn in *; tauto|]. auto. }
  pose proof (log_contents E _ _ _ H ND) as L. cbv zeta in L. destruct L as (Hs & Hn & HL & new & evs & bs & L1 & _ & _ & T & _ & -> & L2 & _).
  destruct (L2 B) as [_ L3]. destruct (L3 _ _ I) as [L4 _]. rewrite L1. unfold h5_sets in *. rewrite map_app, concat_app, Z0. cbn [app]. rewrite L4.
  specialize (HL eq_refl). rewrite Forall_forall in HL. specialize (HL _ I). cbn in HL.
  destruct (blocks_regular M _ _ Hs Hn HL) as (r & t & R1 & R2 & R3).
  rewrite (read_sorted w _ r t); auto.
  - rewrite map_map. cbn [snd]. change (fun x : nat * nat => rows_of M x) with (rows_of M). rewrite (tiles_rows _ _ _ _ T), rows_of_0. now rewrite firstn_all2 by lia.
  - rewrite map_map. exact S.
  - now rewrite map_map.
  - rewrite map_map. cbn [snd]. apply Forall_forall. intros x X. apply in_map_iff in X as (b & <- & _).
    unfold rows_of. unfold wide in W. rewrite Forall_forall in W |- *. intros y Y. apply W.
    rewrite <- (firstn_skipn (fst b) M). apply in_or_app. right.
    rewrite <- (firstn_skipn (snd b - fst b) (skipn (fst b) M)). apply in_or_app. now left.
Qed.
End Runs.
