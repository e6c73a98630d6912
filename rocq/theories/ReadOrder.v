(** Exactly when the blocks of an h5 log come back in the order of the iterations. *)

From Coq Require Import ZArith QArith Bool Lia List String Ascii Sorting.Sorted Permutation.
From Verif Require Import Base Num Samplers SamplerFacts Adapt Settings Simulator RunSpec RunFacts RunLift SettingsFacts LogSpec LogFacts LogThms Names ChainFiles ChainFileFacts ResultFacts.
Import ListNotations.
Close Scope Q_scope.
Open Scope list_scope.
Open Scope nat_scope.
Open Scope res_scope.

(** Numbers written with equally many decimal digits. *)
Definition same_digits (a b : nat) : Prop := forall k, 10 ^ k <= a <-> 10 ^ k <= b.

Lemma pow10_pos k : 1 <= 10 ^ k.
Proof. induction k; cbn [Nat.pow]; lia. Qed.

Lemma digits_count s : 1 <= s -> exists k, 10 ^ k <= s < 10 ^ S k.
Proof.
  intros H. induction s as [s IH] using lt_wf_ind. destruct (le_lt_dec 10 s) as [L|L].
  - destruct (IH (s / 10)) as (k & K1 & K2); [apply Nat.div_lt; lia|apply Nat.div_le_lower_bound; lia|].
    exists (S k). cbn [Nat.pow] in *. pose proof (Nat.div_mod s 10 ltac:(lia)). pose proof (Nat.mod_upper_bound s 10 ltac:(lia)). lia.
  - exists 0. cbn. lia.
Qed.

Lemma same_digits_range a b k : 10 ^ k <= b < 10 ^ S k -> (same_digits a b <-> 10 ^ k <= a < 10 ^ S k).
Proof.
  intros [B1 B2]. split.
  - intros H. split; [now apply H|]. destruct (le_lt_dec (10 ^ S k) a) as [L|L]; auto. apply H in L. lia.
  - intros [A1 A2] j. destruct (le_lt_dec j k) as [L|L].
    + assert (10 ^ j <= 10 ^ k) by (apply Nat.pow_le_mono_r; lia). lia.
    + assert (10 ^ S k <= 10 ^ j) by (apply Nat.pow_le_mono_r; lia). lia.
Qed.

(** The start of the last block of a log of [n] rows in blocks of [s]. *)
Definition last_start (s n : nat) : nat := s * ((n - 1) / s).

Lemma sorted_names s n : 1 <= s -> 1 <= n -> n <= s \/ same_digits (last_start s n) s ->
  Sorted (fun x y => String.leb x y = true) (map block_name (all_blocks s n)).
Proof.
  intros Hs Hn H. apply Sorted_nth. intros i x y X Y. rewrite nth_error_map in X, Y.
  destruct (nth_error (all_blocks s n) i) as [b|] eqn:B; [|discriminate]. destruct (nth_error (all_blocks s n) (S i)) as [c|] eqn:C; [|discriminate].
  injection X as <-. injection Y as <-. apply nth_blocks in B as [B1 B2], C as [C1 C2].
  assert (H1 : S i * s <= (n - 1) / s * s) by (apply Nat.mul_le_mono_r; lia). cbn [Nat.mul] in H1.
  destruct H as [H|H].
  - assert ((n - 1) / s = 0) by (apply Nat.div_small; lia). lia.
  - destruct (digits_count s Hs) as (k & K). apply (same_digits_range _ _ k K) in H. unfold last_start in H.
    unfold block_name, label. cbn [fst]. apply (name_le k); rewrite ?B1, ?C1; cbn [Nat.mul]; try lia.
    destruct i; [left; lia|right; cbn [Nat.mul]; lia].
Qed.

(** The first block start with more digits than the block size comes before the second block. *)
Lemma digit_before_underscore d r t : d < 10 ->
  String.compare (append (string_of [digit_char d]) r) (String "_" t) = Lt.
Proof.
  intros D. cbn [string_of fold_right append String.compare]. rewrite ascii_compare_nat, digit_char_nat by auto.
  change (nat_of_ascii "_") with 95. destruct (Nat.compare (48 + d) 95) eqn:C; auto.
  - apply Nat.compare_eq in C. lia.
  - apply Nat.compare_gt_iff in C. lia.
Qed.

Lemma crossing_name s c x y k : 10 ^ k <= s < 10 ^ S k -> 10 ^ S k <= c <= 10 * s ->
  String.compare (dataset_name c x) (dataset_name s y) = Lt.
Proof.
  intros K [C1 C2]. unfold dataset_name. rewrite compare_prefix.
  assert (D : dec c = append (dec (c / 10)) (string_of [digit_char (c mod 10)])).
  { unfold dec. rewrite (digits_step c). assert (10 <= c) by (pose proof (pow10_pos k); cbn [Nat.pow] in C1; lia).
    destruct (Nat.ltb_spec c 10); [lia|]. rewrite map_app, string_of_app. reflexivity. }
  rewrite D, append_assoc. pose proof (Nat.div_mod c 10 ltac:(lia)). pose proof (Nat.mod_upper_bound c 10 ltac:(lia)).
  assert (Q : c / 10 <= s) by (apply Nat.div_le_upper_bound; lia).
  assert (R : 10 ^ k <= c / 10) by (apply Nat.div_le_lower_bound; cbn [Nat.pow] in C1; lia).
  destruct (Nat.eq_dec (c / 10) s) as [->|N].
  - rewrite compare_prefix. change (append "_" (dec y)) with (String "_" (dec y)). now apply digit_before_underscore.
  - apply (dec_lt k); lia.
Qed.

Lemma compare_flip a b : String.compare a b = CompOpp (String.compare b a).
Proof. apply String.compare_antisym. Qed.
Lemma leb_total a b : String.leb a b = true \/ String.leb b a = true.
Proof. unfold String.leb. rewrite (compare_flip a b). destruct (String.compare b a); cbn; auto. Qed.

Lemma ascii_compare_trans_le a b c : Ascii.compare a b <> Gt -> Ascii.compare b c <> Gt -> Ascii.compare a c <> Gt.
Proof. rewrite !ascii_compare_nat, !Nat.compare_le_iff. lia. Qed.
Lemma leb_trans : forall a b c, String.leb a b = true -> String.leb b c = true -> String.leb a c = true.
Proof.
  unfold String.leb. induction a as [|x a IH]; intros [|y b] [|z c]; cbn [String.compare]; auto; try discriminate.
  rewrite !ascii_compare_nat.
  destruct (Nat.compare (nat_of_ascii x) (nat_of_ascii y)) eqn:C1; try discriminate; destruct (Nat.compare (nat_of_ascii y) (nat_of_ascii z)) eqn:C2; try discriminate; intros A B.
  - apply Nat.compare_eq in C1. rewrite C1, C2. eapply IH; eauto.
  - apply Nat.compare_eq in C1. now rewrite C1, C2.
  - apply Nat.compare_eq in C2. now rewrite <- C2, C1.
  - apply Nat.compare_lt_iff in C1, C2. assert (X : Nat.compare (nat_of_ascii x) (nat_of_ascii z) = Lt) by (apply Nat.compare_lt_iff; lia). now rewrite X.
Qed.

Section Sort.
Context {A : Type} (key : A -> string).
Let le (x y : A) : Prop := String.leb (key x) (key y) = true.

Lemma insert_sorted x l : StronglySorted le l -> StronglySorted le (insert_by key x l).
Proof.
  induction 1 as [|y l S IH H]; cbn [insert_by]; [constructor; auto; constructor|].
  destruct (String.leb (key x) (key y)) eqn:C.
  - constructor; [constructor; auto|]. constructor; auto. eapply Forall_impl; [|exact H]. intros z Z. eapply leb_trans; eauto.
  - constructor; auto. assert (L : le y x) by (destruct (leb_total (key x) (key y)); [congruence|auto]).
    apply Forall_forall. intros z Z. apply (Permutation_in _ (Permutation_sym (insert_by_perm key x l))) in Z as [<-|Z]; auto.
    rewrite Forall_forall in H. auto.
Qed.
Lemma sort_by_sorted l : StronglySorted le (sort_by key l).
Proof. induction l; [constructor|]. now apply insert_sorted. Qed.

(** If the first element goes to the front, and some element comes strictly before the second, then something else
    is second in sorted order. *)
Lemma sort_second x0 x1 c l : (forall y, In y (x1 :: l) -> String.compare (key x0) (key y) = Lt) -> In c l ->
  String.compare (key c) (key x1) = Lt ->
  exists y t, sort_by key (x0 :: x1 :: l) = x0 :: y :: t /\ In y l.
Proof.
  intros H0 I C. pose proof (sort_by_sorted (x1 :: l)) as S. pose proof (sort_by_perm key (x1 :: l)) as P.
  change (sort_by key (x0 :: x1 :: l)) with (insert_by key x0 (sort_by key (x1 :: l))).
  destruct (sort_by key (x1 :: l)) as [|y t] eqn:Q.
  - apply Permutation_sym, Permutation_nil in P. discriminate.
  - cbn [insert_by]. assert (Y : In y (x1 :: l)) by (eapply Permutation_in; [apply Permutation_sym; exact P|now left]).
    unfold String.leb at 1. rewrite (H0 _ Y). exists y, t. split; auto. destruct Y as [<-|Y]; auto. exfalso.
    inversion S as [|? ? _ F]; subst. rewrite Forall_forall in F.
    assert (IC : In c (x1 :: t)) by (eapply Permutation_in; [exact P|now right]).
    destruct IC as [<-|IC].
    + pose proof (compare_flip (key x1) (key x1)) as R. rewrite C in R. discriminate.
    + specialize (F _ IC). unfold le, String.leb in F. rewrite compare_flip, C in F. discriminate.
Qed.
End Sort.

Section Fill.
Context {F : Type} `{NF : Num F}.

Lemma firstn_in_app {A} a b (l : list A) i : i < a -> a <= List.length l -> nth_error (firstn a l ++ b) i = nth_error l i.
Proof.
  intros L H. rewrite nth_error_app1 by (rewrite firstn_length; lia).
  revert l i L H. induction a; intros [|x l] [|i] L H; cbn in *; auto; try lia. apply IHa; lia.
Qed.

Lemma assign_before a b r (out out' : list (list F)) nc i : assign_rows a b r out nc = Ok out' -> i < a -> i < List.length out ->
  nth_error out' i = nth_error out i.
Proof.
  intros H L1 L2. unfold assign_rows in H. peel H. peel H. inv H.
  destruct (le_lt_dec a (List.length out)) as [L|L]; [now apply firstn_in_app|].
  rewrite firstn_all2 by lia. now rewrite nth_error_app1.
Qed.
Lemma assign_length a b r (out out' : list (list F)) nc : assign_rows a b r out nc = Ok out' -> List.length out <= List.length out' .
Proof.
  intros H. unfold assign_rows in H. peel H. peel H. inv H.
  rewrite !app_length, firstn_length, skipn_length.
  assert (X : List.length a1 = Nat.min b (List.length out) - Nat.min a (List.length out)).
  { destruct (List.length a0 =? _) eqn:Q; [apply Nat.eqb_eq in Q; inv E0; auto|].
    destruct a0 as [|z [|]]; try discriminate. inv E0. apply repeat_length. }
  rewrite X. lia.
Qed.

Lemma fill_keeps nc : forall ds a b k (out out' : list (list F)) i, fill_sets a b nc (Some k) ds out = Ok out' ->
  i < a + k -> i < List.length out -> nth_error out' i = nth_error out i.
Proof.
  induction ds as [|r t IH]; intros a b k out out' i H L1 L2; cbn [fill_sets] in H; [inv H; auto|].
  peel H. rewrite (IH _ _ _ _ _ i H).
  - eapply assign_before; eauto.
  - lia.
  - apply assign_length in E. lia.
Qed.

(** The first row of the second set read lands at the row number given by the size of the first. *)
Lemma fill_second nc r0 x r1 ds (out0 out : list (list F)) : List.length x = nc ->
  Forall (fun y => List.length y = nc) r1 ->
  0 < List.length r0 < List.length out0 ->
  fill_sets 0 0 nc None (r0 :: (x :: r1) :: ds) out0 = Ok out -> nth_error out (List.length r0) = Some x.
Proof.
  intros W WR [L0 L1] H. cbn [fill_sets] in H. peel H. peel H. pose proof (assign_length _ _ _ _ _ _ E) as G0.
  pose proof (assign_length _ _ _ _ _ _ E0) as G1.
  rewrite (fill_keeps _ _ _ _ _ _ _ (List.length r0) H); [|cbn [List.length]; lia|lia].
  assert (FR : Forall (fun y => List.length y = nc) (x :: r1)) by (constructor; auto).
  clear H G1. remember (x :: r1) as rr eqn:RR. unfold assign_rows in E0. rewrite mapM_fit in E0 by auto. cbn [bind] in E0. peel E0.
  assert (X : nth_error a1 0 = Some x /\ 0 < List.length a1).
  { set (t := Nat.min _ _ - Nat.min _ _) in *. assert (T : 1 <= t) by (unfold t; lia). clearbody t.
    match goal with H : _ = Ok a1 |- _ => rename H into EA end. match type of EA with (if ?c then _ else _) = _ => destruct c end; [injection EA as <-; subst rr; cbn; split; [auto|lia]|].
    subst rr. destruct r1; [|discriminate]. injection EA as <-. destruct t; [lia|]. cbn. split; [auto|lia]. }
  inv E0. rewrite nth_error_app2; rewrite firstn_length_le by lia; [|lia].
  cbn [Nat.add]. rewrite Nat.sub_diag. rewrite nth_error_app1 by apply X. apply X.
Qed.
End Fill.

Section Runs.
Context {F : Type} `{NF : Num F}.
Variable E : env F.

Lemma crossing_block s n : 1 <= s -> s < n -> ~ same_digits (last_start s n) s ->
  exists k j, 10 ^ k <= s < 10 ^ S k /\ 10 ^ S k <= j * s <= 10 * s /\ 2 <= j <= (n - 1) / s.
Proof.
  intros Hs Hn H. destruct (digits_count s Hs) as (k & K). exists k. rewrite (same_digits_range _ _ k K) in H. unfold last_start in H.
  assert (1 <= (n - 1) / s) by (apply Nat.div_le_lower_bound; lia).
  assert (L : 10 ^ S k <= s * ((n - 1) / s)) by nia. clear H.
  destruct (le_lt_dec ((n - 1) / s) 10) as [M|M].
  - exists ((n - 1) / s). split; auto. split; [nia|]. split; auto. destruct ((n - 1) / s) as [|[|q]]; nia.
  - exists 10. cbn [Nat.pow] in *. split; auto. lia.
Qed.

(** Otherwise another block is read second, so that the rows come back in a wrong order or not at all. *)
Lemma h5_reads_wrong m m' : run_simulation E false m = Ok m' -> distinct_files m' -> o_save_to_bin (m_opts m') = true ->
  let s := Z.to_nat (o_savesize (m_opts m')) in let n := o_nsimu (m_opts m') in
  forall f M, In (f, M) (chain_files m') -> h5_sets (o_savedir (m_opts m'), f, "h5"%string) (m_fs m) = [] ->
  s < n -> ~ same_digits (last_start s n) s ->
  (forall j, 2 <= j -> j * s < n -> nth_error M (j * s) <> nth_error M s) ->
  read_in_bin_file (h5_sets (o_savedir (m_opts m'), f, "h5"%string) (m_fs m')) <> M.
Proof.
  intros H D B s n f M I Z0 SN ND DIFF. pose proof (chain_widths E _ _ H _ _ I) as [w W].
  assert (NDF : NoDup (map fst (log_arrays false m m') ++ [o_covchainfile (m_opts m')])).
  { unfold log_arrays, chain_files. unfold distinct_files in D. 
    destruct (m_s2chain m'); cbn [map fst app]; auto. inversion D as [|? ? D1 D2]; inversion D2 as [|? ? D3 D4]; inversion D4 as [|? ? D5 D6]; subst.
    constructor; [cbn in *; tauto|]. constructor; [cbn in *; tauto|]. auto. }
  pose proof (log_contents E _ _ _ H NDF) as L. cbv zeta in L. destruct L as (Hs & Hn & HL & new & evs & bs & L1 & _ & _ & T & _ & -> & L2 & _).
  fold s in Hs, L2, T. fold n in Hn, L2, T.
  destruct (L2 B) as [_ L3]. destruct (L3 _ _ I) as [L4 _]. rewrite L1. unfold h5_sets in *. rewrite map_app, concat_app, Z0. cbn [app]. rewrite L4.
  specialize (HL eq_refl). rewrite Forall_forall in HL. specialize (HL _ I). cbn in HL. fold n in HL.
  clear L2 L3 L4 L1 T Z0.
  destruct (crossing_block s n Hs SN ND) as (k & j & K & J1 & J2).
  set (q := (n - 1) / s) in *. assert (DM := Nat.div_mod (n - 1) s ltac:(lia)). fold q in DM. assert (MB := Nat.mod_upper_bound (n - 1) s ltac:(lia)).
  (* the blocks *)
  set (g := fun x : nat * nat => (label x, rows_of M x)).
  set (key := fun e : nat * nat * list (list F) => dataset_name (fst (fst e)) (snd (fst e))).
  assert (BL : exists b1 l, all_blocks s n = (0, s) :: b1 :: l /\ fst b1 = s /\
              forall b, In b l -> exists j, 2 <= j <= q /\ fst b = j * s /\ s * j < snd b /\ snd b <= n).
  { assert (X0 : nth_error (all_blocks s n) 0 = Some (0, s)).
    { unfold all_blocks. fold q. rewrite nth_error_app1 by (rewrite full_length; lia). unfold full. rewrite nth_error_map.
      destruct q; [lia|]. cbn. do 2 f_equal. lia. }
    assert (LL : List.length (all_blocks s n) = S q) by (unfold all_blocks; fold q; rewrite app_length, full_length; cbn; lia).
    destruct (all_blocks s n) as [|b0 [|b1 l]] eqn:AB; cbn in LL; try lia. cbn in X0. injection X0 as ->.
    exists b1, l. split; auto. split. { assert (X1 : nth_error (all_blocks s n) 1 = Some b1) by (now rewrite AB). apply nth_blocks in X1 as [X1 _]. lia. }
    intros b Ib. apply In_nth_error in Ib as [i Ib]. assert (X1 : nth_error (all_blocks s n) (S (S i)) = Some b) by (now rewrite AB).
    pose proof (nth_blocks _ _ _ _ X1) as [Y1 Y2]. exists (S (S i)). fold q in Y2. split; [lia|]. split; auto.
    unfold all_blocks in X1. fold q in X1. destruct (le_lt_dec q (S (S i))) as [L|L].
    - rewrite nth_error_app2, full_length in X1 by (rewrite full_length; auto). destruct (S (S i) - q) as [|z] eqn:Z; cbn in X1; [|destruct z; discriminate].
      injection X1 as <-. cbn [fst snd] in *. assert (S (S i) = q) by lia. nia.
    - rewrite nth_error_app1 in X1 by (rewrite full_length; auto). unfold full in X1. rewrite nth_error_map in X1.
      destruct (nth_error (seq 0 q) (S (S i))) eqn:E1; [|discriminate]. injection X1 as <-. cbn [fst snd] in *. nia. }
  destruct BL as (b1 & l & AB & B1 & BL). 
  assert (CB : exists c, In c l /\ fst c = j * s).
  { assert (LL : List.length (all_blocks s n) = S q) by (unfold all_blocks; fold q; rewrite app_length, full_length; cbn; lia).
    destruct (nth_error (all_blocks s n) j) as [c|] eqn:Q; [|apply nth_error_None in Q; lia].
    exists c. pose proof (nth_blocks _ _ _ _ Q) as [Y1 _]. split; auto. rewrite AB in Q. destruct j as [|[|j]]; try lia. cbn in Q. eapply nth_error_In; eauto. }
  destruct CB as (c & CI & C1).
  destruct (sort_second key (g (0, s)) (g b1) (g c) (map g l)) as (y & t & SY & YI).
  { intros y [<-|Y].
    - unfold key, g, label. cbn [fst snd]. rewrite B1. unfold dataset_name. rewrite compare_prefix. apply dec_0_lt. auto.
    - apply in_map_iff in Y as (b & <- & Ib). destruct (BL _ Ib) as (j' & J' & Z1 & _).
      unfold key, g, label. cbn [fst snd]. rewrite Z1. unfold dataset_name. rewrite compare_prefix. apply dec_0_lt. nia. }
  { now apply in_map. }
  { unfold key, g, label. cbn [fst snd]. rewrite B1, C1. apply (crossing_name s (j * s) _ _ k); auto. }
  unfold read_in_bin_file. rewrite AB. cbn [map]. fold (g (0, s)). fold (g b1). fold key.
  assert (SY' : sort_by key (g (0, s) :: g b1 :: map g l) = g (0, s) :: y :: t) by exact SY.
  change (map (fun x : nat * nat => (label x, rows_of M x)) l) with (map g l). rewrite SY'. cbn [map snd].
  apply in_map_iff in YI as (b & <- & Ib). destruct (BL _ Ib) as (jb & J3 & Fb & Sb & Nb). unfold g at 1 2 3 4 5 6. cbn [snd].
  assert (R0 : List.length (rows_of M (0, s)) = s) by (rewrite rows_length; lia).
  destruct b as [b0 b2]. cbn [fst snd] in *.
  assert (RB : exists x r1, rows_of M (b0, b2) = x :: r1 /\ nth_error M b0 = Some x).
  { unfold rows_of. cbn [fst snd]. destruct (skipn b0 M) as [|x r1] eqn:SK.
    - apply (f_equal (@List.length _)) in SK. rewrite skipn_length in SK. cbn in SK. nia.
    - destruct (b2 - b0) as [|z] eqn:Z; [nia|]. exists x, (firstn z r1). split.
      + reflexivity.
      + rewrite <- (firstn_skipn b0 M), SK, nth_error_app2 by (rewrite firstn_length; lia). rewrite firstn_length.
        replace (b0 - Nat.min b0 (List.length M)) with 0 by nia. reflexivity. }
  destruct RB as (x & r1 & RB & NB). rewrite RB.
  set (ds := rows_of M (0, s) :: (x :: r1) :: map snd t).
  assert (NC : ncols (rows_of M (0, s)) = w).
  { unfold rows_of. cbn [fst snd]. rewrite skipn_O. unfold wide in W. destruct M as [|z M']; [cbn in HL; lia|]. destruct s as [|s']; [lia|]. inversion W; subst. replace (S s' - 0) with (S s') by lia. reflexivity. }
  rewrite NC.
  destruct (fill_sets 0 0 w None ds _) as [out|] eqn:FS.
  - intros EQ. subst out.
    assert (WW : forall z, In z M -> List.length z = w) by (apply Forall_forall; exact W).
    assert (NX : nth_error M (List.length (rows_of M (0, s))) = Some x).
    { eapply fill_second; [| | |exact FS].
      - apply WW. eapply nth_error_In; eauto.
      - apply Forall_forall. intros z Z. apply WW. assert (In z (rows_of M (b0, b2))) by (rewrite RB; now right).
        unfold rows_of in H0. cbn [fst snd] in H0. rewrite <- (firstn_skipn b0 M). apply in_or_app. right.
        rewrite <- (firstn_skipn (b2 - b0) (skipn b0 M)). apply in_or_app. now left.
      - unfold ds. rewrite R0, repeat_length. cbn [fold_right]. rewrite R0. cbn [List.length]. lia. }
    rewrite R0 in NX. apply (DIFF jb); try lia; try nia. rewrite <- Fb. congruence.
  - intros EQ. rewrite <- EQ in HL. cbn in HL. lia.
Qed.
End Runs.
