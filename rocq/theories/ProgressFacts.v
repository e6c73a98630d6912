(** The progress bar of a run. *)

From Coq Require Import ZArith QArith Bool Lia List String Ascii Arith Sorted Lqa.
From Verif Require Import Base Num Names Display DisplayFacts.
Import ListNotations.
Close Scope Q_scope.
Open Scope list_scope.
Open Scope nat_scope.
Open Scope res_scope.

(** ** Text between the brackets *)

Lemma replace_length (d new : list ascii) s : s + List.length new <= List.length d ->
  List.length (replace_at d new s (s + List.length new)) = List.length d.
Proof. intros H. unfold replace_at. rewrite !app_length, firstn_length, skipn_length. lia. Qed.

Lemma digits_few n : n < 1000 -> List.length (digits n) <= 3.
Proof.
  intros H. destruct (Nat.lt_ge_cases n 10).
  - rewrite digits_step. apply Nat.ltb_lt in H0. rewrite H0. cbn. lia.
  - destruct (Nat.lt_ge_cases n 100).
    + rewrite (digits_length n 1); cbn; lia.
    + rewrite (digits_length n 2); cbn; lia.
Qed.

Lemma bar_text_length i n : 1 <= n -> i <= S n -> List.length (bar_text i n) = Nat.max 38 (i * 38 / n).
Proof.
  intros Hn Hi. assert (HP : 100 * i / n < 1000). { apply Nat.div_lt_upper_bound; lia. }
  unfold bar_text. set (bar := repeat _ _ ++ repeat _ _).
  assert (HB : List.length bar = Nat.max 38 (i * 38 / n)).
  { unfold bar. rewrite app_length, !repeat_length. change (40 - 2) with 38. lia. }
  set (info := map digit_char _ ++ _). assert (HI : List.length info <= 4).
  { unfold info. rewrite app_length, map_length. cbn [List.length]. pose proof (digits_few _ HP). lia. }
  rewrite replace_length; [exact HB|]. rewrite HB.
  assert ((Nat.max 38 (i * 38 / n) - List.length info) / 2 <= Nat.max 38 (i * 38 / n) - List.length info); [|lia].
  apply Nat.div_le_upper_bound; lia.
Qed.

Lemma bar_text_38 i n : 1 <= n -> i <= n \/ (i <= S n /\ 38 < n) -> List.length (bar_text i n) = 38.
Proof.
  intros Hn Hi. rewrite bar_text_length by lia. apply Nat.max_l.
  assert (i * 38 / n < 39); [|lia]. apply Nat.div_lt_upper_bound; lia.
Qed.

(** ** Over a run of [n] simulations *)

Record bar_inv (clock : nat -> Q) (n j : nat) (b : progress) : Prop := {
  bi_total : b_iterations b = n;
  bi_reads : b_reads b = j;
  bi_shown : forall d, In d (b_shown b) -> d_total d = n /\ d_text d = bar_text (d_number d) n /\
     exists k, k < j /\ d_seconds d = clock k /\ (d_number d = k + 2 \/ (k = n - 1 /\ d_number d = n));
  bi_sorted : StronglySorted le (map d_number (b_shown b));
  bi_last : j < n -> b_shown b = [] /\ b_last b = 0%Q \/ exists l d, b_shown b = l ++ [d] /\ b_last b = d_seconds d;
  bi_apart : forall l x y r, b_shown b = l ++ x :: y :: r ->
     (1#2 < d_seconds y - d_seconds x)%Q \/ (j = n /\ r = [] /\ d_number y = n /\ d_seconds y = clock (n - 1));
  bi_end : j = n -> exists l d, b_shown b = l ++ [d] /\ d_seconds d = clock (n - 1) /\ n <= d_number d
}.

Lemma sorted_snoc l x : StronglySorted le l -> (forall y, In y l -> y <= x) -> StronglySorted le (l ++ [x]).
Proof.
  induction 1 as [|a l S IH H]; intros Hx; cbn; [repeat constructor|]. constructor.
  - apply IH. intros y Hy. apply Hx. now right.
  - rewrite Forall_app. split; [auto|]. constructor; [apply Hx; now left|constructor].
Qed.

Lemma snoc_split {A} (s l r : list A) a x y : s ++ [a] = l ++ x :: y :: r ->
  (exists r', r = r' ++ [a] /\ s = l ++ x :: y :: r') \/ (r = [] /\ y = a /\ s = l ++ [x]).
Proof.
  intros H. destruct r as [|z r0] using rev_ind.
  - right. replace (l ++ [x; y]) with ((l ++ [x]) ++ [y]) in H by (rewrite <- app_assoc; reflexivity).
    apply app_inj_tail in H as (-> & ->). auto.
  - left. clear IHr0. replace (l ++ x :: y :: r0 ++ [z]) with ((l ++ x :: y :: r0) ++ [z]) in H by (rewrite <- app_assoc; reflexivity).
    apply app_inj_tail in H as (-> & ->). eauto.
Qed.

Lemma bar_inv_step clock n j b b' : j < n -> bar_inv clock n j b -> update_bar clock j b = Ok b' -> bar_inv clock n (S j) b'.
Proof.
  intros Hj I H. destruct I as [I1 I2 I3 I4 I5 I6 I7]. unfold update_bar, animate in H. rewrite I1, I2 in H.
  destruct (Nat.eqb_spec n 0); [lia|]. cbn [bind] in H.
  assert (LE : forall d, In d (b_shown b) -> d_number d <= j + 1).
  { intros d Hd. destruct (I3 d Hd) as (_ & _ & k & K1 & _ & [K3|[K3 K4]]); lia. }
  assert (OLD : forall d, In d (b_shown b) -> d_total d = n /\ d_text d = bar_text (d_number d) n /\
     exists k, k < S j /\ d_seconds d = clock k /\ (d_number d = k + 2 \/ (k = n - 1 /\ d_number d = n))).
  { intros d Hd. destruct (I3 d Hd) as (A1 & A2 & k & K1 & K2 & K3). split; [auto|]. split; [auto|]. exists k. split; [lia|auto]. }
  destruct (negb (Qle_bool (clock j - b_last b) (1 # 2))) eqn:EQ.
  - apply Ok_inj' in H; subst b'. set (d := mkdisplay (bar_text (j + 1 + 1) n) (j + 1 + 1) n (clock j)).
    apply negb_true_iff in EQ. assert (GT : (1#2 < clock j - b_last b)%Q).
    { apply Qnot_le_lt. intros C. apply Qle_bool_iff in C. congruence. }
    split; cbn [b_iterations b_reads b_shown b_last].
    + reflexivity.
    + reflexivity.
    + intros d0 Hd. apply in_app_or in Hd as [Hd|[<-|[]]]; [auto|]. cbn [d d_total d_text d_number d_seconds].
      split; [auto|]. split; [auto|]. exists j. split; [lia|]. split; [auto|]. left. lia.
    + rewrite map_app. cbn [map]. apply sorted_snoc; auto. intros y Hy. apply in_map_iff in Hy as (d0 & <- & Hd). specialize (LE _ Hd).
      cbn [d d_number]. lia.
    + intros _. right. exists (b_shown b), d. auto.
    + intros l x y r HS. apply snoc_split in HS as [(r' & -> & HS)|(-> & -> & HS)].
      * destruct (I6 _ _ _ _ HS) as [?|(? & _)]; [auto|lia].
      * left. cbn [d d_seconds]. destruct (I5 Hj) as [(N & _)|(l0 & d0 & HL & HB)].
        { rewrite N in HS. destruct l; discriminate. }
        rewrite HL in HS. apply app_inj_tail in HS as (_ & ->). rewrite <- HB. exact GT.
    + intros Hn. exists (b_shown b), d. split; [auto|]. cbn [d d_seconds d_number]. split; [f_equal; lia|lia].
  - destruct (Nat.eqb_spec (j + 1) n) as [e|e].
    + apply Ok_inj' in H; subst b'. set (d := mkdisplay (bar_text (j + 1) n) (j + 1) n (clock j)).
      split; cbn [b_iterations b_reads b_shown b_last].
      * reflexivity.
      * reflexivity.
      * intros d0 Hd. apply in_app_or in Hd as [Hd|[<-|[]]]; [auto|]. cbn [d d_total d_text d_number d_seconds].
        split; [auto|]. split; [auto|]. exists j. split; [lia|]. split; [auto|]. right. lia.
      * rewrite map_app. cbn [map]. apply sorted_snoc; auto. intros y Hy. apply in_map_iff in Hy as (d0 & <- & Hd). specialize (LE _ Hd).
        cbn [d d_number]. lia.
      * lia.
      * intros l x y r HS. apply snoc_split in HS as [(r' & -> & HS)|(-> & -> & HS)].
        { destruct (I6 _ _ _ _ HS) as [?|(? & _)]; [auto|lia]. }
        right. cbn [d d_number d_seconds]. split; [lia|]. split; [auto|]. split; [lia|f_equal; lia].
      * intros _. exists (b_shown b), d. split; [auto|]. cbn [d d_seconds d_number]. split; [f_equal; lia|lia].
    + apply Ok_inj' in H; subst b'. split; cbn [b_iterations b_reads b_shown b_last]; auto.
      * intros l x y r HS. destruct (I6 _ _ _ _ HS) as [?|(? & _)]; [auto|lia].
      * lia.
Qed.

Lemma updates_inv clock n : forall m j b b', j + m = n -> bar_inv clock n j b -> updates clock (seq j m) b = Ok b' -> bar_inv clock n n b'.
Proof.
  induction m as [|m IH]; intros j b b' Hm I H; cbn [seq updates] in H.
  - apply Ok_inj' in H; subst b'. assert (j = n) as -> by lia. exact I.
  - destruct (update_bar clock j b) as [b1|] eqn:E1; cbn [bind] in H; [|discriminate].
    apply (IH (S j) b1 b'); auto; [lia|]. eapply bar_inv_step; eauto. lia.
Qed.

Lemma run_bar clock n b : 1 <= n -> (let* b := progress_bar clock n in updates clock (seq 1 (n - 1)) b) = Ok b -> bar_inv clock n n b.
Proof.
  intros Hn H. apply (updates_inv clock n n 0 (mkprogress n 0 0 [])); auto.
  - split; cbn [b_iterations b_reads b_shown b_last]; auto.
    + intros d [].
    + constructor.
    + intros l x y r HS. destruct l; discriminate.
    + lia.
  - destruct n as [|n]; [lia|]. cbn [seq updates]. cbn [Nat.sub] in H. rewrite Nat.sub_0_r in H. exact H.
Qed.

(** The displays of the bar of a run, in terms of the clock alone. *)
Theorem bar_of_run clock n b : 1 <= n -> (let* b := progress_bar clock n in updates clock (seq 1 (n - 1)) b) = Ok b ->
  (forall d, In d (b_shown b) -> d_total d = n /\ 1 <= d_number d <= S n /\
     (d_number d <= n \/ 38 < n -> List.length (d_text d) = 38) /\
     exists k, k < n /\ d_seconds d = clock k /\ (d_number d = k + 2 \/ (k = n - 1 /\ d_number d = n))) /\
  StronglySorted le (map d_number (b_shown b)) /\
  (forall l x y r, b_shown b = l ++ x :: y :: r ->
     (1#2 < d_seconds y - d_seconds x)%Q \/ (r = [] /\ d_number y = n /\ d_seconds y = clock (n - 1))) /\
  exists l d, b_shown b = l ++ [d] /\ d_seconds d = clock (n - 1) /\ n <= d_number d.
Proof.
  intros Hn H. apply run_bar in H as I; auto. destruct I as [I1 I2 I3 I4 I5 I6 I7]. split; [|split; [auto|split]].
  - intros d Hd. destruct (I3 d Hd) as (A1 & A2 & k & K1 & K2 & K3). assert (B : 1 <= d_number d <= S n) by lia.
    split; [auto|]. split; [auto|]. split.
    + intros C. rewrite A2. apply bar_text_38; lia.
    + exists k. auto.
  - intros l x y r HS. destruct (I6 _ _ _ _ HS) as [?|(_ & ? & ? & ?)]; auto.
  - auto.
Qed.

(** A clock on which the bar claims more than there is: readings one second apart. *)
Lemma bar_excess n : 1 <= n -> exists b d, (let* b := progress_bar (fun k => inject_Z (Z.of_nat (S k))) n in
   updates (fun k => inject_Z (Z.of_nat (S k))) (seq 1 (n - 1)) b) = Ok b /\ In d (b_shown b) /\ d_number d = S n /\ d_total d = n.
Proof.
  intros Hn. set (clock := fun k => inject_Z (Z.of_nat (S k))).
  assert (P : forall m j b, j + m = n -> b_iterations b = n -> b_reads b = j -> b_last b = inject_Z (Z.of_nat j) ->
    (m = 0 -> exists d, In d (b_shown b) /\ d_number d = S n /\ d_total d = n) ->
    exists b' d, updates clock (seq j m) b = Ok b' /\ In d (b_shown b') /\ d_number d = S n /\ d_total d = n).
  { induction m as [|m IH]; intros j b Hm HI HR HL HE.
    - destruct (HE eq_refl) as (d & Hd). exists b, d. cbn. auto.
    - cbn [seq updates]. unfold update_bar, animate. rewrite HI, HR, HL. destruct (Nat.eqb_spec n 0); [lia|]. cbn [bind].
      assert (T : negb (Qle_bool (clock j - inject_Z (Z.of_nat j)) (1 # 2)) = true).
      { apply negb_true_iff. apply not_true_iff_false. intros C. apply Qle_bool_iff in C. unfold clock in C.
        rewrite Nat2Z.inj_succ in C. unfold Z.succ in C. rewrite inject_Z_plus in C. change (inject_Z 1) with 1%Q in C. lra. }
      rewrite T. cbn [bind]. apply IH; cbn [b_iterations b_reads b_last b_shown]; auto; [lia|].
      intros ->. eexists. split; [apply in_or_app; right; left; reflexivity|]. cbn [d_number d_total]. lia. }
  destruct (P n 0 (mkprogress n 0 0 [])) as (b & d & H1 & H2); auto; [lia|]. exists b, d. split; [|exact H2].
  destruct n as [|n]; [lia|]. cbn [seq updates] in H1. cbn [Nat.sub]. rewrite Nat.sub_0_r. exact H1.
Qed.
