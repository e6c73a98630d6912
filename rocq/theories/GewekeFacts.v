(** Facts about Geweke's diagnostic (ChainStats.v). *)

From Coq Require Import ZArith QArith Qround Bool Lia List Reals Lra Arith Qreals.
From Verif Require Import Base Num ChainFiles ChainStats RVec StatsSpec StatsFacts BatchFacts.
Import ListNotations.
Close Scope Q_scope.
Open Scope list_scope.
Open Scope nat_scope.

Lemma portion_le a n : (a <= 1)%Q -> portion a n <= n.
Proof.
  intros A. unfold portion.
  assert (H : (Qfloor (a * inject_Z (Z.of_nat n)) <= Z.of_nat n)%Z).
  { rewrite <- (Qfloor_Z (Z.of_nat n)) at 2. apply Qfloor_resp_le.
    rewrite <- (Qmult_1_l (inject_Z (Z.of_nat n))) at 2. apply Qmult_le_compat_r; auto.
    change 0%Q with (inject_Z 0). rewrite <- Zle_Qle. lia. }
  lia.
Qed.

(** the number of rows named by a fraction: the integer part of [a*n] *)
Lemma portion_spec a n k : (0 <= a)%Q ->
  portion a n = k <-> (inject_Z (Z.of_nat k) <= a * inject_Z (Z.of_nat n) /\ a * inject_Z (Z.of_nat n) < inject_Z (Z.of_nat k + 1))%Q.
Proof.
  intros A. unfold portion. set (x := (a * inject_Z (Z.of_nat n))%Q).
  assert (P : (0 <= x)%Q).
  { unfold x. apply Qmult_le_0_compat; auto. change 0%Q with (inject_Z 0). rewrite <- Zle_Qle. lia. }
  assert (P' : (0 <= Qfloor x)%Z) by (rewrite <- (Qfloor_Z 0); apply Qfloor_resp_le, P).
  split.
  - intros <-. rewrite Z2Nat.id by auto. split; [apply Qfloor_le|apply Qlt_floor].
  - intros [L U]. assert (Z.of_nat k <= Qfloor x)%Z by (rewrite <- (Qfloor_Z (Z.of_nat k)); apply Qfloor_resp_le, L).
    assert (Qfloor x < Z.of_nat k + 1)%Z.
    { rewrite Zlt_Qlt. eapply Qle_lt_trans; [apply Qfloor_le|exact U]. }
    lia.
Qed.

Section Generic.
Context {F : Type} `{NF : Num F}.
Variable hanning : nat -> list F.
Variable cdf : F -> F.

Lemma psd0_ok x : 4 <= List.length x -> exists v, psd0 hanning x = Ok v.
Proof.
  intros L. unfold psd0. assert (1 <= List.length x / 4) by (apply Nat.div_le_lower_bound; lia).
  assert (List.length x / 4 / 2 < List.length x / 4) by (apply Nat.div_lt; lia).
  replace (_ - _ =? 0) with false by (symmetry; apply Nat.eqb_neq; lia). eauto.
Qed.

Lemma psd0_err x : List.length x < 4 -> psd0 hanning x = Err ZeroDivision.
Proof. intros L. unfold psd0. rewrite (Nat.div_small _ 4) by auto. reflexivity. Qed.

Lemma mapM_total {A B} (f : A -> res B) l : (forall a, In a l -> exists b, f a = Ok b) -> exists r, mapM f l = Ok r /\ List.length r = List.length l.
Proof.
  induction l as [|a l IH]; intros H; cbn [mapM].
  - exists []. auto.
  - destruct (H a ltac:(now left)) as [b ->]. destruct IH as (r & -> & L); [intros; apply H; now right|].
    exists (b :: r). cbn. auto.
Qed.

Lemma spectral_ok npar x : 4 <= List.length x ->
  exists r, spectral_estimate_for_variance hanning npar x = Ok r /\ List.length r = npar.
Proof.
  intros L. unfold spectral_estimate_for_variance. destruct (mapM_total (fun j => psd0 hanning (col j x)) (range npar)) as (r & -> & E).
  - intros j _. apply psd0_ok. unfold col. now rewrite map_length.
  - exists r. split; auto. rewrite E. unfold range. apply seq_length.
Qed.

Lemma spectral_err npar x : 0 < npar -> List.length x < 4 -> spectral_estimate_for_variance hanning npar x = Err ZeroDivision.
Proof.
  intros P L. unfold spectral_estimate_for_variance, range. destruct npar; [lia|]. cbn [seq mapM].
  rewrite psd0_err; auto. unfold col. now rewrite map_length.
Qed.

Lemma spectral_cases npar x : (exists r, spectral_estimate_for_variance hanning npar x = Ok r) \/
  spectral_estimate_for_variance hanning npar x = Err ZeroDivision.
Proof.
  destruct (Nat.lt_ge_cases (List.length x) 4) as [H|H].
  - destruct npar; [left; eexists; reflexivity|]. right. apply spectral_err; auto; lia.
  - left. destruct (spectral_ok npar x H) as (r & E & _). eauto.
Qed.

(** The settings refused are those for which the first segment is not shorter than the second. *)
Theorem geweke_exit npar chain a b : (0 <= a)%Q -> (0 <= b)%Q -> (b <= 1)%Q ->
  geweke hanning cdf npar chain a b = Err SysExit <-> portion b (List.length chain) <= portion a (List.length chain).
Proof.
  intros A B B1. unfold geweke. set (n := List.length chain). assert (L := portion_le b n B1).
  destruct (n <=? portion a n + (n - portion b n)) eqn:E.
  - apply Nat.leb_le in E. split; auto. intros _. lia.
  - apply Nat.leb_gt in E. split; [|lia]. intros H. exfalso. revert H. cbv zeta.
    destruct (spectral_cases npar (slice 0 (portion a n) chain)) as [[r ->]| ->]; [|discriminate]. cbn [bind].
    destruct (spectral_cases npar (slice (n - portion b n) (n + 1) chain)) as [[r' ->]| ->]; discriminate.
Qed.

(** The settings accepted: first segment shorter than the second, and at least 4 rows. *)
Theorem geweke_accept npar chain a b : (0 <= a)%Q -> (0 <= b)%Q -> (b <= 1)%Q -> 0 < npar ->
  (exists r, geweke hanning cdf npar chain a b = Ok r) <->
  4 <= portion a (List.length chain) < portion b (List.length chain).
Proof.
  intros A B B1 P. unfold geweke. set (n := List.length chain). assert (L := portion_le b n B1).
  destruct (n <=? portion a n + (n - portion b n)) eqn:E.
  - apply Nat.leb_le in E. split; [intros [r H]; discriminate|lia].
  - apply Nat.leb_gt in E. cbv zeta.
    assert (L1 : List.length (slice 0 (portion a n) chain) = portion a n).
    { unfold slice. rewrite firstn_length, skipn_length. fold n. lia. }
    assert (L2 : List.length (slice (n - portion b n) (n + 1) chain) = portion b n).
    { unfold slice. rewrite firstn_length, skipn_length. fold n. lia. }
    split.
    + intros [r H]. destruct (Nat.lt_ge_cases (portion a n) 4) as [S|S]; [|lia].
      rewrite spectral_err in H by (auto; lia). discriminate.
    + intros H. destruct (spectral_ok npar (slice 0 (portion a n) chain)) as (r & -> & _); [lia|]. cbn [bind].
      destruct (spectral_ok npar (slice (n - portion b n) (n + 1) chain)) as (r' & -> & _); [lia|]. cbn [bind]. eauto.
Qed.

Lemma slice_segments (first mid last : list (list F)) :
  let chain := first ++ mid ++ last in let n := List.length chain in
  slice 0 (List.length first) chain = first /\
  slice (n - List.length last) (n + 1) chain = last.
Proof.
  intros chain n. unfold n, chain, slice. rewrite !app_length. split.
  - cbn [skipn]. rewrite Nat.sub_0_r, firstn_app, Nat.sub_diag, firstn_all. cbn. now rewrite app_nil_r.
  - replace (_ + (_ + _) - _) with (List.length first + List.length mid) by lia.
    rewrite app_assoc, skipn_app, app_length, (skipn_all2 (first ++ mid)) by (rewrite app_length; lia).
    rewrite Nat.sub_diag. cbn [skipn app]. apply firstn_all2. lia.
Qed.

(** With segments of the named lengths at the two ends of the chain, rows in between have no influence. *)
Theorem geweke_ends npar first mid mid' last a b : (0 <= a)%Q -> (0 <= b)%Q -> (b <= 1)%Q ->
  List.length mid' = List.length mid ->
  portion a (List.length (first ++ mid ++ last)) = List.length first ->
  portion b (List.length (first ++ mid ++ last)) = List.length last ->
  geweke hanning cdf npar (first ++ mid' ++ last) a b = geweke hanning cdf npar (first ++ mid ++ last) a b.
Proof.
  intros A B B1 E Pa Pb. unfold geweke.
  assert (En : List.length (first ++ mid' ++ last) = List.length (first ++ mid ++ last)) by (rewrite !app_length; lia).
  destruct (slice_segments first mid last) as [S1 S2]. destruct (slice_segments first mid' last) as [S1' S2'].
  cbv zeta in *. rewrite En in *. rewrite Pa, Pb in *. rewrite S1, S2, S1', S2'. reflexivity.
Qed.

End Generic.

(** ** The default settings (a = 0.1, b = 0.5) *)

Lemma portion_tenth n : portion (1 # 10) n = n / 10.
Proof.
  unfold portion, Qfloor, Qmult, inject_Z. cbn [Qnum Qden]. rewrite Z.mul_1_l, Pos.mul_1_r.
  change (Z.pos 10) with (Z.of_nat 10). rewrite <- (Nat2Z.inj_div n 10). apply Nat2Z.id.
Qed.
Lemma portion_half n : portion (1 # 2) n = n / 2.
Proof.
  unfold portion, Qfloor, Qmult, inject_Z. cbn [Qnum Qden]. rewrite Z.mul_1_l, Pos.mul_1_r.
  change (Z.pos 2) with (Z.of_nat 2). rewrite <- (Nat2Z.inj_div n 2). apply Nat2Z.id.
Qed.

(** With the default fractions the segments never overlap, and the diagnostic is given exactly from 40 rows on. *)
Theorem geweke_default {F} {NF : Num F} hanning cdf npar (chain : list (list F)) : 0 < npar ->
  portion (1 # 10) (List.length chain) + portion (1 # 2) (List.length chain) <= List.length chain /\
  ((exists r, geweke hanning cdf npar chain (1 # 10) (1 # 2) = Ok r) <-> 40 <= List.length chain).
Proof.
  intros P. rewrite geweke_accept by (auto; discriminate). rewrite portion_tenth, portion_half.
  set (n := List.length chain).
  assert (D1 := Nat.div_mod n 10 ltac:(lia)). assert (M1 := Nat.mod_upper_bound n 10 ltac:(lia)).
  assert (D2 := Nat.div_mod n 2 ltac:(lia)). assert (M2 := Nat.mod_upper_bound n 2 ltac:(lia)). lia.
Qed.
