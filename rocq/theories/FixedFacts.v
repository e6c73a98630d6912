(** Parameters that are not sampled: selections, the proposal covariance, and the iterations of a run without them. *)

From Coq Require Import ZArith QArith Bool Lia List String.
From Verif Require Import Base Num Samplers Adapt Settings Simulator SamplerFacts RunSpec RunFacts RunLift CompleteSpec CompleteRun RestartFacts SettingsFacts
  ScaleSpec ScaleFacts FixedSpec.
Import ListNotations.
Close Scope Q_scope.
Open Scope list_scope.
Open Scope nat_scope.
Open Scope res_scope.

Section Selections.
Context {F : Type} `{NF : Num F}.
Implicit Types ps qs : list (param F).
Notation pos ps := (flatnonzero (map (@a_sample F) ps)).

Lemma kept_at_from {A} (d : A) : forall (ps : list (param F)) (l pre : list A), List.length l = List.length ps ->
  map (fun i => nth i (pre ++ l) d) (flatnonzero_from (List.length pre) (map (@a_sample F) ps)) = kept ps l.
Proof.
  induction ps as [|p ps IH]; intros [|x l] pre L; cbn [List.length] in L; try discriminate; [reflexivity|]. injection L as L.
  cbn [map flatnonzero_from kept]. specialize (IH l (pre ++ [x]) L). rewrite app_length in IH. cbn in IH. rewrite Nat.add_1_r, <- app_assoc in IH. cbn in IH.
  destruct (a_sample p); [|exact IH]. cbn [map]. rewrite IH. f_equal. now rewrite app_nth2, Nat.sub_diag by lia.
Qed.
Lemma kept_at {A} (d : A) (ps : list (param F)) l : List.length l = List.length ps -> map (fun i => nth i l d) (pos ps) = kept ps l.
Proof. intros L. apply (kept_at_from d ps l [] L). Qed.
Lemma kept_map {A} (f : param F -> A) : forall ps, kept ps (map f ps) = map f (sampled_params ps).
Proof. unfold sampled_params. induction ps as [|p ps IH]; [reflexivity|]. cbn [map kept filter]. destruct (a_sample p); cbn [map]; now rewrite IH. Qed.
Lemma kept_length {A} : forall (ps : list (param F)) (l : list A), List.length l = List.length ps -> List.length (kept ps l) = List.length (sampled_params ps).
Proof.
  unfold sampled_params. induction ps as [|p ps IH]; intros [|x l] L; cbn [List.length] in L; try discriminate; [reflexivity|]. injection L as L.
  cbn [kept filter]. destruct (a_sample p); cbn [List.length]; now rewrite IH.
Qed.
Lemma kept_in {A} : forall (ps : list (param F)) (l : list A) x, In x (kept ps l) -> In x l.
Proof. induction ps as [|p ps IH]; intros [|y l] x; cbn [kept]; try contradiction. destruct (a_sample p); cbn [In]; intros H; [destruct H as [H|H]|]; auto. Qed.
Lemma kept_fill : forall (ps : list (param F)) t, List.length t = List.length (sampled_params ps) -> kept ps (fill ps t) = t.
Proof.
  unfold sampled_params. induction ps as [|p ps IH]; intros t L; cbn [filter] in L; [destruct t; [reflexivity|discriminate]|]. cbn [fill].
  destruct (a_sample p) eqn:S; [|cbn [kept]; rewrite S; now apply IH]. destruct t as [|x t]; [discriminate|]. injection L as L. cbn [kept]. rewrite S. f_equal. now apply IH.
Qed.
Lemma fill_length : forall (ps : list (param F)) t, List.length (fill ps t) = List.length ps.
Proof. induction ps as [|p ps IH]; intros t; [reflexivity|]. cbn [fill]. destruct (a_sample p); [destruct t|]; cbn [List.length]; now rewrite IH. Qed.
Lemma pos_bound (ps : list (param F)) i : In i (pos ps) -> i < List.length ps.
Proof. intros H. apply flatnonzero_spec in H. rewrite <- (map_length (@a_sample F) ps). apply nth_error_Some. congruence. Qed.
Lemma sampled_all (ps : list (param F)) : map (@a_sample F) (sampled_params ps) = repeat true (List.length (sampled_params ps)).
Proof. unfold sampled_params. induction ps as [|p ps IH]; [reflexivity|]. cbn [filter]. destruct (a_sample p) eqn:S; [|exact IH]. cbn [map List.length repeat]. now rewrite S, IH. Qed.
Lemma all_true n : forall k, flatnonzero_from k (repeat true n) = seq k n.
Proof. induction n as [|n IH]; intros k; [reflexivity|]. cbn [repeat flatnonzero_from seq]. now rewrite IH. Qed.
Lemma pos_sampled (ps : list (param F)) : pos (sampled_params ps) = seq 0 (List.length (sampled_params ps)).
Proof. rewrite sampled_all. apply all_true. Qed.
Lemma nth_all {A} (d : A) (l : list A) : map (fun i => nth i l d) (seq 0 (List.length l)) = l.
Proof.
  induction l as [|x l IH]; [reflexivity|]. cbn [List.length seq map nth]. f_equal. rewrite <- seq_shift, map_map. exact IH.
Qed.
Lemma scatter_all {A} (t v : list A) : List.length t = List.length v -> scatter v (seq 0 (List.length v)) t = t.
Proof.
  intros L. assert (G : forall (pre v t : list A), List.length t = List.length v -> scatter (pre ++ v) (seq (List.length pre) (List.length v)) t = pre ++ t).
  { clear. intros pre v. revert pre. induction v as [|y v IH]; intros pre [|x t] L; cbn [List.length] in L; try discriminate; [reflexivity|]. injection L as L.
    cbn [List.length seq scatter]. rewrite set_nth_mid. specialize (IH (pre ++ [x]) t L). rewrite app_length, Nat.add_1_r in IH. rewrite <- !app_assoc in IH. exact IH. }
  apply (G [] v t L).
Qed.

Fixpoint over {A} (v t : list A) : list A :=
  match v, t with x :: v, y :: t => y :: over v t | _, _ => v end.
Lemma over_length {A} (v : list A) : forall t, List.length (over v t) = List.length v.
Proof. induction v as [|x v IH]; intros [|y t]; cbn; auto. Qed.
Lemma scatter_nil {A} ix (x : list A) : scatter x ix [] = x.
Proof. destruct ix; reflexivity. Qed.
Lemma scatter_over {A} (v t : list A) : scatter v (seq 0 (List.length v)) t = over v t.
Proof.
  assert (G : forall (v pre t : list A), scatter (pre ++ v) (seq (List.length pre) (List.length v)) t = pre ++ over v t).
  { clear. induction v as [|y v IH]; intros pre [|x t]; cbn [List.length seq over]; try reflexivity. cbn [scatter].
    rewrite set_nth_mid. specialize (IH (pre ++ [x]) t). rewrite app_length, Nat.add_1_r in IH. rewrite <- !app_assoc in IH. exact IH. }
  apply (G v []).
Qed.
Lemma fill_over (ps : list (param F)) : forall pre v t, List.length v = List.length (sampled_params ps) ->
  scatter (pre ++ fill ps v) (flatnonzero_from (List.length pre) (map (@a_sample F) ps)) t = pre ++ fill ps (over v t).
Proof.
  unfold sampled_params. induction ps as [|p ps IH]; intros pre v t L.
  - destruct v; [|discriminate]. cbn. destruct t; reflexivity.
  - cbn [filter] in L. cbn [map flatnonzero_from fill]. destruct (a_sample p) eqn:S.
    + destruct v as [|x v]; [discriminate|]. injection L as L. destruct t as [|y t]; [rewrite scatter_nil; reflexivity|]. cbn [scatter over]. rewrite set_nth_mid.
      specialize (IH (pre ++ [y]) v t L). rewrite app_length, Nat.add_1_r in IH. rewrite <- !app_assoc in IH. exact IH.
    + specialize (IH (pre ++ [a_theta0 p]) v t L). rewrite app_length, Nat.add_1_r in IH. rewrite <- !app_assoc in IH. exact IH.
Qed.

(** ** Declarations whose parameters that are not sampled have the values declared first *)
Definition fixed_as (ps ps0 : list (param F)) : Prop :=
  Forall2 (fun p q => a_sample p = a_sample q /\ (a_sample p = false -> a_theta0 p = a_theta0 q)) ps ps0.
Lemma fixed_refl ps : fixed_as ps ps.
Proof. induction ps; constructor; auto. Qed.
Lemma fixed_sample ps ps0 : fixed_as ps ps0 -> map (@a_sample F) ps = map (@a_sample F) ps0.
Proof. induction 1 as [|p q ps ps0 [H _] _ IH]; [reflexivity|]. cbn [map]. now rewrite H, IH. Qed.
Lemma fixed_length ps ps0 : fixed_as ps ps0 -> List.length ps = List.length ps0.
Proof. intros H. rewrite <- (map_length (@a_sample F) ps), (fixed_sample _ _ H). apply map_length. Qed.
Lemma fixed_kept {A} ps ps0 (l : list A) : fixed_as ps ps0 -> kept ps l = kept ps0 l.
Proof. intros H. revert l. induction H as [|p q ps ps0 [H _] _ IH]; intros l; [reflexivity|]. cbn [kept]. destruct l; [reflexivity|]. now rewrite H, IH. Qed.
Lemma fixed_sampled ps ps0 : fixed_as ps ps0 -> List.length (sampled_params ps) = List.length (sampled_params ps0).
Proof. intros H. rewrite <- !parind_length, (fixed_sample _ _ H). reflexivity. Qed.
Lemma fixed_fill ps ps0 : fixed_as ps ps0 -> forall t, List.length t = List.length (sampled_params ps0) -> fill ps t = fill ps0 t.
Proof.
  unfold sampled_params. induction 1 as [|p q ps ps0 [H1 H2] _ IH]; intros t L; [reflexivity|]. cbn [fill filter] in *. rewrite H1. destruct (a_sample q) eqn:S.
  - destruct t as [|x t]; [discriminate|]. injection L as L. f_equal. now apply IH.
  - rewrite H2 by exact H1. f_equal. now apply IH.
Qed.
Lemma restart_fixed name v ps ps0 : fixed_as ps ps0 -> fixed_as (map (restart_one name v) ps) ps0.
Proof.
  induction 1 as [|p q ps ps0 [H1 H2] _ IH]; cbn [map]; constructor; [|exact IH]. unfold restart_one. destruct (String.eqb name (a_name p)); cbn [a_sample a_theta0]; [|auto].
  split; [exact H1|]. intros S. rewrite S. auto.
Qed.
Lemma restart_sampled name v (ps : list (param F)) : sampled_params (map (restart_one name v) ps) = map (restart_one name v) (sampled_params ps).
Proof.
  assert (S : forall p, a_sample (restart_one name v p) = a_sample p) by (intros p; unfold restart_one; destruct (String.eqb name (a_name p)); reflexivity).
  unfold sampled_params. induction ps as [|p ps IH]; [reflexivity|]. cbn [map filter]. rewrite S. destruct (a_sample p); cbn [map]; now rewrite IH.
Qed.

(** ** The proposal covariance *)
Lemma kept_matrix ps (Q : list (list F)) : List.length Q = List.length ps -> Forall (fun r => List.length r = List.length ps) Q ->
  submat Q (pos ps) = Ok (map (kept ps) (kept ps Q)) /\ square (List.length (sampled_params ps)) (map (kept ps) (kept ps Q)).
Proof.
  intros L1 L2. assert (X : restrict Q (pos ps) = map (kept ps) (kept ps Q)).
  { rewrite <- (kept_at [] ps Q L1), map_map. unfold restrict. apply map_ext_in. intros i Hi. apply kept_at. rewrite Forall_forall in L2. apply L2, nth_In. rewrite L1. now apply pos_bound. }
  rewrite <- X. split; [apply (submat_restrict Q (List.length ps)); [exact L1|exact L2|apply pos_bound]|]. rewrite <- parind_length. apply restrict_square.
Qed.
Lemma diag_kept ps (v : list F) : List.length v = List.length ps -> map (kept ps) (kept ps (diagflat v)) = diagflat (kept ps v).
Proof.
  intros L. destruct (diag_square v) as [L1 L2]. rewrite L in L1, L2. destruct (kept_matrix ps (diagflat v) L1 L2) as [X _].
  rewrite (submat_restrict _ _ _ L1 L2 (pos_bound ps)) in X. injection X as <-. rewrite <- (kept_at n0 ps v L). unfold restrict, diagflat, range. rewrite map_length.
  set (ix := pos ps). assert (B : forall i, In i ix -> i < List.length v) by (intros i Hi; rewrite L; now apply pos_bound).
  assert (E0 : forall i j, i < List.length v -> j < List.length v ->
    nth j (nth i (map (fun i => map (fun j => if i =? j then nth i v n0 else n0) (seq 0 (List.length v))) (seq 0 (List.length v))) []) n0 = if i =? j then nth i v n0 else n0).
  { intros i j Hi Hj. rewrite (nth_indep _ [] (map (fun j0 => if 0 =? j0 then nth 0 v n0 else n0) (seq 0 (List.length v)))) by (rewrite map_length, seq_length; exact Hi).
    rewrite (map_nth (fun i0 => map (fun j0 => if i0 =? j0 then nth i0 v n0 else n0) (seq 0 (List.length v)))), seq_nth by exact Hi. cbn [Nat.add].
    rewrite (nth_indep _ n0 (if i =? 0 then nth i v n0 else n0)) by (rewrite map_length, seq_length; exact Hj).
    rewrite (map_nth (fun j0 => if i =? j0 then nth i v n0 else n0)), seq_nth by exact Hj. reflexivity. }
  transitivity (map (fun i => map (fun j => if i =? j then nth i v n0 else n0) ix) ix).
  { apply map_ext_in. intros i Hi. apply map_ext_in. intros j Hj. apply E0; auto. }
  assert (AL : forall A (f : nat -> A), map f ix = map (fun a => f (nth a ix 0)) (seq 0 (List.length ix))) by (intros A f; rewrite <- (nth_all 0 ix) at 1; apply map_map).
  rewrite AL. apply map_ext_in. intros a Ha. rewrite AL. apply map_ext_in. intros b Hb. apply in_seq in Ha, Hb.
  rewrite (nth_indep (map (fun i => nth i v n0) ix) n0 ((fun i => nth i v n0) 0)) by (rewrite map_length; lia). rewrite (map_nth (fun i => nth i v n0)).
  destruct (Nat.eqb_spec a b) as [->|N]; [now rewrite Nat.eqb_refl|]. destruct (Nat.eqb_spec (nth a ix 0) (nth b ix 0)) as [X|X]; [|reflexivity]. exfalso. apply N.
  apply (proj1 (NoDup_nth ix 0) (flatnonzero_NoDup _)); lia || exact X.
Qed.
Lemma square_one (Q : list (list F)) : square 1 Q -> exists x, Q = [[x]].
Proof. intros [L1 L2]. destruct Q as [|r [|]]; try discriminate. inversion L2 as [|? ? H _]. destruct r as [|y [|]]; try discriminate. now exists y. Qed.
Lemma submat_all k (Q : list (list F)) : square k Q -> submat Q (seq 0 k) = Ok Q.
Proof. intros H. now apply submat_id. Qed.

Variable E E' : env F.
Hypothesis Hchol : e_chol E' = e_chol E.
Hypothesis Hinv : e_inv E' = e_inv E.
Lemma R_matrix ps Q : 0 < List.length (sampled_params ps) -> List.length Q = List.length ps -> Forall (fun r => List.length r = List.length ps) Q ->
  setup_R_matrix E' (map (kept ps) (kept ps Q)) (seq 0 (List.length (sampled_params ps))) = setup_R_matrix E Q (pos ps).
Proof.
  intros K L1 L2. destruct (kept_matrix ps Q L1 L2) as [SU SQ]. set (Q' := map (kept ps) (kept ps Q)) in *. set (k := List.length (sampled_params ps)) in *.
  assert (LE : k <= List.length ps) by (unfold k, sampled_params; clear; induction ps as [|p ps IH]; cbn [filter]; [lia|]; destruct (a_sample p); cbn [List.length]; lia).
  assert (NC : forall n (M : list (list F)), 0 < n -> square n M -> Nat.min (List.length M) (ncols M) = n).
  { intros n M Hn [A B]. destruct M as [|r M]; [cbn in A; lia|]. inversion B as [|? ? B1 B2]; subst. cbn [ncols]. rewrite B1. cbn [List.length] in *. lia. }
  unfold setup_R_matrix. rewrite (NC k Q' K SQ), (NC (List.length ps) Q); [|lia|split; assumption].
  destruct (Nat.eqb_spec (List.length ps) 1) as [N1|N1].
  - assert (k = 1) by lia. rewrite H. cbn [Nat.eqb]. assert (Q1 : exists x, Q = [[x]]) by (apply square_one; split; [congruence|now rewrite <- N1]). destruct Q1 as [x ->].
    cbn [List.concat app] in *. rewrite diagflat_one, SU. rewrite H in SQ. destruct (square_one _ SQ) as [y Y]. rewrite Y. cbn [List.concat app]. rewrite diagflat_one. reflexivity.
  - rewrite SU. cbn [bind]. rewrite (square_concat k Q' SQ). destruct (Nat.eqb_spec k 1) as [K1|K1].
    + rewrite K1 in *. destruct (square_one _ SQ) as [y Y]. rewrite Y. cbn [List.concat app]. rewrite diagflat_one. reflexivity.
    + rewrite (submat_all k Q' SQ). cbn [bind]. rewrite (square_concat k Q' SQ). rewrite Hchol. reflexivity.
Qed.
Lemma R_vector ps v (Q Q' : list (list F)) : 0 < List.length (sampled_params ps) -> List.length v = List.length ps -> List.concat Q = v -> List.concat Q' = kept ps v ->
  Nat.min (List.length Q) (ncols Q) = 1 -> Nat.min (List.length Q') (ncols Q') = 1 ->
  setup_R_matrix E' Q' (seq 0 (List.length (sampled_params ps))) = setup_R_matrix E Q (pos ps).
Proof.
  intros K L C C' M M'. unfold setup_R_matrix. rewrite M, M', C, C'. cbn [Nat.eqb]. destruct (diag_square v) as [D1 D2]. rewrite L in D1, D2.
  destruct (kept_matrix ps (diagflat v) D1 D2) as [SU _]. rewrite SU, (diag_kept ps v L).
  rewrite (submat_all (List.length (sampled_params ps))); [reflexivity|]. pose proof (diag_square (kept ps v)) as X. now rewrite (kept_length ps v L) in X.
Qed.
Lemma concat_column (v : list F) : List.concat (map (fun x => [x]) v) = v.
Proof. induction v as [|x v IH]; [reflexivity|]. cbn. now rewrite IH. Qed.
Lemma default_cov (l m : list F) : List.length (map2 default_variance l m) = Nat.min (List.length l) (List.length m).
Proof. revert m. induction l as [|x l IH]; intros [|y m]; cbn [map2 List.length Nat.min]; auto. Qed.
Lemma kept_map2 : forall (ps : list (param F)) (l m : list F), List.length l = List.length ps -> List.length m = List.length ps ->
  kept ps (map2 default_variance l m) = map2 default_variance (kept ps l) (kept ps m).
Proof.
  induction ps as [|p ps IH]; intros [|x l] [|y m] L1 L2; cbn [List.length] in *; try discriminate; [reflexivity|]. cbn [map2 kept]. destruct (a_sample p); cbn [map2]; rewrite IH by lia; reflexivity.
Qed.
Lemma R_same ps q q' sg va : 0 < List.length (sampled_params ps) -> cov_kept ps q q' -> List.length sg = List.length ps -> List.length va = List.length ps ->
  setup_R_matrix E' (setup_covariance_matrix q' (kept ps sg) (kept ps va)) (seq 0 (List.length (sampled_params ps))) =
  setup_R_matrix E (setup_covariance_matrix q sg va) (pos ps).
Proof.
  intros K H L1 L2. destruct H as [|Q A B|v A|v A]; cbn [setup_covariance_matrix].
  - rewrite <- kept_map2 by assumption. assert (LM : List.length (map2 default_variance sg va) = List.length ps) by (rewrite default_cov; lia).
    rewrite <- (diag_kept ps _ LM). destruct (diag_square (map2 default_variance sg va)) as [D1 D2]. rewrite LM in D1, D2. now apply R_matrix.
  - now apply R_matrix.
  - assert (0 < List.length ps) by (destruct ps; [cbn in K; lia|cbn; lia]). apply (R_vector ps v); auto; cbn [List.concat ncols List.length]; rewrite ?app_nil_r, ?(kept_length ps v A); try lia; reflexivity.
  - assert (0 < List.length ps) by (destruct ps; [cbn in K; lia|cbn; lia]). pose proof (kept_length ps v A) as KL.
    apply (R_vector ps v); auto; try apply concat_column; rewrite map_length.
    + destruct v; [cbn in A; lia|]. cbn. lia.
    + destruct (kept ps v); [cbn in KL; lia|]. cbn. lia.
Qed.
End Selections.
