(** Facts about local parameters and the table of parameters. *)

From Coq Require Import ZArith QArith Bool Lia List String.
From Verif Require Import Base Num ChainFiles Samplers Settings RunSpec SamplerFacts RunLift Opening.
Import ListNotations.
Close Scope Q_scope.
Open Scope list_scope.
Open Scope nat_scope.
Open Scope res_scope.

Lemma slice_same {A} (i : nat) (v : A) x : set_slice (Z.of_nat i) (Z.of_nat i + Z.of_nat 1 - 1) [v] x = Ok x.
Proof.
  unfold set_slice, slice_of. replace (Z.of_nat i + Z.of_nat 1 - 1)%Z with (Z.of_nat i) by lia.
  destruct (Z.ltb_spec (Z.of_nat i) 0); [lia|]. rewrite Nat2Z.id. rewrite Nat.sub_diag. cbn [List.length Nat.eqb repeat app].
  rewrite Nat.add_0_r, firstn_skipn. reflexivity.
Qed.
Lemma slice_empty {A} (i : nat) (x : list A) : 1 <= i -> set_slice (Z.of_nat i) (Z.of_nat i + Z.of_nat 0 - 1) [] x = Ok x.
Proof.
  intros H. unfold set_slice, slice_of. destruct (Z.ltb_spec (Z.of_nat i) 0); [lia|].
  destruct (Z.ltb_spec (Z.of_nat i + Z.of_nat 0 - 1) 0); [lia|]. cbn [List.length].
  replace (Nat.min _ _ - Nat.min _ _) with 0 by lia. cbn [Nat.eqb app]. rewrite Nat.add_0_r, firstn_skipn. reflexivity.
Qed.
Lemma slice_fails (i nb : nat) (x : list nat) : 2 <= nb -> set_slice (Z.of_nat i) (Z.of_nat i + Z.of_nat nb - 1) (seq 0 nb) x = Err ValueError.
Proof.
  intros H. unfold set_slice, slice_of. destruct (Z.ltb_spec (Z.of_nat i) 0); [lia|].
  destruct (Z.ltb_spec (Z.of_nat i + Z.of_nat nb - 1) 0); [lia|]. rewrite seq_length.
  destruct (Nat.eqb_spec nb (Nat.min (List.length x) (Z.to_nat (Z.of_nat i + Z.of_nat nb - 1)) - Nat.min (List.length x) (Z.to_nat (Z.of_nat i)))); [lia|].
  destruct nb as [|[|nb]]; [lia|lia|]. reflexivity.
Qed.

Lemma forall2_weaken {A B} (P Q : A -> B -> Prop) l m : (forall a b, P a b -> Q a b) -> Forall2 P l m -> Forall2 Q l m.
Proof. intros H. induction 1; constructor; auto. Qed.

Section OpeningFacts.
Context {F : Type} `{NF : Num F}.
Notation lparam := (lparam F).

(** Declared fixed and local. *)
Definition fixed_local (p : lparam) : bool := negb (a_sample (lp_par p)) && lp_local p.

Lemma scan_plain nb ps : (nb = 1 \/ Forall (fun p => fixed_local p = false) ps) -> forall s,
  scan nb s ps = Ok (mkscan (sc_local s) (sc_npar s) (sc_ii s + List.length ps)).
Proof.
  intros H. induction ps as [|p t IH]; intros s; cbn [scan].
  - rewrite Nat.add_0_r. destruct s; reflexivity.
  - assert (scan_one nb s p = Ok (mkscan (sc_local s) (sc_npar s) (S (sc_ii s)))) as ->.
    { unfold scan_one. destruct (negb _ && _) eqn:E; [|reflexivity]. destruct H as [->|H].
      - change (seq 0 1) with [0]. rewrite slice_same. cbn [bind]. do 2 f_equal; lia.
      - inversion H as [|? ? H1 _]; subst. unfold fixed_local in H1. congruence. }
    cbn [bind]. rewrite IH. { cbn. do 2 f_equal. lia. }
    destruct H as [H|H]; [now left|right; now inversion H].
Qed.
Lemma scan_fails nb ps : 2 <= nb -> Exists (fun p => fixed_local p = true) ps -> forall s, scan nb s ps = Err ValueError.
Proof.
  intros H E. induction ps as [|p t IH]; intros s; [inversion E|]. cbn [scan].
  destruct (fixed_local p) eqn:Hp.
  - unfold scan_one. unfold fixed_local in Hp. rewrite Hp, slice_fails by exact H. reflexivity.
  - unfold scan_one. unfold fixed_local in Hp. rewrite Hp. cbn [bind]. apply IH. inversion E; subst; [|assumption]. unfold fixed_local in *. congruence.
Qed.
Lemma scan_none ps : forall s, 1 <= sc_ii s -> scan 0 s ps =
  Ok (mkscan (sc_local s) (sc_npar s - List.length (filter fixed_local ps)) (sc_ii s + List.length (filter (fun p => negb (fixed_local p)) ps))).
Proof.
  induction ps as [|p t IH]; intros s Hs; cbn [scan filter].
  - cbn. rewrite Nat.add_0_r, Nat.sub_0_r. destruct s; reflexivity.
  - unfold scan_one. destruct (fixed_local p) eqn:Hp; unfold fixed_local in Hp; rewrite Hp; cbn [negb].
    + change (seq 0 0) with (@nil nat). rewrite slice_empty by exact Hs. cbn [bind]. rewrite IH by (cbn; lia). cbn [sc_local sc_npar sc_ii List.length].
      do 2 f_equal; lia.
    + cbn [bind]. rewrite IH by (cbn; lia). cbn [sc_local sc_npar sc_ii List.length]. do 2 f_equal; lia.
Qed.

Lemma set_next {A B} (f : A -> B) (d : B) pre x (post : list A) : set_nth (List.length pre) (f x) (map f pre ++ repeat d (S (List.length post))) =
  map f (pre ++ [x]) ++ repeat d (List.length post).
Proof.
  cbn [repeat]. rewrite <- (map_length f pre). rewrite set_nth_mid. rewrite map_app, <- app_assoc. reflexivity.
Qed.

(** The arrays after the first parameters [pre] have been read, [m] entries being left. *)
Definition filled (pre : list (param F)) (m : nat) : filling :=
  mkfill (map (@a_name F) pre) (map (@a_theta0 F) pre ++ repeat n0 m) (map (@a_theta0 F) pre ++ repeat n0 m)
         (map (@a_sample F) pre ++ repeat true m) (map (fun p => setup_adapting (a_adapt p) (a_sample p)) pre ++ repeat true m)
         (map (@a_max F) pre ++ repeat (nmul n1 ninf) m) (map (@a_min F) pre ++ repeat (nmul (nsub n0 n1) ninf) m)
         (map (fun p => setup_prior_mu (a_mu p) (a_theta0 p)) pre ++ repeat n0 m)
         (map (fun p => setup_prior_sigma (a_sigma p)) pre ++ repeat (nmul n1 ninf) m).

Lemma fill_some (ps : list lparam) : forall k pre post, ps = pre ++ post -> k <= List.length post ->
  fill_all ps (repeat 0 (List.length ps)) (filled (map (@lp_par F) pre) (List.length post)) (seq (List.length pre) k) =
  Ok (filled (map (@lp_par F) (pre ++ firstn k post)) (List.length post - k)).
Proof.
  induction k as [|k IH]; intros pre post E Hk; cbn [seq fill_all].
  - cbn [firstn]. rewrite app_nil_r, Nat.sub_0_r. reflexivity.
  - destruct post as [|x post]; [cbn in Hk; lia|]. cbn in Hk.
    assert (fill_one ps (repeat 0 (List.length ps)) (filled (map (@lp_par F) pre) (List.length (x :: post))) (List.length pre) =
            Ok (filled (map (@lp_par F) (pre ++ [x])) (List.length post))) as ->.
    { unfold fill_one. assert (nth_error (repeat 0 (List.length ps)) (List.length pre) = Some 0) as ->.
      { rewrite nth_error_nth' with (d := 0); [f_equal; apply nth_repeat|]. rewrite repeat_length, E, app_length. cbn. lia. }
      cbn [of_option bind Nat.eqb]. assert (nth_error ps (List.length pre) = Some x) as ->.
      { rewrite E, nth_error_app2, Nat.sub_diag by lia. reflexivity. }
      cbn [of_option bind]. unfold filled. cbn [g_names g_initial g_value g_parind g_adapt g_upper g_lower g_mu g_sigma List.length].
      rewrite <- (map_length (@lp_par F) pre), <- (map_length (@lp_par F) post).
      f_equal. rewrite map_app. cbn [map].
      rewrite (set_next (@a_theta0 F)), (set_next (@a_sample F)), (set_next (@a_max F)), (set_next (@a_min F)),
        (set_next (fun p => setup_adapting (a_adapt p) (a_sample p))), (set_next (fun p => setup_prior_mu (a_mu p) (a_theta0 p))),
        (set_next (fun p => setup_prior_sigma (a_sigma p))).
      rewrite (map_app (@a_name F)). reflexivity. }
    cbn [bind]. replace (S (List.length pre)) with (List.length (pre ++ [x])) by (rewrite app_length; cbn; lia).
    rewrite IH; [|rewrite E, <- app_assoc; reflexivity|lia]. cbn [firstn List.length Nat.sub]. rewrite <- app_assoc. reflexivity.
Qed.

(** The opened structure after the first [k] parameters have been read. *)
Definition opened_first (ps : list (param F)) (k : nat) : opened F :=
  let g := filled (firstn k ps) (List.length ps - k) in
  let '(pi, ad, na) := setup_adaptation_indices (g_parind g) (g_adapt g) in
  mkopened (g_names g) (g_initial g) (g_value g) pi ad na (g_lower g) (g_upper g) (g_mu g) (g_sigma g).

Lemma open_first nb (ps : list lparam) ii k : scan nb (mkscan (repeat 0 (List.length ps)) (List.length ps) 0) ps = Ok (mkscan (repeat 0 (List.length ps)) k ii) ->
  k <= List.length ps -> open_local nb ps = Ok (opened_first (map (@lp_par F) ps) k).
Proof.
  intros H Hk. unfold open_local. rewrite H. cbn [bind sc_local sc_npar].
  pose proof (fill_some ps k [] ps eq_refl Hk) as HF. cbn [map List.length app] in HF. unfold filled at 1 in HF. cbn [map app] in HF.
  unfold unfilled. rewrite HF. cbn [bind]. unfold opened_first. rewrite map_length, firstn_map. reflexivity.
Qed.
Lemma opened_all ps : opened_first ps (List.length ps) = openparameterstructure ps.
Proof.
  unfold opened_first, openparameterstructure. rewrite Nat.sub_diag, firstn_all. unfold filled. cbn [repeat]. rewrite !app_nil_r. reflexivity.
Qed.

Lemma sampled_indices (ps : list (param F)) : Forall2 (fun i p => nth_error ps i = Some p) (flatnonzero (map (@a_sample F) ps)) (sampled_params ps).
Proof.
  assert (H : forall k, Forall2 (fun i p => k <= i /\ nth_error ps (i - k) = Some p) (flatnonzero_from k (map (@a_sample F) ps)) (sampled_params ps)).
  { induction ps as [|p t IH]; intros k; cbn [map flatnonzero_from sampled_params filter]; [constructor|].
    assert (G : Forall2 (fun i q => k <= i /\ nth_error (p :: t) (i - k) = Some q) (flatnonzero_from (S k) (map (@a_sample F) t)) (sampled_params t)).
    { eapply forall2_weaken; [|apply (IH (S k))]. cbn beta. intros i q [H1 H2]. split; [lia|].
      replace (i - k) with (S (i - S k)) by lia. exact H2. }
    destruct (a_sample p); [constructor; [rewrite Nat.sub_diag; auto|exact G]|exact G]. }
  eapply forall2_weaken; [|apply (H 0)]. cbn beta. intros i p [_ X]. now rewrite Nat.sub_0_r in X.
Qed.

Lemma mapM_seq {A B} (f : nat -> res B) (P : A -> B -> Prop) : forall (l : list A) k,
  (forall j a, nth_error l j = Some a -> exists b, f (k + j) = Ok b /\ P a b) ->
  exists r, mapM f (seq k (List.length l)) = Ok r /\ Forall2 P l r.
Proof.
  induction l as [|a l IH]; intros k H; cbn [List.length seq mapM].
  - exists []. split; [reflexivity|constructor].
  - destruct (H 0 a eq_refl) as (b & H1 & H2). rewrite Nat.add_0_r in H1. rewrite H1. cbn [bind].
    destruct (IH (S k)) as (r & H3 & H4). { intros j x Hj. rewrite Nat.add_succ_comm. exact (H (S j) x Hj). }
    rewrite H3. cbn [bind]. exists (b :: r). split; [reflexivity|constructor; assumption].
Qed.

(** What is printed is the number: in exponential format if it is large or small, otherwise in fixed format. *)
Definition shows (x : F) (s : shown F) : Prop :=
  let far := nle (nQ (10000#1)) (nabs x) = true \/ nle (nabs x) (nQ (1#100)) = true in
  (far -> s = Expo x) /\ (~ far -> s = Fixed x).
Lemma format_shows x : shows x (format_number_to_str x).
Proof.
  unfold shows, format_number_to_str. destruct (nle (nQ (10000#1)) (nabs x)), (nle (nabs x) (nQ (1#100))); cbn [orb]; split; intros H; try reflexivity;
  try (exfalso; apply H; auto; fail); destruct H; discriminate.
Qed.

(** A line of the table shows the declaration [p]. *)
Definition row_shows (p : param F) (mark : string) (r : trow F) : Prop :=
  let mu := if nisnan (a_mu p) then a_theta0 p else a_mu p in
  let s := if neq (a_sigma p) n0 then ninf else a_sigma p in
  let sigma := if nle s n0 then ninf else s in
  t_name r = a_name p /\ shows (a_theta0 p) (t_start r) /\ shows (a_min p) (t_min r) /\
  shows (a_max p) (t_max r) /\ shows mu (t_mu r) /\ shows sigma (t_sigma r) /\
  (t_square r = ""%string <-> nisinf sigma = true) /\ t_mark r = mark.

Lemma display_rows (ps : list (param F)) v (no_adapt : list flag) : 0 < v -> List.length no_adapt = List.length (sampled_params ps) ->
  exists rows, display_parameter_settings (check_prior_sigma (openparameterstructure ps)) (Some v) (Some no_adapt) = Ok (Some rows) /\
    Forall2 (fun pf r => row_shows (fst pf) (noadapt_display_setting (snd pf)) r) (combine (sampled_params ps) no_adapt) rows.
Proof.
  intros Hv HL. unfold display_parameter_settings. apply Nat.ltb_lt in Hv. rewrite Hv. cbn [check_noadaptind].
  pose proof (sampled_indices ps) as HI.
  change (op_parind (check_prior_sigma (openparameterstructure ps))) with (op_parind (openparameterstructure ps)). rewrite op_parind_open.
  assert (HN : List.length (flatnonzero (map (@a_sample F) ps)) = List.length (combine (sampled_params ps) no_adapt)).
  { rewrite combine_length, HL, Nat.min_id. eapply Forall2_len; exact HI. }
  rewrite HN.
  match goal with |- context [mapM ?f _] =>
    cut (exists r, mapM f (seq 0 (List.length (combine (sampled_params ps) no_adapt))) = Ok r /\
           Forall2 (fun pf r => row_shows (fst pf) (noadapt_display_setting (snd pf)) r) (combine (sampled_params ps) no_adapt) r);
      [intros (rows & H1 & H2); rewrite H1; cbn [bind]; exists rows; split; [reflexivity|exact H2]|] end.
  apply (mapM_seq (A := param F * flag)).
  intros j [p fl] Hj. cbn [Nat.add fst snd].
  assert (Hp : nth_error (sampled_params ps) j = Some p /\ nth_error no_adapt j = Some fl).
  { clear -Hj. revert no_adapt j Hj. induction (sampled_params ps) as [|a l IH]; intros [|b m] [|j] H; try discriminate; cbn in *.
    - injection H as <- <-. auto.
    - auto. }
  destruct Hp as [Hp Hf].
  assert (Hi : exists i, nth_error (flatnonzero (map (@a_sample F) ps)) j = Some i /\ nth_error ps i = Some p).
  { clear -HI Hp. revert j Hp. induction HI as [|i q l m H _ IH]; intros [|j] Hp; try discriminate; cbn in *.
    - injection Hp as <-. eauto.
    - auto. }
  destruct Hi as (i & Hi1 & Hi2). rewrite Hi1. cbn [of_option bind].
  assert (M : forall {B} (f : param F -> B), nth_error (map f ps) i = Some (f p)) by (intros B f; now apply map_nth_error).
  cbn [check_prior_sigma openparameterstructure setup_adaptation_indices op_names op_initial op_lower op_upper op_mu op_sigma].
  rewrite !map_map, !M, Hf. cbn [of_option bind].
  eexists. split; [reflexivity|]. unfold row_shows, setup_prior_mu, setup_prior_sigma, prior_display_setting. cbn.
  split; [reflexivity|]. do 5 (split; [apply format_shows|]). split; [|reflexivity]. destruct (nisinf _); split; intros; try reflexivity; discriminate.
Qed.
End OpeningFacts.
