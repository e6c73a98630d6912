(** Limits that are not reached: samplers, the loop and sessions. *)

From Coq Require Import ZArith QArith Bool Lia List String.
From Verif Require Import Base Num Samplers Adapt Settings Simulator SamplerFacts RunSpec RunFacts RunLift SettingsFacts LimitsSpec.
Import ListNotations.
Close Scope Q_scope.
Open Scope list_scope.
Open Scope nat_scope.
Open Scope res_scope.

Section Limits.
Context {F : Type} `{NF : Num F}.
Variable ps : list (param F).
Variable E : env F.
Notation pi := (flatnonzero (map (@a_sample F) ps)).
Notation lo := (sel (map (@a_min F) ps) pi).
Notation up := (sel (map (@a_max F) ps) pi).

Definition wl (a b : F) : Prop := forall x, nlt x b = true -> nlt x a = true.
Definition wu (a b : F) : Prop := forall x, nlt b x = true -> nlt a x = true.
Definition nview (V : pview F) : pview F := mkpview (v_npar V) (v_parind V) lo up (v_mu V) (v_sigma V).
Definition vok (V : pview F) : Prop := v_parind V = pi /\ v_npar V = List.length pi /\ Forall2 wl lo (v_lower V) /\ Forall2 wu up (v_upper V).
Definition iok (s : io F) : Prop := List.length (io_value s) = List.length ps.
Definition good (s : io F) : Prop := Forall (within_limits ps) (io_calls s).
Definition grows (s t : io F) : Prop := (iok s -> iok t) /\ exists l, io_calls t = l ++ io_calls s.

Lemma grows_refl s : grows s s.
Proof. split; [auto|]. now exists []. Qed.
Lemma grows_same s t : io_value t = io_value s -> io_calls t = io_calls s -> grows s t.
Proof. intros A B. split; [unfold iok; now rewrite A|]. exists []. now rewrite B. Qed.
Lemma grows_trans s t u : grows s t -> grows t u -> grows s u.
Proof. intros [A [l B]] [C [k D]]. split; [auto|]. exists (k ++ l). now rewrite D, B, app_assoc. Qed.
Lemma grows_good s t : grows s t -> good t -> good s.
Proof. intros [_ [l B]] H. unfold good in *. rewrite B in H. apply Forall_app in H. apply H. Qed.

Lemma out_lower theta : forall l m, Forall2 wl l m -> existsb (fun b => b) (map2 nlt theta m) = true -> existsb (fun b => b) (map2 nlt theta l) = true.
Proof.
  induction theta as [|t theta IH]; intros l m H; [cbn; auto|]. destruct H as [|a b l m Hab H]; [cbn; auto|]. cbn. intros X. apply orb_true_iff in X as [X|X]; apply orb_true_iff; [left; now apply Hab|right; now apply (IH l m)].
Qed.
Lemma out_upper : forall theta l m, Forall2 wu l m -> existsb (fun b => b) (map2 nlt m theta) = true -> existsb (fun b => b) (map2 nlt l theta) = true.
Proof.
  induction theta as [|t theta IH]; intros l m H; [destruct m; cbn; discriminate|]. destruct H as [|a b l m Hab H]; [cbn; auto|]. cbn. intros X. apply orb_true_iff in X as [X|X]; apply orb_true_iff; [left; now apply Hab|right; now apply (IH l m)].
Qed.
Lemma outside_wide V theta : vok V -> is_sample_outside_bounds theta (v_lower V) (v_upper V) = true -> is_sample_outside_bounds theta lo up = true.
Proof.
  intros (_ & _ & A & B). unfold is_sample_outside_bounds. intros X. apply orb_true_iff in X as [X|X]; apply orb_true_iff; [left; now apply (out_lower theta lo (v_lower V))|right; now apply (out_upper theta up (v_upper V))].
Qed.
Lemma pi_bound i : In i pi -> i < List.length ps.
Proof. intros H. apply flatnonzero_spec in H. rewrite <- (map_length (@a_sample F) ps). apply nth_error_Some. congruence. Qed.
Lemma within_nth l (v : list F) : within_limits l v -> forall i p x, nth_error l i = Some p -> nth_error v i = Some x -> a_sample p = true -> nlt x (a_min p) = false /\ nlt (a_max p) x = false.
Proof. induction 1 as [|p x l v H _ IH]; intros [|i] q y A B S; cbn in A, B; try discriminate; [injection A as ->; injection B as ->; auto|]. now apply (IH i). Qed.
Lemma inside_narrow value theta : List.length value = List.length ps -> List.length theta = List.length pi ->
  within_limits ps (scatter value pi theta) -> is_sample_outside_bounds theta lo up = false.
Proof.
  intros LV LT W. apply within_outside_false; [unfold sel; now rewrite map_length|unfold sel; now rewrite !map_length|].
  intros k t l u Ht Hl Hu. unfold sel in Hl, Hu. rewrite nth_error_map in Hl, Hu. destruct (nth_error pi k) as [i|] eqn:Hi; [|discriminate]. cbn in Hl, Hu. injection Hl as <-. injection Hu as <-.
  assert (K : k < List.length pi) by (apply nth_error_Some; congruence).
  assert (X : nth_error (scatter value pi theta) i = Some t).
  { rewrite <- Ht, <- (scatter_in pi value theta k (flatnonzero_NoDup _) K LT). - f_equal. symmetry. now apply nth_error_nth. - intros j Hj. rewrite LV. now apply pi_bound. }
  assert (IP : In i pi) by (now apply nth_error_In in Hi). apply flatnonzero_spec in IP. rewrite nth_error_map in IP. destruct (nth_error ps i) as [p|] eqn:Hp; [|discriminate]. cbn in IP. injection IP as IP.
  rewrite (nth_error_nth _ _ n0 (map_nth_error (@a_min F) i ps Hp)), (nth_error_nth _ _ n0 (map_nth_error (@a_max F) i ps Hp)). now apply (within_nth ps _ W i).
Qed.

(** ** The samplers *)
Lemma sos_grows V theta s ss s1 : evaluate_sos_function E V theta s = (ss, s1) -> grows s s1 /\ exists l, io_calls s1 = l ++ [scatter (io_value s) (v_parind V) theta] ++ io_calls s.
Proof.
  unfold evaluate_sos_function. intros H. injection H as _ <-. split; [split; [unfold iok; cbn [io_value]; now rewrite scatter_length|]|]; [exists [scatter (io_value s) (v_parind V) theta]|exists []]; reflexivity.
Qed.
Lemma sos_inside V theta s ss s1 s2 : vok V -> iok s -> List.length theta = v_npar V -> evaluate_sos_function E V theta s = (ss, s1) -> grows s1 s2 -> good s2 ->
  is_sample_outside_bounds theta lo up = false.
Proof.
  intros (HP & HN & _) HI HL H G HG. apply (grows_good _ _ G) in HG. apply sos_grows in H as (_ & l & HC). unfold good in HG. rewrite HC in HG. apply Forall_app in HG as [_ HG].
  inversion HG as [|x y W _]. subst. rewrite HP in W. apply (inside_narrow (io_value s)); [exact HI|congruence|exact W].
Qed.
Lemma metropolis_lim V R old s r : vok V -> iok s -> run_metropolis_step E V R old s = Ok r ->
  grows s (snd r) /\ (good (snd r) -> run_metropolis_step E (nview V) R old s = Ok r).
Proof.
  intros HV HI H. unfold run_metropolis_step in *. peel H. destruct a as [[t z] s1]. rename E0 into C. cbn [nview v_npar v_lower v_upper]. rewrite C. cbn [bind].
  apply sample_candidate_facts in C as (_ & _ & L1 & L2 & _ & V1 & C1 & _). pose proof (grows_same s s1 V1 C1) as G1. assert (I1 : iok s1) by (now apply G1).
  destruct (is_sample_outside_bounds t (v_lower V) (v_upper V)) eqn:O.
  - rewrite (outside_wide V t HV O). injection H as <-. cbn [snd]. split; [exact G1|reflexivity].
  - change (evaluate_prior E (nview V) t) with (evaluate_prior E V t). change (evaluate_sos_function E (nview V) t s1) with (evaluate_sos_function E V t s1).
    destruct (evaluate_sos_function E V t s1) as [ss s2] eqn:S. peel H. rewrite E0. cbn [bind]. peel H. rewrite E1. cbn [bind].
    unfold log_posterior_ratio_acceptance_test, rand in *. injection H as <-. cbn [snd].
    set (s3 := mkio (Datatypes.S (io_pos s2)) (io_value s2) (io_calls s2)). assert (G3 : grows s2 s3) by (now apply grows_same).
    split; [apply (grows_trans _ s1); [exact G1|]; apply (grows_trans _ s2); [now apply (sos_grows V t s1 ss s2)|exact G3]|].
    intros G. rewrite (sos_inside V t s1 ss s2 s3 HV I1 ltac:(congruence) S G3 G). reflexivity.
Qed.
Lemma dr_lim V RDR invR old new n : vok V -> forall itry path iacce cur s r, iok s -> dr_loop E V RDR invR old new n itry path iacce cur s = Ok r ->
  grows s (snd r) /\ (good (snd r) -> dr_loop E (nview V) RDR invR old new n itry path iacce cur s = Ok r).
Proof.
  intros HV. induction n as [|n IH]; intros itry path iacce cur s r HI H; cbn [dr_loop] in *.
  { destruct cur as [[a b] c]. injection H as <-. split; [apply grows_refl|reflexivity]. }
  peel H. rewrite E0. cbn [bind]. peel H. destruct a0 as [[t z] s1]. rename E1 into C. cbn [nview v_npar v_lower v_upper]. rewrite C. cbn [bind].
  apply sample_candidate_facts in C as (_ & _ & L1 & L2 & _ & V1 & C1 & _). pose proof (grows_same s s1 V1 C1) as G1. assert (I1 : iok s1) by (now apply G1).
  destruct (is_sample_outside_bounds t (v_lower V) (v_upper V)) eqn:O.
  - rewrite (outside_wide V t HV O). apply IH in H as [A B]; [|exact I1]. split; [now apply (grows_trans _ s1)|exact B].
  - change (evaluate_prior E (nview V) t) with (evaluate_prior E V t). change (evaluate_sos_function E (nview V) t s1) with (evaluate_sos_function E V t s1).
    destruct (evaluate_sos_function E V t s1) as [ss s2] eqn:S. destruct (sos_grows V t s1 ss s2 S) as [G2 _].
    assert (GG : forall s3, grows s2 s3 -> grows s s3) by (intros s3 G3; apply (grows_trans _ s1); [exact G1|]; now apply (grows_trans _ s2)).
    assert (IN : forall s3, grows s2 s3 -> good s3 -> is_sample_outside_bounds t lo up = false) by (intros s3 G3; apply (sos_inside V t s1 ss s2 s3 HV I1 ltac:(congruence) S G3)).
    peel H. rewrite E1. cbn [bind]. unfold posterior_ratio_acceptance_test, rand in *.
    set (s3 := mkio (Datatypes.S (io_pos s2)) (io_value s2) (io_calls s2)) in *. assert (G3 : grows s2 s3) by (now apply grows_same). assert (I2 : iok s2) by (now apply G2). assert (I3 : iok s3) by exact I2.
    destruct (nle n1 _).
    + peel H. rewrite E2. cbn [bind]. injection H as <-. cbn [snd]. split; [apply GG, grows_refl|]. intros G. now rewrite (IN s2 (grows_refl _) G).
    + peel H. rewrite E2. cbn [bind]. destruct (nlt _ _).
      * injection H as <-. cbn [snd]. split; [now apply GG|]. intros G. now rewrite (IN s3 G3 G).
      * apply IH in H as [A B]; [|exact I3]. split; [apply GG; now apply (grows_trans _ s3)|]. intros G. rewrite (IN (snd r) (grows_trans _ _ _ G3 A) G). now apply B.
Qed.

(** ** The loop *)
Definition nconst (K : rconst F) : rconst F := mkrc (k_opts K) (nview (k_view K)) (k_nsos K) (k_N0 K) (k_N K) (k_alias K) (k_chains K).
Lemma sample_lim K st r : vok (k_view K) -> iok (r_io st) -> sample_step E K st = Ok r ->
  grows (r_io st) (snd r) /\ (good (snd r) -> sample_step E (nconst K) st = Ok r).
Proof.
  intros HV HI H. unfold sample_step in *. peel H. destruct a as [[[[acc new] outb] z] s1]. apply metropolis_lim in E0 as [G M]; [|exact HV|exact HI]. cbn [snd] in G, M.
  cbn [nconst k_opts k_view]. destruct ((1 <? o_ntry (k_opts K)) && negb acc)%bool eqn:Hb.
  - peel H. destruct a as [[[[[acc' out] outb'] ia] path] s2]. injection H as <-. cbn [snd]. unfold delayed_rejection_call in E0. cbn [nconst k_opts k_view].
    destruct (c_RDR (r_cov st)) as [| |l] eqn:Hl; try discriminate. unfold run_delayed_rejection in E0. apply dr_lim in E0 as [A B]; [|exact HV|now apply G]. cbn [snd] in A, B.
    split; [now apply (grows_trans _ s1)|]. intros X. rewrite (M (grows_good _ _ A X)). cbn [bind]. rewrite Hb. unfold delayed_rejection_call. cbn [nconst k_opts k_view]. rewrite Hl. unfold run_delayed_rejection. now rewrite (B X).
  - injection H as <-. cbn [snd]. split; [exact G|]. intros X. rewrite (M X). cbn [bind]. now rewrite Hb.
Qed.
Lemma step_lim K i st t : vok (k_view K) -> iok (r_io st) -> step E K i st = Ok t ->
  grows (r_io st) (r_io t) /\ (good (r_io t) -> step E (nconst K) i st = Ok t).
Proof.
  intros HV HI H. pose proof H as H0. apply step_summary in H0 as (stage & new & outb & z & ia & s & S & X). cbn zeta in X.
  assert (G : grows s (r_io t)) by (apply grows_same; apply X). clear X. pose proof S as S0. apply sample_lim in S as [A B]; [|exact HV|exact HI]. cbn [snd] in A, B.
  split; [now apply (grows_trans _ s)|]. intros X. unfold step in *. rewrite (B (grows_good _ _ G X)). rewrite S0 in H. exact H.
Qed.
Lemma iterate_lim K l : vok (k_view K) -> forall st t, iok (r_io st) -> iterate E K l st = Ok t ->
  grows (r_io st) (r_io t) /\ (good (r_io t) -> iterate E (nconst K) l st = Ok t).
Proof.
  intros HV. induction l as [|i l IH]; intros st t HI H; cbn [iterate] in *; [injection H as <-; split; [apply grows_refl|reflexivity]|].
  peel H. apply step_lim in E0 as [A B]; [|exact HV|exact HI]. apply IH in H as [C D]; [|now apply A]. split; [now apply (grows_trans _ (r_io a))|].
  intros X. rewrite (B (grows_good _ _ C X)). now apply D.
Qed.
Lemma execute_lim K st t : vok (k_view K) -> iok (r_io st) -> execute E K st = Ok t ->
  grows (r_io st) (r_io t) /\ (good (r_io t) -> execute E (nconst K) st = Ok t).
Proof.
  intros HV HI H. unfold execute in *. cbn [nconst k_opts]. peel H. pose proof E0 as I0. apply iterate_lim in I0 as [A B]; [|exact HV|exact HI].
  destruct (_ <=? 1); [discriminate|]. peel H. peel H. injection H as <-. cbn [r_io]. split; [exact A|]. intros X. rewrite (B X). cbn [bind].
  change (logged (nconst K) a) with (logged K a). rewrite E1. cbn [bind]. rewrite E2. reflexivity.
Qed.

(** ** Declarations and initialisation *)
Definition lim (p q : param F) : Prop :=
  a_sample p = a_sample q /\ (a_sample q = true -> nle (a_min p) (a_max p) = true /\ wl (a_min p) (a_min q) /\ wu (a_max p) (a_max q)).
Definition nopen (op : opened F) : opened F :=
  mkopened (op_names op) (op_initial op) (op_value op) (op_parind op) (op_adapt op) (op_no_adapt op) (map (@a_min F) ps) (map (@a_max F) ps) (op_mu op) (op_sigma op).
Notation opened_of qs := (check_prior_sigma (openparameterstructure qs)).
Lemma relimit_map {A} (f : param F -> A) qs : (forall p q, f (mkparam (a_name q) (a_theta0 q) (a_min p) (a_max p) (a_mu q) (a_sigma q) (a_sample q) (a_adapt q)) = f q) ->
  List.length ps = List.length qs -> map f (relimit ps qs) = map f qs.
Proof.
  intros Hf. unfold relimit. revert qs. induction ps as [|p l IH]; intros [|q qs] H; cbn [List.length] in H; try discriminate; [reflexivity|]. cbn [map2 map]. rewrite Hf, IH; [reflexivity|now injection H].
Qed.
Lemma relimit_min qs : List.length ps = List.length qs -> map (@a_min F) (relimit ps qs) = map (@a_min F) ps.
Proof. unfold relimit. revert qs. induction ps as [|p l IH]; intros [|q qs] H; cbn [List.length] in H; try discriminate; [reflexivity|]. cbn [map2 map a_min]. rewrite IH; [reflexivity|now injection H]. Qed.
Lemma relimit_max qs : List.length ps = List.length qs -> map (@a_max F) (relimit ps qs) = map (@a_max F) ps.
Proof. unfold relimit. revert qs. induction ps as [|p l IH]; intros [|q qs] H; cbn [List.length] in H; try discriminate; [reflexivity|]. cbn [map2 map a_max]. rewrite IH; [reflexivity|now injection H]. Qed.
Lemma lim_length qs : Forall2 lim ps qs -> List.length ps = List.length qs.
Proof. induction 1; cbn; congruence. Qed.
Lemma lim_sample qs : Forall2 lim ps qs -> map (@a_sample F) qs = map (@a_sample F) ps.
Proof. induction 1 as [|p q l m [H _] _ IH]; [reflexivity|]. cbn. now rewrite H, IH. Qed.
Lemma open_relimit qs : List.length ps = List.length qs -> openparameterstructure (relimit ps qs) = nopen (openparameterstructure qs).
Proof.
  intros H. unfold openparameterstructure. rewrite (relimit_map (@a_sample F) qs), (relimit_map (fun p => setup_adapting (a_adapt p) (a_sample p)) qs), (relimit_map (@a_name F) qs), (relimit_map (@a_theta0 F) qs),
    (relimit_map (fun p => setup_prior_mu (a_mu p) (a_theta0 p)) qs), (relimit_map (fun p => setup_prior_sigma (a_sigma p)) qs), relimit_min, relimit_max by (auto; reflexivity). reflexivity.
Qed.
Lemma vok_open qs : Forall2 lim ps qs -> vok (view (opened_of qs)).
Proof.
  intros H. unfold vok, view. cbn [v_parind v_npar v_lower v_upper check_prior_sigma openparameterstructure setup_adaptation_indices op_parind op_lower op_upper].
  rewrite (lim_sample _ H). split; [reflexivity|]. split; [reflexivity|]. unfold sel.
  assert (X : forall i, In i pi -> exists p q, nth_error ps i = Some p /\ nth_error qs i = Some q /\ lim p q /\ a_sample q = true).
  { intros i Hi. apply flatnonzero_spec in Hi. rewrite nth_error_map in Hi. clear -H Hi. revert i Hi. induction H as [|p q l m Hl _ IH]; intros [|i] Hi; cbn in *; try discriminate.
    - exists p, q. injection Hi as Hi. destruct Hl as [A B]. repeat split; try reflexivity; try assumption; try apply B; congruence. - now apply IH. }
  assert (Y : forall (R : F -> F -> Prop) (f : param F -> F), (forall p q, lim p q -> a_sample q = true -> R (f p) (f q)) -> forall ix, (forall i, In i ix -> In i pi) ->
    Forall2 R (map (fun i => nth i (map f ps) n0) ix) (map (fun i => nth i (map f qs) n0) ix)).
  { intros R f HR. induction ix as [|i ix IH]; intros HI; [constructor|]. cbn [map]. constructor; [|apply IH; intros j Hj; apply HI; now right].
    destruct (X i (HI i (or_introl eq_refl))) as (p & q & A & B & C & D).
    rewrite (nth_error_nth _ _ n0 (map_nth_error f i ps A)), (nth_error_nth _ _ n0 (map_nth_error f i qs B)). now apply HR. }
  split; apply Y; auto; intros p q [_ A] B; now apply A.
Qed.
Lemma limits_lim qs : Forall2 lim ps qs -> check_parameter_limits (nopen (openparameterstructure qs)) = Ok tt.
Proof.
  intros H. unfold check_parameter_limits. cbn [nopen op_lower op_upper openparameterstructure setup_adaptation_indices op_parind].
  replace (forallb _ _) with true; [reflexivity|]. symmetry. rewrite (lim_sample _ H).
  assert (X : forall ix, (forall i, In i ix -> In i pi) -> forallb (fun b => b) (map2 nle (sel (map (@a_min F) ps) ix) (sel (map (@a_max F) ps) ix)) = true).
  { induction ix as [|i ix IH]; intros HI; [reflexivity|]. cbn [sel map map2 forallb]. apply andb_true_iff. split; [|apply IH; intros j Hj; apply HI; now right].
    pose proof (HI i (or_introl eq_refl)) as Hi. apply flatnonzero_spec in Hi. rewrite nth_error_map in Hi. clear -H Hi. revert i Hi.
    induction H as [|p q l m [A B] _ IH]; intros [|i] Hi; cbn in *; try discriminate; [|now apply IH]. apply B. injection Hi as Hi. congruence. }
  apply X. auto.
Qed.
Definition ninit (I : initrec F) : initrec F := mkinit (i_opts I) (i_model I) (nopen (i_op I)) (i_cov I) (i_set I) (i_nsos I) (i_iacce I) (i_io I).
Lemma init_lim qs d ms o rdr pos calls I : Forall2 lim ps qs -> initialize_simulation E qs d ms o rdr pos calls = Ok I ->
  i_op I = opened_of qs /\ iok (i_io I) /\ (exists l, io_calls (i_io I) = l ++ calls) /\
  (good (i_io I) -> initialize_simulation E (relimit ps qs) d ms o rdr pos calls = Ok (ninit I)).
Proof.
  intros H HI. unfold initialize_simulation in *. peel HI. peel HI. peel HI. peel HI.
  rewrite (open_relimit qs (lim_length _ H)). rewrite E0. cbn [bind]. rewrite (limits_lim qs H). cbn [bind].
  change (check_prior_sigma (nopen (openparameterstructure qs))) with (nopen (opened_of qs)).
  change (op_initial (nopen ?q)) with (op_initial q). change (op_parind (nopen ?q)) with (op_parind q). change (op_sigma (nopen ?q)) with (op_sigma q). change (op_no_adapt (nopen ?q)) with (op_no_adapt q).
  set (theta0 := sel (op_initial (opened_of qs)) (op_parind (opened_of qs))) in *. rewrite E3. cbn [bind].
  change (evaluate_sos_function E (view (nopen (opened_of qs)))) with (evaluate_sos_function E (view (opened_of qs))).
  change (evaluate_prior E (view (nopen (opened_of qs)))) with (evaluate_prior E (view (opened_of qs))).
  destruct (evaluate_sos_function E (view (opened_of qs)) theta0 _) as [ss s1] eqn:S. peel HI. injection HI as <-. cbn [i_op i_io].
  assert (IK : iok (mkio pos (op_initial (opened_of qs)) calls)).
  { unfold iok. cbn [io_value check_prior_sigma openparameterstructure setup_adaptation_indices op_initial]. rewrite map_length. symmetry. now apply lim_length. }
  destruct (sos_grows _ _ _ _ _ S) as [[G1 G2] _]. split; [reflexivity|]. split; [now apply G1|]. split; [exact G2|].
  intros G. assert (PV : check_initial_values (nopen (openparameterstructure qs)) = Ok tt).
  { unfold check_initial_values. cbn [nopen op_initial op_parind op_lower op_upper].
    assert (O : is_sample_outside_bounds theta0 lo up = false).
    { apply (sos_inside _ _ _ _ _ s1 (vok_open qs H) IK) with (3 := grows_refl s1) (4 := G) in S; [exact S|]. unfold theta0, sel. now rewrite map_length. }
    unfold is_sample_outside_bounds in O. assert (HP : op_parind (openparameterstructure qs) = pi) by (cbn [openparameterstructure setup_adaptation_indices op_parind]; now rewrite (lim_sample _ H)).
    replace (sel (map (@a_min F) ps) (op_parind (openparameterstructure qs))) with lo by (now rewrite HP). replace (sel (map (@a_max F) ps) (op_parind (openparameterstructure qs))) with up by (now rewrite HP).
    change (sel (op_initial (openparameterstructure qs)) (op_parind (openparameterstructure qs))) with theta0. rewrite O. reflexivity. }
  rewrite PV. cbn [bind]. rewrite E4. reflexivity.
Qed.

(** ** Runs and sessions *)
Definition lok (m : mcmc F) : Prop := Forall2 lim ps (m_params m).
Definition mgood (m : mcmc F) : Prop := Forall (within_limits ps) (m_calls m).
Lemma parind_lim qs : Forall2 lim ps qs -> op_parind (opened_of qs) = pi.
Proof. intros H. cbn [check_prior_sigma openparameterstructure setup_adaptation_indices op_parind]. now rewrite (lim_sample _ H). Qed.
Lemma prepared_lim m qs I i x m2 : Forall2 lim ps qs -> i_op I = opened_of qs -> iok (i_io I) -> run_prepared E m qs I i x = Ok m2 ->
  m_params m2 = qs /\ (exists l, m_calls m2 = l ++ io_calls (i_io I)) /\
  (mgood m2 -> run_prepared E (session_relimit ps m) (relimit ps qs) (ninit I) i x = Ok (session_relimit ps m2)).
Proof.
  intros H HO HI HR. destruct x as [[[c ss] s2] l]. unfold run_prepared in *. peel HR. assert (Q : forall a b : mcmc F, Ok a = Ok b -> b = a) by (intros a0 b0 Q; now injection Q). apply Q in HR. clear Q. subst m2. cbn [m_params m_calls]. rename a into t.
  assert (VO : vok (k_view (make_const I l))) by (cbn [make_const k_view]; rewrite HO; now apply vok_open).
  assert (IS : iok (r_io (start_state I i c ss s2 (m_fs m)))) by exact HI.
  destruct (execute_lim _ _ _ VO IS E0) as [[_ G] X]. split; [reflexivity|]. split; [exact G|]. intros MG.
  change (start_state (ninit I) i c ss s2 (m_fs (session_relimit ps m))) with (start_state I i c ss s2 (m_fs m)).
  assert (KE : make_const (ninit I) l = nconst (make_const I l)).
  { unfold make_const, nconst, nview, ninit. cbn [i_opts i_op i_nsos i_model k_opts k_view k_nsos k_N0 k_N k_alias k_chains]. f_equal. unfold view, nopen.
    cbn [op_parind op_lower op_upper op_mu op_sigma v_npar v_parind v_mu v_sigma]. now rewrite HO, (parind_lim qs H). }
  rewrite KE, (X MG). cbn [bind]. unfold session_relimit.
  cbn [m_params m_data m_model m_opts m_RDR m_status m_chain m_sschain m_s2chain m_index m_chains m_pos m_calls m_fs m_results m_trace option_map]. f_equal.
  change (i_opts (ninit I)) with (i_opts I). change (i_model (ninit I)) with (i_model I). f_equal. f_equal. unfold generate_results, results_relimit.
  cbn [ninit nopen i_op i_opts op_lower op_upper op_parind op_names op_value rr_theta rr_parind rr_total_rejected rr_outside rr_R rr_qcov rr_cov rr_mean rr_names rr_allnames rr_nsimu rr_iacce rr_opts rr_model rr_chain rr_sschain rr_s2chain].
  assert (HP : op_parind (i_op I) = pi) by (rewrite HO; now apply parind_lim). f_equal; rewrite HP; [apply (sel_filter (@a_min F))|apply (sel_filter (@a_max F))].
Qed.
Lemma restart_lim name v qs : Forall2 lim ps qs -> Forall2 lim ps (map (restart_one name v) qs) /\ map (restart_one name v) (relimit ps qs) = relimit ps (map (restart_one name v) qs).
Proof.
  unfold relimit. induction 1 as [|p q l m Hl _ [A B]]; [split; [constructor|reflexivity]|]. cbn [map map2]. rewrite B. split.
  - constructor; [|exact A]. unfold restart_one, lim in *. destruct (String.eqb _ _); exact Hl.
  - f_equal. unfold restart_one. cbn [a_name]. destruct (String.eqb name (a_name q)); reflexivity.
Qed.
Lemma loop_lim names theta ix : forall ii qs rs, Forall2 lim ps qs -> results_to_params_loop ii names theta ix qs = Ok rs ->
  Forall2 lim ps rs /\ results_to_params_loop ii names theta ix (relimit ps qs) = Ok (relimit ps rs).
Proof.
  induction ix as [|i ix IH]; intros ii qs rs H HR; cbn [results_to_params_loop] in *; [injection HR as <-; auto|].
  peel HR. rewrite E0. cbn [bind]. peel HR. rewrite E1. cbn [bind]. destruct (restart_lim a a0 qs H) as [A B]. rewrite B. now apply IH.
Qed.
Lemma run_lim u m m2 : lok m -> run_simulation E u m = Ok m2 ->
  lok m2 /\ (exists l, m_calls m2 = l ++ m_calls m) /\ (mgood m2 -> run_simulation E u (session_relimit ps m) = Ok (session_relimit ps m2)).
Proof.
  intros H HR. unfold run_simulation in *. cbn [session_relimit m_params m_data m_model m_opts m_RDR m_status m_index m_pos m_calls m_results].
  assert (DONE : forall qs o I i x, Forall2 lim ps qs -> initialize_simulation E qs (m_data m) (m_model m) o (m_RDR m) (m_pos m) (m_calls m) = Ok I ->
    run_prepared E m qs I i x = Ok m2 -> lok m2 /\ (exists l, m_calls m2 = l ++ m_calls m) /\
    (mgood m2 -> initialize_simulation E (relimit ps qs) (m_data m) (m_model m) o (m_RDR m) (m_pos m) (m_calls m) = Ok (ninit I) /\
                 run_prepared E (session_relimit ps m) (relimit ps qs) (ninit I) i x = Ok (session_relimit ps m2))).
  { intros qs o I i x Hq HI HP. destruct (init_lim qs _ _ _ _ _ _ _ Hq HI) as (A & B & [l1 C] & D). destruct (prepared_lim m qs I i x m2 Hq A B HP) as (P & [l2 Q] & R).
    split; [unfold lok; now rewrite P|]. split; [exists (l2 ++ l1); now rewrite Q, C, app_assoc|]. intros G. split; [|now apply R]. apply D. unfold good, mgood in *. rewrite Q in G. apply Forall_app in G. apply G. }
  destruct u.
  - destruct (m_status m); [|discriminate]. destruct (m_results m) as [r|]; [|discriminate]. cbn [option_map].
    peel HR. peel HR. peel HR. unfold results_to_params in *. cbn [restart_of rs_names rs_theta rs_parind results_relimit rr_names rr_theta rr_parind] in *.
    apply loop_lim in E0 as [A B]; [|exact H]. destruct (DONE _ _ _ _ _ A E1 HR) as (P & Q & R). split; [exact P|]. split; [exact Q|]. intros G. rewrite B. cbn [bind].
    destruct (R G) as [R1 R2]. rewrite R1. cbn [bind]. change (expand_chains (session_relimit ps m) (ninit a0)) with (expand_chains m a0). rewrite E2. exact R2.
  - destruct (o_restart (m_opts m)) as [r|].
    + peel HR. destruct a as [qs o]. peel E0. injection E0 as <- <-. peel HR. peel HR. unfold results_to_params in *.
      apply loop_lim in E1 as [A B]; [|exact H]. destruct (DONE _ _ _ _ _ A E0 HR) as (P & Q & R). split; [exact P|]. split; [exact Q|]. intros G. rewrite B. cbn [bind].
      destruct (R G) as [R1 R2]. rewrite R1. cbn [bind]. change (initialize_chains (ninit a0)) with (initialize_chains a0). change (i_model (ninit a0)) with (i_model a0). rewrite E2. exact R2.
    + cbn [bind] in *. peel HR. peel HR. destruct (DONE _ _ _ _ _ H E0 HR) as (P & Q & R). split; [exact P|]. split; [exact Q|]. intros G.
      destruct (R G) as [R1 R2]. rewrite R1. cbn [bind]. change (initialize_chains (ninit a)) with (initialize_chains a). change (i_model (ninit a)) with (i_model a). rewrite E1. exact R2.
Qed.
Lemma acts_lim l : forall m m2, lok m -> acts E l m = Ok m2 ->
  lok m2 /\ (exists k, m_calls m2 = k ++ m_calls m) /\ (mgood m2 -> acts E l (session_relimit ps m) = Ok (session_relimit ps m2)).
Proof.
  induction l as [|a l IH]; intros m m2 H HA; cbn [acts] in *; [injection HA as <-; split; [exact H|]; split; [now exists []|reflexivity]|].
  peel HA. rename a0 into m1.
  assert (X : lok m1 /\ (exists k, m_calls m1 = k ++ m_calls m) /\ (mgood m1 -> act E a (session_relimit ps m) = Ok (session_relimit ps m1))).
  { destruct a as [o|ms|u]; cbn [act] in *; [| |now apply run_lim]; injection E0 as <-; (split; [exact H|]); (split; [now exists []|reflexivity]). }
  destruct X as (A & [k B] & C). apply IH in HA as (P & [k2 Q] & R); [|exact A]. split; [exact P|]. split; [exists (k2 ++ k); now rewrite Q, B, app_assoc|].
  intros G. rewrite C; [now apply R|]. unfold mgood in *. rewrite Q in G. apply Forall_app in G. apply G.
Qed.
End Limits.
