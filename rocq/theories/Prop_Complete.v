(** Property C88: well-formed problems run to the end. *)

From Coq Require Import ZArith QArith Bool Lia List String Reals Lra.
From Verif Require Import Base Num Samplers Adapt Settings Simulator RunSpec SamplerFacts RVec RMat StatSpec StatsFacts CompleteSpec CompleteFacts CompleteRun CompleteResume DemoRealRun.
Import ListNotations.
Close Scope Q_scope.
Open Scope list_scope.
Open Scope string_scope.

(** ** C88 *)

(** A fresh run of a well-formed problem comes to its end: it never raises.  If neither the estimation of error
    variances is requested nor N0 is given, it returns. *)
Theorem C88_well_formed_runs_complete :
  forall (F : Type) (NF : Num F) (E : env F) m nsos,
  well_formed E (m_params m) (m_data m) (m_model m) (m_opts m) (m_fs m) nsos ->
  comes_to_end (o_updatesigma (m_opts m) = true \/ ms_N0 (m_model m) <> None) (run_simulation E false m).
Proof.
  intros F NF E m nsos W. pose proof (fine_fresh E m nsos W) as X. unfold comes_to_end.
  destruct (run_simulation E false m) as [a|e]; [left; eauto|]. destruct e; try contradiction X. right. split; [exact X|reflexivity].
Qed.
Print Assumptions C88_well_formed_runs_complete.

Theorem C88_without_variances :
  forall (F : Type) (NF : Num F) (E : env F) m nsos,
  well_formed E (m_params m) (m_data m) (m_model m) (m_opts m) (m_fs m) nsos ->
  o_updatesigma (m_opts m) = false -> ms_N0 (m_model m) = None -> exists m', run_simulation E false m = Ok m'.
Proof.
  intros F NF E m nsos W H1 H2. destruct (C88_well_formed_runs_complete F NF E m nsos W) as [X|[[X|X] _]]; [exact X|congruence|congruence].
Qed.
Print Assumptions C88_without_variances.

(** So does any number of continuations, each with options of its own. *)
Theorem C88_continued_runs_complete :
  forall (F : Type) (NF : Num F) (E : env F) ps d ms o pos l nsos os,
  well_formed E ps d ms o l nsos -> can_continue ps d ms o nsos -> Forall (next_options E ps) os ->
  comes_to_end True (acts E (Run false :: continued os) (new_mcmc ps d ms o pos l)).
Proof.
  intros F NF E ps d ms o pos l nsos os W C HO. set (m := new_mcmc ps d ms o pos l).
  assert (X : fine True (fun _ => True) (acts E (Run false :: continued os) m)).
  { cbn [acts act]. pose proof (fine_fresh E m nsos W) as X. destruct (run_simulation E false m) as [m'|e] eqn:Hm.
    - cbn [bind fine] in *. destruct X as ((X1 & X2 & X3) & X4). destruct (X3 (cc_sigma _ _ _ _ _ C)) as (X5 & X6). destruct (X4 C) as [X7 X8].
      eapply fine_weaken; [apply (fine_continued E ps d ms o nsos (proj1 W) C os HO m')|auto].
      split; [|split; [exact X1|split; [exact X2|split; [exact X5|split; [exact X6|split; [exact X7|exact X8]]]]]].
      exists d, ms, o, pos, l, [Run false]. cbn [acts act]. fold m. rewrite Hm. reflexivity.
    - destruct e; try contradiction X. exact I. }
  unfold comes_to_end. destruct (acts _ _ _) as [a|e]; [left; eauto|]. destruct e; try contradiction X. right. split; [exact I|reflexivity].
Qed.
Print Assumptions C88_continued_runs_complete.

Open Scope R_scope.

(** Over the reals the condition on the inverses is met by any factorisation with a positive diagonal and any
    solver for triangular systems. *)
Definition triangle (n : nat) (M : list (list XR)) : Prop :=
  exists f, M = finm (table n n f) /\ upper_triangular n f /\ forall i, (i < n)%nat -> f i i <> 0.
Record exact_algebra (E : env XR) (n : nat) : Prop := mkexact {
  ea_chol : forall A L, square n A -> e_chol E A = Some L ->
    exists f, L = finm (table n n f) /\ (forall i j, (i < j)%nat -> (j < n)%nat -> f i j = 0) /\ forall i, (i < n)%nat -> 0 < f i i;
  ea_inv : forall M, triangle n M -> e_inv E M <> None
}.

Lemma triangle_scaled n c M : c <> 0 -> triangle n M -> triangle n (mscale (Fin c) M).
Proof.
  intros Hc (f & -> & H1 & H2). rewrite mscale_tab. eexists. split; [reflexivity|]. split.
  - intros i j Hi Hj. rewrite (H1 i j Hi Hj). ring.
  - intros i Hi H. apply Rmult_integral in H as [H|H]; [exact (H2 i Hi H)|exact (Hc H)].
Qed.
Lemma scale_finite n (a : option XR) : (0 < n)%nat -> (forall x, a = Some x -> exists r, x = Fin r) ->
  exists c, check_adascale a n = Fin c /\ c <> 0.
Proof.
  intros Hn Ha.
  assert (HI : 0 < INR n) by (apply lt_0_INR; exact Hn).
  assert (D : exists c, nmul (nQ (24 # 10)) (ninv (nsqrt (nnat n))) = (Fin c : XR) /\ c <> 0).
  { assert (H0 : 0 < sqrt (INR n)) by (apply sqrt_lt_R0; exact HI).
    assert (X : nsqrt (nnat n) = (Fin (sqrt (INR n)) : XR)) by (rewrite XR_nnat; apply XR_nsqrt; lra).
    rewrite X, XR_ninv by lra. change (nQ (24 # 10)) with (Fin (Q2R (24 # 10)) : XR). rewrite XR_nmul. eexists. split; [reflexivity|].
    assert (0 < / sqrt (INR n)) by (apply Rinv_0_lt_compat; exact H0). assert (0 < Q2R (24 # 10)) by (unfold Q2R; cbn; lra). nra. }
  unfold check_adascale. destruct a as [x|]; [|exact D]. destruct (nle x n0) eqn:Hx; [exact D|].
  destruct (Ha x eq_refl) as [r ->]. exists r. split; [reflexivity|]. intros ->.
  unfold n0 in Hx. cbn [nle nQ Num_X xle ale aQ Arith_R] in Hx. rewrite q0 in Hx. unfold Rleb in Hx. destruct (Rle_dec 0 0); [discriminate|lra].
Qed.

Lemma map_by_position {A} (h : nat -> A) ix : map h ix = map (fun k => h (nth k ix 0%nat)) (seq 0 (List.length ix)).
Proof.
  induction ix as [|a ix IH]; [reflexivity|]. cbn [List.length seq map nth]. f_equal. rewrite <- seq_shift, map_map. exact IH.
Qed.

Theorem C88_delayed_rejection_over_the_reals :
  forall (E : env XR) ps o drscale, let n := List.length (positions ps) in
  (0 < n)%nat -> exact_algebra E n -> o_drscale o = fin drscale -> Forall (fun d => d <> 0) drscale ->
  (forall a, o_adascale o = Some a -> exists r, a = Fin r) ->
  (forall l, o_RDR o = Some l -> l <> [] /\ (o_ntry o <= List.length l)%nat /\ Forall (fun P => square n P /\ triangle n P) l) ->
  (as_vector (start_covariance ps o) -> forall i, In i (positions ps) -> exists v, nth i (List.concat (start_covariance ps o)) n0 = Fin v /\ 0 < v) ->
  (forall i, positions ps = [i] -> exists v, nth i (nth i (start_covariance ps o) []) n0 = Fin v /\ 0 < v) ->
  inverses E n o (start_covariance ps o) (positions ps) (triangle n).
Proof.
  intros E ps o drscale n Hn [HC HI] Hd Hnz Ha Hr Hv Hs.
  assert (CT : forall A L, square n A -> e_chol E A = Some L -> triangle n (transpose L)).
  { intros A L H1 H2. destruct (HC A L H1 H2) as (f & -> & H3 & H4). rewrite transpose_tab by exact Hn. eexists. split; [reflexivity|]. split.
    - intros i j Hi Hj. apply H3; auto.
    - intros i Hi. specialize (H4 i Hi). lra. }
  assert (NZ : NoDup (positions ps)) by apply flatnonzero_NoDup.
  constructor; auto.
  - intros R HR. destruct HR as [V|i Hi|L HL].
    + assert (P : exists g, forall k, (k < n)%nat -> nth (nth k (positions ps) 0%nat) (List.concat (start_covariance ps o)) n0 = Fin (g k) /\ 0 < g k).
      { exists (fun k => match nth (nth k (positions ps) 0%nat) (List.concat (start_covariance ps o)) n0 with Fin v => v | _ => 1 end).
        intros k Hk. destruct (Hv V (nth k (positions ps) 0%nat)) as (v & -> & H); [apply nth_In; exact Hk|]. auto. }
      destruct P as [g Hg]. exists (fun a b => if (a =? b)%nat then sqrt (g a) else 0). split.
      * rewrite finm_table, map_by_position. apply map_ext_in. intros a Ha'. apply in_seq in Ha' as [_ Ha']. cbn [plus] in Ha'.
        rewrite fin_vtab, map_by_position. apply map_ext_in. intros b Hb. apply in_seq in Hb as [_ Hb]. cbn [plus] in Hb.
        destruct (Hg a Ha') as [G1 G2]. destruct (Nat.eqb_spec a b) as [->|Hab].
        -- rewrite Nat.eqb_refl, G1. apply XR_nsqrt. lra.
        -- destruct (Nat.eqb_spec (nth a (positions ps) 0%nat) (nth b (positions ps) 0%nat)) as [H|H].
           ++ exfalso. apply Hab. exact (proj1 (NoDup_nth (positions ps) 0%nat) NZ a b Ha' Hb H).
           ++ assert (Z : (n0 : XR) = Fin 0) by (unfold n0; cbn [nQ Num_X aQ Arith_R]; f_equal; exact q0). rewrite Z, XR_nsqrt by lra. now rewrite sqrt_0.
      * split; [intros i j _ H; destruct (Nat.eqb_spec i j); [lia|reflexivity]|]. intros i H. rewrite Nat.eqb_refl. destruct (Hg i H) as [_ G2]. apply Rgt_not_eq, sqrt_lt_R0, G2.
    + destruct (Hs i Hi) as (v & -> & Hpos). assert (n = 1%nat) as N1 by (unfold n; rewrite Hi; reflexivity). rewrite N1.
      exists (fun _ _ => sqrt v). split; [rewrite XR_nsqrt by lra; reflexivity|]. split; [intros a b Ha1 Hb1; lia|]. intros. apply Rgt_not_eq, sqrt_lt_R0, Hpos.
    + (* the restriction of a covariance is square *)
      eapply CT; [|exact HL]. split; [apply map_length|]. apply Forall_forall. intros r H. apply in_map_iff in H as (? & <- & _). apply map_length.
  - intros M _ HM. destruct (scale_finite n (o_adascale o) Hn Ha) as (c & -> & Hc). apply triangle_scaled; auto.
  - intros M d _ HM Hin. rewrite Hd in Hin. unfold fin in Hin. apply in_map_iff in Hin as (x & <- & Hx).
    pose proof (proj1 (Forall_forall _ _) Hnz x Hx) as Hx0. cbv beta in Hx0. rewrite XR_ninv by exact Hx0. apply triangle_scaled; [|exact HM]. now apply Rinv_neq_0_compat.
Qed.
Print Assumptions C88_delayed_rejection_over_the_reals.

(** Two sampled parameters and a fixed one, delayed rejection with adaptation at every second step, blocks of 3 rows
    in binary files, whatever the sum of squares and the random numbers are. *)
Definition pair_params : list (param XR) :=
  [mkparam "a" (Fin 0) NInf PInf (Fin 0) PInf true true; mkparam "c" (Fin 5) (Fin 9) (Fin 1) (Fin 0) PInf false true;
   mkparam "b" (Fin 1) NInf PInf (Fin 0) PInf true true].
Definition pair_opts (nsimu : nat) (us bin : bool) : simopts XR :=
  define_simulation_options
    (mkraw nsimu DRAM (Some 2%Z) None None None None 0%Z 0%Z (Some (finm [[4; 0; 1]; [0; 9; 0]; [1; 0; 2]])) None us (Fin (1 / 1000)) (Fin 10)
       (Fin (234 / 1000)) (Fin (7 / 10)) (fin [5; 4; 3]) None 3%Z
       "chainfile" "sschainfile" "s2chainfile" "covchainfile" (Some "log"%string) bin true false false None None) "".
Definition pair_env (sos : list XR -> list XR) (str : stream XR) : env XR := mkenv sos default_priorfun str real_chol real_inv 10.
Definition pair_model : modset XR := define_model_settings (Some [Fin 1]) None None None None.
Definition pair_data : data XR := add_data_set empty_data [] (YArray [4; 1])%nat [] None n1.

Lemma real_algebra E : e_chol E = real_chol -> e_inv E = real_inv -> exact_algebra E 2.
Proof.
  intros H1 H2. constructor.
  - rewrite H1. intros A L [A1 A2] HL. destruct A as [|r1 [|r2 [|]]]; try discriminate A1.
    inversion A2 as [|? ? L1 A3]; subst. inversion A3 as [|? ? L2 _]; subst.
    destruct r1 as [|a [|a' [|]]]; try discriminate L1. destruct r2 as [|b [|d [|]]]; try discriminate L2.
    destruct a as [a| | |]; try discriminate HL. destruct a' as [a'| | |]; try discriminate HL.
    destruct b as [b| | |]; try discriminate HL. destruct d as [d| | |]; try discriminate HL. cbn [real_chol] in HL.
    destruct (Rltb 0 a) eqn:Ea; [|discriminate HL]. destruct (Rltb 0 (d - b * b / a)) eqn:Ed; [|discriminate HL]. cbn [andb] in HL. injection HL as <-.
    unfold Rltb in *. destruct (Rlt_dec 0 a) as [Pa|]; [|discriminate]. destruct (Rlt_dec 0 (d - b * b / a)) as [Pd|]; [|discriminate].
    exists (fun i j => match i, j with O, O => sqrt a | O, _ => 0 | _, O => b / sqrt a | _, _ => sqrt (d - b * b / a) end).
    split; [reflexivity|]. split.
    + intros [|i] [|j] Hi Hj; try lia. reflexivity.
    + intros [|[|i]] Hi; try lia; apply sqrt_lt_R0; assumption.
  - rewrite H2. intros M (f & -> & H3 & H4).
    change (finm (table 2 2 f)) with [[Fin (f 0%nat 0%nat); Fin (f 0%nat 1%nat)]; [Fin (f 1%nat 0%nat); Fin (f 1%nat 1%nat)]]. cbn [real_inv].
    rewrite (H3 1%nat 0%nat) by lia.
    pose proof (H4 0%nat ltac:(lia)) as N0'. pose proof (H4 1%nat ltac:(lia)) as N1'.
    assert (D : f 0%nat 0%nat * f 1%nat 1%nat - f 0%nat 1%nat * 0 <> 0).
    { rewrite Rmult_0_r, Rminus_0_r. now apply Rmult_integral_contrapositive_currified. }
    unfold Reqb. destruct (Req_EM_T _ 0); [contradiction|discriminate].
Qed.

Lemma pair_options sos str nsimu us bin ps : map (@a_sample XR) ps = [true; false; true] -> (2 <= nsimu)%nat -> options_fit (pair_env sos str) ps (pair_opts nsimu us bin) [].
Proof.
  intros Hps Hn.
  pose proof (real_algebra (pair_env sos str) eq_refl eq_refl) as EA.
  assert (HP : positions ps = [0; 2]%nat) by (unfold positions; rewrite Hps; reflexivity).
  assert (HL : List.length ps = 3%nat) by (rewrite <- (map_length (@a_sample XR)), Hps; reflexivity).
  constructor.
  - exact Hn.
  - rewrite HP. intros A L H1 H2. destruct (ea_chol _ _ EA A L H1 H2) as (f & -> & _). split; [now rewrite finm_length, table_length|].
    rewrite finm_table. apply Forall_forall. intros r Hr. apply in_map_iff in Hr as (i & <- & _). now rewrite fin_length, vtab_length.
  - left. rewrite HL. split; [reflexivity|]. repeat constructor.
  - intros _. right. cbn [pair_env e_chol]. rewrite HP.
    change (restrict (start_covariance ps (pair_opts nsimu us bin)) [0; 2]%nat) with [[Fin 4; Fin 1]; [Fin 1; Fin 2] : list XR].
    cbn [real_chol]. unfold Rltb. destruct (Rlt_dec 0 4); [|lra]. destruct (Rlt_dec 0 (2 - 1 * 1 / 4)); [discriminate|lra].
  - intros _. split; [reflexivity|]. split; [reflexivity|]. split; [cbn; lia|discriminate].
  - intros _. exists (triangle (List.length (positions ps))). apply (C88_delayed_rejection_over_the_reals (pair_env sos str) ps (pair_opts nsimu us bin) [5; 4; 3]); rewrite ?HP.
    + cbn; lia.
    + exact EA.
    + reflexivity.
    + repeat constructor; lra.
    + intros a H. discriminate H.
    + intros l H. discriminate H.
    + intros H. discriminate H.
    + intros i H. discriminate H.
  - intros _. repeat constructor; cbn; intros H; repeat (destruct H as [H|H]; [discriminate H|]); exact H.
  - intros _ f _. reflexivity.
Qed.

(** A run of any length with binary logs is well-formed; if variances are estimated it can be continued, without
    binary logs. *)
Example C88_case : forall sos str, (forall v, List.length (sos v) = 1%nat) ->
  (forall nsimu us bin, (2 <= nsimu)%nat -> well_formed (pair_env sos str) pair_params pair_data pair_model (pair_opts nsimu us bin) [] 1) /\
  (forall nsimu bin, can_continue pair_params pair_data pair_model (pair_opts nsimu true bin) 1) /\
  (forall nsimu us, (2 <= nsimu)%nat -> next_options (pair_env sos str) pair_params (pair_opts nsimu us false)).
Proof.
  intros sos str Hs. split; [|split].
  - intros nsimu us bin Hn. split; [|split; [apply pair_options; auto|reflexivity]]. constructor.
    + eexists. split; [left; reflexivity|reflexivity].
    + intros p [<-|[<-|[<-|[]]]] H; try discriminate H; (split; [reflexivity|split; reflexivity]).
    + lia.
    + intros v _. apply Hs.
    + intros s H. injection H as <-. left. reflexivity.
    + intros s H. discriminate H.
    + left. reflexivity.
    + intros H. discriminate H.
    + intros N H. discriminate H.
    + left. reflexivity.
  - intros nsimu bin. constructor.
    + left. reflexivity.
    + repeat constructor; cbn; intros H; repeat (destruct H as [H|H]; [discriminate H|]); exact H.
    + left. reflexivity.
    + intros _ N H. discriminate H.
    + intros k Hk. assert (k = 4%nat) as -> by (destruct Hk as [<-|[]]; reflexivity). rewrite XR_nnat. assert (X : nmul n1 (Fin (INR 4)) = (Fin (INR 4) : XR)).
      { assert (Z : (n1 : XR) = Fin 1) by (unfold n1; cbn [nQ Num_X aQ Arith_R]; f_equal; exact q1). rewrite Z, XR_nmul. f_equal. lra. }
      rewrite X. assert (Y : neq (Fin (INR 4) : XR) (Fin (INR 4)) = true).
      { cbn [neq Num_X xeq aeq Arith_R]. unfold Reqb. destruct (Req_EM_T (INR 4) (INR 4)); [reflexivity|congruence]. }
      auto.
  - intros nsimu us Hn. split; [reflexivity|]. intros ps' H. apply pair_options; [|exact Hn].
    unfold pair_params in H. inversion H as [|? a ? ? Ha H1]; subst. inversion H1 as [|? b ? ? Hb H2]; subst. inversion H2 as [|? c ? ? Hc H3]; subst. inversion H3; subst.
    cbn [map]. destruct Ha as (_ & _ & _ & _ & -> & _). destruct Hb as (_ & _ & _ & _ & -> & _). destruct Hc as (_ & _ & _ & _ & -> & _). reflexivity.
Qed.
