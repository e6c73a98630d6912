(** Properties C64 and C65: what a run shows on the screen.  [line_for], [lines_for] are in DisplaySpec.v. *)

From Coq Require Import ZArith QArith Bool Lia List String Ascii Reals Lra Sorted.
From Verif Require Import Base Num Samplers Adapt Settings Simulator RunSpec RunThms RVec StatsFacts Display DisplaySpec DisplayFacts
  ProgressFacts Demo DemoRuns.
Import ListNotations.
Close Scope Q_scope.
Close Scope R_scope.
Open Scope list_scope.
Open Scope nat_scope.
Open Scope res_scope.

(** A run of adaptive Metropolis (adaptation every 4 iterations) that prints every 3 iterations. *)
Definition every3 (o : simopts XQ) : simopts XQ :=
  mkopts (o_nsimu o) (o_method o) (o_adaptint o) (o_ntry o) (o_dodram o) (o_doram o) (o_adascale o)
    (Some 3%Z) (o_lastadapt o) (o_burnintime o) (o_qcov o) (o_initqcovn o) (o_updatesigma o)
    (o_qcov_adjust o) (o_burnin_scale o) (o_alphatarget o) (o_etaparam o) (o_drscale o) (o_RDR o)
    (o_savesize o) (o_chainfile o) (o_sschainfile o) (o_s2chainfile o) (o_covchainfile o)
    (o_savedir o) (o_save_to_bin o) (o_save_to_txt o) (o_save_to_json o) (o_save_lightly o) (o_results_filename o) (o_restart o).
Definition am12_printing : mcmc XQ := with_opts (demo 12 AM) (every3 (demo_opts 12 AM)).
Definition ticks (k : nat) : Q := (inject_Z (Z.of_nat k) * (1#5))%Q.
Definition am12_shown : res (mcmc XQ * screen XQ) := Eval vm_compute in run_simulation_shown demo_env true 2 ticks false am12_printing.

(** ** C64 *)

(** Whatever is displayed, and whatever the clock says, the run is the run without display: it ends in the same object,
    or in the same error.  In particular the percentages never divide by zero.  The lines printed are those of
    [lines_for]: one after every [printint] iterations, with the figures counted on the iterations of this run. *)
Theorem C64_display_does_not_disturb :
  forall (F : Type) (NF : Num F) (E : env F) waitbar verbosity clock resumed m,
  o_nsimu (m_opts m) <> 0 ->
  (forall e, run_simulation E resumed m = Err e -> run_simulation_shown E waitbar verbosity clock resumed m = Err e) /\
  (forall m', run_simulation E resumed m = Ok m' ->
     exists sc evs, run_simulation_shown E waitbar verbosity clock resumed m = Ok (m', sc) /\
       m_trace m' = rev evs ++ m_trace m /\ List.length evs = o_nsimu (m_opts m) - 1 /\
       s_lines sc = (if (2 <=? verbosity)%Z then lines_for evs (o_adaptint (m_opts m')) (o_printint (m_opts m')) else [])).
Proof.
  intros F NF E wb v clock b m N. destruct (run_shown_eq E wb v clock b m N) as [(e & H1 & H2)|(m1 & sc & evs & H1 & H2 & H3 & H4 & H5 & _)].
  - split; intros x Hx; congruence.
  - split; [intros e He; congruence|]. intros m' Hm. assert (m' = m1) as -> by congruence. eauto 10.
Qed.
Print Assumptions C64_display_does_not_disturb.

(** The figures are percentages: numbers from 0 to 100, and the share rejected for being outside is part of the total. *)
Theorem C64_percentages :
  forall (evs : list (event XR)) adaptint printint l, In l (lines_for evs adaptint printint) ->
  exists total inside outside, l_total l = Fin total /\ l_interval l = Fin inside /\ l_outside l = Fin outside /\
    (0 <= outside <= total)%R /\ (total <= 100)%R /\ (0 <= inside <= 100)%R /\
    1 <= l_isimu l <= List.length evs /\ line_due printint (l_isimu l) = true.
Proof.
  assert (P : forall k n, 1 <= n -> k <= n -> percent k n = @Fin R (100 * (INR k / INR n))%R /\ (0 <= INR k / INR n <= 1)%R).
  { intros k n Hn Hk. assert (0 < INR n)%R by (apply lt_0_INR; lia). split.
    - unfold percent. rewrite !XR_nnat. unfold ninv. change (@n1 XR _) with (@Fin R (Q2R 1)).
      assert (D : @ndiv XR _ (Fin (Q2R 1)) (Fin (INR n)) = Fin (1 / INR n)%R).
      { change (@Fin R (Q2R 1)) with (@n1 XR _). fold (@ninv XR _ (Fin (INR n))). rewrite XR_ninv by lra. f_equal. field. lra. }
      rewrite D, XR_nmul. change (@nQ XR _ 100) with (@Fin R (Q2R 100)). rewrite XR_nmul. f_equal.
      replace (Q2R 100) with 100%R by (unfold Q2R; cbn; field). field. lra.
    - split.
      + apply Rmult_le_pos; [apply pos_INR|]. left. now apply Rinv_0_lt_compat.
      + apply (Rmult_le_reg_r (INR n)); auto. unfold Rdiv. rewrite Rmult_assoc, Rinv_l by lra. rewrite Rmult_1_r, Rmult_1_l. now apply le_INR. }
  intros evs a p l H. unfold lines_for in H. apply in_map_iff in H as (i & <- & H). apply filter_In in H as (H & D). apply in_seq in H.
  set (past := firstn i evs). assert (LP : List.length past = i) by (unfold past; rewrite firstn_length; lia).
  assert (C1 : count rejected_ev past <= i) by (rewrite <- LP; apply count_length).
  assert (C2 : count outside_ev past <= count rejected_ev past).
  { apply count_le. intros e. unfold outside_ev. intros X. apply andb_true_iff in X. tauto. }
  assert (K : 1 <= since_adapted a i <= i).
  { unfold since_adapted. destruct (Z.ltb_spec 0 a) as [Q|Q]; [|lia]. pose proof (Nat.mod_le (i - 1) (Z.to_nat a) ltac:(lia)). lia. }
  assert (C3 : count rejected_ev (skipn (i - since_adapted a i) past) <= since_adapted a i).
  { etransitivity; [apply count_length|]. rewrite skipn_length. lia. }
  destruct (P _ i ltac:(lia) C1) as (P1 & Q1). destruct (P (count outside_ev past) i ltac:(lia) ltac:(lia)) as (P2 & Q2).
  destruct (P _ _ (proj1 K) C3) as (P3 & Q3).
  eexists _, _, _. unfold line_for. fold past. cbn [l_total l_interval l_outside l_isimu]. rewrite P1, P2, P3.
  split; [reflexivity|]. split; [reflexivity|]. split; [reflexivity|].
  assert (M : (INR (count outside_ev past) / INR i <= INR (count rejected_ev past) / INR i)%R).
  { apply Rmult_le_compat_r; [left; apply Rinv_0_lt_compat, lt_0_INR; lia|]. now apply le_INR. }
  split; [split; lra|]. split; [lra|]. split; [split; lra|]. split; [lia|exact D].
Qed.
Print Assumptions C64_percentages.

Example C64_case : run_simulation_shown demo_env true 2 ticks false am12_printing = am12_shown /\
  (exists m sc, am12_shown = Ok (m, sc) /\ run_simulation demo_env false am12_printing = Ok m /\
   map (fun l => (l_isimu l, l_total l, l_interval l, l_outside l)) (s_lines sc) =
   [(3, Fin (100 # 3)%Q, Fin (100 # 3)%Q, Fin (100 # 3)%Q); (6, Fin (50 # 3)%Q, Fin 0%Q, Fin (50 # 3)%Q);
    (9, Fin (100 # 3)%Q, Fin 0%Q, Fin (100 # 9)%Q)]).
Proof.
  split; [vm_compute; reflexivity|]. eexists _, _. split; [reflexivity|]. split; vm_compute; reflexivity.
Qed.

(** ** C65 *)

(** [clock k] is the time read by the k-th call of update: at the start for k = 0, and at the beginning of iteration k.
    At that moment rows 0 .. k-1 of the chain are done.  What the bar displays during a run of [n] simulations:
    - the number shown at reading [k] is [k + 2], or [n] at the last reading;
    - the numbers never go down, and all displays are of the same total;
    - two displays in a row are more than half a second apart, except before the one that ends the run;
    - the last display comes with the last reading and shows at least [n];
    - the text between the brackets has 38 characters if the number is not above the total, or the total is above 38.
    Missing: the number can be above the total, and it is up to two ahead of the rows done (see below). *)
Theorem C65_progress_bar_partial :
  forall (F : Type) (NF : Num F) (E : env F) verbosity clock resumed m m' sc,
  run_simulation_shown E true verbosity clock resumed m = Ok (m', sc) -> o_nsimu (m_opts m) <> 0 ->
  let n := o_nsimu (m_opts m) in
  exists b, s_bar sc = Some b /\
  (forall d, In d (b_shown b) -> d_total d = n /\ 1 <= d_number d <= S n /\
     (d_number d <= n \/ 38 < n -> List.length (d_text d) = 38) /\
     exists k, k < n /\ d_seconds d = clock k /\ (d_number d = k + 2 \/ (k = n - 1 /\ d_number d = n))) /\
  StronglySorted le (map d_number (b_shown b)) /\
  (forall l x y r, b_shown b = l ++ x :: y :: r ->
     (1#2 < d_seconds y - d_seconds x)%Q \/ (r = [] /\ d_number y = n /\ d_seconds y = clock (n - 1))) /\
  exists l d, b_shown b = l ++ [d] /\ d_seconds d = clock (n - 1) /\ n <= d_number d.
Proof.
  intros F NF E v clock b m m' sc H N n. destruct (run_shown_eq E true v clock b m N) as [(e & H1 & H2)|(m1 & sc1 & evs & H1 & H2 & _ & _ & _ & D)]; [congruence|].
  assert (sc1 = sc) as -> by congruence. unfold drawn in D. destruct D as (bar & D1 & D2). exists bar. split; [auto|]. apply bar_of_run; [unfold n; lia|exact D2].
Qed.
Print Assumptions C65_progress_bar_partial.

(** With a reading every second, a run of any length ends with a display of one more than the total. *)
Theorem C65_refuted_number_within_total :
  forall (F : Type) (NF : Num F) (E : env F) resumed m m', run_simulation E resumed m = Ok m' -> o_nsimu (m_opts m) <> 0 ->
  let clock := fun k => inject_Z (Z.of_nat (S k)) in
  exists sc b d, run_simulation_shown E true 1 clock resumed m = Ok (m', sc) /\ s_bar sc = Some b /\ In d (b_shown b) /\
    d_total d = o_nsimu (m_opts m) /\ d_total d < d_number d.
Proof.
  intros F NF E b m m' H N clock. destruct (run_shown_eq E true 1 clock b m N) as [(e & H1 & H2)|(m1 & sc & evs & H1 & H2 & _ & _ & _ & D)]; [congruence|].
  destruct D as (bar & D1 & D2). destruct (bar_excess (o_nsimu (m_opts m)) ltac:(lia)) as (b0 & d & B1 & B2 & B3 & B4).
  exists sc, bar, d. assert (m1 = m') as -> by congruence. split; [auto|]. split; [auto|].
  unfold clock in D2. rewrite D2 in B1. assert (b0 = bar) as <- by congruence. split; [auto|]. split; [auto|lia].
Qed.
Print Assumptions C65_refuted_number_within_total.

Example C65_case : exists m sc b, am12_shown = Ok (m, sc) /\ s_bar sc = Some b /\
  map (fun d => (d_number d, d_total d)) (b_shown b) = [(5, 12); (8, 12); (11, 12); (12, 12)] /\
  map (fun d => Names.string_of (d_text d)) (b_shown b) =
    ["---------------  41%                  "; "-----------------66%-----             ";
     "-----------------91%--------------    "; "-----------------100%-----------------"]%string.
Proof. eexists _, _, _. split; [reflexivity|]. split; [reflexivity|]. split; vm_compute; reflexivity. Qed.
