(** Loading the results of a serial run: proofs for C72. *)

From Coq Require Import ZArith QArith Bool Lia List String.
From Verif Require Import Base Num Samplers Adapt Settings Simulator SamplerFacts RunSpec RunLift RunThms SessionFacts LogSpec LogThms LogProps
  Names ChainFiles ChainFileFacts ReadOrder Results ResultSpec ResultFacts ResultThms Parallel LoadFacts Serial.
Import ListNotations.
Close Scope Q_scope.
Open Scope list_scope.
Open Scope nat_scope.
Open Scope res_scope.

(** [f] is the only results file of a directory. *)
Definition only_json (f : string) (items : list string) : Prop :=
  In f items /\ (exists a, f = (a ++ ".json")%string) /\ forall a, In (a ++ ".json")%string items -> (a ++ ".json")%string = f.

Lemma ends_with_iff suf s : ends_with suf s = true <-> exists a, s = (a ++ suf)%string.
Proof.
  induction s as [|c s IH]; cbn [ends_with].
  - rewrite orb_false_r, String.eqb_eq. split; [intros ->; exists EmptyString; reflexivity|].
    intros ([|c a] & H); [symmetry; exact H|discriminate].
  - rewrite orb_true_iff, String.eqb_eq, IH. split.
    + intros [->|(a & ->)]; [exists EmptyString; reflexivity|exists (String c a); reflexivity].
    + intros ([|d a] & H); [left; symmetry; exact H|]. cbn in H. injection H as _ H. right. exists a. exact H.
Qed.

Lemma only_found f items jf : only_json f items -> results_file_to_load items jf = Some f.
Proof.
  intros (I & E & U). unfold results_file_to_load. destruct (find (ends_with ".json") items) as [g|] eqn:G.
  - apply find_some in G as [G1 G2]. apply ends_with_iff in G2 as (a & ->). f_equal. now apply U.
  - exfalso. apply (find_none _ _ G) in I. apply ends_with_iff in E. congruence.
Qed.

Section Load.
Context {F : Type} `{NF : Num F}.

Lemma to_array_mat (l : list (list F)) : l <> [] -> to_array (PList (map (fun r => PList (map PFloat r)) l)) = PMat l.
Proof.
  intros N. assert (AF : forall r : list F, as_floats (PList (map PFloat r)) = Ok r).
  { intros r. cbn [as_floats]. induction r as [|x r IH]; cbn [map mapM bind]; auto. now rewrite IH. }
  assert (AR : as_rows (PList (map (fun r => PList (map PFloat r)) l)) = Ok l).
  { cbn [as_rows]. clear N. induction l as [|x l IH]; cbn [map mapM]; auto. now rewrite AF, IH. }
  destruct l as [|x l]; [congruence|]. unfold to_array. rewrite AR. reflexivity.
Qed.

Lemma load_with f items jf json (L : pydict F) out : only_json f items -> json f = Some L ->
  load_serial_simulation_results items jf json out =
  if existsb (fun k => String.eqb k "chain"%string) (map fst L) then Ok (arrays_of L)
  else Ok (setkey "covchain"%string (PMat (snd (snd out)))
          (setkey "s2chain"%string (PMat (fst (snd out)))
          (setkey "sschain"%string (PMat (snd (fst out)))
          (setkey "chain"%string (PMat (fst (fst out))) (arrays_of L))))).
Proof.
  intros O J. unfold load_serial_simulation_results. rewrite (only_found f items jf O), J. cbn [of_option bind]. cbv zeta.
  rewrite map_map. cbn [fst]. reflexivity.
Qed.

Lemma load_serial_light f items jf json (L : pydict F) out : only_json f items -> json f = Some L -> lookup "chain"%string L = None ->
  exists d, load_serial_simulation_results items jf json out = Ok d /\
    lookup "chain"%string d = Some (PMat (fst (fst out))) /\ lookup "sschain"%string d = Some (PMat (snd (fst out))) /\
    lookup "s2chain"%string d = Some (PMat (fst (snd out))) /\ lookup "covchain"%string d = Some (PMat (snd (snd out))) /\
    forall k, ~ In k ["chain"; "sschain"; "s2chain"; "covchain"]%string -> lookup k d = option_map to_array (lookup k L).
Proof.
  intros O J N. rewrite (load_with f items jf json L out O J). destruct (existsb _ _) eqn:X; [apply has_chain in X; congruence|].
  eexists. split; [reflexivity|]. rewrite !lookup_setkey. repeat (split; [reflexivity|]).
  intros k K. rewrite !lookup_setkey, lookup_arrays.
  repeat match goal with |- context [String.eqb k ?s] => destruct (String.eqb_spec k s) as [->|?]; [exfalso; apply K; cbn; tauto|] end.
  reflexivity.
Qed.

Lemma load_serial_full f items jf json (L : pydict F) out : only_json f items -> json f = Some L -> lookup "chain"%string L <> None ->
  exists d, load_serial_simulation_results items jf json out = Ok d /\ forall k, lookup k d = option_map to_array (lookup k L).
Proof.
  intros O J N. rewrite (load_with f items jf json L out O J). apply has_chain in N. rewrite N.
  eexists. split; [reflexivity|]. intros k. apply lookup_arrays.
Qed.

(** The arrays in a complete results file. *)
Lemma saved_full (r : results F) L : saved r L -> o_save_lightly (rr_opts r) = false ->
  lookup "chain"%string L = Some (PList (map (fun x => PList (map PFloat x)) (rr_chain r))) /\
  lookup "sschain"%string L = Some (PList (map (fun x => PList (map PFloat x)) (rr_sschain r))) /\
  (forall s, rr_s2chain r = Some s -> lookup "s2chain"%string L = Some (PList (map (fun x => PList (map PFloat x)) s))) /\
  (rr_s2chain r = None -> lookup "s2chain"%string L = Some PNone).
Proof.
  intros (ox & mx & x & h & d & p & j & W1 & W2 & H & HL) LI. apply results_file in H; auto. cbv zeta in H.
  destruct H as (D & so & sm & _ & _ & _ & _ & _ & _ & _ & C & C1 & C2 & _ & _ & L' & HL' & _ & K).
  assert (L' = L) by congruence. subst L'. rewrite LI in K.
  assert (Q : forall k v, lookup k D = Some v -> exists w, lookup k L = Some w /\ reads_as v w).
  { intros k v V. specialize (K k). cbn [andb] in K. exact (proj2 K v V). }
  repeat split.
  - destruct (Q _ _ C) as (w & -> & R). inversion R; reflexivity.
  - destruct (Q _ _ C1) as (w & -> & R). inversion R; reflexivity.
  - intros s E. rewrite E in C2. destruct (Q _ _ C2) as (w & -> & R). inversion R; reflexivity.
  - intros E. rewrite E in C2. destruct (Q _ _ C2) as (w & -> & R). inversion R; reflexivity.
Qed.
End Load.

Section Runs.
Context {F : Type} `{NF : Num F}.
Variable E : env F.

(** The logs of a run can be read back: no earlier rows in the files and, for binary logs, starts of the blocks with the same
    number of digits (see C30). *)
Definition readable_run (h5 : bool) (m m' : mcmc F) : Prop :=
  let o := m_opts m' in
  if h5 then o_save_to_bin o = true /\
    (let s := Z.to_nat (o_savesize o) in let n := o_nsimu o in n <= s \/ same_digits (last_start s n) s) /\
    forall f M, In (f, M) (chain_files m') -> h5_sets (o_savedir o, f, "h5"%string) (m_fs m) = []
  else o_save_to_txt o = true /\ forall f M, In (f, M) (chain_files m') -> txt_rows (o_savedir o, f, "txt"%string) (m_fs m) = [].

Definition logs_of (h5 : bool) (m' : mcmc F) : logs :=
  let o := m_opts m' in
  read_in_savedir_files h5 (o_savedir o) (o_chainfile o) (o_sschainfile o) (o_s2chainfile o) (o_covchainfile o) (m_fs m').

Lemma run_logs h5 m m' : run_simulation E false m = Ok m' -> distinct_files m' -> readable_run h5 m m' ->
  fst (fst (logs_of h5 m')) = m_chain m' /\ snd (fst (logs_of h5 m')) = m_sschain m' /\
  (forall s, m_s2chain m' = Some s -> fst (snd (logs_of h5 m')) = s).
Proof.
  intros H D R. set (o := m_opts m').
  set (get := fun f => if h5 then read_in_bin_file (h5_sets (o_savedir o, f, "h5"%string) (m_fs m'))
                       else txt_rows (o_savedir o, f, "txt"%string) (m_fs m')).
  assert (G : forall f M, In (f, M) (chain_files m') -> get f = M).
  { intros f M I. unfold get. unfold readable_run in R. fold o in R. destruct h5.
    - destruct R as (R1 & R2 & R3). apply (h5_back E m m' H D R1 R2 f M I). exact (R3 f M I).
    - destruct R as (R1 & R2). pose proof (log_blocks E m m' H D) as B. cbv zeta in B.
      destruct B as (_ & _ & new & evs & bs & B1 & _ & _ & _ & _ & _ & B2). destruct (B2 R1) as (_ & B3).
      destruct (B3 f M I) as (B4 & _). rewrite B1. unfold txt_rows. rewrite map_app, List.concat_app.
      fold (txt_rows (o_savedir o, f, "txt"%string) (m_fs m)). fold (txt_rows (o_savedir o, f, "txt"%string) new).
      rewrite (R2 f M I). exact B4. }
  split; [|split].
  - change (get (o_chainfile o) = m_chain m'). apply G. cbn. auto.
  - change (get (o_sschainfile o) = m_sschain m'). apply G. cbn. auto.
  - intros s S. change (get (o_s2chainfile o) = s). apply G. unfold chain_files. rewrite S. cbn. auto.
Qed.

Lemma serial_from_logs h5 m m' R L f items jf json : run_simulation E false m = Ok m' -> distinct_files m' -> readable_run h5 m m' ->
  m_results m' = Some R -> o_save_lightly (rr_opts R) = true -> saved R L -> only_json f items -> json f = Some L ->
  exists d, load_serial_simulation_results items jf json (logs_of h5 m') = Ok d /\
    lookup "chain"%string d = Some (PMat (m_chain m')) /\ lookup "sschain"%string d = Some (PMat (m_sschain m')) /\
    (forall s, m_s2chain m' = Some s -> lookup "s2chain"%string d = Some (PMat s)) /\
    forall k, ~ In k ["chain"; "sschain"; "s2chain"; "covchain"]%string -> lookup k d = option_map to_array (lookup k L).
Proof.
  intros H D RD _ LI SV O J. destruct (run_logs h5 m m' H D RD) as (A & B & C).
  destruct (load_serial_light f items jf json L (logs_of h5 m') O J (proj1 (saved_chain _ _ SV) LI)) as (d & D1 & D2 & D3 & D4 & _ & D6).
  exists d. split; [exact D1|]. rewrite D2, A. split; [reflexivity|]. rewrite D3, B. split; [reflexivity|]. split; [|exact D6].
  intros s S. rewrite D4, (C s S). reflexivity.
Qed.

Lemma serial_from_json ps m R L f items jf json out : session E ps m -> m_status m = true ->
  m_results m = Some R -> o_save_lightly (rr_opts R) = false -> saved R L -> only_json f items -> json f = Some L ->
  exists d, load_serial_simulation_results items jf json out = Ok d /\
    lookup "chain"%string d = Some (PMat (m_chain m)) /\ lookup "sschain"%string d = Some (PMat (m_sschain m)) /\
    lookup "s2chain"%string d = Some (pyopt PMat (m_s2chain m)) /\
    forall k, lookup k d = option_map to_array (lookup k L).
Proof.
  intros S ST RR LI SV O J. apply session_minv in S as HM.
  destruct (mi_results _ _ _ HM ST) as (r & row & H1 & H2 & _ & _ & _ & _ & _ & _ & H9 & H10 & H11).
  assert (r = R) by congruence. subst r. destruct (mi_len _ _ _ HM ST) as (L1 & L2 & L3).
  destruct (load_serial_full f items jf json L out O J (proj2 (saved_chain _ _ SV) LI)) as (d & D1 & D2).
  destruct (saved_full R L SV LI) as (S1 & S2 & S3 & S4).
  exists d. split; [exact D1|]. rewrite !D2, S1, S2. cbn [option_map]. rewrite H9, H10, !to_array_mat.
  - split; [reflexivity|]. split; [reflexivity|]. split; [|exact D2].
    rewrite H11 in S3, S4. destruct (m_s2chain m) as [s|] eqn:Es; cbn [pyopt].
    + rewrite (S3 s eq_refl). cbn [option_map]. rewrite to_array_mat; [reflexivity|]. intros ->. specialize (L3 [] eq_refl). discriminate L3.
    + rewrite (S4 eq_refl). reflexivity.
  - intros Q. rewrite Q in L2. discriminate L2.
  - intros Q. rewrite Q in L1. discriminate L1.
Qed.
End Runs.
