(** The results dictionary of a run, what its file holds, and reading it for a restart. *)

From Coq Require Import ZArith QArith Bool Lia List String Ascii Permutation.
From Verif Require Import Base Num Samplers Adapt Settings Simulator Names ChainFiles Results ResultSpec SamplerFacts ResultFacts.
Import ListNotations.
Close Scope Q_scope.
Open Scope list_scope.
Open Scope nat_scope.
Open Scope res_scope.

Fixpoint distinct (l : list string) : bool :=
  match l with [] => true | x :: t => negb (mem t x) && distinct t end.
Lemma distinct_nodup l : distinct l = true -> NoDup l.
Proof.
  induction l; cbn [distinct]; [constructor|]. rewrite andb_true_iff, negb_true_iff. intros [A B]. constructor; auto.
  intros I. apply mem_in in I. congruence.
Qed.

Section T.
Context {F : Type} `{NF : Num F}.
Implicit Types (h : store F) (d : pydict F).

Lemma setkey_keys k v d : map fst (setkey k v d) = map fst d \/ (~ In k (map fst d) /\ map fst (setkey k v d) = map fst d ++ [k]).
Proof.
  induction d as [|[k' v'] t IH]; cbn; [auto|]. destruct (String.eqb_spec k k') as [->|N]; cbn; [auto|].
  destruct IH as [->|[I ->]]; [auto|]. right. split; auto. intros [X|X]; auto.
Qed.
Lemma setkey_nodup k v d : NoDup (map fst d) -> NoDup (map fst (setkey k v d)).
Proof.
  intros N. destruct (setkey_keys k v d) as [->|[I ->]]; auto.
  apply Permutation_NoDup with (k :: map fst d); [apply Permutation_cons_append|now constructor].
Qed.
Lemma lookup_setkey k k' v d : lookup k (setkey k' v d) = if String.eqb k k' then Some v else lookup k d.
Proof.
  induction d as [|[k2 v2] t IH]; cbn [setkey lookup].
  - now destruct (String.eqb k k').
  - destruct (String.eqb_spec k' k2) as [->|N]; cbn [lookup].
    + now destruct (String.eqb k k2).
    + rewrite IH. destruct (String.eqb_spec k k2) as [->|]; auto. destruct (String.eqb_spec k2 k'); congruence.
Qed.
Lemma setkey_forall (P : pyval F -> Prop) k v d : P v -> Forall (fun e => P (snd e)) d -> Forall (fun e => P (snd e)) (setkey k v d).
Proof.
  intros Pv. induction 1 as [|[k' v'] t X XT IH]; cbn [setkey]; [constructor; [exact Pv|constructor]|]. destruct (String.eqb k k'); constructor; try exact X; try exact Pv; auto.
Qed.

Definition sets (l : list (string * pyval F)) d := fold_left (fun d e => setkey (fst e) (snd e) d) l d.
Lemma sets_nodup l : forall d, NoDup (map fst d) -> NoDup (map fst (sets l d)).
Proof. induction l; intros d N; cbn; auto. apply IHl. now apply setkey_nodup. Qed.
Lemma sets_forall (P : pyval F -> Prop) l : forall d, Forall (fun e => P (snd e)) l -> Forall (fun e => P (snd e)) d -> Forall (fun e => P (snd e)) (sets l d).
Proof. induction l; intros d A B; cbn; auto. inversion A; subst. apply IHl; auto. now apply setkey_forall. Qed.
Lemma sets_app a b d : sets (a ++ b) d = sets b (sets a d).
Proof. unfold sets. now rewrite fold_left_app. Qed.
Lemma lookup_sets_out l k : forall d, ~ In k (map fst l) -> lookup k (sets l d) = lookup k d.
Proof.
  induction l as [|[k' v] t IH]; intros d N; cbn [sets fold_left]; auto. fold (sets t (setkey k' v d)).
  cbn in N. cbn [fst snd]. rewrite IH by tauto. rewrite lookup_setkey. destruct (String.eqb_spec k k'); auto. subst. tauto.
Qed.
Lemma lookup_sets l k v : forall d, NoDup (map fst l) -> lookup k l = Some v -> lookup k (sets l d) = Some v.
Proof.
  induction l as [|[k' v'] t IH]; intros d N H; cbn [lookup] in H; [discriminate|]. inversion N; subst.
  cbn [sets fold_left fst snd]. fold (sets t (setkey k' v' d)). destruct (String.eqb_spec k k') as [->|D]; auto.
  injection H as ->. rewrite lookup_sets_out by auto. rewrite lookup_setkey, String.eqb_refl. reflexivity.
Qed.

(** The dictionary at [r] is replaced; the others stay. *)
Definition updated h r d' h' := nth_error h' r = Some d' /\ (forall r', r' <> r -> forall d, nth_error h r' = Some d -> nth_error h' r' = Some d) /\ List.length h <= List.length h'.

Lemma set_nth_length {A} i (v : A) l : List.length (set_nth i v l) = List.length l.
Proof. revert i. induction l; intros [|i]; cbn; auto. Qed.
Lemma nth_error_set_nth {A} i (v : A) : forall l, i < List.length l -> nth_error (set_nth i v l) i = Some v.
Proof. induction i; intros [|x l] L; cbn in *; try lia; auto. apply IHi. lia. Qed.
Lemma nth_error_set_other {A} i j (v : A) : forall l, j <> i -> nth_error (set_nth i v l) j = nth_error l j.
Proof. revert j. induction i; intros [|j] [|x l] N; cbn; auto; try congruence. Qed.

Lemma dict_set_ok h r d k v : nth_error h r = Some d -> exists h', dict_set h r k v = Ok h' /\ updated h r (setkey k v d) h'.
Proof.
  intros E. unfold dict_set, deref. rewrite E. cbn [of_option bind]. eexists. split; [reflexivity|]. split; [|split].
  - apply nth_error_set_nth. apply nth_error_Some. congruence.
  - intros r' N d' E'. now rewrite nth_error_set_other.
  - now rewrite set_nth_length.
Qed.

Lemma updated_trans h r d1 h1 d2 h2 : updated h r d1 h1 -> updated h1 r d2 h2 -> updated h r d2 h2.
Proof. intros (A & B & C) (D & E & G). split; auto. split; [|lia]. intros r' N d X. apply E; auto. Qed.

Lemma fold_sets l : forall h r d, nth_error h r = Some d ->
  exists h', fold_left (fun acc e => let* g := acc in dict_set g r (fst e) (snd e)) l (Ok h) = Ok h' /\ updated h r (sets l d) h'.
Proof.
  induction l as [|[k v] t IH]; intros h r d E; cbn [fold_left sets].
  - exists h. split; auto. split; auto.
  - cbn [fst snd bind]. destruct (dict_set_ok h r d k v E) as (h1 & S1 & U1). rewrite S1.
    destruct (IH h1 r (setkey k v d) (proj1 U1)) as (h2 & S2 & U2). exists h2. split; auto. eapply updated_trans; eauto.
Qed.

Lemma remove_and_set h o O keys r d k : nth_error h o = Some O -> NoDup (map fst O) -> NoDup keys ->
  (forall k, In k keys -> lookup k O <> None) -> nth_error h r = Some d ->
  exists h', (let* (h1, opt) := removekeys h o keys in let* D := deref h1 opt in dict_set h1 r k (PDict D)) = Ok h' /\
             updated h r (setkey k (PDict (without keys O)) d) h'.
Proof.
  intros E N NK L E2. destruct (removekeys_ok keys h o O) as (h1 & o1 & R & K & X); auto. rewrite R. cbn [bind]. unfold deref.
  rewrite X. cbn [of_option bind]. destruct (dict_set_ok h1 r d k (PDict (without keys O))) as (h2 & S2 & (A & B & C)); [now apply K|].
  exists h2. split; auto. split; auto. split; [intros r' N' d' Y; apply B; auto|].
  assert (G : List.length h <= List.length h1); [|lia]. destruct h as [|z h]; cbn; [lia|].
  assert (Y : nth_error h1 (List.length h) <> None); [|apply nth_error_Some in Y; lia].
  destruct (nth_error (z :: h) (List.length h)) eqn:Z; [rewrite (K _ _ Z); discriminate|].
  apply nth_error_None in Z. cbn in Z. lia.
Qed.

(** ** The dictionary of a run *)

Definition dropped_options := ["doram"; "waitbar"; "debug"; "dodram"; "maxmem"; "verbosity"; "RDR"; "stats"; "initqcovn"; "drscale";
     "maxiter"; "_SimulationOptions__options_set"; "skip"]%string.
Definition dropped_model := ["sos_function"; "prior_function"; "model_function"; "prior_update_function"; "prior_pars"]%string.
Definition arrays := ["chain"; "s2chain"; "sschain"]%string.

Definition basic_entries (r : results F) (x : resextra F) : list (string * pyval F) :=
    [("theta", PArr (rr_theta r)); ("parind", PArrZ (map Z.of_nat (rr_parind r))); ("local", PArrZ (rx_local x));
     ("total_rejected", PFloat (rr_total_rejected r)); ("rejected_outside_bounds", PFloat (rr_outside r));
     ("R", PMat (rr_R r)); ("qcov", PMat (rr_qcov r)); ("cov", pyopt PMat (rr_cov r));
     ("qcov_scale", PFloat (rx_qcov_scale x)); ("mean", pyopt PArr (rr_mean r));
     ("names", PList (map PStr (rr_names r))); ("allnames", PList (map PStr (rr_allnames r)));
     ("limits", PList [PArr (rr_lower r); PArr (rr_upper r)]); ("nsimu", pynat (rr_nsimu r));
     ("simutime", PFloat (rx_simutime x)); ("qcovorig", PMat (rx_qcovorig x));
     ("original_covariance", PMat (rx_original x))]%string.
Definition dram_entries (r : results F) (x : resextra F) : list (string * pyval F) :=
  match rr_iacce r with
  | None => []
  | Some iacce => [("drscale", PArr (o_drscale (rr_opts r))); ("iacce", PArrZ iacce);
         ("alpha_count", PInt (rx_alpha_count x)); ("RDR", PList (map PMat (rx_RDR x)))]%string
  end.
Definition later_entries (O M : pydict F) (r : results F) (px : Z) (x : resextra F) : list (string * pyval F) :=
  [("simulation_options", PDict (without dropped_options O)); ("model_settings", PDict (without dropped_model M));
   ("prior", PDict [("mu", PArr (rx_mu x)); ("sigma", PArr (rx_sigma x)); ("priortype", PInt px)]);
   ("chain", PMat (rr_chain r)); ("s2chain", pyopt PMat (rr_s2chain r)); ("sschain", PMat (rr_sschain r))]%string.
Definition entries O M r px x := basic_entries r x ++ dram_entries r x ++ later_entries O M r px x.

Lemma generate_ok (O M : pydict F) r px x : NoDup (map fst O) -> NoDup (map fst M) ->
  (forall k, In k dropped_options -> lookup k O <> None) -> (forall k, In k dropped_model -> lookup k M <> None) ->
  exists h, generate_dictionary [O; M] 0 1 r px x = Ok (h, 2) /\ nth_error h 0 = Some O /\ nth_error h 1 = Some M /\
            nth_error h 2 = Some (sets (entries O M r px x) []).
Proof.
  intros NO NM LO LM. unfold generate_dictionary. cbn [List.length app].
  destruct (fold_sets (basic_entries r x) [O; M; []] 2 [] eq_refl) as (h1 & S1 & U1).
  assert (S1' : add_basic [O; M; []] 2 r x = Ok h1) by exact S1.
  rewrite S1'. cbn [bind].
  assert (D2 : exists h2, add_dram h1 2 (rr_opts r) r x = Ok h2 /\ updated h1 2 (sets (dram_entries r x) (sets (basic_entries r x) [])) h2).
  { unfold add_dram, dram_entries. destruct (rr_iacce r); [apply fold_sets; apply (proj1 U1)|]. exists h1. split; auto. split; [apply (proj1 U1)|]. split; auto. }
  destruct D2 as (h2 & S2 & U2). rewrite S2. cbn [bind].
  destruct U1 as (A1 & B1 & _). destruct U2 as (A2 & B2 & _).
  assert (KO : NoDup dropped_options) by (apply distinct_nodup; reflexivity).
  assert (KM : NoDup dropped_model) by (apply distinct_nodup; reflexivity).
  destruct (remove_and_set h2 0 O dropped_options 2 _ "simulation_options"%string (B2 0 ltac:(lia) _ (B1 0 ltac:(lia) _ eq_refl)) NO KO LO A2) as (h3 & S3 & (A3 & B3 & _)).
  unfold add_options. fold dropped_options. rewrite S3. cbn [bind].
  assert (M3 : nth_error h3 1 = Some M) by (apply B3; [lia|]; apply B2; [lia|]; apply B1; [lia|]; reflexivity).
  assert (O3 : nth_error h3 0 = Some O) by (apply B3; [lia|]; apply B2; [lia|]; apply B1; [lia|]; reflexivity).
  destruct (remove_and_set h3 1 M dropped_model 2 _ "model_settings"%string M3 NM KM LM A3) as (h4 & S4 & (A4 & B4 & _)).
  unfold add_model. fold dropped_model. rewrite S4. cbn [bind].
  destruct (dict_set_ok h4 2 _ "prior"%string (PDict [("mu", PArr (rx_mu x)); ("sigma", PArr (rx_sigma x)); ("priortype", PInt px)]%string) A4) as (h5 & S5 & (A5 & B5 & _)).
  rewrite S5. cbn [bind].
  destruct (dict_set_ok h5 2 _ "chain"%string (PMat (rr_chain r)) A5) as (h6 & S6 & (A6 & B6 & _)). rewrite S6. cbn [bind].
  destruct (dict_set_ok h6 2 _ "s2chain"%string (pyopt PMat (rr_s2chain r)) A6) as (h7 & S7 & (A7 & B7 & _)). rewrite S7. cbn [bind].
  destruct (dict_set_ok h7 2 _ "sschain"%string (PMat (rr_sschain r)) A7) as (h8 & S8 & (A8 & B8 & _)). rewrite S8. cbn [bind].
  exists h8. split; auto. split; [|split].
  - apply B8; [lia|]. apply B7; [lia|]. apply B6; [lia|]. apply B5; [lia|]. apply B4; auto.
  - apply B8; [lia|]. apply B7; [lia|]. apply B6; [lia|]. apply B5; [lia|]. apply B4; auto.
  - rewrite A8. unfold entries. rewrite !sets_app. reflexivity.
Qed.

Lemma options_keys (o : simopts F) x : NoDup (map fst (options_dict o x)) /\ forall k, In k dropped_options -> lookup k (options_dict o x) <> None.
Proof.
  split; [apply distinct_nodup; reflexivity|]. intros k I. apply lookup_in.
  assert (H : forallb (fun k => mem (map fst (options_dict o x)) k) dropped_options = true) by reflexivity.
  rewrite forallb_forall in H. apply mem_in. auto.
Qed.
Lemma model_keys (ms : modset F) x : NoDup (map fst (model_dict ms x)) /\ forall k, In k dropped_model -> lookup k (model_dict ms x) <> None.
Proof.
  split; [apply distinct_nodup; reflexivity|]. intros k I. apply lookup_in.
  assert (H : forallb (fun k => mem (map fst (model_dict ms x)) k) dropped_model = true) by reflexivity.
  rewrite forallb_forall in H. apply mem_in. auto.
Qed.

Lemma entries_nodup O M r px x : NoDup (map fst (entries O M r px x)).
Proof.
  unfold entries, dram_entries. destruct (rr_iacce r); apply distinct_nodup; reflexivity.
Qed.

Lemma wf_scalar (v : pyval F) : match v with PList _ | PDict _ => False | _ => True end -> wf v.
Proof. intros H. apply wf_other; intros ? ->; exact H. Qed.
Lemma wf_opt {A} (f : A -> pyval F) (x : option A) : (forall a, wf (f a)) -> wf (pyopt f x).
Proof. intros H. destruct x; cbn; [apply H|now apply wf_scalar]. Qed.
Lemma wf_lists {A} (f : A -> pyval F) l : (forall a, wf (f a)) -> wf (PList (map f l)).
Proof. intros H. constructor. apply Forall_map, Forall_forall. auto. Qed.

Ltac wft := repeat first [now apply wf_scalar | apply wf_opt; intros | apply wf_lists; intros].

Ltac each := repeat first [apply Forall_nil | apply Forall_cons; [cbn [snd fst]|]].

Lemma without_forall (P : pyval F -> Prop) keys d : Forall (fun e => mem keys (fst e) = false -> P (snd e)) d -> Forall (fun e => P (snd e)) (without keys d).
Proof.
  unfold without. induction 1; cbn [filter]; auto. destruct (mem keys (fst x)) eqn:E; cbn [negb]; auto.
Qed.
Lemma without_nodup keys d : NoDup (map fst d) -> NoDup (map fst (without keys d)).
Proof. apply filter_nodup. Qed.

Lemma entries_wf (o : simopts F) ms r ox mx px x : Forall wf (option_values ox) -> wf (mx_Nshape mx) ->
  wf (PDict (sets (entries (options_dict o ox) (model_dict ms mx) r px x) [])).
Proof.
  intros WO WM. constructor; [apply sets_nodup; constructor|]. apply sets_forall; [|constructor].
  unfold option_values in WO. repeat match goal with H : Forall _ (_ :: _) |- _ => inversion H; clear H; subst end.
  unfold entries. apply Forall_app; split; [|apply Forall_app; split].
  - unfold basic_entries. each; wft. apply wf_list. each; wft.
  - unfold dram_entries. destruct (rr_iacce r); each; wft.
  - unfold later_entries. each; wft.
    + apply wf_dict; [apply without_nodup, (options_keys o ox)|]. apply without_forall. unfold options_dict. each; intros X; try discriminate X; wft; auto.
    + apply wf_dict; [apply without_nodup, (model_keys ms mx)|]. apply without_forall. unfold model_dict. each; intros X; try discriminate X; wft; auto.
    + apply wf_dict; [apply distinct_nodup; reflexivity|]. each; wft.
Qed.

Lemma lookup_entries O M r px x k v : lookup k (entries O M r px x) = Some v -> lookup k (sets (entries O M r px x) []) = Some v.
Proof. apply lookup_sets, entries_nodup. Qed.

Lemma lookup_later O M r px x k v : lookup k (later_entries O M r px x) = Some v -> lookup k (sets (entries O M r px x) []) = Some v.
Proof.
  intros H. apply lookup_entries. pose proof (entries_nodup O M r px x) as N. apply In_lookup; auto.
  unfold entries. apply in_or_app. right. apply in_or_app. right. now apply lookup_In.
Qed.
Lemma lookup_basic O M r px x k v : lookup k (basic_entries r x) = Some v -> lookup k (sets (entries O M r px x) []) = Some v.
Proof.
  intros H. apply lookup_entries. pose proof (entries_nodup O M r px x) as N. apply In_lookup; auto.
  unfold entries. apply in_or_app. left. now apply lookup_In.
Qed.

(** The file name: the user's, otherwise one made from the date. *)
Definition file_name (o : simopts F) (ox : optextra F) : string :=
  match o_results_filename o with Some f => f | None => (ox_datestr ox ++ "_mcmc_simulation.json")%string end.

Lemma result_path_ok (o : simopts F) ox ms mx r px x :
  result_path (sets (entries (options_dict o ox) (model_dict ms mx) r px x) []) = Ok (path_join (o_savedir o) (file_name o ox)).
Proof.
  unfold result_path, options_of. rewrite (lookup_later _ _ _ _ _ "simulation_options"%string _ eq_refl). cbn [of_option bind].
  rewrite lookup_without. change (mem dropped_options "savedir") with false. cbv iota.
  change (lookup "savedir"%string (options_dict o ox)) with (Some (@PStr F (o_savedir o))). cbn [of_option bind].
  unfold determine_filename. rewrite !lookup_without. change (mem dropped_options "results_filename") with false. cbv iota.
  change (mem dropped_options "datestr") with false. cbv iota.
  change (lookup "results_filename"%string (options_dict o ox)) with (Some (@pyopt F _ PStr (o_results_filename o))).
  change (lookup "datestr"%string (options_dict o ox)) with (Some (@PStr F (ox_datestr ox))).
  unfold file_name. cbn [of_option bind]. destruct (o_results_filename o); reflexivity.
Qed.

Lemma reads_floats (l : list F) w : reads_as (PArr l) w -> as_floats w = Ok l.
Proof. inversion 1; subst. cbn [as_floats]. clear. induction l; cbn [map mapM]; auto. rewrite IHl. reflexivity. Qed.
Lemma reads_rows (l : list (list F)) w : reads_as (PMat l) w -> as_rows w = Ok l.
Proof.
  inversion 1; subst. cbn [as_rows]. clear. induction l as [|r t IH]; cbn [map mapM]; auto.
  rewrite (reads_floats r _ (ra_arr r)). cbn [bind]. rewrite IH. reflexivity.
Qed.
Lemma reads_indices (l : list nat) (w : pyval F) : reads_as (PArrZ (map Z.of_nat l)) w -> as_indices w = Ok l.
Proof.
  inversion 1; subst. cbn [as_indices]. clear. induction l as [|r t IH]; cbn [map mapM]; auto. rewrite IH. cbn [bind]. now rewrite Nat2Z.id.
Qed.
Lemma reads_names (l : list string) (w : pyval F) : reads_as (PList (map PStr l)) w -> as_names w = Ok l.
Proof.
  inversion 1; subst. cbn [as_names]. clear H. revert l' H1. induction l as [|s t IH]; intros l' H; inversion H; subst; cbn [mapM]; auto.
  inversion H2; subst. cbn [bind]. rewrite IH; auto.
Qed.

Lemma restart_read (D L : pydict F) r : reads_as (PDict D) (PDict L) ->
  lookup "names"%string D = Some (PList (map PStr (rr_names r))) -> lookup "parind"%string D = Some (PArrZ (map Z.of_nat (rr_parind r))) ->
  lookup "theta"%string D = Some (PArr (rr_theta r)) -> lookup "qcov"%string D = Some (PMat (rr_qcov r)) ->
  read_restart L = Ok (restart_of r).
Proof.
  inversion 1; subst. intros A B C E. unfold read_restart.
  destruct (H3 _ _ A) as (wa & -> & RA). cbn [of_option bind]. rewrite (reads_names _ _ RA). cbn [bind].
  destruct (H3 _ _ B) as (wb & -> & RB). cbn [of_option bind]. rewrite (reads_indices _ _ RB). cbn [bind].
  destruct (H3 _ _ C) as (wc & -> & RC). cbn [of_option bind]. rewrite (reads_floats _ _ RC). cbn [bind].
  destruct (H3 _ _ E) as (we & -> & RE). cbn [of_option bind]. rewrite (reads_rows _ _ RE). reflexivity.
Qed.

Lemma encode_dict_load (D : pydict F) j : wf (PDict D) -> encode (PDict D) = Ok j -> exists L, load_json_object j = Ok L /\ reads_as (PDict D) (PDict L).
Proof.
  intros W E. pose proof (encode_reads _ _ _ (Nat.lt_succ_diag_r _) W E) as R.
  rewrite encode_dict in E. destruct (mapM encode_entry D); cbn [bind] in E; [|discriminate]. injection E as <-.
  unfold load_json_object. cbn [decode] in *. eauto.
Qed.

Lemma wf_without keys d : wf (PDict d) -> wf (PDict (without keys d)).
Proof.
  inversion 1; subst; [|exfalso; eapply H1; reflexivity]. apply wf_dict; [now apply without_nodup|].
  apply without_forall. eapply Forall_impl; [|exact H2]. auto.
Qed.

(** What is in memory and on disk after a run. *)
Lemma results_file ox mx x r h (d : nat) f : Forall wf (option_values ox) -> wf (mx_Nshape mx) ->
  results_and_export ox mx x r = Ok (h, d, f) ->
  let o := rr_opts r in
  exists D so sm,
  nth_error h 0 = Some (options_dict o ox) /\ nth_error h 1 = Some (model_dict (rr_model r) mx) /\ nth_error h d = Some D /\
  lookup "simulation_options"%string D = Some (PDict so) /\
  (forall k, lookup k so = if mem dropped_options k then None else lookup k (options_dict o ox)) /\
  lookup "model_settings"%string D = Some (PDict sm) /\
  (forall k, lookup k sm = if mem dropped_model k then None else lookup k (model_dict (rr_model r) mx)) /\
  lookup "chain"%string D = Some (PMat (rr_chain r)) /\ lookup "sschain"%string D = Some (PMat (rr_sschain r)) /\
  lookup "s2chain"%string D = Some (pyopt PMat (rr_s2chain r)) /\
  match f with
  | None => o_save_to_json o = false
  | Some (p, j) =>
      o_save_to_json o = true /\ p = path_join (o_savedir o) (file_name o ox) /\
      exists L, load_json_object j = Ok L /\ read_restart L = Ok (restart_of r) /\
        forall k, if o_save_lightly o && mem arrays k then lookup k L = None
                  else (lookup k D = None -> lookup k L = None) /\
                       (forall v, lookup k D = Some v -> exists w, lookup k L = Some w /\ reads_as v w)
  end.
Proof.
  intros WO WM H. cbv zeta. unfold results_and_export in H.
  destruct (options_keys (rr_opts r) ox) as [NO LO]. destruct (model_keys (rr_model r) mx) as [NM LM].
  destruct (generate_ok _ _ r (mx_prior_type mx) x NO NM LO LM) as (h0 & G & G0 & G1 & G2). rewrite G in H. cbn [bind] in H.
  set (D := sets (entries (options_dict (rr_opts r) ox) (model_dict (rr_model r) mx) r (mx_prior_type mx) x) []) in *.
  assert (W : wf (PDict D)) by (now apply entries_wf).
  exists D, (without dropped_options (options_dict (rr_opts r) ox)), (without dropped_model (model_dict (rr_model r) mx)).
  assert (K : kept h0 h /\ d = 2 /\ match f with None => o_save_to_json (rr_opts r) = false
     | Some (p, j) => o_save_to_json (rr_opts r) = true /\ result_path D = Ok p /\
       encode (PDict (if o_save_lightly (rr_opts r) then without arrays D else D)) = Ok j end).
  { destruct (o_save_to_json (rr_opts r)); [|injection H as <- <- <-; auto using kept_refl].
    destruct (o_save_lightly (rr_opts r)).
    - destruct (export_light_ok h0 2 D G2) as (h1 & K1 & E1).
      { apply sets_nodup. constructor. }
      { intros k I. enough (exists v, lookup k D = Some v) as (v & ->) by discriminate.
        cbn in I. destruct I as [<-|[<-|[<-|[]]]]; eexists; apply lookup_later; reflexivity. }
      rewrite E1 in H. clear E1. destruct (result_path D) as [p|]; cbn [bind] in H; [|discriminate].
      fold arrays in H. destruct (encode (PDict (without arrays D))) as [j|]; cbn [bind] in H; [|discriminate].
      injection H as <- <- <-. auto.
    - destruct (export_simulation_results_to_json_file h0 2) as [[h1 [p j]]|] eqn:E1; cbn [bind] in H; [|discriminate].
      injection H as <- <- <-. apply (export_path_full _ _ D) in E1 as (-> & E1 & E2); auto using kept_refl. }
  destruct K as (K & -> & KF). 
  split; [now apply K|]. split; [now apply K|]. split; [now apply K|].
  split; [now apply lookup_later|]. split; [intros; apply lookup_without|].
  split; [now apply lookup_later|]. split; [intros; apply lookup_without|].
  split; [now apply lookup_later|]. split; [now apply lookup_later|]. split; [now apply lookup_later|].
  destruct f as [[p j]|]; auto. destruct KF as (S1 & P & J). split; auto.
  unfold D in P. rewrite result_path_ok in P. injection P as <-. split; auto.
  assert (W' : wf (PDict (if o_save_lightly (rr_opts r) then without arrays D else D))).
  { destruct (o_save_lightly (rr_opts r)); [apply wf_without|]; exact W. }
  destruct (encode_dict_load _ _ W' J) as (L & L1 & L2).
  exists L. split; auto.
  set (D' := if o_save_lightly (rr_opts r) then without arrays D else D) in *.
  assert (LK : forall k, lookup k D' = if o_save_lightly (rr_opts r) && mem arrays k then None else lookup k D).
  { intros k. unfold D'. destruct (o_save_lightly (rr_opts r)); cbn [andb]; auto. apply lookup_without. }
  split.
  - apply restart_read with D'; auto; rewrite LK; cbn [mem arrays existsb String.eqb orb]; rewrite andb_false_r; now apply lookup_basic.
  - intros k. specialize (LK k). inversion L2; subst. destruct (o_save_lightly (rr_opts r) && mem arrays k).
    + auto.
    + rewrite <- LK. auto.
Qed.

(** Export succeeds when the unmodelled options hold nothing json cannot write. *)
Lemma results_file_written ox mx x r : Forall plain (option_values ox) -> plain (mx_Nshape mx) ->
  exists h (d : nat) f, results_and_export ox mx x r = Ok (h, d, f).
Proof.
  intros WO WM. unfold results_and_export.
  destruct (options_keys (rr_opts r) ox) as [NO LO]. destruct (model_keys (rr_model r) mx) as [NM LM].
  destruct (generate_ok _ _ r (mx_prior_type mx) x NO NM LO LM) as (h0 & G & G0 & G1 & G2). rewrite G. cbn [bind].
  destruct (o_save_to_json (rr_opts r)); [|eauto].
  set (D := sets (entries (options_dict (rr_opts r) ox) (model_dict (rr_model r) mx) r (mx_prior_type mx) x) []) in *.
  assert (PO : forall A (f : A -> pyval F) y, (forall a, plain (f a)) -> plain (pyopt f y)) by (intros A f [a|] Q; cbn; [auto|constructor]).
  assert (PL : forall A (f : A -> pyval F) y, (forall a, plain (f a)) -> plain (PList (map f y))).
  { intros A f y Q. constructor. apply Forall_map, Forall_forall. auto. }
  assert (P : Forall (fun e => plain (snd e)) D).
  { apply sets_forall; [|constructor].
    unfold option_values in WO. repeat match goal with H : Forall _ (_ :: _) |- _ => inversion H; clear H; subst end.
    unfold entries. apply Forall_app; split; [|apply Forall_app; split].
    - unfold basic_entries. each; try (constructor; fail); auto using pl_mat, pl_arr, pl_str. repeat constructor.
    - unfold dram_entries. destruct (rr_iacce r); each; try (constructor; fail); auto using pl_mat.
    - unfold later_entries. each; try (constructor; fail); auto using pl_mat.
      + apply pl_dict. apply without_forall. unfold options_dict. each; intros X; try discriminate X; auto; try (constructor; fail);
          try (apply PO; intros; constructor; fail).
      + apply pl_dict. apply without_forall. unfold model_dict. each; intros X; try discriminate X; auto; try (constructor; fail);
          try (apply PO; intros; constructor; fail).
      + apply pl_dict. each; constructor. }
  destruct (o_save_lightly (rr_opts r)).
  - destruct (export_light_ok h0 2 D G2) as (h1 & K1 & E1).
    { apply sets_nodup. constructor. }
    { intros k I. enough (exists v, lookup k D = Some v) as (v & ->) by discriminate.
      cbn in I. destruct I as [<-|[<-|[<-|[]]]]; eexists; apply lookup_later; reflexivity. }
    rewrite E1. unfold D at 1. rewrite result_path_ok. cbn [bind]. fold arrays.
    destruct (proj1 (encode_plain _ (PDict (without arrays D)) (Nat.lt_succ_diag_r _))) as (j & ->); [|cbn [bind]; eauto].
    apply pl_dict, without_forall. eapply Forall_impl; [|exact P]. auto.
  - unfold export_simulation_results_to_json_file, save_json_object, deref. rewrite G2. cbn [of_option bind].
    unfold D at 1. rewrite result_path_ok. cbn [bind].
    destruct (proj1 (encode_plain _ (PDict D) (Nat.lt_succ_diag_r _))) as (j & ->); [|cbn [bind]; eauto].
    now apply pl_dict.
Qed.
End T.
