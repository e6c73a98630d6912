(** Combining and loading the chains of a parallel run. *)

From Coq Require Import ZArith QArith Qround Bool Lia List String Permutation Sorted.
From Verif Require Import Base Num Samplers Adapt Settings Simulator SamplerFacts RunSpec RunLift LogSpec LogThms LogProps Names ChainFiles ChainFileFacts ReadOrder
  Results ResultSpec ResultFacts ResultThms Parallel ParallelSpec ParallelFacts.
Import ListNotations.
Close Scope Q_scope.
Open Scope list_scope.
Open Scope nat_scope.
Open Scope res_scope.

Section Combine.
Context {F : Type} `{NF : Num F}.

(** What is left of a chain of [nsimu] rows without its first [pct] percent: [d] rows are dropped, [d] being the largest
    number that is not more than [pct] percent of [nsimu]. *)
Definition kept (pct : Q) (nsimu : nat) (chain part : list (list F)) : Prop :=
  exists d, (inject_Z (Z.of_nat d) * 100 <= inject_Z (Z.of_nat nsimu) * pct)%Q /\
    (inject_Z (Z.of_nat nsimu) * pct < inject_Z (Z.of_nat (S d)) * 100)%Q /\
    part = skipn d chain.

(** Each part with the label of its chain. *)
Definition labels (parts : list (list (list F))) : list string :=
  List.concat (map (fun ip : nat * list (list F) => map (fun _ => ("Chain " ++ dec (fst ip))%string) (snd ip))
                   (combine (seq 0 (List.length parts)) parts)).

Lemma burnin_spec n pct : (0 <= pct)%Q ->
  (inject_Z (Z.of_nat (burnin n pct)) * 100 <= inject_Z (Z.of_nat n) * pct)%Q /\
  (inject_Z (Z.of_nat n) * pct < inject_Z (Z.of_nat (S (burnin n pct))) * 100)%Q.
Proof.
  intros P. unfold burnin. set (x := (inject_Z (Z.of_nat n) * pct / 100)%Q).
  assert (N : (0 <= inject_Z (Z.of_nat n))%Q) by (change 0%Q with (inject_Z 0); rewrite <- Zle_Qle; lia).
  assert (X0 : (0 <= x)%Q) by (unfold x, Qdiv; repeat apply Qmult_le_0_compat; auto; discriminate).
  assert (Q0 : (0 <= Qfloor x)%Z) by (change 0%Z with (Qfloor 0); now apply Qfloor_resp_le).
  assert (XE : (inject_Z (Z.of_nat n) * pct == x * 100)%Q) by (unfold x; field).
  rewrite Nat2Z.inj_succ, !Z2Nat.id by auto. rewrite XE. split.
  - apply Qmult_le_compat_r; [apply Qfloor_le|discriminate].
  - apply Qmult_lt_compat_r; [reflexivity|]. replace (Z.succ (Qfloor x)) with (Qfloor x + 1)%Z by lia. apply Qlt_floor.
Qed.

Lemma kept_skipn pct n (chain : list (list F)) : (0 <= pct)%Q -> kept pct n chain (skipn (burnin n pct) chain).
Proof.
  intros P. exists (burnin n pct). destruct (burnin_spec n pct P) as [A B]. auto.
Qed.

(** Rows of equal width can be concatenated. *)
Lemma wide_ncols w (M : list (list F)) : wide w M -> ncols M = w \/ M = [].
Proof. destruct M as [|x M]; auto. intros H. inversion H; subst. left. reflexivity. Qed.

Lemma combine_loop_ok w pct : (0 <= pct)%Q -> forall pres ii acc index, Forall (fun pr => wide w (snd pr)) pres ->
  (forall c, acc = Some c -> wide w c) -> (acc = None -> pres <> []) ->
  exists parts, Forall2 (fun pr part => kept pct (fst pr) (snd pr) part) pres parts /\
    combine_loop pct ii pres acc index =
      Ok (match acc with Some c => c | None => [] end ++ List.concat parts,
          index ++ List.concat (map (fun ip : nat * list (list F) => map (fun _ => ("Chain " ++ dec (fst ip))%string) (snd ip))
                   (combine (seq ii (List.length parts)) parts))).
Proof.
  intros P. induction pres as [|pr t IH]; intros ii acc index W A N; cbn [combine_loop].
  - exists []. split; [constructor|]. destruct acc as [c|]; [|exfalso; now apply N]. cbn. now rewrite !app_nil_r.
  - inversion W as [|? ? W1 W2]; subst. set (part := skipn (burnin (fst pr) pct) (snd pr)).
    assert (WP : wide w part).
    { unfold wide in *. rewrite <- (firstn_skipn (burnin (fst pr) pct) (snd pr)) in W1. apply Forall_app in W1. apply W1. }
    assert (X : (match acc with
                 | Some c => if (ncols (snd pr) =? ncols c) || (List.length c =? 0) || (List.length part =? 0) then Ok (c ++ part) else Err ValueError
                 | None => Ok part end) = Ok (match acc with Some c => c | None => [] end ++ part)).
    { destruct acc as [c|]; auto. specialize (A c eq_refl).
      destruct (wide_ncols _ _ W1) as [Q|Q].
      - destruct (wide_ncols _ _ A) as [Q'| ->]; [rewrite Q, Q', Nat.eqb_refl; reflexivity|]. cbn [List.length Nat.eqb]. now rewrite orb_true_r.
      - assert (part = []) as -> by (unfold part; rewrite Q; apply skipn_nil). cbn [List.length Nat.eqb]. now rewrite orb_true_r. }
    rewrite X. cbn [bind].
    destruct (IH (S ii) (Some (match acc with Some c => c | None => [] end ++ part)) (index ++ repeat ("Chain " ++ dec ii)%string (List.length part)))
      as (parts & P1 & P2); auto.
    + intros c H. injection H as <-. apply Forall_app. split; auto. destruct acc; [exact (A _ eq_refl)|constructor].
    + discriminate.
    + exists (part :: parts). split; [constructor; auto; now apply kept_skipn|]. rewrite P2. f_equal. f_equal.
      * cbn [List.concat]. now rewrite app_assoc.
      * cbn [List.length seq combine map List.concat fst snd]. rewrite <- app_assoc. f_equal. f_equal.
        clear. induction part as [|x part IH]; cbn [List.length repeat map]; [reflexivity|f_equal; exact IH].
Qed.

Lemma combined w pct (pres : list (nat * list (list F))) : (0 <= pct)%Q -> Forall (fun pr => wide w (snd pr)) pres -> pres <> [] ->
  exists parts, Forall2 (fun pr part => kept pct (fst pr) (snd pr) part) pres parts /\
    generate_combined_chain_with_index pct pres = Ok (List.concat parts, labels parts) /\ generate_chain_list pct pres = parts.
Proof.
  intros P W N. destruct (combine_loop_ok w pct P pres 0 None []) as (parts & P1 & P2); auto; [discriminate|].
  exists parts. split; auto. split; [exact P2|]. unfold generate_chain_list. clear - P1.
  induction P1 as [|pr part pres parts H _ IH]; cbn [map]; auto. f_equal; auto.
  destruct H as (d & D1 & D2 & ->). f_equal. unfold burnin.
  assert (XE : (inject_Z (Z.of_nat (fst pr)) * pct == (inject_Z (Z.of_nat (fst pr)) * pct / 100) * 100)%Q) by field.
  set (x := (inject_Z (Z.of_nat (fst pr)) * pct / 100)%Q) in *. rewrite XE in D1, D2.
  apply Qmult_le_r in D1; [|reflexivity]. apply Qmult_lt_r in D2; [|reflexivity].
  assert (A : (inject_Z (Qfloor x) < inject_Z (Z.of_nat (S d)))%Q) by (eapply Qle_lt_trans; [apply Qfloor_le|exact D2]).
  assert (B : (Z.of_nat d <= Qfloor x)%Z) by (rewrite <- (Qfloor_Z (Z.of_nat d)); now apply Qfloor_resp_le).
  rewrite <- Zlt_Qlt in A. lia.
Qed.

(** Different chains have different labels. *)
Lemma label_inj i j : ("Chain " ++ dec i)%string = ("Chain " ++ dec j)%string -> i = j.
Proof. intros H. apply append_inj_l in H. now apply dec_inj. Qed.
End Combine.

Section Load.
Context {F : Type} `{NF : Num F}.

Lemma mapM_Forall2 {A B} (f : A -> res B) (g : A -> B) l : Forall (fun x => f x = Ok (g x)) l -> mapM f l = Ok (map g l).
Proof. induction 1 as [|x l H _ IH]; cbn [mapM map]; auto. now rewrite H, IH. Qed.

Lemma last_map_some {A} (l : list A) d : l <> [] -> last (map Some l) None = Some (last l d).
Proof.
  induction l as [|x [|y l] IH]; intros N; [congruence|reflexivity|]. cbn [map]. 
  change (last (Some x :: Some y :: map Some l) None) with (last (map Some (y :: l)) None). rewrite IH by discriminate. reflexivity.
Qed.

Lemma last_In {A} (l : list A) d : l <> [] -> In (last l d) l.
Proof. induction l as [|x [|y l] IH]; intros N; [congruence|cbn; auto|]. right. apply IH. discriminate. Qed.

Definition arrays_of (L : pydict F) : pydict F := map (fun e => (fst e, to_array (snd e))) L.

Lemma load_json dirs json read (L : string -> pydict F) :
  let folders := check_parallel_directory_contents dirs in
  folders <> [] -> (forall f, In f folders -> json f = Some (L f)) ->
  load_parallel_simulation_results dirs json read =
    if existsb (fun k => String.eqb k "chain"%string) (map fst (L (last folders EmptyString))) then Err UnboundLocal
    else Ok (map2 (fun pr o => setkey "covchain"%string (PMat (snd (snd o)))
                         (setkey "s2chain"%string (PMat (fst (snd o)))
                         (setkey "sschain"%string (PMat (snd (fst o)))
                         (setkey "chain"%string (PMat (fst (fst o))) pr)))) (map (fun f => arrays_of (L f)) folders) (map read folders)).
Proof.
  intros folders N H. unfold load_parallel_simulation_results. fold folders.
  rewrite (mapM_Forall2 _ L) by (apply Forall_forall; intros f Hf; now rewrite (H f Hf)). cbn [bind].
  cbv zeta. change (fun pr : pydict F => map (fun e => (fst e, to_array (snd e))) pr) with arrays_of.
  rewrite (map_map L arrays_of).
  rewrite (last_map_some _ (arrays_of (L EmptyString))) by (destruct folders; [congruence|discriminate]).
  cbn [of_option bind]. 
  assert (X : last (map (fun f => arrays_of (L f)) folders) (arrays_of (L EmptyString)) = arrays_of (L (last folders EmptyString))).
  { clear. induction folders as [|x [|y l] IH]; auto. }
  rewrite X. unfold arrays_of at 1. rewrite map_map. reflexivity.
Qed.

Lemma has_chain (d : pydict F) : existsb (fun k => String.eqb k "chain"%string) (map fst d) = true <-> lookup "chain"%string d <> None.
Proof.
  rewrite existsb_exists, lookup_in. split.
  - intros (x & H1 & H2). apply String.eqb_eq in H2. now subst.
  - intros H. exists "chain"%string. split; auto.
Qed.

(** The directories that are read. *)
Lemma folders_perm dirs : Permutation (check_parallel_directory_contents dirs) (filter (contains "chain_") dirs).
Proof. unfold check_parallel_directory_contents. symmetry. apply sort_by_perm. Qed.

Lemma lookup_arrays k (d : pydict F) : lookup k (arrays_of d) = option_map to_array (lookup k d).
Proof. unfold arrays_of. induction d as [|[k' v] d IH]; cbn [map lookup fst snd]; auto. destruct (String.eqb k k'); auto. Qed.

Lemma map2_maps {A B C D} (f : B -> C -> D) (g : A -> B) (h : A -> C) l : map2 f (map g l) (map h l) = map (fun x => f (g x) (h x)) l.
Proof. induction l; cbn; congruence. Qed.

(** When the json files do not hold the chains, these are taken from the logs. *)
Lemma load_light dirs json read :
  let folders := check_parallel_directory_contents dirs in
  folders <> [] -> (forall f, In f folders -> exists L, json f = Some L /\ lookup "chain"%string L = None) ->
  exists pres, load_parallel_simulation_results dirs json read = Ok pres /\
    Forall2 (fun f pr => exists L, json f = Some L /\
      lookup "chain"%string pr = Some (PMat (fst (fst (read f)))) /\ lookup "sschain"%string pr = Some (PMat (snd (fst (read f)))) /\
      lookup "s2chain"%string pr = Some (PMat (fst (snd (read f)))) /\ lookup "covchain"%string pr = Some (PMat (snd (snd (read f)))) /\
      forall k, ~ In k ["chain"; "sschain"; "s2chain"; "covchain"]%string -> lookup k pr = option_map to_array (lookup k L)) folders pres.
Proof.
  intros folders N H.
  set (L := fun f => match json f with Some d => d | None => [] end).
  assert (HL : forall f, In f folders -> json f = Some (L f)).
  { intros f Hf. unfold L. destruct (H f Hf) as (d & -> & _). reflexivity. }
  rewrite (load_json dirs json read L N HL). fold folders.
  destruct (existsb _ _) eqn:X.
  - exfalso. apply has_chain in X. assert (I := last_In folders EmptyString N). specialize (HL _ I). destruct (H _ I) as (d & D1 & D2). congruence.
  - eexists. split; [reflexivity|]. rewrite map2_maps. 
    assert (Y : forall l, incl l folders -> Forall2 (fun f pr => exists L, json f = Some L /\
      lookup "chain"%string pr = Some (PMat (fst (fst (read f)))) /\ lookup "sschain"%string pr = Some (PMat (snd (fst (read f)))) /\
      lookup "s2chain"%string pr = Some (PMat (fst (snd (read f)))) /\ lookup "covchain"%string pr = Some (PMat (snd (snd (read f)))) /\
      forall k, ~ In k ["chain"; "sschain"; "s2chain"; "covchain"]%string -> lookup k pr = option_map to_array (lookup k L)) l
      (map (fun x => setkey "covchain"%string (PMat (snd (snd (read x))))
                         (setkey "s2chain"%string (PMat (fst (snd (read x))))
                         (setkey "sschain"%string (PMat (snd (fst (read x))))
                         (setkey "chain"%string (PMat (fst (fst (read x)))) (arrays_of (L x)))))) l)).
    { induction l as [|f l IH]; intros I; cbn [map]; constructor; [|apply IH; intros z Z; apply I; cbn; auto].
      exists (L f). split; [apply HL, I; cbn; auto|]. rewrite !lookup_setkey. repeat (split; [reflexivity|]).
      intros k K. rewrite !lookup_setkey, lookup_arrays.
      repeat match goal with |- context [String.eqb k ?s] => destruct (String.eqb_spec k s) as [->|?]; [exfalso; apply K; cbn; tauto|] end. reflexivity. }
    apply Y. apply incl_refl.
Qed.

(** When they do, loading raises an exception. *)
Lemma load_full_fails dirs json read :
  let folders := check_parallel_directory_contents dirs in
  folders <> [] -> (forall f, In f folders -> exists L, json f = Some L /\ lookup "chain"%string L <> None) ->
  load_parallel_simulation_results dirs json read = Err UnboundLocal.
Proof.
  intros folders N H.
  set (L := fun f => match json f with Some d => d | None => [] end).
  assert (HL : forall f, In f folders -> json f = Some (L f)).
  { intros f Hf. unfold L. destruct (H f Hf) as (d & -> & _). reflexivity. }
  rewrite (load_json dirs json read L N HL). fold folders.
  assert (I := last_In folders EmptyString N). specialize (HL _ I). destruct (H _ I) as (d & D1 & D2).
  assert (d = L (last folders EmptyString)) by congruence. subst d. apply has_chain in D2. now rewrite D2.
Qed.

(** [L] is what is read from the results file of a run with results [r]. *)
Definition saved (r : results F) (L : pydict F) : Prop :=
  exists ox mx x h (d : nat) p j, Forall wf (option_values ox) /\ wf (mx_Nshape mx) /\
    results_and_export ox mx x r = Ok (h, d, Some (p, j)) /\ load_json_object j = Ok L.

Lemma saved_chain r L : saved r L -> (o_save_lightly (rr_opts r) = true -> lookup "chain"%string L = None) /\
  (o_save_lightly (rr_opts r) = false -> lookup "chain"%string L <> None).
Proof.
  intros (ox & mx & x & h & d & p & j & W1 & W2 & H & HL). apply results_file in H; auto. cbv zeta in H.
  destruct H as (D & so & sm & _ & _ & _ & _ & _ & _ & _ & C & _ & _ & _ & _ & L' & HL' & _ & K).
  assert (L' = L) by congruence. subst L'. specialize (K "chain"%string). change (mem arrays "chain") with true in K. rewrite andb_true_r in K.
  destruct (o_save_lightly (rr_opts r)); split; intros Q; try discriminate; auto.
  destruct K as [_ K]. destruct (K _ C) as (w & -> & _). discriminate.
Qed.
End Load.

Section Runs.
Context {F : Type} `{NF : Num F}.
Variable E : env F.

(** The logs of a parallel run, read from the common file system [all]. *)
Lemma parallel_logs str pos0 ps d ms o iv nc rd (l : fs F) objs c sched pos rs :
  setup_parallel_simulation str pos0 ps d ms o iv nc rd l = Ok objs ->
  run_parallel_simulation E objs c sched pos = Ok rs -> schedules (List.length objs) sched ->
  forall news all, Forall2 (fun r new => m_fs r = l ++ new) rs news -> interleaved news all ->
  forall i r, nth_error rs i = Some r -> distinct_files r ->
  forall f M, In (f, M) (chain_files r) ->
  let dir := (o_savedir o ++ "/chain_" ++ dec i)%string in
  (o_save_to_txt (m_opts r) = true -> txt_rows (dir, f, "txt"%string) all = M) /\
  (o_save_to_bin (m_opts r) = true -> 
     let s := Z.to_nat (o_savesize (m_opts r)) in let n := o_nsimu (m_opts r) in
     n <= s \/ same_digits (last_start s n) s ->
     h5_sets (dir, f, "h5"%string) l = [] -> read_in_bin_file (h5_sets (dir, f, "h5"%string) all) = M).
Proof.
  intros S H HS news all N I i r Hi DF f M HM dir.
  pose proof (fun new p X Y => parallel_files E _ _ _ _ _ _ _ _ _ _ _ _ _ _ _ S H HS news all N I i new p X Y) as PF.
  apply setup_dirs in S as (_ & D). apply parallel_results in H as (_ & L & R); auto.
  assert (i < List.length objs) by (rewrite <- L; apply nth_error_Some; congruence).
  destruct (nth_error objs i) as [m|] eqn:Em; [|apply nth_error_None in Em; lia].
  destruct (R _ _ Em) as (p & r' & R1 & R2). assert (r' = r) by congruence. subst r'.
  apply D in Em as (D1 & _ & D3). pose proof R2 as W. apply run_writes in W as (W0 & _). cbn [m_opts at_pos] in W0.
  assert (OD : o_savedir (m_opts r) = dir) by (rewrite W0, D1; reflexivity).
  pose proof (h5_back E _ _ R2 DF) as HB. cbv zeta in HB.
  apply log_blocks in R2; auto. cbv zeta in R2. destruct R2 as (_ & _ & new & evs & bs & B1 & _ & _ & _ & _ & _ & B2).
  cbn [m_fs at_pos] in B1. rewrite D3 in B1.
  destruct (Forall2_nth _ _ _ N _ _ Hi) as (new' & N1 & N2). assert (new' = new) by (rewrite B1 in N2; now apply app_inv_head in N2). subst new'.
  split; intros Ho.
  - destruct (B2 Ho) as (_ & B3). destruct (B3 _ _ HM) as (B4 & _). rewrite OD in B4. rewrite <- B4.
    rewrite (proj1 (contents_on_file _ all)), (proj1 (contents_on_file _ new)). f_equal. apply PF; auto.
  - intros s n SD HL. rewrite <- (HB Ho SD f M HM) by (cbn [m_fs at_pos]; rewrite D3, OD; exact HL). f_equal.
    rewrite OD, B1. unfold h5_sets at 2. rewrite map_app, List.concat_app.
    fold (h5_sets (dir, f, "h5"%string) l). rewrite HL. cbn [app]. fold (h5_sets (dir, f, "h5"%string) new).
    rewrite (proj1 (proj2 (contents_on_file _ all))), (proj1 (proj2 (contents_on_file _ new))). f_equal. apply PF; auto.
Qed.

Lemma chain_name_contains i : contains "chain_" (chain_name i) = true.
Proof. unfold chain_name. destruct (dec i); reflexivity. Qed.

(** The logs of a chain can be read back: text logs always, binary logs when none was there before ([l]) and the starts of the
    blocks have the same number of digits (see [h5_back]). *)
Definition readable (h5 : bool) (l : fs F) (r : mcmc F) : Prop :=
  if h5 then o_save_to_bin (m_opts r) = true /\
    (let s := Z.to_nat (o_savesize (m_opts r)) in let n := o_nsimu (m_opts r) in n <= s \/ same_digits (last_start s n) s) /\
    forall f M, In (f, M) (chain_files r) -> h5_sets (o_savedir (m_opts r), f, "h5"%string) l = []
  else o_save_to_txt (m_opts r) = true.

(** Loading a parallel run whose json files do not hold the chains, from its logs. *)
Lemma load_logs h5 str pos0 ps d ms o iv nc rd (l : fs F) objs c sched pos rs :
  setup_parallel_simulation str pos0 ps d ms o iv nc rd l = Ok objs ->
  run_parallel_simulation E objs c sched pos = Ok rs -> schedules (List.length objs) sched ->
  forall news all, Forall2 (fun r new => m_fs r = l ++ new) rs news -> interleaved news all ->
  forall dirs json, rs <> [] -> Permutation (filter (contains "chain_") dirs) (map chain_name (seq 0 (List.length rs))) ->
  (forall i r, nth_error rs i = Some r -> distinct_files r /\ readable h5 l r /\
     exists R L, m_results r = Some R /\ o_save_lightly (rr_opts R) = true /\ saved R L /\ json (chain_name i) = Some L) ->
  forall names : string * string * string * string, (forall r, In r rs -> names = (o_chainfile (m_opts r), o_sschainfile (m_opts r), o_s2chainfile (m_opts r), o_covchainfile (m_opts r))) ->
  let '(cf, ssf, s2f, covf) := names in
  exists folders pres, Permutation folders (map chain_name (seq 0 (List.length rs))) /\
    StronglySorted (fun x y => String.leb x y = true) folders /\
    load_parallel_simulation_results dirs json (fun f => read_in_savedir_files h5 (o_savedir o ++ "/" ++ f) cf ssf s2f covf all) = Ok pres /\
    Forall2 (fun f pr => exists i r, f = chain_name i /\ nth_error rs i = Some r /\
       lookup "chain"%string pr = Some (PMat (m_chain r)) /\ lookup "sschain"%string pr = Some (PMat (m_sschain r)) /\
       (forall s, m_s2chain r = Some s -> lookup "s2chain"%string pr = Some (PMat s))) folders pres.
Proof.
  intros S H HS news all N I dirs json NE PD HR [[[cf ssf] s2f] covf] HN.
  pose proof (fun i r X Y => parallel_logs _ _ _ _ _ _ _ _ _ _ _ _ _ _ _ S H HS news all N I i r X Y) as PL.
  assert (OD : forall i r, nth_error rs i = Some r -> o_savedir (m_opts r) = (o_savedir o ++ "/chain_" ++ dec i)%string).
  { intros i r Hi. pose proof S as S'. apply setup_dirs in S' as (_ & D). pose proof H as H'. apply parallel_results in H' as (_ & L & R); auto.
    assert (i < List.length objs) by (rewrite <- L; apply nth_error_Some; congruence).
    destruct (nth_error objs i) as [m|] eqn:Em; [|apply nth_error_None in Em; lia].
    destruct (R _ _ Em) as (p & r' & R1 & R2). assert (r' = r) by congruence. subst r'.
    apply D in Em as (D1 & _). apply run_writes in R2 as (W0 & _). rewrite W0. exact D1. }
  set (read := fun f => read_in_savedir_files h5 (o_savedir o ++ "/" ++ f) cf ssf s2f covf all).
  assert (FP : Permutation (check_parallel_directory_contents dirs) (map chain_name (seq 0 (List.length rs)))) by (etransitivity; [apply folders_perm|exact PD]).
  assert (FI : forall f, In f (check_parallel_directory_contents dirs) -> exists i r, f = chain_name i /\ nth_error rs i = Some r).
  { intros f Hf. apply (Permutation_in _ FP), in_map_iff in Hf as (i & <- & Hi). apply in_seq in Hi.
    destruct (nth_error rs i) as [r|] eqn:R; [eauto|apply nth_error_None in R; lia]. }
  destruct (load_light dirs json read) as (pres & P1 & P2).
  { intros X. rewrite X in FP. apply Permutation_nil in FP. destruct rs; [congruence|discriminate]. }
  { intros f Hf. destruct (FI f Hf) as (i & r & -> & Hr). destruct (HR _ _ Hr) as (_ & _ & R & L & _ & LI & SV & J). exists L. split; auto. exact (proj1 (saved_chain _ _ SV) LI). }
  exists (check_parallel_directory_contents dirs), pres. split; [exact FP|]. split; [exact (sort_by_sorted (fun x => x) _)|]. split; [exact P1|].
  assert (X : forall l ps, incl l (check_parallel_directory_contents dirs) -> Forall2 (fun f pr => exists L, json f = Some L /\
      lookup "chain"%string pr = Some (PMat (fst (fst (read f)))) /\ lookup "sschain"%string pr = Some (PMat (snd (fst (read f)))) /\
      lookup "s2chain"%string pr = Some (PMat (fst (snd (read f)))) /\ lookup "covchain"%string pr = Some (PMat (snd (snd (read f)))) /\
      forall k, ~ In k ["chain"; "sschain"; "s2chain"; "covchain"]%string -> lookup k pr = option_map to_array (lookup k L)) l ps ->
     Forall2 (fun f pr => exists i r, f = chain_name i /\ nth_error rs i = Some r /\
       lookup "chain"%string pr = Some (PMat (m_chain r)) /\ lookup "sschain"%string pr = Some (PMat (m_sschain r)) /\
       (forall s, m_s2chain r = Some s -> lookup "s2chain"%string pr = Some (PMat s))) l ps).
  { intros x y Hx Hy. induction Hy as [|f pr x y A B IH]; constructor; [|apply IH; intros z Z; apply Hx; cbn; auto].
    destruct (FI f) as (i & r & -> & Hr); [apply Hx; cbn; auto|]. exists i, r. split; auto. split; auto.
    destruct (HR _ _ Hr) as (DF & TX & _). specialize (HN r (nth_error_In _ _ Hr)). inversion HN; subst.
    destruct A as (L & _ & A1 & A2 & A3 & _). 
    set (get := fun f => if h5 then read_in_bin_file (h5_sets ((o_savedir o ++ "/" ++ chain_name i)%string, f, "h5"%string) all)
                         else txt_rows ((o_savedir o ++ "/" ++ chain_name i)%string, f, "txt"%string) all).
    assert (RT : forall f M, In (f, M) (chain_files r) -> get f = M).
    { intros f M HM. unfold get. unfold readable in TX. destruct h5; [|apply (PL i r Hr DF f M HM); auto].
      destruct TX as (T1 & T2 & T3). refine (proj2 (PL i r Hr DF f M HM) T1 T2 _). specialize (T3 f M HM). rewrite (OD i r Hr) in T3. exact T3. }
    unfold read, read_in_savedir_files, read_in_txt_file in A1, A2, A3. cbn [fst snd] in A1, A2, A3.
    change (lookup "chain"%string pr = Some (PMat (get (o_chainfile (m_opts r))))) in A1.
    change (lookup "sschain"%string pr = Some (PMat (get (o_sschainfile (m_opts r))))) in A2.
    change (lookup "s2chain"%string pr = Some (PMat (get (o_s2chainfile (m_opts r))))) in A3.
    rewrite (RT (o_chainfile (m_opts r)) (m_chain r)) in A1 by (cbn; auto).
    rewrite (RT (o_sschainfile (m_opts r)) (m_sschain r)) in A2 by (cbn; auto). split; auto. split; auto.
    intros s Hs. rewrite (RT (o_s2chainfile (m_opts r)) s) in A3; auto. unfold chain_files. rewrite Hs. cbn. auto. }
  apply X; [apply incl_refl|exact P2].
Qed.
End Runs.
