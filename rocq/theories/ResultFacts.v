(** Facts about the results dictionary and its json file. *)

From Coq Require Import ZArith QArith Bool Lia List String Ascii Permutation.
From Verif Require Import Base Num Samplers Adapt Settings Simulator Names ChainFiles Results ResultSpec SamplerFacts.
Import ListNotations.
Close Scope Q_scope.
Open Scope list_scope.
Open Scope nat_scope.
Open Scope res_scope.

Section Dict.
Context {A : Type}.
Implicit Types d : list (string * A).

Lemma lookup_in k d : lookup k d <> None <-> In k (map fst d).
Proof.
  induction d as [|[k' v] t IH]; cbn; [tauto|]. destruct (String.eqb_spec k k') as [->|N].
  - split; [auto|discriminate].
  - rewrite IH. split; [auto|intros [X|X]; [congruence|auto]].
Qed.

Lemma lookup_none k d : lookup k d = None <-> ~ In k (map fst d).
Proof. rewrite <- lookup_in. destruct (lookup k d); split; intros X; auto; try discriminate. exfalso. apply X. discriminate. Qed.

Lemma lookup_In k v d : lookup k d = Some v -> In (k, v) d.
Proof.
  induction d as [|[k' v'] t IH]; cbn; [discriminate|]. destruct (String.eqb_spec k k') as [->|N]; [intros [= ->]; auto|auto].
Qed.

Lemma In_lookup k v d : NoDup (map fst d) -> In (k, v) d -> lookup k d = Some v.
Proof.
  induction d as [|[k' v'] t IH]; cbn; [easy|]. intros N [X|X]; inversion N; subst.
  - injection X as -> ->. now rewrite String.eqb_refl.
  - destruct (String.eqb_spec k k') as [->|]; auto. exfalso. apply H1. now apply (in_map fst) in X.
Qed.

Lemma delkey_filter k d : NoDup (map fst d) -> delkey k d = filter (fun e => negb (String.eqb k (fst e))) d.
Proof.
  induction d as [|[k' v] t IH]; cbn; auto. intros N. inversion N; subst.
  destruct (String.eqb_spec k k') as [->|D]; cbn; [|now rewrite IH].
  clear -H1. induction t as [|[k v'] t IH]; cbn; auto. cbn in H1. destruct (String.eqb_spec k' k) as [->|]; cbn; [tauto|].
  f_equal. apply IH. tauto.
Qed.

Lemma filter_nodup (f : string * A -> bool) d : NoDup (map fst d) -> NoDup (map fst (filter f d)).
Proof.
  induction d as [|[k v] t IH]; cbn; auto. intros N. inversion N; subst. destruct (f (k, v)); cbn; auto.
  constructor; auto. intros X. apply H1. apply in_map_iff in X as ([k' v'] & E & X). cbn in E. subst.
  apply filter_In in X as [X _]. now apply (in_map fst) in X.
Qed.

Lemma lookup_filter (f : string -> bool) k d : lookup k (filter (fun e => f (fst e)) d) = if f k then lookup k d else None.
Proof.
  induction d as [|[k' v] t IH]; cbn; [now destruct (f k)|]. destruct (f k') eqn:E; cbn; rewrite ?IH.
  - destruct (String.eqb_spec k k') as [->|]; auto. now rewrite E.
  - destruct (String.eqb_spec k k') as [->|]; auto. now rewrite E.
Qed.

Lemma lookup_perm k d d' : NoDup (map fst d) -> Permutation d d' -> lookup k d' = lookup k d.
Proof.
  intros N P. assert (N' : NoDup (map fst d')) by (eapply Permutation_NoDup; [apply Permutation_map, P|auto]).
  destruct (lookup k d) as [v|] eqn:E.
  - apply In_lookup; auto. eapply Permutation_in; eauto. now apply lookup_In.
  - apply lookup_none in E. apply lookup_none. intros X. apply E. eapply Permutation_in; [apply Permutation_sym, Permutation_map, P|auto].
Qed.

Lemma insert_by_perm key (x : A) l : Permutation (x :: l) (insert_by key x l).
Proof.
  induction l as [|y t IH]; cbn; auto. destruct (String.leb _ _); auto.
  eapply perm_trans; [apply perm_swap|]. now constructor.
Qed.
Lemma sort_by_perm key (l : list A) : Permutation l (sort_by key l).
Proof.
  induction l; cbn; auto. eapply perm_trans; [constructor; apply IHl|apply insert_by_perm].
Qed.
End Dict.

Lemma without_cons {A} k keys (d : list (string * A)) : NoDup (map fst d) -> without keys (delkey k d) = without (k :: keys) d.
Proof.
  intros N. rewrite delkey_filter; auto. clear N. unfold without, mem. induction d as [|[k' v] t IH]; cbn; auto.
  rewrite (String.eqb_sym k k'). destruct (String.eqb k' k); cbn; auto. rewrite IH. reflexivity.
Qed.

Lemma mem_in keys k : mem keys k = true <-> In k keys.
Proof.
  unfold mem. rewrite existsb_exists. split; [intros (x & I & E); apply String.eqb_eq in E; now subst|].
  intros I. exists k. split; auto. apply String.eqb_refl.
Qed.

Lemma lookup_without {A} keys k (d : list (string * A)) : lookup k (without keys d) = if mem keys k then None else lookup k d.
Proof.
  unfold without. rewrite (lookup_filter (fun x => negb (mem keys x))). now destruct (mem keys k).
Qed.

Section Store.
Context {F : Type} `{NF : Num F}.
Implicit Types h : store F.

Lemma kept_refl h : kept h h. Proof. easy. Qed.
Lemma kept_trans (a b c : store F) : kept a b -> kept b c -> kept a c. Proof. unfold kept. eauto. Qed.

Lemma removekey_ok h d k D : nth_error h d = Some D -> NoDup (map fst D) -> lookup k D <> None ->
  exists h', removekey h d k = Ok (h', List.length h) /\ kept h h' /\ nth_error h' (List.length h) = Some (delkey k D) /\
             List.length h' = S (List.length h).
Proof.
  intros E N L. unfold removekey, dict_copy, dict_del, deref. rewrite E. cbn [of_option bind].
  rewrite nth_error_app2, Nat.sub_diag by lia. cbn [nth_error of_option bind]. destruct (lookup k D); [|congruence].
  eexists. split; [reflexivity|].
  assert (X : forall (l : list (pydict F)) a b, set_nth (List.length l) b (l ++ [a]) = l ++ [b]).
  { intros l a b. induction l; cbn; auto. now rewrite IHl. }
  rewrite X. repeat split.
  - intros r d' H. rewrite nth_error_app1; auto. now apply nth_error_Some; rewrite H.
  - rewrite nth_error_app2, Nat.sub_diag by lia. reflexivity.
  - rewrite app_length. cbn. lia.
Qed.

Lemma removekeys_ok keys : forall h d D, nth_error h d = Some D -> NoDup (map fst D) -> NoDup keys ->
  (forall k, In k keys -> lookup k D <> None) ->
  exists h' d', removekeys h d keys = Ok (h', d') /\ kept h h' /\ nth_error h' d' = Some (without keys D).
Proof.
  induction keys as [|k t IH]; intros h d D E N ND L.
  - exists h, d. split; [reflexivity|split; [apply kept_refl|]]. unfold without. cbn. rewrite E. f_equal. clear.
    induction D as [|e D IH]; cbn; congruence.
  - cbn [removekeys]. destruct (removekey_ok h d k D) as (h1 & R & K1 & E1 & _); auto. { apply L. now left. }
    rewrite R. cbn [bind]. inversion ND; subst.
    destruct (IH h1 (List.length h) (delkey k D)) as (h2 & d2 & R2 & K2 & E2); auto.
    { rewrite delkey_filter; auto. now apply filter_nodup. }
    { intros k' I. rewrite delkey_filter; auto.
      rewrite (lookup_filter (fun x => negb (String.eqb k x))). destruct (String.eqb_spec k k') as [->|]; [tauto|]. cbn. apply L. now right. }
    exists h2, d2. split; auto. split; [eapply kept_trans; eauto|]. rewrite E2. f_equal. now apply without_cons.
Qed.

(** ** json *)

Lemma encode_list (l : list (pyval F)) : encode (PList l) = (let* js := mapM encode l in Ok (JList js)).
Proof.
  cbn [encode]. f_equal. induction l as [|x t IH]; cbn [mapM]; auto. destruct (encode x); cbn [bind]; auto. now rewrite IH.
Qed.

Definition encode_entry (e : string * pyval F) : res (string * json F) := let* j := encode (snd e) in Ok (fst e, j).
Lemma encode_dict (d : pydict F) : encode (PDict d) = (let* js := mapM encode_entry d in Ok (JObj (sort_by fst js))).
Proof.
  cbn [encode]. f_equal. induction d as [|[k x] t IH]; cbn [mapM]; auto. unfold encode_entry at 1. cbn [fst snd].
  destruct (encode x); cbn [bind]; auto. now rewrite IH.
Qed.

Lemma mapM_Forall2 {A B} (f : A -> res B) l : forall r, mapM f l = Ok r -> Forall2 (fun a b => f a = Ok b) l r.
Proof.
  induction l as [|x t IH]; cbn [mapM]; intros r H.
  - injection H as <-. constructor.
  - destruct (f x) eqn:E; cbn [bind] in H; [|discriminate]. destruct (mapM f t) eqn:E2; cbn [bind] in H; [|discriminate].
    injection H as <-. constructor; auto.
Qed.

Lemma entries_lookup (d : pydict F) js : Forall2 (fun e e' => encode_entry e = Ok e') d js ->
  map fst js = map fst d /\
  (forall k v, lookup k d = Some v -> exists j, lookup k js = Some j /\ encode v = Ok j) /\
  (forall k, lookup k d = None -> lookup k js = None).
Proof.
  induction 1 as [|[k v] [k' j] d js E _ (I1 & I2 & I3)]; cbn [map lookup fst snd].
  - split; auto. split; [discriminate|auto].
  - unfold encode_entry in E. cbn [fst snd] in E. destruct (encode v) eqn:Ev; cbn [bind] in E; [|discriminate].
    injection E as <- ->. split; [now rewrite I1|]. split; intros k'; destruct (String.eqb k' k); auto.
    + intros v' [= ->]. eauto.
    + discriminate.
Qed.

Lemma lookup_decode k (js : list (string * json F)) : lookup k (map (fun e => (fst e, decode (snd e))) js) = option_map decode (lookup k js).
Proof. induction js as [|[k' j] t IH]; cbn; auto. destruct (String.eqb k k'); auto. Qed.

Fixpoint size (v : pyval F) : nat :=
  match v with
  | PList l => S (fold_right (fun x n => size x + n) 0 l)
  | PDict d => S (fold_right (fun e n => size (snd e) + n) 0 d)
  | _ => 1
  end.

Lemma size_in_list (x : pyval F) l : In x l -> size x < size (PList l).
Proof. cbn [size]. induction l; cbn [fold_right In]; [easy|]. intros [->|I]; [lia|]. specialize (IHl I). lia. Qed.
Lemma size_in_dict k (x : pyval F) d : In (k, x) d -> size x < size (PDict d).
Proof. cbn [size]. induction d as [|[k' x'] d IH]; cbn [fold_right In snd]; [easy|]. intros [[= -> ->]|I]; [lia|]. specialize (IH I). lia. Qed.

Lemma encode_reads n : forall v j, size v < n -> wf v -> encode v = Ok j -> reads_as v (decode j).
Proof.
  induction n as [|n IH]; [lia|]. intros v j L W E. destruct v; try discriminate E;
    try (injection E as <-; cbn [decode]; rewrite ?map_map; constructor).
  - injection E as <-. cbn [decode]. rewrite map_map.
    erewrite map_ext; [apply ra_mat|]. intros r. cbn [decode]. now rewrite map_map.
  - rewrite encode_list in E. destruct (mapM encode l) as [js|] eqn:M; cbn [bind] in E; [|discriminate]. injection E as <-.
    cbn [decode]. constructor. apply mapM_Forall2 in M. inversion W; subst; [|exfalso; eapply H; reflexivity].
    assert (SZ : forall x, In x l -> size x < n) by (intros x I; apply size_in_list in I; lia).
    clear W L. induction M; cbn [map]; constructor; inversion H0; subst.
    + apply IH; auto. apply SZ. now left.
    + apply IHM; auto. intros. apply SZ. now right.
  - rewrite encode_dict in E. destruct (mapM encode_entry d) as [js|] eqn:M; cbn [bind] in E; [|discriminate]. injection E as <-.
    cbn [decode]. apply mapM_Forall2 in M. destruct (entries_lookup _ _ M) as (M1 & M2 & M3).
    inversion W; subst; [|exfalso; eapply H0; reflexivity].
    assert (P : forall k, lookup k (sort_by fst js) = lookup k js).
    { intros k. apply lookup_perm; [rewrite M1; auto|apply sort_by_perm]. }
    constructor; intros k; rewrite lookup_decode, P.
    + intros X. now rewrite (M3 k X).
    + intros v X. destruct (M2 k v X) as (j & J1 & J2). rewrite J1. cbn [option_map]. exists (decode j). split; auto.
      apply lookup_In in X. apply IH; auto. { apply size_in_dict in X. lia. }
      rewrite Forall_forall in H1. exact (H1 _ X).
Qed.

Lemma mapM_ok {A B} (f : A -> res B) l : (forall x, In x l -> exists y, f x = Ok y) -> exists r, mapM f l = Ok r.
Proof.
  induction l as [|x t IH]; intros H; cbn [mapM]; [eauto|]. destruct (H x) as (y & ->); [now left|]. cbn [bind].
  destruct IH as (r & ->); [intros; apply H; now right|]. cbn [bind]. eauto.
Qed.

Lemma encode_plain n : forall v, size v < n -> (plain v <-> exists j, encode v = Ok j).
Proof.
  induction n as [|n IH]; [lia|]. intros v L. destruct v;
    try (split; [intros X; inversion X|intros (j & J); discriminate J]);
    try (split; [eexists; reflexivity|intros _; constructor]).
  - rewrite encode_list. split.
    + inversion 1; subst. destruct (mapM_ok encode l) as (r & ->); [|cbn [bind]; eauto].
      intros x I. rewrite Forall_forall in H1. apply IH; auto. apply size_in_list in I. lia.
    + intros (j & J). destruct (mapM encode l) as [r|] eqn:M; cbn [bind] in J; [|discriminate]. apply mapM_Forall2 in M.
      constructor. apply Forall_forall. intros x I. apply IH; [apply size_in_list in I; lia|].
      clear -M I. induction M; [easy|]. destruct I as [<-|I]; eauto.
  - rewrite encode_dict. split.
    + inversion 1; subst. destruct (mapM_ok encode_entry d) as (r & ->); [|cbn [bind]; eauto].
      intros [k x] I. rewrite Forall_forall in H1. destruct (IH x) as [X _]; [apply size_in_dict in I; lia|].
      destruct X as (j & J); [exact (H1 _ I)|]. unfold encode_entry. cbn [snd fst]. rewrite J. cbn [bind]. eauto.
    + intros (j & J). destruct (mapM encode_entry d) as [r|] eqn:M; cbn [bind] in J; [|discriminate]. apply mapM_Forall2 in M.
      constructor. apply Forall_forall. intros [k x] I. cbn [snd]. apply IH; [apply size_in_dict in I; lia|].
      clear -M I. induction M; [easy|]. destruct I as [->|I]; eauto.
      unfold encode_entry in H. cbn [fst snd] in H. destruct (encode x); cbn [bind] in H; [eauto|discriminate].
Qed.

(** ** Light export *)

Lemma export_path_full h r d p j h' : nth_error h r = Some d -> export_simulation_results_to_json_file h r = Ok (h', (p, j)) ->
  h' = h /\ result_path d = Ok p /\ encode (PDict d) = Ok j.
Proof.
  intros E H. unfold export_simulation_results_to_json_file, save_json_object, deref in H. rewrite E in H. cbn [of_option bind] in H.
  destruct (result_path d); cbn [bind] in H; [|discriminate]. destruct (encode _); cbn [bind] in H; [|discriminate].
  now injection H as <- <- <-.
Qed.

Lemma export_light_ok h r d : nth_error h r = Some d -> NoDup (map fst d) ->
  (forall k, In k ["chain"; "s2chain"; "sschain"]%string -> lookup k d <> None) ->
  exists h' , kept h h' /\
  export_lightly h r = (let* p := result_path d in let* j := encode (PDict (without ["chain"; "s2chain"; "sschain"]%string d)) in Ok (h', (p, j))).
Proof.
  intros E N L. unfold export_lightly, deref. rewrite E. cbn [of_option bind].
  assert (X : dict_copy h r = Ok (h ++ [d], List.length h)) by (unfold dict_copy, deref; now rewrite E).
  rewrite X. cbn [bind]. unfold lighten_results.
  destruct (removekeys_ok ["chain"; "s2chain"; "sschain"]%string (h ++ [d]) (List.length h) d) as (h' & d' & R & K & E'); auto.
  { rewrite nth_error_app2, Nat.sub_diag by lia. reflexivity. }
  { repeat constructor; cbn; intuition discriminate. }
  exists h'. split.
  - intros r' d0 H. apply K. rewrite nth_error_app1; auto. apply nth_error_Some. congruence.
  - destruct (result_path d); cbn [bind]; auto. rewrite R. cbn [bind]. unfold save_json_object, deref. rewrite E'. reflexivity.
Qed.

End Store.
