(** Merging of user settings into default settings: utilities/general.py 61-92. *)

From Coq Require Import ZArith QArith Bool Lia List String Ascii Permutation.
From Verif Require Import Base Num Samplers Adapt Settings Simulator Names ChainFiles Results ResultSpec SamplerFacts ResultFacts ResultThms.
Import ListNotations.
Close Scope Q_scope.
Open Scope list_scope.
Open Scope nat_scope.
Open Scope res_scope.

Section M.
Context {F : Type} `{NF : Num F}.

Definition step (default : pydict F) (e : string * pyval F) (settings : pydict F) : res (pydict F) :=
  match lookup (fst e) settings with
  | Some (PDict sub) =>
      if existsb (String.eqb (fst e)) (map fst default) then
        let* s := check_settings sub (snd e) in Ok (setkey (fst e) (PDict s) settings)
      else Ok (setkey (fst e) (snd e) settings)
  | _ => Ok (setkey (fst e) (snd e) settings)
  end.
Fixpoint loop (default : pydict F) (u : list (string * pyval F)) (settings : pydict F) : res (pydict F) :=
  match u with [] => Ok settings | e :: t => let* s := step default e settings in loop default t s end.

Lemma check_settings_dict default u : check_settings default (PDict u) = loop default u default.
Proof.
  cbn [check_settings]. generalize default at 2 4 as s. induction u as [|[k v] t IH]; intros s; auto.
  cbn [loop]. unfold step. cbn [fst snd]. destruct (lookup k s) as [[]|]; cbn [bind]; try apply IH.
  destruct (existsb (String.eqb k) (map fst default)); cbn [bind]; [|apply IH].
  destruct (check_settings d v); cbn [bind]; auto.
Qed.

(** One entry, when the settings still hold the default for its key. *)
Lemma step_default default k v s : lookup k s = lookup k default ->
  step default (k, v) s = match lookup k default with
                          | Some (PDict sub) => let* s' := check_settings sub v in Ok (setkey k (PDict s') s)
                          | _ => Ok (setkey k v s) end.
Proof.
  intros E. unfold step. cbn [fst snd]. rewrite E. destruct (lookup k default) as [[]|] eqn:L; auto.
  assert (X : mem (map fst default) k = true). { apply mem_in, lookup_in. congruence. }
  unfold mem in X. now rewrite X.
Qed.

Lemma loop_spec default u : forall s0 s, NoDup (map fst u) ->
  (forall k, In k (map fst u) -> lookup k s0 = lookup k default) -> loop default u s0 = Ok s ->
  (forall k, lookup k u = None -> lookup k s = lookup k s0) /\
  (forall k v, lookup k u = Some v -> (forall sub, lookup k default <> Some (PDict sub)) -> lookup k s = Some v) /\
  (forall k v sub, lookup k u = Some v -> lookup k default = Some (PDict sub) ->
     exists s', lookup k s = Some (PDict s') /\ check_settings sub v = Ok s').
Proof.
  induction u as [|[k v] t IH]; intros s0 s N D H.
  - cbn [loop] in H. injection H as <-. cbn [lookup]. repeat split; auto; discriminate.
  - cbn [loop] in H. cbn [map fst] in *. rewrite step_default in H by (apply D; now left). inversion N; subst.
    assert (X : exists w, loop default t (setkey k w s0) = Ok s /\
        ((forall sub, lookup k default <> Some (PDict sub)) -> w = v) /\
        (forall sub, lookup k default = Some (PDict sub) -> exists s', w = PDict s' /\ check_settings sub v = Ok s')).
    { destruct (lookup k default) as [[]|] eqn:L; cbn [bind] in H;
        try (exists v; split; [exact H|split; [auto|intros sub Y; congruence]]).
      destruct (check_settings d v) as [s'|] eqn:C; cbn [bind] in H; [|discriminate].
      exists (PDict s'). split; auto. split; [intros Y; congruence|]. intros sub [= <-]. eauto. }
    destruct X as (w & L & W1 & W2). apply IH in L as (I1 & I2 & I3); auto.
    2:{ intros k' I. rewrite lookup_setkey. destruct (String.eqb_spec k' k) as [->|]; [tauto|]. apply D. now right. }
    assert (LT : lookup k t = None) by now apply lookup_none. pose proof (I1 _ LT) as LK. rewrite lookup_setkey, String.eqb_refl in LK.
    cbn [lookup]. repeat split.
    + intros k2 Y. destruct (String.eqb_spec k2 k) as [Q|Q]; [discriminate|]. rewrite I1 by auto.
      rewrite lookup_setkey. destruct (String.eqb_spec k2 k); [congruence|auto].
    + intros k' v' Y Z. destruct (String.eqb_spec k' k) as [->|]; [|now apply I2]. injection Y as <-. rewrite LK. f_equal. auto.
    + intros k' v' sub Y Z. destruct (String.eqb_spec k' k) as [->|]; [|eapply I3; eauto]. injection Y as <-.
      destruct (W2 _ Z) as (s' & -> & C). eauto.
Qed.

Lemma check_settings_merged n : forall (d : pydict F) u s, size u < n -> wf u -> check_settings d u = Ok s -> merged d u s.
Proof.
  induction n as [|n IH]; [lia|]. intros d u s L W H. destruct u; try discriminate H.
  - injection H as <-. constructor.
  - rewrite check_settings_dict in H. inversion W; subst; [|exfalso; eapply H1; reflexivity].
    apply loop_spec in H as (A & B & C); auto. constructor; auto.
    intros k v sub X Y. destruct (C _ _ _ X Y) as (s' & S1 & S2). exists s'. split; auto.
    apply lookup_In in X. apply IH; auto. { apply size_in_dict in X. lia. }
    rewrite Forall_forall in H2. exact (H2 _ X).
Qed.

Lemma loop_ok default u : forall s0, NoDup (map fst u) ->
  (forall k, In k (map fst u) -> lookup k s0 = lookup k default) ->
  (forall k v sub, lookup k u = Some v -> lookup k default = Some (PDict sub) -> exists s', check_settings sub v = Ok s') ->
  exists s, loop default u s0 = Ok s.
Proof.
  induction u as [|[k v] t IH]; intros s0 N D C; cbn [loop]; [eauto|]. cbn [map fst] in *. rewrite step_default by (apply D; now left).
  inversion N; subst.
  assert (X : forall w, exists s, loop default t (setkey k w s0) = Ok s).
  { intros w. apply IH; auto.
    - intros k' I. rewrite lookup_setkey. destruct (String.eqb_spec k' k) as [->|]; [tauto|]. apply D. now right.
    - intros k' v' sub Y Z. apply (C k' v' sub); auto. cbn [lookup]. destruct (String.eqb_spec k' k) as [->|]; auto.
      apply lookup_none in H1. congruence. }
  destruct (lookup k default) as [[]|] eqn:L; cbn [bind]; try apply X.
  destruct (C k v d) as (s' & ->); auto; [cbn [lookup]; now rewrite String.eqb_refl|]. cbn [bind]. apply X.
Qed.

Lemma loop_ok_inv default u : forall s0 s, NoDup (map fst u) ->
  (forall k, In k (map fst u) -> lookup k s0 = lookup k default) -> loop default u s0 = Ok s ->
  forall k v sub, lookup k u = Some v -> lookup k default = Some (PDict sub) -> exists s', check_settings sub v = Ok s'.
Proof.
  intros s0 s N D H k v sub X Y. apply loop_spec in H as (_ & _ & C); auto. destruct (C _ _ _ X Y) as (s' & _ & E). eauto.
Qed.

Lemma check_settings_ok n : forall (d : pydict F) u, size u < n -> wf u -> (matching d u <-> exists s, check_settings d u = Ok s).
Proof.
  induction n as [|n IH]; [lia|]. intros d u L W. destruct u;
    try (split; [intros X; now inversion X|intros (s9 & X); discriminate X]).
  - split; [eexists; reflexivity|constructor].
  - rewrite check_settings_dict. inversion W; subst; [|exfalso; eapply H0; reflexivity].
    assert (S1 : forall k v, lookup k d0 = Some v -> size v < n /\ wf v).
    { intros k v X. apply lookup_In in X. split; [apply size_in_dict in X; lia|]. rewrite Forall_forall in H1. exact (H1 _ X). }
    split.
    + inversion 1; subst. apply loop_ok; auto. intros k v sub X Y. destruct (S1 _ _ X). apply IH; auto. eapply H4; eauto.
    + intros (s & X). constructor. intros k v sub Y Z. destruct (S1 _ _ Y). apply IH; auto. eapply loop_ok_inv; eauto.
Qed.

Lemma check_settings_spec (d : pydict F) u : wf u ->
  (matching d u <-> exists s, check_settings d u = Ok s) /\ (forall s, check_settings d u = Ok s -> merged d u s).
Proof.
  intros W. split; [eapply check_settings_ok; eauto|intros s H; eapply check_settings_merged; eauto].
Qed.
End M.
