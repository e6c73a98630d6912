(** Facts about one sampling step that hold for every float structure. *)

From Coq Require Import ZArith QArith Bool Lia List.
From Verif Require Import Base Num Samplers.
Import ListNotations.
Open Scope nat_scope.
Open Scope res_scope.

Ltac inv H := inversion H; subst; clear H.

(** Peel a successful [let*]. *)
Ltac peel H :=
  let a := fresh "a" in let E := fresh "E" in
  apply bind_ok in H; destruct H as (a & E & H).

Lemma list_eq_nth {A} (a b : list A) :
  length a = length b -> (forall j, nth_error a j = nth_error b j) -> a = b.
Proof.
  revert b; induction a as [|p a IH]; intros [|q b] HL HN; simpl in *; try lia; auto.
  f_equal.
  - specialize (HN 0); simpl in HN; congruence.
  - apply IH; [lia|]. intros j; apply (HN (S j)).
Qed.

Lemma existsb_map2_false {A B} (f : A -> B -> bool) l1 l2 :
  existsb (fun b => b) (map2 f l1 l2) = false ->
  forall i a b, nth_error l1 i = Some a -> nth_error l2 i = Some b -> f a b = false.
Proof.
  revert l2; induction l1 as [|x t IH]; intros [|y t2] H i a b Ha Hb; simpl in *;
    destruct i; simpl in *; try discriminate.
  - inv Ha; inv Hb. apply orb_false_iff in H. tauto.
  - apply orb_false_iff in H as [_ H]. eapply IH; eauto.
Qed.

Section Facts.
Context {F : Type} `{NF : Num F}.

(** ** Specification: a point respects its limits *)
Definition within (lower upper theta : list F) : Prop :=
  forall i t l u, nth_error theta i = Some t -> nth_error lower i = Some l ->
             nth_error upper i = Some u -> nlt t l = false /\ nlt u t = false.

(** A full parameter vector [v] that has [theta] at the positions [ix] and agrees with [base]
    elsewhere. *)
Definition full_vector (base : list F) (ix : list nat) (theta v : list F) : Prop :=
  length v = length base /\
  (forall k i, nth_error ix k = Some i -> nth_error v i = nth_error theta k) /\
  (forall i, ~ In i ix -> nth_error v i = nth_error base i).

Lemma outside_false_within theta lower upper :
  length lower = length upper ->
  is_sample_outside_bounds theta lower upper = false -> within lower upper theta.
Proof.
  unfold is_sample_outside_bounds. intros HL H. apply orb_false_iff in H as [H1 H2].
  intros i t l u Ht Hl Hu. split.
  - exact (existsb_map2_false nlt _ _ H1 i t l Ht Hl).
  - exact (existsb_map2_false nlt _ _ H2 i u t Hu Ht).
Qed.

Lemma within_outside_false theta lower upper :
  length theta = length lower -> length lower = length upper ->
  within lower upper theta -> is_sample_outside_bounds theta lower upper = false.
Proof.
  revert lower upper; induction theta as [|t T IH]; intros [|l L] [|u U] H1 H2 HW; simpl in *; try lia; auto.
  unfold is_sample_outside_bounds in *; simpl.
  destruct (HW 0 t l u eq_refl eq_refl eq_refl) as [-> ->]; simpl.
  apply IH; try lia. intros i t' l' u' A B C. apply (HW (S i)); auto.
Qed.

(** The view is well formed: sizes agree, sampled positions are distinct positions of the full vector. *)
Definition view_ok (V : pview F) (n : nat) : Prop :=
  length (v_parind V) = v_npar V /\ length (v_lower V) = v_npar V /\
  length (v_upper V) = v_npar V /\ NoDup (v_parind V) /\ (forall i, In i (v_parind V) -> i < n).

(** The vector inside the SS object agrees with [base] at the positions that are not sampled. *)
Definition value_ok (base : list F) (V : pview F) (s : io F) : Prop :=
  length (io_value s) = length base /\
  forall i, ~ In i (v_parind V) -> nth_error (io_value s) i = nth_error base i.

(** All calls of the SS function after [old] got admissible vectors. *)
Definition call_ok (base : list F) (V : pview F) (v : list F) : Prop :=
  exists theta, length theta = v_npar V /\ within (v_lower V) (v_upper V) theta /\
                full_vector base (v_parind V) theta v.

Lemma scatter_full base (V : pview F) s theta :
  view_ok V (length base) -> value_ok base V s -> length theta = v_npar V ->
  full_vector base (v_parind V) theta (scatter (io_value s) (v_parind V) theta) /\
  scatter (io_value s) (v_parind V) theta = scatter base (v_parind V) theta.
Proof.
  intros (HL & _ & _ & ND & HR) (HV1 & HV2) Ht.
  assert (HF : forall x : list F, length x = length base ->
            (forall i, ~ In i (v_parind V) -> nth_error x i = nth_error base i) ->
            full_vector base (v_parind V) theta (scatter x (v_parind V) theta)).
  { intros x Hx1 Hx2. split; [|split].
    - now rewrite scatter_length.
    - intros k i Hk. assert (Hkl : k < length (v_parind V)).
      { apply nth_error_Some. congruence. }
      rewrite <- (scatter_in (v_parind V) x theta k ND Hkl).
      + f_equal. symmetry. apply nth_error_nth. exact Hk.
      + congruence.
      + intros j Hj. rewrite Hx1. auto.
    - intros i Hi. rewrite scatter_other by auto. auto. }
  split; [apply HF; auto|].
  pose proof (HF _ HV1 HV2) as (A1 & A2 & A3).
  pose proof (HF base eq_refl (fun _ _ => eq_refl)) as (B1 & B2 & B3).
  apply list_eq_nth; [congruence|].
  intros j. destruct (in_dec Nat.eq_dec j (v_parind V)) as [Hin|Hout].
  - apply In_nth_error in Hin as (k & Hk). rewrite (A2 _ _ Hk), (B2 _ _ Hk). reflexivity.
  - rewrite A3, B3; auto.
Qed.

Variable E : env F.

Lemma sos_io V theta s ss s1 base :
  evaluate_sos_function E V theta s = (ss, s1) ->
  view_ok V (length base) -> value_ok base V s -> length theta = v_npar V ->
  ss = e_sos E (scatter base (v_parind V) theta) /\ value_ok base V s1 /\
  io_calls s1 = scatter base (v_parind V) theta :: io_calls s /\
  full_vector base (v_parind V) theta (scatter base (v_parind V) theta) /\ io_pos s1 = io_pos s.
Proof.
  unfold evaluate_sos_function. intros H HV Hs Ht. inv H.
  destruct (scatter_full base V s theta HV Hs Ht) as [H1 H2]. rewrite H2 in *.
  repeat split; auto; simpl.
  - now rewrite scatter_length.
  - intros i Hi. now rewrite scatter_other.
  - destruct H1; auto.
  - destruct H1 as (_ & ? & _); auto.
  - destruct H1 as (_ & _ & ?); auto.
Qed.

Lemma sample_candidate_facts npar oldpar R s newpar z s1 :
  sample_candidate E npar oldpar R s = Ok (newpar, z, s1) ->
  z = map (s_normal (e_str E)) (seq (io_pos s) npar) /\
  newpar = vadd oldpar (vecmat z R) /\
  length newpar = length oldpar /\ length oldpar = npar /\ is_square npar R = true /\
  io_value s1 = io_value s /\ io_calls s1 = io_calls s /\ io_pos s1 = io_pos s + npar.
Proof.
  unfold sample_candidate.
  destruct (is_square npar R && (length oldpar =? npar)) eqn:Hc; [|discriminate].
  apply andb_true_iff in Hc as [Hs Hl]. apply Nat.eqb_eq in Hl.
  unfold randn. intros H. inv H. repeat split; auto.
  unfold vadd. rewrite map2_length. unfold vecmat. rewrite map_length. unfold range. rewrite seq_length.
  unfold is_square in Hs. apply andb_true_iff in Hs as [Hs1 Hs2]. apply Nat.eqb_eq in Hs1.
  unfold ncols. destruct R as [|r R']; simpl in *.
  - rewrite <- Hs1 in *. simpl. lia.
  - apply andb_true_iff in Hs2 as [Hr _]. apply Nat.eqb_eq in Hr. rewrite Hr. lia.
Qed.

(** A set that may become the current one. *)
Definition good_set (base : list F) (V : pview F) (p : pset F) : Prop :=
  length (p_theta p) = v_npar V /\ within (v_lower V) (v_upper V) (p_theta p) /\
  p_ss p = e_sos E (scatter base (v_parind V) (p_theta p)) /\
  p_prior p = e_prior E (p_theta p) (v_mu V) (v_sigma V).

Lemma mk_good base V theta sigma2 alpha :
  length theta = v_npar V -> within (v_lower V) (v_upper V) theta ->
  good_set base V (mkpset theta (e_sos E (scatter base (v_parind V) theta))
                          (evaluate_prior E V theta) sigma2 alpha).
Proof. intros. split; [|split; [|split]]; auto. Qed.

(** the calls made between two io states *)
Definition calls_between (base : list F) (V : pview F) (s s1 : io F) : Prop :=
  exists new, io_calls s1 = new ++ io_calls s /\ Forall (call_ok base V) new.

Lemma calls_between_refl base V s s1 : io_calls s1 = io_calls s -> calls_between base V s s1.
Proof. exists []. split; auto. Qed.
Lemma calls_between_trans base V s s1 s2 :
  calls_between base V s s1 -> calls_between base V s1 s2 -> calls_between base V s s2.
Proof.
  intros (n1' & H1 & F1) (n2' & H2 & F2). exists (n2' ++ n1'). split.
  - rewrite H2, H1. now rewrite app_assoc.
  - apply Forall_app; auto.
Qed.

Lemma metropolis_facts base V R old s acc new outb z s1 :
  view_ok V (length base) -> value_ok base V s ->
  run_metropolis_step E V R old s = Ok (acc, new, outb, z, s1) ->
  value_ok base V s1 /\ calls_between base V s s1 /\
  z = map (s_normal (e_str E)) (seq (io_pos s) (v_npar V)) /\
  p_theta new = vadd (p_theta old) (vecmat z R) /\ length (p_theta new) = v_npar V /\
  p_sigma2 new = p_sigma2 old /\
  (acc = true -> outb = false) /\ (outb = false -> good_set base V new) /\
  (outb = is_sample_outside_bounds (p_theta new) (v_lower V) (v_upper V)) /\
  io_pos s + v_npar V <= io_pos s1.
Proof.
  intros HV Hs H. unfold run_metropolis_step in H.
  peel H. destruct a as [[newpar z'] s'].
  apply sample_candidate_facts in E0 as (Ez & En & El & El2 & _ & Ev & Ec & Ep).
  pose proof HV as (V1 & V2 & V3 & V4 & V5).
  assert (Hs' : value_ok base V s').
  { destruct Hs as [A B]. split; [now rewrite Ev|]. intros i Hi. rewrite Ev. auto. }
  destruct (is_sample_outside_bounds newpar (v_lower V) (v_upper V)) eqn:Hb.
  - inv H. simpl. split; [auto|]. split; [apply calls_between_refl; auto|].
    repeat split; auto; try congruence; try discriminate; try lia.
  - destruct (evaluate_sos_function E V newpar s') as [ss1 s2] eqn:Hss.
    peel H. peel H.
    destruct (log_posterior_ratio_acceptance_test E _ s2) as [accept s3] eqn:Ha.
    inv H. simpl.
    assert (Hlen : length (vadd (p_theta old) (vecmat (map (s_normal (e_str E)) (seq (io_pos s) (v_npar V))) R)) = v_npar V) by congruence.
    destruct (sos_io _ _ _ _ _ base Hss HV Hs' Hlen) as (S1 & S2 & S3 & S4 & S5).
    unfold log_posterior_ratio_acceptance_test, rand in Ha. inv Ha.
    assert (HW : within (v_lower V) (v_upper V)
       (vadd (p_theta old) (vecmat (map (s_normal (e_str E)) (seq (io_pos s) (v_npar V))) R))).
    { apply outside_false_within; [congruence|]. auto. }
    split; [destruct S2 as [B1 B2]; split; auto|].
    split. { eexists [_]. simpl. split; [rewrite S3, Ec; reflexivity|]. constructor; [|constructor].
             eexists; split; [|split]; eauto. }
    split; [auto|]. split; [auto|]. split; [auto|]. split; [auto|]. split; [auto|].
    split; [intros _; apply mk_good; auto|].
    split; [auto|]. simpl. lia.
Qed.

(** ** Delayed rejection *)

Lemma dr_loop_facts base V RDR invR old new n :
  forall itry path iacce cur s acc out outb iacce' path' s1,
  view_ok V (length base) -> value_ok base V s ->
  cur = (false, old, snd cur) -> length path = S itry ->
  dr_loop E V RDR invR old new n itry path iacce cur s = Ok (acc, out, outb, iacce', path', s1) ->
  value_ok base V s1 /\ calls_between base V s s1 /\
  (acc = false -> out = old) /\
  (acc = true -> outb = false /\ good_set base V out /\ p_sigma2 out = p_sigma2 new /\
     exists P pos, nth_error RDR (length path' - 2) = Some P /\ io_pos s <= pos /\
       pos + v_npar V <= io_pos s1 /\
       p_theta out = vadd (p_theta old)
                       (vecmat (map (s_normal (e_str E)) (seq pos (v_npar V))) P)) /\
  (exists more, path' = path ++ more /\ length more <= n /\ (acc = false -> length more = n) /\
                (acc = true -> 1 <= length more)) /\
  length iacce' = length iacce /\
  (forall j, nth_error iacce' j =
     if acc && (j =? length path' - 2) then option_map S (nth_error iacce j) else nth_error iacce j) /\
  (acc = true -> length path' - 2 < length iacce) /\ io_pos s <= io_pos s1.
Proof.
  induction n as [|n IH]; intros itry path iacce cur s acc out outb iacce' path' s1 HV Hs Hcur HP H.
  - simpl in H. rewrite Hcur in H. inv H.
    split; auto. split; [apply calls_between_refl; auto|]. split; auto. split; [discriminate|].
    split; [exists []; rewrite app_nil_r; simpl; repeat split; auto; discriminate|].
    repeat split; auto; try discriminate.
  - cbn [dr_loop] in H. peel H. destruct (nth_error RDR (S itry - 1)) as [P|] eqn:EP; [|discriminate].
    simpl in E0. inv E0. peel H. destruct a0 as [[theta z] s'].
    rename E0 into ES. rename a into P.
    apply sample_candidate_facts in ES as (Ez & En & El & El2 & _ & Ev & Ec & Ep).
    assert (Hs' : value_ok base V s').
    { destruct Hs as [A B]. split; [now rewrite Ev|]. intros i Hi. rewrite Ev. auto. }
    destruct (is_sample_outside_bounds theta (v_lower V) (v_upper V)) eqn:Hb.
    + apply IH in H; auto; [|simpl; rewrite app_length; simpl; lia].
      destruct H as (H1 & H2 & H3 & H4 & (more & M1 & M2 & M3 & M4) & H6 & H7 & H8 & H9).
      split; auto. split; [eapply calls_between_trans; [apply calls_between_refl; exact Ec|exact H2]|].
      split; auto.
      split. { intros Ht. destruct (H4 Ht) as (A & B & C & P' & pos & Q1 & Q2 & Q2' & Q3).
               split; [auto|]. split; [exact B|]. split; [auto|]. exists P', pos. repeat split; auto; lia. }
      split. { rewrite <- app_assoc in M1. eexists; split; [exact M1|]. simpl.
               repeat split; intros; try lia; try (rewrite M3; auto). }
      repeat split; auto; lia.
    + destruct (evaluate_sos_function E V theta s') as [ss s2] eqn:Hss.
      assert (Hlen : length theta = v_npar V) by congruence.
      destruct (sos_io _ _ _ _ _ base Hss HV Hs' Hlen) as (S1 & S2 & S3 & S4 & S5).
      peel H. rename a into alpha. clear E0.
      destruct (posterior_ratio_acceptance_test E alpha s2) as [accept s3] eqn:Ha.
      assert (Ha2 : io_value s3 = io_value s2 /\ io_calls s3 = io_calls s2 /\ io_pos s2 <= io_pos s3).
      { unfold posterior_ratio_acceptance_test, rand in Ha. destruct (nle n1 alpha); inv Ha; simpl; auto. }
      destruct Ha2 as (A1 & A2 & A3). clear Ha.
      assert (HW : within (v_lower V) (v_upper V) theta).
      { apply outside_false_within; auto. destruct HV as (? & ? & ? & _). congruence. }
      assert (Hs3 : value_ok base V s3).
      { destruct S2 as [B1 B2]. split; [now rewrite A1|]. intros. rewrite A1. auto. }
      assert (Hcb : calls_between base V s s3).
      { eexists [_]. split; [rewrite A2, S3, Ec; reflexivity|]. repeat constructor.
        exists theta. auto. }
      peel H. destruct (nth_error iacce (S itry - 1)) as [cnt|] eqn:Ecnt; [|discriminate]. simpl in E0. inv E0.
      assert (Hlt : S itry - 1 < length iacce) by (apply nth_error_Some; congruence).
      destruct accept.
      * inv H. split; auto. split; auto. split; [discriminate|]. simpl in *.
        assert (HPl : length (path ++ [mkpset (vadd (p_theta old) (vecmat (map (s_normal (e_str E)) (seq (io_pos s) (v_npar V))) P))
             (e_sos E (scatter base (v_parind V) (vadd (p_theta old) (vecmat (map (s_normal (e_str E)) (seq (io_pos s) (v_npar V))) P))))
             (evaluate_prior E V (vadd (p_theta old) (vecmat (map (s_normal (e_str E)) (seq (io_pos s) (v_npar V))) P)))
             (p_sigma2 new) (Some alpha)]) - 2 = itry).
        { rewrite app_length, HP. simpl. lia. }
        rewrite Nat.sub_0_r in *.
        split. { intros _. split; auto. split; [apply mk_good; auto|]. split; auto.
                 exists P, (io_pos s). rewrite HPl. repeat split; auto; lia. }
        split. { eexists; split; [reflexivity|]. simpl. repeat split; intros; try lia; discriminate. }
        split; [apply set_nth_length|]. rewrite HPl.
        split; [|split; [auto|lia]].
        intros j. destruct (Nat.eqb_spec j itry) as [->|Hne].
        -- rewrite set_nth_same by auto. rewrite Ecnt. simpl. f_equal. lia.
        -- rewrite set_nth_other; auto.
      * apply IH in H; auto; [|simpl; rewrite app_length; simpl; lia].
        destruct H as (H1 & H2 & H3 & H4 & (more & M1 & M2 & M3 & M4) & H6 & H7 & H8 & H9).
        rewrite Nat.add_0_r in *.
        assert (Hid : set_nth (S itry - 1) a iacce = iacce).
        { apply list_eq_nth; [apply set_nth_length|]. intros j.
          destruct (Nat.eq_dec (S itry - 1) j) as [<-|Hne];
            [rewrite set_nth_same by auto; auto | apply set_nth_other; auto]. }
        rewrite Hid in *.
        split; auto. split; [eapply calls_between_trans; [exact Hcb|exact H2]|]. split; auto.
        split. { intros Ht. destruct (H4 Ht) as (A & B & C & P' & pos & Q1 & Q2 & Q2' & Q3).
                 split; [auto|]. split; [exact B|]. split; [auto|]. exists P', pos. repeat split; auto; lia. }
        split. { rewrite <- app_assoc in M1. eexists; split; [exact M1|]. simpl.
                 repeat split; intros; try lia; try (rewrite M3; auto). }
        repeat split; auto; lia.
Qed.

Lemma delayed_rejection_facts base V RDR invR ntry old new iacce s acc out outb iacce' path' s1 :
  view_ok V (length base) -> value_ok base V s ->
  run_delayed_rejection E V RDR invR ntry old new iacce s = Ok (acc, out, outb, iacce', path', s1) ->
  value_ok base V s1 /\ calls_between base V s s1 /\
  (acc = false -> out = old) /\
  (acc = true -> outb = false /\ good_set base V out /\ p_sigma2 out = p_sigma2 new /\
     exists P pos, nth_error RDR (length path' - 2) = Some P /\ io_pos s <= pos /\
       pos + v_npar V <= io_pos s1 /\
       p_theta out = vadd (p_theta old)
                       (vecmat (map (s_normal (e_str E)) (seq pos (v_npar V))) P)) /\
  (exists more, path' = old :: new :: more /\ length more <= ntry - 1 /\
                (acc = false -> length more = ntry - 1) /\ (acc = true -> 1 <= length more)) /\
  length iacce' = length iacce /\
  (forall j, nth_error iacce' j =
     if acc && (j =? length path' - 2) then option_map S (nth_error iacce j) else nth_error iacce j) /\
  (acc = true -> length path' - 2 < length iacce) /\ io_pos s <= io_pos s1.
Proof.
  intros HV Hs H. unfold run_delayed_rejection in H.
  eapply dr_loop_facts in H; eauto.
Qed.

End Facts.
