(** A run that starts at a point with a defined sum of squares stays at such points: proof of the
    run-level part of C13. *)

From Coq Require Import ZArith QArith Bool Lia List String.
From Verif Require Import Base Num Samplers Adapt Settings Simulator SamplerFacts RunFacts RunSpec RunLift.
From Verif Require Import NaNFacts.
Import ListNotations.
Close Scope Q_scope.
Open Scope list_scope.
Open Scope nat_scope.
Open Scope res_scope.

Section NaNRun.
Context {A : Type} `{AA : Arith A}.
Hypothesis H11 : neq (nmul n1 (nsub n1 n1)) (@n0 (X A) _) = true.
Hypothesis H10 : nle n1 (@n0 (X A) _) = false.
Notation F := (X A).
Variable E : env F.
Hypothesis Hu : forall k, nlt (s_unif (e_str E) k) n0 = false.

Section Loop.
Variable K : rconst F.

Lemma sample_nan st stage new outb z iacce s :
  sample_step E K st = Ok (stage, new, outb, z, iacce, s) -> stage <> 0 ->
  ~ undef new /\ p_sigma2 new = p_sigma2 (r_old st).
Proof.
  intros H Hs. unfold sample_step in H. peel H. destruct a as [[[[acc nw] ob] zz] s1].
  pose proof (metropolis_sigma2 _ _ _ _ _ _ _ _ _ _ E0) as HS.
  destruct ((1 <? o_ntry (k_opts K)) && negb acc) eqn:Ec.
  - peel H. destruct a as [[[[[acc' out] outb'] ia] path'] s2]. inv H.
    unfold delayed_rejection_call in E1. destruct (c_RDR (r_cov st)) as [| |l] eqn:ER; try discriminate.
    destruct acc'; [|lia]. apply dr_undef in E1; auto. rewrite HS in E1. auto.
  - inv H. destruct acc; [|lia]. split; auto. eapply metropolis_undef; eauto.
Qed.

Definition defined (row : list F) : Prop := ~ In NaN row.

Definition nan_inv (st : rstate F) : Prop :=
  (k_nsos K = 0 \/ (p_sigma2 (r_old st) <> [] /\ r_sigma2 st <> [] /\ defined (p_ss (r_old st)))) /\
  Forall defined (r_ss st).

Lemma Forall_set_nth {B} (P : B -> Prop) l : forall k v, Forall P l -> P v -> Forall P (set_nth k v l).
Proof.
  induction l as [|x l IH]; intros k v H Hv; destruct k; simpl; auto; inv H; constructor; auto.
Qed.

Lemma fit_row_defined n (x row : list F) : fit_row n x = Ok row -> n = 0 \/ defined x -> defined row.
Proof.
  unfold fit_row. destruct (Nat.eqb_spec (List.length x) n) as [HL|HL].
  - intros H [-> |Hd]; inv H; auto. destruct row; [intros []|discriminate].
  - destruct x as [|a [|b x]]; try discriminate. intros H. inv H. intros [->|Hd]; [intros []|].
    intros HI. apply repeat_spec in HI. apply Hd. left. congruence.
Qed.

Lemma nonnil_len {B} (l l' : list B) : List.length l = List.length l' -> l <> [] -> l' <> [].
Proof. destruct l, l'; simpl; congruence. Qed.

Lemma nan_step i st st' : nan_inv st -> step E K i st = Ok st' -> nan_inv st'.
Proof.
  intros [I1 I2] H. apply step_parts in H as (stage & new & outb & z & iacce & s & st1 & st2 & st3 & H1 & H2 & H3 & H4 & H5).
  apply adapt_frame in H3. apply save_frame in H5.
  assert (G : nan_inv st1).
  { unfold update_chain in H2. peel H2. peel H2. peel H2. peel H2. inv H2. apply write_ok in E3 as [_ ->].
    set (cur := if negb (stage =? 0) then new else r_old st) in *.
    assert (HC : k_nsos K = 0 \/ (p_sigma2 cur <> [] /\ r_sigma2 st <> [] /\ defined (p_ss cur))).
    { destruct I1 as [I1|(J1 & J2 & J3)]; [auto|right]. unfold cur. destruct (Nat.eqb_spec stage 0) as [Hs|Hs]; simpl; auto.
      destruct (sample_nan _ _ _ _ _ _ _ H1 Hs) as [G1 G2]. rewrite G2. repeat split; auto.
      intros HN. apply G1. split; auto. congruence. }
    split; [exact HC|]. cbn [r_ss]. apply Forall_set_nth; auto. eapply fit_row_defined; eauto. tauto. }
  assert (G2 : nan_inv st2).
  { decompose [and] H3. unfold nan_inv in *. 
    repeat match goal with H : _ st2 = _ st1 |- _ => rewrite H; clear H end. exact G. }
  assert (G3 : nan_inv st3).
  { destruct G2 as [J1 J2]. unfold sigma_step in H4. destruct (o_updatesigma (k_opts K)); [|inv H4; split; auto].
    peel H4. destruct a as [[sg s20] s']. peel H4. peel H4. peel H4. inv H4. split; simpl; auto.
    apply update_error_variance_io in E0 as (_ & _ & L & _).
    destruct J1 as [J1|(Q1 & Q2 & Q3)]; [auto|right]. symmetry in L.
    split; [eapply nonnil_len; eauto|]. split; [eapply nonnil_len; eauto|auto]. }
  decompose [and] H5. unfold nan_inv in *.
  repeat match goal with H : _ st' = _ st3 |- _ => rewrite H; clear H end. exact G3.
Qed.
End Loop.

Lemma zero_row n : defined (repeat (@n0 F _) n).
Proof. intros H. apply repeat_spec in H. discriminate. Qed.

Lemma fresh_run_defined m m' :
  run_simulation E false m = Ok m' ->
  (forall row, nth_error (m_sschain m') 0 = Some row -> ~ In NaN row) ->
  forall row, In row (m_sschain m') -> ~ In NaN row.
Proof.
  intros H H0. apply run_facts in H as (ps & ini & st0 & st & ms & chains & H). cbv zeta in H.
  destruct H as (D & (o & I0 & On & Ot & Oo) & Hprev & Harr & Hst0 & HX & HK & R & N2 & NK & NL &
                 P1 & P2 & P3 & P4 & P5 & _).
  pose proof (init_facts _ _ _ _ _ _ _ _ _ I0) as (J1 & J2 & J3 & J4 & J5 & J6 & J7 & J8 & J9 & J10 & J11).
  set (K := make_const ini chains) in *.
  destruct (rc_frame _ _ _ _ _ R 0) as [_ F2]; [left; rewrite Hst0; simpl; lia|].
  rewrite P5 in H0.
  assert (HA : nth_error (r_ss st0) 0 = Some (p_ss (i_set ini)) /\ Forall (fun row => row = p_ss (i_set ini) \/ row = repeat n0 (i_nsos ini)) (r_ss st0)).
  { split.
    - apply initialize_chains_facts in Harr; [|rewrite J1; simpl; rewrite J4, map_length; symmetry; apply parind_length|auto].
      tauto.
    - unfold initialize_chains in Harr. peel Harr. peel Harr. peel Harr. peel Harr.
      assert (r_ss st0 = a2) as ->.
      { destruct (o_updatesigma (i_opts ini)); [peel Harr; peel Harr|]; inv Harr; auto. }
      apply write_ok in E3 as [_ ->]. rewrite J9 in E2. unfold fit_row in E2. rewrite Nat.eqb_refl in E2. inv E2.
      apply Forall_set_nth; auto. apply Forall_forall. intros x Hx. unfold zeros in Hx. apply repeat_spec in Hx. auto. }
  destruct HA as [HA HB]. rewrite F2 in H0. specialize (H0 _ HA).
  assert (HI0 : nan_inv K st0).
  { split.
    - rewrite Hst0. cbn [r_old r_sigma2 start_state].
      unfold initialize_simulation in I0. peel I0. peel I0. peel I0. peel I0.
      destruct (evaluate_sos_function _ _ _ _) as [ss s1]. peel I0. inv I0.
      cbn [i_set p_sigma2 p_ss i_model K make_const k_nsos i_nsos] in *.
      destruct (Nat.eq_dec (List.length ss) 0) as [|Hn]; [auto|right].
      unfold check_wrt_nsos in E4. peel E4. peel E4. peel E4. peel E4. inv E4. cbn [ms_sigma2 lst].
      unfold check_size_of_setting in E7. 
      destruct (match ms_sigma2 a with Some s => s | None => [] end) as [|x [|y l]] eqn:Hsg.
      + simpl in E7. destruct (List.length ss); [lia|discriminate].
      + inv E7. split; [discriminate|]. split; [|exact H0].
        intros HR. apply (f_equal (@List.length _)) in HR. rewrite repeat_length in HR. simpl in HR. lia.
      + destruct (_ <? _) in E7; [discriminate|]. destruct (_ <? _) in E7; [discriminate|]. inv E7.
        split; [discriminate|]. split; [discriminate|auto].
    - revert HB. apply Forall_impl. intros x [->| ->]; [exact H0|apply zero_row]. }
  unfold execute in HX. peel HX. destruct (_ <=? 1) in HX; [discriminate|]. peel HX. peel HX. 
  assert (HI : nan_inv K a).
  { eapply (iterate_ind E K (fun _ x => nan_inv K x)); [exact HI0| |exact E0].
    intros i s1 s2 _ G1 G2. eapply nan_step; eauto. }
  intros row. rewrite P5. assert (r_ss st = r_ss a) as -> by (inv HX; reflexivity).
  destruct HI as [_ HI]. rewrite Forall_forall in HI. apply HI.
Qed.
End NaNRun.
