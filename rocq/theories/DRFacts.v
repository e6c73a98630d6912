(** Course of a delayed-rejection step: proofs for C12, C13. *)

From Coq Require Import ZArith QArith Bool Lia List Reals Lra.
From Verif Require Import Base Num Samplers SamplerFacts RVec BalanceSpec BalanceFacts.
Import ListNotations.
Close Scope Q_scope.
Open Scope list_scope.
Open Scope R_scope.

Section AnyF.
Context {F : Type} `{NF : Num F}.
Variable E : env F.

Lemma existsb_map2_true (f : F -> F -> bool) l1 l2 :
  existsb (fun b => b) (map2 f l1 l2) = true <->
  exists i a b, nth_error l1 i = Some a /\ nth_error l2 i = Some b /\ f a b = true.
Proof.
  revert l2; induction l1 as [|x t IH]; intros [|y t2]; simpl;
    try (split; [discriminate|intros (i & a & b & H1 & H2 & _); destruct i; discriminate]).
  rewrite orb_true_iff, IH. split.
  - intros [H|(i & a & b & H)]; [exists O, x, y; auto|exists (S i), a, b; auto].
  - intros (i & a & b & H1 & H2 & H3). destruct i as [|i]; simpl in *.
    + inversion H1; inversion H2; subst. auto.
    + right. exists i, a, b; auto.
Qed.

Lemma outside_spec theta lower upper :
  is_sample_outside_bounds theta lower upper = true <-> outside_limits lower upper theta.
Proof.
  unfold is_sample_outside_bounds, outside_limits. rewrite orb_true_iff, !existsb_map2_true. split.
  - intros [(i & a & b & H1 & H2 & H3)|(i & a & b & H1 & H2 & H3)].
    + exists i, a. split; auto. left. eauto.
    + exists i, b. split; auto. right. eauto.
  - intros (i & t & Ht & [(l & Hl & H)|(u & Hu & H)]); [left|right]; eauto 8.
Qed.

Lemma dr_loop_bounds V RDR invR old new n :
  forall itry path iacce cur s acc out outb iacce' path' s1,
  cur = (false, old, snd cur) ->
  dr_loop E V RDR invR old new n itry path iacce cur s = Ok (acc, out, outb, iacce', path', s1) ->
  (acc = false -> out = old) /\
  (acc = true -> ~ outside_limits (v_lower V) (v_upper V) (p_theta out) /\ outb = false /\
      nth_error path' (length path' - 1) = Some out) /\
  exists more, path' = path ++ more /\ (length more <= n)%nat /\ (acc = false -> length more = n).
Proof.
  induction n as [|n IH]; intros itry path iacce cur s acc out outb iacce' path' s1 Hc H.
  - cbn [dr_loop] in H. rewrite Hc in H. inversion H; subst. split; auto. split; [discriminate|].
    exists []. rewrite app_nil_r. auto.
  - cbn [dr_loop] in H. peel H. peel H. destruct a0 as [[theta z] s2].
    destruct (is_sample_outside_bounds theta (v_lower V) (v_upper V)) eqn:Hb.
    + apply IH in H; auto. destruct H as (H1 & H2 & more & -> & H3 & H4). split; auto. split; auto.
      eexists. rewrite <- app_assoc. split; [reflexivity|]. simpl. split; [lia|]. intros; rewrite H4; auto.
    + destruct (evaluate_sos_function E V theta s2) as [ss s3]. peel H.
      destruct (posterior_ratio_acceptance_test E a0 s3) as [ac s4]. peel H.
      destruct ac.
      * inversion H; subst. split; [discriminate|]. split.
        -- intros _. cbn [update_set_based_on_acceptance p_theta]. split.
           ++ intros HO. apply outside_spec in HO. congruence.
           ++ split; auto. rewrite app_length. simpl. rewrite Nat.add_sub, nth_error_app2, Nat.sub_diag by lia. auto.
        -- eexists. split; [reflexivity|]. simpl. split; [lia|discriminate].
      * apply IH in H; auto. destruct H as (H1 & H2 & more & -> & H3 & H4). split; auto. split; auto.
        eexists. rewrite <- app_assoc. split; [reflexivity|]. simpl. split; [lia|]. intros; rewrite H4; auto.
Qed.

Lemma dr_bounds V RDR invR ntry old new iacce s acc out outb iacce' path' s1 :
  run_delayed_rejection E V RDR invR ntry old new iacce s = Ok (acc, out, outb, iacce', path', s1) ->
  (acc = false -> out = old) /\
  (acc = true -> ~ outside_limits (v_lower V) (v_upper V) (p_theta out) /\ outb = false /\
      nth_error path' (length path' - 1) = Some out) /\
  exists more, path' = old :: new :: more /\ (length more <= ntry - 1)%nat /\ (acc = false -> length more = (ntry - 1)%nat).
Proof.
  intros H. unfold run_delayed_rejection in H. apply dr_loop_bounds in H; auto.
Qed.
End AnyF.

Lemma ratio_test (E : env XR) a s u : 0 <= a <= 1 -> s_unif (e_str E) (io_pos s) = Fin u -> 0 <= u < 1 ->
  exists s1, posterior_ratio_acceptance_test E (Fin a) s = (Rltb u a, s1) /\ io_value s1 = io_value s /\
    (io_pos s <= io_pos s1)%nat /\ (a < 1 -> io_pos s1 = S (io_pos s)).
Proof.
  intros Ha Hu Hr. unfold posterior_ratio_acceptance_test. rewrite XR_n1. cbn [nle Num_X xle ale Arith_R].
  destruct (Rleb 1 a) eqn:H1.
  - apply Rleb_true in H1. exists s. split.
    + f_equal. symmetry. apply Rltb_true. lra.
    + repeat split; auto. lra.
  - unfold rand. rewrite Hu. eexists. split; [reflexivity|]. simpl. repeat split; auto.
Qed.

Section Course.
Variable E : env XR.
Variable V : pview XR.
Variable sg : list R.
Variable Ps iP : list (list (list R)).
Variable old new : pset XR.
Hypothesis HE : finite_env E sg.
Hypothesis Hsg : Forall (fun s => 0 < s) sg.
Hypothesis Hsg0 : sg <> [].
Hypothesis Hsh : forall P, In P Ps -> shape (v_npar V) (v_npar V) P.
Variable xold : list R.
Hypothesis Hxold : p_theta old = fin xold /\ length xold = v_npar V.
Hypothesis Hnew : p_sigma2 new = fin sg.

Lemma normals_fin pos n : exists zs, map (s_normal (e_str E)) (seq pos n) = fin zs.
Proof.
  revert pos; induction n as [|n IH]; intros pos; [exists []; reflexivity|].
  destruct (IH (S pos)) as (zs & Hz). destruct (fe_normal _ _ HE pos) as (z & Hz0).
  exists (z :: zs). simpl. rewrite Hz0, Hz. reflexivity.
Qed.

Lemma square_fin P : shape (v_npar V) (v_npar V) P -> is_square (v_npar V) (finm P) = true.
Proof.
  intros [H1 H2]. unfold is_square. rewrite finm_length, H1, Nat.eqb_refl. simpl.
  apply forallb_forall. intros r Hr. unfold finm in Hr. apply in_map_iff in Hr as (r' & <- & Hr).
  rewrite fin_length. apply Nat.eqb_eq. auto.
Qed.

Lemma candidate_fin P s : In P Ps ->
  exists y z, sample_candidate E (v_npar V) (p_theta old) (finm P) s =
    Ok (fin y, z, mkio (io_pos s + v_npar V) (io_value s) (io_calls s)).
Proof.
  intros HP. unfold sample_candidate. rewrite square_fin by auto. destruct Hxold as [-> HL].
  rewrite fin_length, HL, Nat.eqb_refl. cbn [andb randn].
  destruct (normals_fin (io_pos s) (v_npar V)) as (zs & Hz). rewrite Hz, vecmat_fin, vadd_fin. eauto.
Qed.

(** The uniform draws decide: [judged path' k b] says that the acceptance probability of the prefix of the
    path up to try [k] was compared with a uniform draw of the stream, the outcome being [b]. *)
Definition judged (pts : list point) (lo hi k : nat) (b : bool) : Prop :=
  exists pos u, (lo <= pos <= hi)%nat /\ s_unif (e_str E) pos = Fin u /\
    let a := acc sg iP (firstn (S k) pts) in
    0 <= a <= 1 /\ (b = true <-> u < a).

Lemma judged_app pts more lo hi lo' hi' k b : (k < length pts)%nat -> (lo' <= lo)%nat -> (hi <= hi')%nat ->
  judged pts lo hi k b -> judged (pts ++ more) lo' hi' k b.
Proof.
  intros Hk H1 H2 (pos & u & Hp & Hu & Ha). exists pos, u. split; [lia|]. split; auto.
  rewrite firstn_app. replace (S k - length pts)%nat with O by lia. cbn [firstn]. rewrite app_nil_r. exact Ha.
Qed.

Lemma dr_loop_course n :
  forall itry path pts iacce cur s,
  Forall2 (represents sg) path pts -> length path = S itry -> (1 <= itry)%nat ->
  (itry + n <= length Ps)%nat -> (itry + n <= length iP)%nat -> (itry + n <= length iacce)%nat ->
  cur = (false, old, snd cur) ->
  exists ac out outb iacce' path' s1 more mpts,
    dr_loop E V (map finm Ps) (map finm iP) old new n itry path iacce cur s = Ok (ac, out, outb, iacce', path', s1) /\
    path' = path ++ more /\ Forall2 (represents sg) more mpts /\
    (io_pos s <= io_pos s1)%nat /\
    (forall k, (length path <= k < length path')%nat -> pt_ss (pt (pts ++ mpts) k) <> None ->
       judged (pts ++ mpts) (io_pos s) (io_pos s1) k (ac && (k =? length path' - 1)%nat)) /\
    (ac = true -> pt_ss (pt (pts ++ mpts) (length path' - 1)) <> None /\ more <> []).
Proof.
  induction n as [|n IH]; intros itry path pts iacce cur s HR HL H1 HP HI HA Hc.
  - cbn [dr_loop]. rewrite Hc. do 6 eexists. exists [], []. rewrite app_nil_r.
    split; [reflexivity|]. split; auto. split; auto. split; auto. split; [intros; lia|discriminate].
  - cbn [dr_loop]. replace (S itry - 1)%nat with itry by lia.
    rewrite nth_error_map, (nth_error_nth' Ps []) by lia. cbn [option_map of_option bind].
    destruct (candidate_fin (nth itry Ps []) s) as (y & z & ->); [apply nth_In; lia|]. cbn [bind].
    set (s1 := mkio _ _ _).
    pose proof (rep_len _ _ _ HR) as HLp.
    destruct (is_sample_outside_bounds (fin y) (v_lower V) (v_upper V)) eqn:Hb.
    + set (q := set_outside_bounds (mkpset (fin y) [] n0 (p_sigma2 new) None)).
      set (qp := mkpoint y None 0).
      assert (HRq : represents sg q qp).
      { unfold represents, q, qp. cbn. rewrite Hnew, Q2R_0. repeat split; auto. }
      destruct (IH (S itry) (path ++ [q]) (pts ++ [qp]) iacce (false, old, true) s1) as
        (ac & out & outb & iacce' & path' & s2 & more & mpts & R1 & R2 & R3 & R4 & R5 & R6);
        auto; try lia.
      { apply Forall2_app; auto. } { rewrite app_length. simpl. lia. }
      exists ac, out, outb, iacce', path', s2, (q :: more), (qp :: mpts).
      rewrite <- !app_assoc in *. cbn [app] in *. split; [exact R1|]. split; [exact R2|]. split; [constructor; auto|].
      split; [simpl in R4; lia|]. split.
      * intros k Hk Hss. destruct (Nat.eq_dec k (length path)) as [->|Hn].
        -- exfalso. apply Hss. unfold pt. rewrite HLp, app_nth2, Nat.sub_diag by lia. reflexivity.
        -- destruct (R5 k ltac:(rewrite app_length; simpl; lia) Hss) as (pos & u & J1 & J2).
           exists pos, u. split; [simpl in J1; lia|]. exact J2.
      * intros Hac. destruct (R6 Hac) as [R7 _]. split; auto. discriminate.
    + cbn [evaluate_sos_function].
      set (v := scatter _ _ _). destruct (fe_sos _ _ HE v) as (ss & Hss & HLss). rewrite Hss.
      unfold evaluate_prior. destruct (fe_prior _ _ HE (fin y) (v_mu V) (v_sigma V)) as (pr & ->).
      set (qp := mkpoint y (Some ss) pr).
      assert (HRq : forall al, represents sg (mkpset (fin y) (fin ss) (Fin pr) (p_sigma2 new) al) qp).
      { intros al. unfold represents, qp. cbn. rewrite Hnew. repeat split; auto. }
      assert (HRp : forall al, Forall2 (represents sg) (path ++ [mkpset (fin y) (fin ss) (Fin pr) (p_sigma2 new) al]) (pts ++ [qp])).
      { intros al. apply Forall2_app; auto. }
      rewrite (alphafun_spec sg iP Hsg Hsg0 _ _ (pts ++ [qp]))
        by (auto; rewrite ?app_length; simpl; lia).
      cbn [bind].
      set (al := alphaR sg iP _ (pts ++ [qp])).
      assert (Hal : al = acc sg iP (pts ++ [qp])).
      { unfold al, acc. f_equal. rewrite !app_length. simpl. lia. }
      pose proof (alphaR_range sg iP (length (path ++ [mkpset (fin y) (fin ss) (Fin pr) (p_sigma2 new) None])) (pts ++ [qp])) as Hrange.
      fold al in Hrange.
      set (s2 := mkio (io_pos s1) v (v :: io_calls s1)).
      destruct (fe_unif _ _ HE (io_pos s2)) as (u & Hu & Hur).
      destruct (ratio_test E al s2 u Hrange Hu Hur) as (s3 & T1 & T2 & T3 & T4). rewrite T1.
      rewrite (nth_error_nth' iacce O) by lia. cbn [of_option bind].
      assert (HJ : judged (pts ++ [qp]) (io_pos s) (io_pos s3) (length path) (Rltb u al)).
      { exists (io_pos s2), u. split; [unfold s2, s1 in *; simpl in *; lia|]. split; auto.
        cbv zeta. rewrite firstn_all2 by (rewrite app_length; simpl; lia). rewrite <- Hal.
        split; auto. apply Rltb_true. }
      destruct (Rltb u al) eqn:Hlt.
      * do 6 eexists. exists [mkpset (fin y) (fin ss) (Fin pr) (p_sigma2 new) (Some (Fin al))], [qp].
        split; [reflexivity|]. split; [reflexivity|]. split; [constructor; auto|].
        split; [unfold s2, s1 in *; simpl in *; lia|].
        rewrite app_length. cbn [length]. rewrite Nat.add_sub. split.
        -- intros k Hk _. assert (k = length path) as -> by lia. rewrite Nat.eqb_refl. exact HJ.
        -- intros _. split; [|discriminate]. unfold pt. rewrite HLp, app_nth2, Nat.sub_diag by lia. discriminate.
      * set (ia := set_nth itry _ iacce).
        edestruct (IH (S itry) (path ++ [mkpset (fin y) (fin ss) (Fin pr) (p_sigma2 new) (Some (Fin al))]) (pts ++ [qp]) ia (false, old, false) s3) as
        (ac & out & outb & iacce' & path' & s4 & more & mpts & R1 & R2 & R3 & R4 & R5 & R6);
        auto; try lia.
        { rewrite app_length. simpl. lia. } { unfold ia. rewrite set_nth_length. lia. }
        exists ac, out, outb, iacce', path', s4.
        exists (mkpset (fin y) (fin ss) (Fin pr) (p_sigma2 new) (Some (Fin al)) :: more), (qp :: mpts).
        split; [exact R1|].
        rewrite <- !app_assoc in *. cbn [app] in *. split; [exact R2|]. split; [constructor; auto|].
        split; [unfold s2, s1 in *; simpl in *; lia|]. split.
        -- intros k Hk Hss'. destruct (Nat.eq_dec k (length path)) as [->|Hn].
           ++ replace (ac && (length path =? length path' - 1)%nat) with false.
              ** change (qp :: mpts) with ([qp] ++ mpts). rewrite app_assoc.
                 eapply judged_app; [| |exact R4|exact HJ]; [rewrite app_length; simpl; lia|lia].
              ** destruct ac; auto. cbn [andb]. symmetry. apply Nat.eqb_neq. destruct (R6 eq_refl) as [_ Hm].
                 rewrite R2, app_length. cbn [length]. destruct more; [congruence|cbn [length]; lia].
           ++ destruct (R5 k ltac:(rewrite app_length; simpl; lia) Hss') as (pos & u' & J1 & J2).
              exists pos, u'. split; [unfold s2, s1 in *; simpl in *; lia|]. exact J2.
        -- intros Hac. destruct (R6 Hac) as [R7 _]. split; auto. discriminate.
Qed.

Lemma dr_course ntry pold pnew iacce s :
  represents sg old pold -> represents sg new pnew -> (1 < ntry)%nat ->
  (ntry <= length Ps)%nat -> (ntry <= length iP)%nat -> (ntry <= length iacce)%nat ->
  exists ac out outb iacce' path' s1 mpts,
    run_delayed_rejection E V (map finm Ps) (map finm iP) ntry old new iacce s = Ok (ac, out, outb, iacce', path', s1) /\
    Forall2 (represents sg) path' (pold :: pnew :: mpts) /\
    (forall k, (2 <= k < length path')%nat -> pt_ss (pt (pold :: pnew :: mpts) k) <> None ->
       judged (pold :: pnew :: mpts) (io_pos s) (io_pos s1) k (ac && (k =? length path' - 1)%nat)) /\
    (ac = true -> pt_ss (pt (pold :: pnew :: mpts) (length path' - 1)) <> None).
Proof.
  intros Ho Hn Ht H1 H2 H3. unfold run_delayed_rejection.
  destruct (dr_loop_course (ntry - 1) 1 [old; new] [pold; pnew] iacce (false, old, false) s) as
    (ac & out & outb & iacce' & path' & s1 & more & mpts & R1 & R2 & R3 & R4 & R5 & R6);
    auto; try lia.
  exists ac, out, outb, iacce', path', s1, mpts. split; [exact R1|]. cbn [app] in *. split.
  - rewrite R2. apply Forall2_cons; auto.
  - split; auto. intros Hac. apply R6; auto.
Qed.

End Course.
