(** Acceptance rules over the extended reals: proofs for C09-C13. *)

From Coq Require Import ZArith QArith Bool Lia List Reals Lra.
From Verif Require Import Base Num Samplers SamplerFacts RVec BalanceSpec.
Import ListNotations.
Close Scope Q_scope.
Open Scope list_scope.
Open Scope R_scope.

Lemma XR_mhalf : @mhalf XR _ = Fin (- (1 / 2)).
Proof. unfold mhalf. simpl. f_equal. unfold Q2R. simpl. lra. Qed.

Lemma div_fin ss sg : Forall (fun s => 0 < s) sg -> length ss = length sg ->
  map2 ndiv (fin ss) (fin sg) = fin (map2 Rdiv ss sg).
Proof.
  revert sg; induction ss as [|a ss IH]; intros [|b sg] H HL; simpl in HL; try lia; auto.
  inversion H; subst. cbn [fin map map2]. f_equal; [apply XR_ndiv; lra|apply IH; auto].
Qed.

Lemma loglik_fin ss sg : Forall (fun s => 0 < s) sg -> length ss = length sg ->
  loglik (fin ss) (fin sg) = Ok (Fin (- (1 / 2) * Rsum (map2 Rdiv ss sg))).
Proof.
  intros H HL. unfold loglik, bcast2. rewrite !fin_length, HL, Nat.eqb_refl. cbn [bind].
  rewrite div_fin, vsum_fin, XR_mhalf by auto. reflexivity.
Qed.

Lemma PInf_div b : 0 < b -> @ndiv XR _ PInf (Fin b) = PInf.
Proof. intros H. xs. unfold Rltb. destruct (Rlt_dec b 0); [lra|auto]. Qed.

Lemma PInf_mhalf : @nmul XR _ mhalf PInf = NInf.
Proof.
  rewrite XR_mhalf. xs. unfold Rltb. destruct (Rlt_dec 0 _); [lra|]. destruct (Rlt_dec _ 0); [auto|lra].
Qed.

Lemma vsum_PInf l : vsum (repeat (@PInf R) (S l)) = PInf.
Proof.
  unfold vsum. cbn [repeat fold_left]. replace (@nadd XR _ n0 PInf) with (@PInf R) by reflexivity.
  induction l as [|l IH]; auto.
Qed.

Lemma map_div_PInf sg : Forall (fun s => 0 < s) sg ->
  map (@ndiv XR _ PInf) (fin sg) = repeat PInf (length sg).
Proof.
  induction 1 as [|a sg Ha H IH]; auto. cbn [fin map repeat length]. rewrite PInf_div by auto. f_equal. exact IH.
Qed.

Lemma loglik_out sg : Forall (fun s => 0 < s) sg -> sg <> [] -> loglik [PInf] (fin sg) = Ok NInf.
Proof.
  intros H HN. unfold loglik, bcast2. rewrite fin_length.
  destruct sg as [|a [|b sg]]; [contradiction| |].
  - inversion H; subst. cbn [length Nat.eqb fin map map2 bind]. rewrite PInf_div by auto.
    change [PInf] with (repeat (@PInf R) 1). rewrite vsum_PInf, PInf_mhalf. reflexivity.
  - cbn [length Nat.eqb bind]. rewrite map_div_PInf by auto. cbn [length]. rewrite vsum_PInf, PInf_mhalf.
    reflexivity.
Qed.

(** ** Metropolis *)

(** [alpha > log(u)] for [0 <= u < 1]. *)
Lemma log_test u a : 0 <= u < 1 -> nlt (nlog (Fin u)) (Fin a) = true <-> u < Rmin 1 (exp a).
Proof.
  intros Hu.
  assert (Hmin : u < Rmin 1 (exp a) <-> u < exp a).
  { unfold Rmin. destruct (Rle_dec 1 (exp a)); split; intros; lra. }
  rewrite Hmin. cbn [nlog Num_X xlog]. rewrite XR_a0. cbn [alt Arith_R aln].
  destruct (Rltb 0 u) eqn:H0; [apply Rltb_true in H0|apply Rltb_false in H0].
  - cbn [nlt Num_X xlt alt Arith_R]. rewrite Rltb_true. split; intros H.
    + rewrite <- (exp_ln u) by auto. now apply exp_increasing.
    + rewrite <- (ln_exp a). now apply ln_increasing.
  - replace u with 0 by lra. destruct (Rltb 0 0) eqn:H1; [apply Rltb_true in H1; lra|].
    split; auto. intros _. apply exp_pos.
Qed.

Lemma log_post_ratio sg ss1 pr1 ss0 pr0 :
  calculate_log_posterior_ratio (Fin (- (1 / 2) * Rsum (map2 Rdiv ss1 sg))) (Fin (- (1 / 2) * Rsum (map2 Rdiv ss0 sg)))
     (nmul mhalf (Fin pr1)) (nmul mhalf (Fin pr0))
  = Fin (log_post sg ss1 pr1 - log_post sg ss0 pr0).
Proof.
  rewrite XR_mhalf. unfold calculate_log_posterior_ratio, log_post. simpl. f_equal. lra.
Qed.

Section Met.
Variable E : env XR.

Lemma metropolis_unfold V R old s acc new outb z s1 :
  run_metropolis_step E V R old s = Ok (acc, new, outb, z, s1) ->
  let y := candidate E (v_npar V) (p_theta old) R (io_pos s) in
  let v := scatter (io_value s) (v_parind V) y in
  p_theta new = y /\ outb = is_sample_outside_bounds y (v_lower V) (v_upper V) /\
  (outb = true -> acc = false) /\
  (outb = false ->
     p_ss new = e_sos E v /\ p_prior new = e_prior E y (v_mu V) (v_sigma V) /\
     exists l1 l2, loglik (p_ss new) (p_sigma2 old) = Ok l1 /\ loglik (p_ss old) (p_sigma2 old) = Ok l2 /\
       let al := calculate_log_posterior_ratio l1 l2 (nmul mhalf (p_prior new)) (nmul mhalf (p_prior old)) in
       p_alpha new = Some al /\
       acc = nlt (nlog (s_unif (e_str E) (io_pos s + v_npar V))) al).
Proof.
  intros H. unfold run_metropolis_step in H. peel H. destruct a as [[newpar z'] s2].
  unfold sample_candidate in E0. destruct (_ && _) in E0; [|discriminate].
  unfold randn in E0. inversion E0; subst newpar z' s2; clear E0.
  fold (candidate E (v_npar V) (p_theta old) R (io_pos s)) in H. intros y v.
  change (candidate E (v_npar V) (p_theta old) R (io_pos s)) with y in H.
  destruct (is_sample_outside_bounds y (v_lower V) (v_upper V)) eqn:Hb.
  - inversion H; subst. split; [reflexivity|]. split; auto. split; auto. discriminate.
  - unfold evaluate_sos_function in H. cbn [io_value io_pos io_calls] in H. peel H. peel H.
    unfold log_posterior_ratio_acceptance_test, rand in H. cbn [io_pos] in H.
    inversion H; subst. cbn [p_theta p_ss p_prior p_alpha].
    split; [reflexivity|]. split; auto. split; [discriminate|]. intros _.
    split; [reflexivity|]. split; [reflexivity|]. exists a, a0. split; auto.
Qed.

Lemma metropolis_accepts V R old s acc new outb z s1 u sg ss0 pr0 ss1 pr1 :
  run_metropolis_step E V R old s = Ok (acc, new, outb, z, s1) ->
  let y := candidate E (v_npar V) (p_theta old) R (io_pos s) in
  s_unif (e_str E) (io_pos s + v_npar V) = Fin u -> 0 <= u < 1 ->
  Forall (fun x => 0 < x) sg -> p_sigma2 old = fin sg ->
  p_ss old = fin ss0 -> length ss0 = length sg -> p_prior old = Fin pr0 ->
  e_sos E (scatter (io_value s) (v_parind V) y) = fin ss1 -> length ss1 = length sg ->
  e_prior E y (v_mu V) (v_sigma V) = Fin pr1 ->
  (acc = true <-> is_sample_outside_bounds y (v_lower V) (v_upper V) = false /\
                  u < Rmin 1 (exp (log_post sg ss1 pr1 - log_post sg ss0 pr0))).
Proof.
  intros H y Hu Hr Hsg H2 H0 HL0 HP0 H1 HL1 HP1.
  destruct (metropolis_unfold _ _ _ _ _ _ _ _ _ H) as (A & B & C & D). fold y in A, B, C, D.
  rewrite <- B. destruct outb.
  - split; [intros ->; now specialize (C eq_refl)|intros [? _]; discriminate].
  - destruct (D eq_refl) as (D1 & D2 & l1 & l2 & D3 & D4 & D5 & ->).
    rewrite D1, H1, H2, loglik_fin in D3 by auto. rewrite H0, H2, loglik_fin in D4 by auto.
    inversion D3; subst l1. inversion D4; subst l2.
    rewrite D2, HP1, HP0, log_post_ratio, Hu. rewrite log_test by auto. tauto.
Qed.

(** Sums over extended reals that contain a NaN or +inf. *)
Lemma fold_bad l a : bad a \/ (exists x, In x l /\ bad x) -> bad (fold_left (@nadd XR _) l a).
Proof.
  revert a; induction l as [|b l IH]; intros a [H|(x & Hx & H)]; simpl in *; auto; try contradiction.
  - apply IH. left. destruct H as [->| ->], b; simpl; unfold bad; auto.
  - destruct Hx as [->|Hx]; apply IH; [left|right; eauto].
    destruct H as [->| ->], a; simpl; unfold bad; auto.
Qed.

Lemma bad_loglik ss sg l : loglik ss sg = Ok l -> (forall s, In s sg -> exists v, s = Fin v /\ 0 < v) -> sg <> [] ->
  (exists x, In x ss /\ bad x) -> l = NaN \/ l = NInf.
Proof.
  intros H HS HN (x & Hx & Hbad). unfold loglik in H. peel H. inversion H; subst l; clear H.
  assert (HB : bad (vsum a)).
  { apply fold_bad. right. unfold bcast2 in E0.
    assert (Hd : forall s, In s sg -> bad (ndiv x s)).
    { intros s Hs. destruct (HS s Hs) as (v & -> & Hv).
      destruct Hbad as [->| ->]; [now left|right; now apply PInf_div]. }
    destruct (Nat.eqb_spec (length ss) (length sg)) as [HL|HL].
    - inversion E0; subst a. clear E0. apply (In_nth_error) in Hx as (k & Hk).
      destruct (nth_error sg k) as [s|] eqn:Hs.
      + exists (ndiv x s). split; [|apply Hd; eapply nth_error_In; eauto].
        apply (nth_error_In _ k). rewrite map2_nth_error, Hk, Hs. auto.
      + apply nth_error_None in Hs. assert (k < length ss)%nat by (apply nth_error_Some; congruence). lia.
    - destruct ss as [|p [|q ss]].
      + contradiction.
      + inversion E0; subst a. destruct Hx as [->|[]]. destruct sg as [|s sg]; [contradiction|].
        exists (ndiv x s). split; [left; auto|apply Hd; left; auto].
      + destruct sg as [|s [|s2 sg]]; try discriminate.
        assert (Ha : a = map (fun a => ndiv a s) (p :: q :: ss)) by congruence. rewrite Ha.
        exists (ndiv x s). split; [|apply Hd; left; auto].
        exact (in_map (fun a => ndiv a s) _ x Hx). }
  destruct HB as [->| ->]; [left; reflexivity|right; exact PInf_mhalf].
Qed.

Lemma low_never a p b c l : l = NaN \/ l = NInf ->
  nlt a (calculate_log_posterior_ratio l c p b) = false :> bool /\ @nlt XR _ a (calculate_log_posterior_ratio p c l b) = false.
Proof.
  unfold calculate_log_posterior_ratio. generalize (@nadd XR _ c b). intros d.
  intros [-> | ->]; destruct a, p, d; split; reflexivity.
Qed.

Lemma metropolis_bad V R old s acc new outb z s1 :
  run_metropolis_step E V R old s = Ok (acc, new, outb, z, s1) ->
  (forall x, In x (p_sigma2 old) -> exists v, x = Fin v /\ 0 < v) -> p_sigma2 old <> [] ->
  let y := candidate E (v_npar V) (p_theta old) R (io_pos s) in
  (exists x, In x (e_sos E (scatter (io_value s) (v_parind V) y)) /\ bad x) \/
  bad (e_prior E y (v_mu V) (v_sigma V)) ->
  acc = false.
Proof.
  intros H HS HN y HB. destruct (metropolis_unfold _ _ _ _ _ _ _ _ _ H) as (A & B & C & D).
  fold y in A, B, C, D. destruct outb; auto.
  destruct (D eq_refl) as (D1 & D2 & l1 & l2 & D3 & D4 & D5 & ->).
  destruct HB as [HB|HB].
  - rewrite D1 in D3. apply (fun h => proj1 (low_never _ _ _ _ _ h)). exact (bad_loglik _ _ _ D3 HS HN HB).
  - rewrite <- D2 in HB. apply (fun h => proj2 (low_never _ _ _ _ _ h)).
    destruct HB as [->| ->]; [left; reflexivity|right; exact PInf_mhalf].
Qed.

End Met.

(** ** Detailed balance of one stage *)

Lemma Rvsub_opp x y : Rvsub x y = map Ropp (Rvsub y x).
Proof.
  unfold Rvsub. revert y; induction x as [|a x IH]; intros [|b y]; simpl; auto. f_equal; [lra|auto].
Qed.
Lemma Rdot_opp u v : Rdot (map Ropp u) v = - Rdot u v.
Proof.
  unfold Rdot. revert v; induction u as [|a u IH]; intros [|b v]; simpl; try lra. rewrite IH. lra.
Qed.
Lemma Rdot_comm u v : Rdot u v = Rdot v u.
Proof.
  unfold Rdot. revert v; induction u as [|a u IH]; intros [|b v]; simpl; try lra. rewrite IH. lra.
Qed.
Lemma Rvm_opp u M : Rvm (map Ropp u) M = map Ropp (Rvm u M).
Proof. unfold Rvm. rewrite map_map. apply map_ext. intros. apply Rdot_opp. Qed.
Lemma Rsq_opp u : Rsq (map Ropp u) = Rsq u.
Proof. unfold Rsq. rewrite Rdot_opp, Rdot_comm, Rdot_opp. lra. Qed.

Lemma gauss_sym c iP x y : gauss c iP x y = gauss c iP y x.
Proof. unfold gauss. rewrite (Rvsub_opp y x), Rvm_opp, Rsq_opp. reflexivity. Qed.

Lemma min_balance s r : 0 < s -> 0 < r -> s * Rmin 1 (r / s) = Rmin s r.
Proof.
  intros Hs Hr. unfold Rmin. destruct (Rle_dec 1 (r / s)) as [H|H]; destruct (Rle_dec s r) as [H'|H'].
  - lra.
  - exfalso. apply H'. apply (Rmult_le_compat_l s) in H; [|lra]. field_simplify in H; lra.
  - exfalso. apply H. apply (Rmult_le_reg_l s); auto. field_simplify; lra.
  - field. lra.
Qed.

Lemma exp_ratio a b : exp (a - b) = exp a / exp b.
Proof. unfold Rminus. rewrite exp_plus, exp_Ropp. reflexivity. Qed.

Lemma metropolis_balance sg c iP x y ssx ssy prx pry :
  let px := exp (log_post sg ssx prx) in let py := exp (log_post sg ssy pry) in
  px * gauss c iP x y * Rmin 1 (exp (log_post sg ssy pry - log_post sg ssx prx)) =
  py * gauss c iP y x * Rmin 1 (exp (log_post sg ssx prx - log_post sg ssy pry)).
Proof.
  intros px py. rewrite (gauss_sym c iP y x). rewrite !exp_ratio. fold px py.
  assert (0 < px) by apply exp_pos. assert (0 < py) by apply exp_pos.
  transitivity (gauss c iP x y * (px * Rmin 1 (py / px))); [ring|].
  transitivity (gauss c iP x y * (py * Rmin 1 (px / py))); [|ring].
  rewrite !min_balance by auto. now rewrite Rmin_comm.
Qed.

(** The density [gauss] belongs to the candidate generator: with the inverse factor the normal draws come back. *)
Lemma draws_back n P iP z : inverse_of n P iP -> length z = n -> Rvm (Rvm z P) iP = z.
Proof.
  intros (HP & HI & HM) HL. destruct (Nat.eq_dec n 0) as [->|Hn0].
  { destruct z; [|discriminate]. destruct HI as [HI _]. destruct iP; [reflexivity|discriminate]. }
  assert (HcP : Rcols P = n) by (eapply shape_cols; eauto; lia).
  assert (HcI : Rcols iP = n) by (eapply shape_cols; eauto; lia).
  assert (LP : length P = n) by apply HP. assert (LI : length iP = n) by apply HI.
  apply (list_ext 0); [now rewrite Rvm_length, HcI|].
  intros j Hj. rewrite Rvm_length, HcI in Hj. unfold Rvm at 1. rewrite HcI, nth_map_seq by auto.
  rewrite Rdot_Sum by (rewrite Rvm_length, Rcol_length; lia). rewrite Rvm_length, HcP.
  rewrite (Sum_ext n _ (fun k => Sum n (fun i => nth i z 0 * (ent P i k * ent iP k j)))).
  2:{ intros k Hk. rewrite nth_Rcol by lia. unfold Rvm. rewrite HcP, nth_map_seq by auto.
      rewrite Rdot_Sum by (rewrite Rcol_length; lia). rewrite HL, <- Sum_scal_r. apply Sum_ext. intros i Hi.
      rewrite nth_Rcol by lia. ring. }
  rewrite Sum_swap.
  rewrite (Sum_ext n _ (fun i => nth i z 0 * (if (i =? j)%nat then 1 else 0))).
  2:{ intros i Hi. rewrite Sum_scal, HM; auto. }
  rewrite (Sum_single n j) by (auto; intros k Hk Hne; apply Nat.eqb_neq in Hne; rewrite Hne; ring).
  rewrite Nat.eqb_refl. ring.
Qed.

Lemma Rvsub_add x d : length x = length d -> Rvsub (Rvadd x d) x = d.
Proof.
  unfold Rvsub, Rvadd. revert d; induction x as [|a x IH]; intros [|b d] H; simpl in *; try lia; auto.
  f_equal; [lra|apply IH; lia].
Qed.

Lemma gauss_generator n P iP c x z : inverse_of n P iP -> length z = n -> length x = n ->
  gauss c iP x (Rvadd x (Rvm z P)) = c * exp (- (1 / 2) * Rsq z).
Proof.
  intros HI HL HX. unfold gauss. destruct (Nat.eq_dec n 0) as [->|Hn0].
  { destruct z; [|discriminate]. destruct x; [|discriminate]. simpl. destruct HI as (_ & [HI _] & _).
    destruct iP; [reflexivity|discriminate]. }
  rewrite Rvsub_add.
  - rewrite (draws_back n) by auto. reflexivity.
  - rewrite Rvm_length, HX. symmetry. eapply shape_cols; [apply HI|lia].
Qed.

(** Acceptance probability of the Metropolis step between two points. *)
Definition met_acc (sg : list R) (p q : point) : R :=
  match pt_ss q with None => 0 | Some _ => Rmin 1 (post sg q / post sg p) end.

Lemma met_balance sg c iP p q :
  post sg p * gauss c iP (pt_x p) (pt_x q) * met_acc sg p q =
  post sg q * gauss c iP (pt_x q) (pt_x p) * met_acc sg q p.
Proof.
  unfold met_acc. rewrite (gauss_sym c iP (pt_x q)).
  destruct (pt_ss p) as [ssp|] eqn:Ep.
  - destruct (pt_ss q) as [ssq|] eqn:Eq.
    + assert (0 < post sg p) by (unfold post; rewrite Ep; apply exp_pos).
      assert (0 < post sg q) by (unfold post; rewrite Eq; apply exp_pos).
      transitivity (gauss c iP (pt_x p) (pt_x q) * (post sg p * Rmin 1 (post sg q / post sg p))); [ring|].
      transitivity (gauss c iP (pt_x p) (pt_x q) * (post sg q * Rmin 1 (post sg p / post sg q))); [|ring].
      rewrite !min_balance by auto. now rewrite Rmin_comm.
    + unfold post at 2. rewrite Eq. ring.
  - unfold post at 1. rewrite Ep. destruct (pt_ss q); ring.
Qed.

Lemma met_acc_range sg p q : 0 <= met_acc sg p q <= 1.
Proof.
  unfold met_acc. destruct (pt_ss q) as [ssq|] eqn:Eq; [|lra]. split; [|apply Rmin_l].
  apply Rmin_glb; [lra|]. unfold post. rewrite Eq. destruct (pt_ss p).
  - apply Rlt_le, Rdiv_lt_0_compat; apply exp_pos.
  - unfold Rdiv. rewrite Rinv_0. lra.
Qed.

Lemma met_step sg (E : env XR) V R old s acc new outb z s1 p q u :
  Forall (fun x => 0 < x) sg -> sg <> [] ->
  run_metropolis_step E V R old s = Ok (acc, new, outb, z, s1) ->
  represents sg old p -> represents sg new q -> pt_ss p <> None ->
  s_unif (e_str E) (io_pos s + v_npar V) = Fin u -> 0 <= u < 1 ->
  (acc = true <-> u < met_acc sg p q).
Proof.
  intros Hsg Hsg0 H (A1 & A2 & A3 & A4) (B1 & B2 & B3 & B4) Hp Hu Hr. unfold met_acc.
  destruct (pt_ss p) as [ssp|] eqn:Ep; [|congruence].
  pose proof (metropolis_unfold _ _ _ _ _ _ _ _ _ _ H) as (U1 & U2 & U3 & U4).
  destruct (pt_ss q) as [ssq|] eqn:Eq.
  - assert (Hob : outb = false).
    { destruct outb; auto. unfold run_metropolis_step in H. peel H. destruct a as [[a1 a2] a3].
      destruct (is_sample_outside_bounds _ _ _).
      - inversion H; subst new. cbn in B4. destruct B4 as [B4 _]. destruct ssq; discriminate.
      - destruct (evaluate_sos_function _ _ _ _). peel H. peel H.
        destruct (log_posterior_ratio_acceptance_test _ _ _). inversion H. }
    destruct A4 as [A4 A5]. destruct B4 as [B4 B5].
    pose proof (metropolis_accepts _ _ _ _ _ _ _ _ _ _ u sg ssp (pt_prior p) ssq (pt_prior q) H Hu Hr Hsg A2 A4 A5 A3) as HA.
    destruct (U4 Hob) as (D1 & D2 & _). rewrite B4 in D1. rewrite B3 in D2.
    rewrite HA; auto. rewrite <- U2, Hob. unfold post. rewrite Ep, Eq. rewrite exp_ratio. tauto.
  - split; [|lra]. intros ->. exfalso. destruct outb; [now specialize (U3 eq_refl)|].
    destruct (U4 eq_refl) as (D1 & D2 & l1 & l2 & D3 & D4 & D5 & D6).
    rewrite B4, A2, loglik_out in D3 by auto. inversion D3; subst l1.
    rewrite (proj1 (low_never _ _ _ _ _ (or_intror eq_refl))) in D6. discriminate.
Qed.

(** ** The exponent of alphafun *)

Definition dist (iP : list (list R)) (x y : list R) : R := Rsq (Rvm (Rvsub y x) iP).

Lemma dist_sym iP x y : dist iP x y = dist iP y x.
Proof. unfold dist. now rewrite (Rvsub_opp y x), Rvm_opp, Rsq_opp. Qed.

Lemma norm2_fin d M : norm2 (fin d) (finm M) = Fin (Rsq (Rvm d M)).
Proof.
  unfold norm2. rewrite vecmat_fin, vdot_fin. rewrite XR_nsqrt by apply Rsq_nonneg.
  unfold nsqr. simpl. f_equal. apply sqrt_sqrt. apply Rsq_nonneg.
Qed.

Lemma nth_error_pt pts i : (i < length pts)%nat -> nth_error pts i = Some (pt pts i).
Proof. intros H. unfold pt. now apply nth_error_nth'. Qed.

Section Path.
Variable sg : list R.
Variable iP : list (list (list R)).
Hypothesis Hsg : Forall (fun s => 0 < s) sg.
Hypothesis Hsg0 : sg <> [].

Lemma rep_nth path pts i p :
  Forall2 (represents sg) path pts -> nth_error path i = Some p -> represents sg p (pt pts i).
Proof.
  intros H. revert i. induction H as [|p' q path pts Hp H IH]; intros i Hi; [destruct i; discriminate|].
  destruct i as [|i]; simpl in Hi; [inversion Hi; subst; exact Hp|].
  apply IH in Hi. exact Hi.
Qed.

Lemma rep_len path pts : Forall2 (represents sg) path pts -> length path = length pts.
Proof. induction 1; simpl; auto. Qed.

Lemma rep_firstn path pts k : Forall2 (represents sg) path pts -> Forall2 (represents sg) (firstn k path) (firstn k pts).
Proof.
  intros H. revert k. induction H as [|p q path pts Hp H IH]; intros [|k]; simpl; constructor; auto.
Qed.

Lemma rep_rev path pts : Forall2 (represents sg) path pts -> Forall2 (represents sg) (rev path) (rev pts).
Proof.
  induction 1 as [|p q path pts Hp H IH]; simpl; [constructor|].
  apply Forall2_app; auto.
Qed.

(** log proposal ratio of stage [iq] *)
Definition lpr (pts : list point) (iq : nat) : R :=
  if (length pts - 1 - 1 =? iq)%nat then 0
  else - (1 / 2) * (dist (nth iq iP []) (pt_x (pt pts (length pts - 1))) (pt_x (pt pts (length pts - 1 - 1 - iq)))
                    - dist (nth iq iP []) (pt_x (pt pts 0)) (pt_x (pt pts (iq + 1)))).

Lemma lpr_spec path pts iq :
  Forall2 (represents sg) path pts -> (2 <= length path)%nat -> (length path - 1 <= length iP)%nat ->
  (iq < length path - 1)%nat ->
  nth_stage_log_proposal_ratio iq path (map finm iP) = Ok (Fin (lpr pts iq)).
Proof.
  intros H HL HI Hiq. unfold nth_stage_log_proposal_ratio, lpr. rewrite <- (rep_len _ _ H).
  destruct (Nat.eqb_spec (length path - 1 - 1) iq) as [He|He]; [rewrite XR_n0; reflexivity|].
  rewrite nth_error_map, (nth_error_nth' iP []) by lia. cbn [option_map of_option bind].
  unfold extract_state_elements.
  assert (G : forall i, (i < length path)%nat ->
    (let* p := of_option IndexError (nth_error path i) in Ok (p_theta p))%res = Ok (fin (pt_x (pt pts i)))).
  { intros i Hi. destruct (nth_error path i) as [p|] eqn:Hp; [|apply nth_error_None in Hp; lia].
    simpl. f_equal. apply (rep_nth _ _ _ _ H Hp). }
  rewrite !G by lia. cbn [bind].
  rewrite !vsub_fin, !norm2_fin, XR_mhalf. simpl. f_equal. f_equal.
  replace (length path - 1 - 1 + 1)%nat with (length path - 1)%nat by lia. reflexivity.
Qed.

Definition lsum (pts : list point) : R := Sum (length pts - 1) (lpr pts).

Lemma fold_lpr path pts y n :
  Forall2 (represents sg) path pts -> (2 <= length path)%nat -> (length path - 1 <= length iP)%nat ->
  (n <= length path - 1)%nat ->
  fold_left (fun acc kk => let* a := acc in
               let* r := nth_stage_log_proposal_ratio kk path (map finm iP) in Ok (nadd a r))%res
    (seq 0 n) (Ok y) = Ok (nadd y (Fin (Sum n (lpr pts)))).
Proof.
  intros H HL HI. induction n as [|n IH]; intros Hn.
  - simpl. f_equal. destruct y; simpl; auto. f_equal. lra.
  - rewrite seq_S, fold_left_app, IH by lia. cbn [fold_left bind Nat.add].
    rewrite (lpr_spec _ _ _ H) by lia. cbn [bind]. f_equal.
    destruct y; simpl; auto. f_equal. lra.
Qed.

(** log posterior of a point as the samplers compute it *)
Definition xlp (q : point) : XR :=
  match pt_ss q with Some ss => Fin (log_post sg ss (pt_prior q)) | None => NInf end.

Lemma rep_lp p q : represents sg p q ->
  exists l, loglik (p_ss p) (p_sigma2 p) = Ok l /\ nadd l (nmul mhalf (p_prior p)) = xlp q.
Proof.
  intros (H1 & H2 & H3 & H4). unfold xlp. rewrite H2, H3. destruct (pt_ss q) as [ss|].
  - destruct H4 as [-> HL]. eexists. split; [apply loglik_fin; auto|].
    rewrite XR_mhalf. simpl. f_equal. unfold log_post. lra.
  - rewrite H4. eexists. split; [apply loglik_out; auto|]. rewrite XR_mhalf. reflexivity.
Qed.

Lemma exponent_spec path pts :
  Forall2 (represents sg) path pts -> (2 <= length path)%nat -> (length path - 1 <= length iP)%nat ->
  alpha_exponent path (map finm iP) =
  Ok (nadd (nsub (xlp (pt pts (length pts - 1))) (xlp (pt pts 0))) (Fin (lsum pts))).
Proof.
  intros H HL HI. unfold alpha_exponent.
  destruct (nth_error path 0) as [x1|] eqn:H1; [|apply nth_error_None in H1; lia].
  destruct (nth_error path (length path - 1)) as [x2|] eqn:H2; [|apply nth_error_None in H2; lia].
  cbn [of_option bind].
  destruct (rep_lp _ _ (rep_nth _ _ _ _ H H1)) as (l1 & L1 & M1).
  destruct (rep_lp _ _ (rep_nth _ _ _ _ H H2)) as (l2 & L2 & M2).
  rewrite L2, L1. cbn [bind]. unfold calculate_log_posterior_ratio. rewrite M1, M2.
  unfold range. rewrite (fold_lpr path pts) by (auto; lia). rewrite <- (rep_len _ _ H). unfold lsum.
  now rewrite (rep_len _ _ H).
Qed.

(** ** The acceptance probability, as a function of real points *)

Fixpoint alphaR (fuel : nat) (pts : list point) : R :=
  match fuel with
  | O => 0
  | S f =>
      let a1 := Prod (tries pts - 1) (fun k => 1 - alphaR f (firstn (k + 2) pts)) in
      let a2 := Prod (tries pts - 1) (fun k => 1 - alphaR f (firstn (k + 2) (rev pts))) in
      if Req_EM_T a2 0 then 0
      else if Req_EM_T a1 0 then 1
      else match pt_ss (pt pts 0), pt_ss (pt pts (length pts - 1)) with
           | None, _ => 1
           | Some _, None => 0
           | Some ss0, Some ss1 =>
               Rmin 1 (exp (log_post sg ss1 (pt_prior (pt pts (length pts - 1)))
                            - log_post sg ss0 (pt_prior (pt pts 0)) + lsum pts) * a2 * / a1)
           end
  end.

Lemma alphaR_range f pts : 0 <= alphaR f pts <= 1.
Proof.
  revert pts. induction f as [|f IH]; intros pts; simpl; [lra|].
  set (a2 := Prod _ _). set (a1 := Prod _ _).
  assert (H1 : 0 <= a1) by (apply Prod_nonneg; intros k _; specialize (IH (firstn (k + 2) pts)); lra).
  assert (H2 : 0 <= a2) by (apply Prod_nonneg; intros k _; specialize (IH (firstn (k + 2) (rev pts))); lra).
  destruct (Req_EM_T a2 0); [lra|]. destruct (Req_EM_T a1 0); [lra|].
  destruct (pt_ss (pt pts 0)); [|lra]. destruct (pt_ss (pt pts _)); [|lra].
  split; [|apply Rmin_l]. apply Rmin_glb; [lra|].
  apply Rmult_le_pos; [apply Rmult_le_pos; [left; apply exp_pos|auto]|].
  left. apply Rinv_0_lt_compat. lra.
Qed.

Lemma alphaR_fuel f g pts : (length pts <= f)%nat -> (length pts <= g)%nat -> (1 <= length pts)%nat ->
  alphaR f pts = alphaR g pts.
Proof.
  revert g pts. induction f as [|f IH]; intros g pts Hf Hg H1; [lia|]. destruct g as [|g]; [lia|].
  cbn [alphaR].
  rewrite (Prod_ext _ (fun k => 1 - alphaR f (firstn (k + 2) pts)) (fun k => 1 - alphaR g (firstn (k + 2) pts))).
  2: { intros k Hk. unfold tries in Hk. f_equal. apply IH; rewrite firstn_length; lia. }
  rewrite (Prod_ext _ (fun k => 1 - alphaR f (firstn (k + 2) (rev pts))) (fun k => 1 - alphaR g (firstn (k + 2) (rev pts)))).
  2: { intros k Hk. unfold tries in Hk. f_equal. apply IH; rewrite firstn_length, rev_length; lia. }
  reflexivity.
Qed.

Definition acc (pts : list point) : R := alphaR (length pts) pts.

Lemma Prod_S_first n f : Prod (S n) f = f O * Prod n (fun k => f (S k)).
Proof. induction n as [|n IH]; [simpl; lra|]. cbn [Prod] in *. rewrite IH. ring. Qed.

Lemma alpha_loop_spec rec path s n f g u v :
  (forall k, (s <= k < s + n)%nat -> rec (firstn (k + 2) path) = Ok (Fin (f k))) ->
  (forall k, (s <= k < s + n)%nat -> rec (firstn (k + 2) (rev path)) = Ok (Fin (g k))) ->
  v <> 0 ->
  alpha_loop rec path (seq s n) (Fin u) (Fin v) =
  Ok (if Req_EM_T (v * Prod n (fun k => 1 - g (s + k)%nat)) 0 then None
      else Some (Fin (u * Prod n (fun k => 1 - f (s + k)%nat)), Fin (v * Prod n (fun k => 1 - g (s + k)%nat)))).
Proof.
  revert s u v. induction n as [|n IH]; intros s u v Hf Hg Hv.
  - simpl. rewrite !Rmult_1_r. destruct (Req_EM_T v 0); [contradiction|reflexivity].
  - cbn [seq alpha_loop]. rewrite Hf, Hg by lia. cbn [bind]. rewrite XR_n1, XR_n0.
    cbn [nsub nmul Num_X xsub xmul asub amul Arith_R neq xeq aeq].
    rewrite !Prod_S_first, Nat.add_0_r.
    destruct (Reqb (v * (1 - g s)) 0) eqn:Hz.
    + apply Reqb_true in Hz. rewrite <- Rmult_assoc, Hz, Rmult_0_l.
      destruct (Req_EM_T 0 0); [reflexivity|contradiction].
    + apply Reqb_false in Hz. rewrite IH by (auto; intros; try apply Hf; try apply Hg; lia).
      rewrite <- !Rmult_assoc.
      rewrite (Prod_ext n (fun k => 1 - g (S s + k)%nat) (fun k => 1 - g (s + S k)%nat))
        by (intros; do 2 f_equal; lia).
      rewrite (Prod_ext n (fun k => 1 - f (S s + k)%nat) (fun k => 1 - f (s + S k)%nat))
        by (intros; do 2 f_equal; lia).
      reflexivity.
Qed.

Lemma pymin_fin x : pymin (Fin 1) (Fin x) = Fin (Rmin 1 x) :> XR.
Proof.
  unfold pymin. simpl. unfold Rltb, Rmin. destruct (Rlt_dec x 1), (Rle_dec 1 x); try lra; auto.
Qed.

Lemma alphafun_spec f path pts :
  Forall2 (represents sg) path pts -> (2 <= length path)%nat -> (length path - 1 <= length iP)%nat ->
  (length path <= f)%nat ->
  alphafun f (map finm iP) path = Ok (Fin (alphaR f pts)).
Proof.
  revert path pts. induction f as [|f IH]; intros path pts H HL HI Hf; [lia|].
  pose proof (rep_len _ _ H) as HLen.
  cbn [alphafun alphaR]. rewrite XR_n1, XR_n0.
  unfold range. rewrite (alpha_loop_spec _ _ _ _ (fun k => alphaR f (firstn (k + 2) pts)) (fun k => alphaR f (firstn (k + 2) (rev pts)))).
  2: { intros k Hk. apply IH; rewrite ?firstn_length; try lia. now apply rep_firstn. }
  2: { intros k Hk. apply IH; rewrite ?firstn_length, ?rev_length; try lia. now apply rep_firstn, rep_rev. }
  2: lra.
  unfold tries. rewrite !Rmult_1_l. cbn [bind Nat.add]. rewrite HLen.
  set (a2 := Prod _ _). set (a1 := Prod _ _).
  assert (H1 : 0 <= a1) by (apply Prod_nonneg; intros k _; pose proof (alphaR_range f (firstn (k + 2) pts)); lra).
  assert (H2 : 0 <= a2) by (apply Prod_nonneg; intros k _; pose proof (alphaR_range f (firstn (k + 2) (rev pts))); lra).
  destruct (Req_EM_T a2 0) as [Z2|Z2]; [reflexivity|].
  rewrite (exponent_spec _ _ H) by auto. cbn [bind]. f_equal.
  unfold xlp.
  destruct (Req_EM_T a1 0) as [Z1|Z1].
  - rewrite Z1, XR_ninv_0.
    destruct (pt_ss (pt pts 0)); destruct (pt_ss (pt pts (length pts - 1))); cbn;
      unfold pymin; cbn; unfold xsgninf, a0; simpl; rewrite ?Q2R_0; unfold Rltb;
      repeat destruct (Rlt_dec _ _); try reflexivity; exfalso;
      match goal with
      | r : exp ?e * a2 < 0 |- _ => assert (0 < exp e * a2) by (apply Rmult_lt_0_compat; [apply exp_pos|lra]); lra
      | _ => lra
      end.
  - rewrite XR_ninv by auto.
    destruct (pt_ss (pt pts 0)); destruct (pt_ss (pt pts (length pts - 1))); cbn.
    + apply pymin_fin.
    + unfold a0. simpl. rewrite Q2R_0, !Rmult_0_l, pymin_fin. f_equal. unfold Rmin. destruct (Rle_dec 1 0); lra.
    + unfold xsgninf, a0; simpl; rewrite ?Q2R_0. unfold Rltb.
      destruct (Rlt_dec 0 a2); [|lra]. cbn. unfold xsgninf, a0; simpl; rewrite ?Q2R_0. unfold Rltb.
      destruct (Rlt_dec 0 (/ a1)) as [Hi|Hi]; [reflexivity|].
      exfalso. apply Hi. apply Rinv_0_lt_compat. lra.
    + reflexivity.
Qed.

(** ** Detailed balance *)

Lemma pt_rev pts i : (i < length pts)%nat -> pt (rev pts) i = pt pts (length pts - 1 - i).
Proof.
  intros H. unfold pt. rewrite rev_nth by auto. f_equal. lia.
Qed.
Lemma start_pt pts : start pts = pt pts 0.
Proof. destruct pts; reflexivity. Qed.

Lemma proposing_pos c pts : (forall i, 0 < c i) -> 0 < proposing c iP pts.
Proof.
  intros H. apply Prod_pos. intros k _. unfold gauss. apply Rmult_lt_0_compat; [auto|apply exp_pos].
Qed.

Lemma proposing_exp c pts : proposing c iP pts =
  Prod (tries pts) c * exp (Sum (tries pts) (fun i => - (1 / 2) * dist (nth i iP []) (pt_x (pt pts 0)) (pt_x (pt pts (S i))))).
Proof.
  unfold proposing, gauss. rewrite start_pt, Prod_mult, exp_Sum. reflexivity.
Qed.

Lemma proposing_ratio c pts : (2 <= length pts)%nat -> (forall i, 0 < c i) ->
  proposing c iP (rev pts) = proposing c iP pts * exp (lsum pts).
Proof.
  intros HL Hc. rewrite !proposing_exp. unfold tries. rewrite rev_length.
  rewrite Rmult_assoc, <- exp_plus. do 2 f_equal.
  unfold lsum. rewrite <- Sum_plus. apply Sum_ext. intros k Hk.
  rewrite !pt_rev by lia. rewrite Nat.sub_0_r. unfold lpr.
  destruct (Nat.eqb_spec (length pts - 1 - 1) k) as [He|He].
  - subst k. replace (length pts - 1 - S (length pts - 1 - 1))%nat with O by lia.
    replace (S (length pts - 1 - 1)) with (length pts - 1)%nat by lia.
    rewrite dist_sym. lra.
  - replace (length pts - 1 - S k)%nat with (length pts - 1 - 1 - k)%nat by lia.
    replace (k + 1)%nat with (S k) by lia. lra.
Qed.

Lemma surviving_nonneg pts : 0 <= surviving acc pts.
Proof.
  apply Prod_nonneg. intros k _. pose proof (alphaR_range (length (firstn (k + 2) pts)) (firstn (k + 2) pts)).
  unfold acc. lra.
Qed.

Lemma post_nonneg q : 0 <= post sg q.
Proof. unfold post. destruct (pt_ss q); [left; apply exp_pos|lra]. Qed.

Lemma flow_min c pts : (2 <= length pts)%nat -> (forall i, 0 < c i) ->
  flow sg c iP acc pts =
  Rmin (post sg (start pts) * proposing c iP pts * surviving acc pts)
       (post sg (start (rev pts)) * proposing c iP (rev pts) * surviving acc (rev pts)).
Proof.
  intros HL Hc. unfold flow.
  assert (HA : acc pts =
      if Req_EM_T (surviving acc (rev pts)) 0 then 0
      else if Req_EM_T (surviving acc pts) 0 then 1
      else match pt_ss (pt pts 0), pt_ss (pt pts (length pts - 1)) with
           | None, _ => 1
           | Some _, None => 0
           | Some ss0, Some ss1 =>
               Rmin 1 (exp (log_post sg ss1 (pt_prior (pt pts (length pts - 1)))
                            - log_post sg ss0 (pt_prior (pt pts 0)) + lsum pts)
                       * surviving acc (rev pts) * / surviving acc pts)
           end).
  { unfold acc at 1. destruct (length pts) as [|f] eqn:Hf; [lia|]. cbn [alphaR].
    assert (P1 : Prod (tries pts - 1) (fun k => 1 - alphaR f (firstn (k + 2) pts)) = surviving acc pts).
    { unfold surviving. apply Prod_ext. intros k Hk. unfold acc. f_equal. unfold tries in Hk.
      apply alphaR_fuel; rewrite ?firstn_length; lia. }
    assert (P2 : Prod (tries pts - 1) (fun k => 1 - alphaR f (firstn (k + 2) (rev pts))) = surviving acc (rev pts)).
    { unfold surviving. unfold tries at 2. rewrite rev_length. apply Prod_ext. intros k Hk. unfold acc. f_equal.
      unfold tries in Hk. apply alphaR_fuel; rewrite ?firstn_length, ?rev_length; lia. }
    rewrite P1, P2, Hf. reflexivity. }
  rewrite HA. clear HA.
  pose proof (surviving_nonneg pts) as S1. pose proof (surviving_nonneg (rev pts)) as S2.
  pose proof (proposing_pos c pts Hc) as Q1. pose proof (proposing_pos c (rev pts) Hc) as Q2.
  rewrite !start_pt, (pt_rev pts 0), Nat.sub_0_r by lia.
  set (x := pt pts 0) in *. set (y := pt pts (length pts - 1)) in *.
  set (A1 := surviving acc pts) in *. set (A2 := surviving acc (rev pts)) in *.
  pose proof (post_nonneg x) as Px. pose proof (post_nonneg y) as Py.
  assert (Hz : forall a b, 0 <= b -> a = 0 -> Rmin a b = 0) by (intros a b H ->; apply Rmin_left; lra).
  assert (Hz2 : forall a b, 0 <= a -> b = 0 -> Rmin a b = 0) by (intros a b H ->; apply Rmin_right; lra).
  assert (N1 : 0 <= post sg x * proposing c iP pts * A1).
  { repeat apply Rmult_le_pos; auto; lra. }
  assert (N2 : 0 <= post sg y * proposing c iP (rev pts) * A2).
  { repeat apply Rmult_le_pos; auto; lra. }
  destruct (Req_EM_T A2 0) as [Z2|Z2]; [rewrite Hz2; auto; [|rewrite Z2]; ring|].
  destruct (Req_EM_T A1 0) as [Z1|Z1]; [rewrite Hz; auto; [|rewrite Z1; ring]; rewrite Z1; ring|].
  destruct (pt_ss x) as [ss0|] eqn:X0.
  2: { assert (post sg x = 0) as Z by (unfold post; now rewrite X0). rewrite Hz; auto; rewrite Z; ring. }
  destruct (pt_ss y) as [ss1|] eqn:Y0.
  2: { assert (post sg y = 0) as Z by (unfold post; now rewrite Y0). rewrite Hz2; auto; rewrite ?Z; ring. }
  assert (Ex : post sg x = exp (log_post sg ss0 (pt_prior x))) by (unfold post; now rewrite X0).
  assert (Ey : post sg y = exp (log_post sg ss1 (pt_prior y))) by (unfold post; now rewrite Y0).
  rewrite exp_plus, exp_ratio, <- Ex, <- Ey.
  assert (0 < post sg x) by (rewrite Ex; apply exp_pos). assert (0 < post sg y) by (rewrite Ey; apply exp_pos).
  rewrite <- (min_balance (post sg x * proposing c iP pts * A1)).
  2: { repeat apply Rmult_lt_0_compat; auto; lra. }
  2: { repeat apply Rmult_lt_0_compat; auto; lra. }
  f_equal. f_equal. rewrite (proposing_ratio c pts) by auto. field.
  repeat split; lra.
Qed.

Lemma flow_balance c pts : (2 <= length pts)%nat -> (forall i, 0 < c i) ->
  flow sg c iP acc pts = flow sg c iP acc (rev pts).
Proof.
  intros HL Hc. rewrite !flow_min by (rewrite ?rev_length; auto). rewrite rev_involutive. apply Rmin_comm.
Qed.

End Path.
