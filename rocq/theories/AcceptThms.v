(** Assembly of the lemmas about acceptance into the form stated in Prop_Accept.v. *)

From Coq Require Import ZArith QArith Bool Lia List String Reals Lra.
From Verif Require Import Base Num Samplers SamplerFacts Adapt Settings Simulator RVec BalanceSpec BalanceFacts DRFacts
  InfFacts NaNFacts NaNRun Demo DemoNaN DemoReal.
Import ListNotations.
Close Scope Q_scope.
Open Scope list_scope.
Open Scope R_scope.

Lemma not_outside {F} `{Num F} (t l u : list F) :
  is_sample_outside_bounds t l u = false <-> ~ outside_limits l u t.
Proof. rewrite <- outside_spec. destruct (is_sample_outside_bounds t l u); intuition congruence. Qed.

Lemma metropolis_rule (E : env XR) V P old s acc new outb z s1 u sg ss0 pr0 ss1 pr1 :
  run_metropolis_step E V P old s = Ok (acc, new, outb, z, s1) ->
  let y := candidate E (v_npar V) (p_theta old) P (io_pos s) in
  s_unif (e_str E) (io_pos s + v_npar V) = Fin u -> 0 <= u < 1 ->
  Forall (fun x => 0 < x) sg -> p_sigma2 old = fin sg ->
  p_ss old = fin ss0 -> List.length ss0 = List.length sg -> p_prior old = Fin pr0 ->
  e_sos E (scatter (io_value s) (v_parind V) y) = fin ss1 -> List.length ss1 = List.length sg ->
  e_prior E y (v_mu V) (v_sigma V) = Fin pr1 ->
  (acc = true <-> ~ outside_limits (v_lower V) (v_upper V) y /\
                  u < Rmin 1 (exp (log_post sg ss1 pr1 - log_post sg ss0 pr0))).
Proof. intros. rewrite <- not_outside. eapply metropolis_accepts; eauto. Qed.

Lemma metropolis_improvement (E : env XR) V P old s acc new outb z s1 u sg ss0 pr0 ss1 pr1 :
  run_metropolis_step E V P old s = Ok (acc, new, outb, z, s1) ->
  let y := candidate E (v_npar V) (p_theta old) P (io_pos s) in
  s_unif (e_str E) (io_pos s + v_npar V) = Fin u -> 0 <= u < 1 ->
  Forall (fun x => 0 < x) sg -> p_sigma2 old = fin sg ->
  p_ss old = fin ss0 -> List.length ss0 = List.length sg -> p_prior old = Fin pr0 ->
  e_sos E (scatter (io_value s) (v_parind V) y) = fin ss1 -> List.length ss1 = List.length sg ->
  e_prior E y (v_mu V) (v_sigma V) = Fin pr1 ->
  ~ outside_limits (v_lower V) (v_upper V) y -> log_post sg ss0 pr0 <= log_post sg ss1 pr1 ->
  acc = true.
Proof.
  intros H y H1 H2 H3 H4 H5 H6 H7 H8 H9 H10 H11 H12.
  eapply metropolis_rule; eauto. fold y. split; auto. apply Rmin_glb_lt; [lra|].
  apply Rlt_le_trans with 1; [lra|]. rewrite <- exp_0 at 1.
  destruct (Req_dec (log_post sg ss0 pr0) (log_post sg ss1 pr1)) as [->|Hn].
  - replace (log_post sg ss1 pr1 - log_post sg ss1 pr1) with 0 by lra. lra.
  - left. apply exp_increasing. lra.
Qed.

Lemma metropolis_detailed_balance sg : Forall (fun x => 0 < x) sg -> sg <> [] ->
  exists a : point -> point -> R,
    (forall p q, 0 <= a p q <= 1) /\
    (forall (E : env XR) V P old s acc new outb z s1 p q u,
       run_metropolis_step E V P old s = Ok (acc, new, outb, z, s1) ->
       represents sg old p -> represents sg new q -> pt_ss p <> None ->
       s_unif (e_str E) (io_pos s + v_npar V) = Fin u -> 0 <= u < 1 ->
       (acc = true <-> u < a p q)) /\
    (forall c iP p q,
       post sg p * gauss c iP (pt_x p) (pt_x q) * a p q = post sg q * gauss c iP (pt_x q) (pt_x p) * a q p).
Proof.
  intros H1 H2. exists (met_acc sg). split; [|split].
  - intros. apply met_acc_range.
  - intros. eapply met_step; eauto.
  - intros. apply met_balance.
Qed.

Lemma real_case : Forall (fun x => 0 < x) [1] /\ represents [1] (real_set 0) (real_point 0) /\
  pt_ss (real_point 0) <> None /\ inverse_of 1 [[2]] [[1 / 2]].
Proof.
  split; [constructor; [lra|constructor]|]. split; [apply real_represents|]. split; [discriminate|].
  split; [split; [reflexivity|intros r [<-|[]]; reflexivity]|].
  split; [split; [reflexivity|intros r [<-|[]]; reflexivity]|].
  intros i j Hi Hj. assert (i = O) as -> by lia. assert (j = O) as -> by lia.
  unfold ent. simpl. lra.
Qed.

Lemma acc_balancing sg iP : balancing sg iP (acc sg iP).
Proof. split; [intros; apply alphaR_range|intros; apply flow_balance; auto]. Qed.

Lemma alpha_balances sg iP : Forall (fun x => 0 < x) sg -> sg <> [] ->
  exists a : list point -> R,
    (forall path pts, Forall2 (represents sg) path pts -> (2 <= List.length path)%nat ->
       (List.length path - 1 <= List.length iP)%nat ->
       alphafun (List.length path) (map finm iP) path = Ok (Fin (a pts))) /\
    balancing sg iP a.
Proof.
  intros H1 H2. exists (acc sg iP). split; [|apply acc_balancing].
  intros path pts H HL HI. unfold acc. rewrite <- (rep_len _ _ _ H). apply alphafun_spec; auto.
Qed.

Lemma dr_judged (E : env XR) V sg Ps iP old new xold :
  finite_env E sg -> Forall (fun x => 0 < x) sg -> sg <> [] ->
  (forall P, In P Ps -> shape (v_npar V) (v_npar V) P) ->
  p_theta old = fin xold /\ List.length xold = v_npar V -> p_sigma2 new = fin sg ->
  exists a, balancing sg iP a /\
  forall ntry pold pnew iacce s,
  represents sg old pold -> represents sg new pnew -> (1 < ntry)%nat ->
  (ntry <= List.length Ps)%nat -> (ntry <= List.length iP)%nat -> (ntry <= List.length iacce)%nat ->
  exists ac out outb iacce' path' s1 mpts,
    run_delayed_rejection E V (map finm Ps) (map finm iP) ntry old new iacce s = Ok (ac, out, outb, iacce', path', s1) /\
    Forall2 (represents sg) path' (pold :: pnew :: mpts) /\
    (forall k, (2 <= k < List.length path')%nat -> pt_ss (pt (pold :: pnew :: mpts) k) <> None ->
       judged_by E a (pold :: pnew :: mpts) (io_pos s) (io_pos s1) k (ac && (k =? List.length path' - 1)%nat)) /\
    (ac = true -> pt_ss (pt (pold :: pnew :: mpts) (List.length path' - 1)) <> None).
Proof.
  intros H1 H2 H3 H4 H5 H6. exists (acc sg iP). split; [apply acc_balancing|].
  intros ntry pold pnew iacce s G1 G2 G3 G4 G5 G6.
  destruct (dr_course E V sg Ps iP old new H1 H2 H3 H4 xold H5 H6 ntry pold pnew iacce s G1 G2 G3 G4 G5 G6)
    as (ac & out & outb & iacce' & path' & s1 & mpts & C1 & C2 & C3 & C4).
  exists ac, out, outb, iacce', path', s1, mpts. split; auto. split; auto. split; auto.
  intros k Hk Hp. destruct (C3 k Hk Hp) as (pos & u & P1 & P2 & _ & P3). exists pos, u. auto.
Qed.

Lemma real_course_case : finite_env real_env [1] /\ represents [1] (real_set 0) (real_point 0) /\
  represents [1] (real_set 3) (real_point 3) /\ shape 1 1 [[1]] /\
  p_theta (real_set 0) = fin [0] /\ p_sigma2 (real_set 3) = fin [1].
Proof.
  split; [apply real_finite|]. split; [apply real_represents|]. split; [apply real_represents|].
  split; [split; [reflexivity|intros r [<-|[]]; reflexivity]|]. split; reflexivity.
Qed.

Lemma metropolis_no_nan (A : Type) (AA : Arith A) (E : env (X A)) V P old s new outb z s1 :
  run_metropolis_step E V P old s = Ok (true, new, outb, z, s1) ->
  p_sigma2 old <> [] -> ~ In NaN (p_ss new).
Proof.
  intros H Hs HN. apply (metropolis_undef _ _ _ _ _ _ _ _ _ H). split; auto.
  now rewrite (metropolis_sigma2 _ _ _ _ _ _ _ _ _ _ H).
Qed.

Lemma dr_no_nan (A : Type) (AA : Arith A) : neq (nmul n1 (nsub n1 n1)) (@n0 (X A) _) = true -> nle n1 (@n0 (X A) _) = false ->
  forall E : env (X A), (forall k, nlt (s_unif (e_str E) k) n0 = false) ->
  forall V RDR invR ntry old new iacce s out outb iacce' path' s1,
  run_delayed_rejection E V RDR invR ntry old new iacce s = Ok (true, out, outb, iacce', path', s1) ->
  p_sigma2 new <> [] -> ~ In NaN (p_ss out).
Proof.
  intros H11 H10 E Hu V RDR invR ntry old new iacce s out outb iacce' path' s1 H Hs HN.
  destruct (dr_undef H11 H10 E Hu _ _ _ _ _ _ _ _ _ _ _ _ _ H) as [G1 G2]. apply G1. split; auto. now rewrite G2.
Qed.

Lemma dr_finite (E : env XR) : (forall k, nlt (s_unif (e_str E) k) n0 = false) ->
  forall V RDR invR ntry old new iacce s out outb iacce' path' s1,
  run_delayed_rejection E V RDR invR ntry old new iacce s = Ok (true, out, outb, iacce', path', s1) ->
  (forall x, In x (p_sigma2 new) -> exists v, x = Fin v /\ 0 < v) -> p_sigma2 new <> [] ->
  (forall x, In x (p_ss out) -> ~ bad x) /\ ~ bad (p_prior out).
Proof.
  intros Hu V RDR invR ntry old new iacce s out outb iacce' path' s1 H Hp Hs.
  destruct (dr_hopeless E Hu _ _ _ _ _ _ _ _ _ _ _ _ _ H) as [G1 G2]. split.
  - intros x Hx Hb. apply G1. apply hopeless_bad; rewrite ?G2; eauto.
  - intros Hb. apply G1. right. exact Hb.
Qed.

Lemma nan_blocks (A : Type) (AA : Arith A) : neq (nmul n1 (nsub n1 n1)) (@n0 (X A) _) = true ->
  forall f invR path x y (a : X A), p_sigma2 x <> [] -> In NaN (p_ss x) -> path <> [] ->
  alphafun (S (S f)) invR (path ++ [x; y]) = Ok a -> a = n0.
Proof. intros H11 f invR path x y a H1 H2 H3 H. eapply alpha_undef; eauto. left. split; auto. Qed.

Lemma nan_case : run_simulation nan_env false (nan_start 7 DR) = Ok nan7 /\
  (forall k, nlt (s_unif (e_str nan_env) k) n0 = false) /\
  neq (nmul n1 (nsub n1 n1)) (@n0 XQ _) = true /\ nle n1 (@n0 XQ _) = false /\
  map nan_sos (m_calls nan7) = [[Fin (3721 # 22500)%Q]; [NaN]; [Fin (8281 # 2500)%Q]; [Fin (1 # 4)%Q]] /\
  m_sschain nan7 = [[Fin (1 # 4)%Q]; [Fin (1 # 4)%Q]; [Fin (3721 # 22500)%Q]].
Proof.
  split; [exact nan7_ok|]. split; [exact demo_unif_nonneg|]. split; [vm_compute; reflexivity|].
  split; [vm_compute; reflexivity|]. exact nan7_calls.
Qed.
