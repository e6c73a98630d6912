(** Bands, their colours and outlines: facts about Colours.v. *)

From Coq Require Import ZArith QArith Bool Lia List String Sorted Permutation.
From Verif Require Import Base Num ChainFiles PlotUtil Propagation Colours BandFacts BatchFacts.
Import ListNotations.
Close Scope Q_scope.
Open Scope list_scope.
Open Scope nat_scope.
Open Scope res_scope.

(** [vmin] and [vmax] are the scale of the colour map for the limits [Ls]. *)
Definition scale_of (Ls : list Q) (vmin vmax : Q) : Prop :=
  (List.length Ls = 1 /\ vmin = 0%Q /\ vmax = 100%Q) \/
  (List.length Ls <> 1 /\ In vmin Ls /\ In vmax Ls /\ forall l, In l Ls -> (vmin <= l)%Q /\ (l <= vmax)%Q).

(** The colour of band [i], which is the band of limit [l]: the i-th colour given if there are as many as limits, and
    otherwise the colour map at [l]. *)
Definition colour_of (Ls : list Q) (cm : string) (given : option (list string)) (i : nat) (l : Q) (c : colour) : Prop :=
  match given with
  | Some cs => if List.length cs =? List.length Ls
               then exists name, nth_error cs i = Some name /\ c = Given name
               else exists vmin vmax, scale_of Ls vmin vmax /\ c = Mapped cm vmin vmax l
  | None => exists vmin vmax, scale_of Ls vmin vmax /\ c = Mapped cm vmin vmax l
  end.

(** The bands drawn for the limits [Ls], in this order. *)
Definition bands_are (fmt : Q -> string) (ty : string) (Ls : list Q) (cm : string) (given : option (list string))
    (bs : list band) : Prop :=
  List.length bs = List.length Ls /\
  forall i l, nth_error Ls i = Some l -> exists b, nth_error bs i = Some b /\
    b_label b = (fmt l ++ "% " ++ ty)%string /\
    (exists lo hi, b_range b = [lo; hi] /\ (lo == (50 - l / 2) / 100)%Q /\ (hi == (50 + l / 2) / 100)%Q) /\
    colour_of Ls cm given i l (b_colour b).

Lemma qmin_least l : l <> [] -> exists m, qmin l = Ok m /\ In m l /\ forall x, In x l -> (m <= x)%Q.
Proof.
  destruct l as [|a t]; [congruence|]. intros _. cbn [qmin]. eexists. split; [reflexivity|].
  revert a. induction t as [|b t IH]; intros a; cbn [fold_left].
  - split; [now left|]. intros x [<-|[]]. apply Qle_refl.
  - destruct (Qle_bool a b) eqn:Eb; cbn [negb].
    + apply Qle_bool_iff in Eb. destruct (IH a) as [I1 I2]. split; [destruct I1 as [<-|]; [now left|right; now right]|].
      intros x [<-|[<-|Hx]]; [apply I2; now left| |apply I2; now right].
      eapply Qle_trans; [apply I2; now left|exact Eb].
    + assert (Hb : (b <= a)%Q). { apply Qnot_lt_le. intros X. apply Qlt_le_weak, Qle_bool_iff in X. congruence. }
      destruct (IH b) as [I1 I2]. split; [now right|].
      intros x [<-|Hx]; [eapply Qle_trans; [apply I2; now left|exact Hb]|now apply I2].
Qed.
Lemma qmax_greatest l : l <> [] -> exists m, qmax l = Ok m /\ In m l /\ forall x, In x l -> (x <= m)%Q.
Proof.
  destruct l as [|a t]; [congruence|]. intros _. cbn [qmax]. eexists. split; [reflexivity|].
  revert a. induction t as [|b t IH]; intros a; cbn [fold_left].
  - split; [now left|]. intros x [<-|[]]. apply Qle_refl.
  - destruct (Qle_bool b a) eqn:Eb; cbn [negb].
    + apply Qle_bool_iff in Eb. destruct (IH a) as [I1 I2]. split; [destruct I1 as [<-|]; [now left|right; now right]|].
      intros x [<-|[<-|Hx]]; [apply I2; now left| |apply I2; now right].
      eapply Qle_trans; [exact Eb|apply I2; now left].
    + assert (Hb : (a <= b)%Q). { apply Qnot_lt_le. intros X. apply Qlt_le_weak, Qle_bool_iff in X. congruence. }
      destruct (IH b) as [I1 I2]. split; [now right|].
      intros x [<-|Hx]; [eapply Qle_trans; [exact Hb|apply I2; now left]|now apply I2].
Qed.

Lemma norm_spec Ls : Ls <> [] -> exists a b, setup_cmap_norm Ls = Ok (a, b) /\ scale_of Ls a b.
Proof.
  intros H. destruct Ls as [|x [|y t]]; [congruence| |].
  - exists 0%Q, 100%Q. split; [reflexivity|]. left. auto.
  - unfold setup_cmap_norm. destruct (qmin_least (x :: y :: t) H) as (a & Ha & A1 & A2).
    destruct (qmax_greatest (x :: y :: t) H) as (b & Hb & B1 & B2). rewrite Ha, Hb. cbn [bind].
    exists a, b. split; [reflexivity|]. right. split; [cbn; lia|]. auto.
Qed.

Lemma colours_spec Ls cm given ci : Ls <> [] -> exists cs, setup_interval_colors Ls cm given ci = Ok cs /\
  List.length cs = List.length Ls /\
  forall i l, nth_error Ls i = Some l -> exists c, nth_error cs i = Some c /\ colour_of Ls (setup_default_cmap cm ci) given i l c.
Proof.
  intros H. unfold setup_interval_colors. destruct (norm_spec Ls H) as (a & b & -> & Hs). cbn [bind].
  assert (HM : let cs := map (Mapped (setup_default_cmap cm ci) a b) Ls in List.length cs = List.length Ls /\
     forall i l, nth_error Ls i = Some l -> exists c, nth_error cs i = Some c /\
       exists vmin vmax, scale_of Ls vmin vmax /\ c = Mapped (setup_default_cmap cm ci) vmin vmax l).
  { cbv zeta. split; [apply map_length|]. intros i l Hl. rewrite nth_error_map, Hl. eexists. split; [reflexivity|]. eauto. }
  cbv zeta in HM. destruct HM as [M1 M2]. destruct given as [cs|].
  - destruct (Nat.eqb_spec (List.length cs) (List.length Ls)) as [E|E].
    + eexists. split; [reflexivity|]. split; [now rewrite map_length|]. intros i l Hl. rewrite nth_error_map.
      destruct (nth_error cs i) as [nm|] eqn:En.
      * eexists. split; [reflexivity|]. unfold colour_of. rewrite E, Nat.eqb_refl. eauto.
      * apply nth_error_None in En. assert (i < List.length Ls) by (apply nth_error_Some; congruence). lia.
    + eexists. split; [reflexivity|]. split; [exact M1|]. intros i l Hl. destruct (M2 i l Hl) as (c & C1 & C2).
      exists c. split; [exact C1|]. unfold colour_of. apply Nat.eqb_neq in E. now rewrite E.
  - eexists. split; [reflexivity|]. split; [exact M1|]. exact M2.
Qed.

Lemma bands_spec fmt ty Ls cm given ci cs : setup_interval_colors Ls cm given ci = Ok cs ->
  List.length cs = List.length Ls ->
  (forall i l, nth_error Ls i = Some l -> exists c, nth_error cs i = Some c /\ colour_of Ls (setup_default_cmap cm ci) given i l c) ->
  exists bs, bands_of fmt ty Ls cs = Ok bs /\ bands_are fmt ty Ls (setup_default_cmap cm ci) given bs.
Proof.
  intros _ HL HC. unfold bands_of.
  set (g := fun e : nat * list Q => mkband (nth (fst e) (setup_labels fmt Ls ty) ""%string) (snd e) (nth (fst e) cs (Given ""))).
  exists (map g (combine (seq 0 (List.length Ls)) (convert_limits Ls))).
  assert (HN : List.length (combine (seq 0 (List.length Ls)) (convert_limits Ls)) = List.length Ls).
  { rewrite combine_length, seq_length. unfold convert_limits. rewrite map_length. lia. }
  split.
  - apply BatchFacts.mapM_ok. intros [i r] Hi. apply in_combine_l in Hi. apply in_seq in Hi.
    unfold g. cbn [fst snd].
    destruct (nth_error cs i) as [c|] eqn:Ec; [|apply nth_error_None in Ec; lia].
    destruct (nth_error (setup_labels fmt Ls ty) i) as [l|] eqn:El.
    + cbn [of_option bind]. rewrite (nth_error_nth _ _ _ Ec), (nth_error_nth _ _ _ El). reflexivity.
    + apply nth_error_None in El. unfold setup_labels in El. rewrite map_length in El. lia.
  - split; [rewrite map_length; exact HN|]. intros i l Hl.
    assert (Hi : i < List.length Ls) by (apply nth_error_Some; congruence).
    assert (HK : nth_error (combine (seq 0 (List.length Ls)) (convert_limits Ls)) i = Some (i, convert_limit l)).
    { assert (G : forall (A : Type) (x : list A) a n k v, nth_error x k = Some v -> List.length x = n ->
        nth_error (combine (seq a n) x) k = Some (a + k, v)).
      { clear. induction x as [|y x IH]; intros a n k v H <-; [destruct k; discriminate|].
        destruct k as [|k]; cbn [seq combine nth_error List.length] in *; [injection H as <-; now rewrite Nat.add_0_r|].
        rewrite (IH (S a) _ k v H eq_refl). now replace (a + S k) with (S a + k) by lia. }
      rewrite (G _ (convert_limits Ls) 0 (List.length Ls) i (convert_limit l)); auto.
      - unfold convert_limits. rewrite nth_error_map, Hl. reflexivity.
      - unfold convert_limits. apply map_length. }
    rewrite nth_error_map, HK. cbn [option_map]. eexists. split; [reflexivity|]. unfold g. cbn [fst snd b_label b_range b_colour].
    split; [|split].
    + apply nth_error_nth. unfold setup_labels. rewrite nth_error_map, Hl. reflexivity.
    + unfold convert_limit. cbv zeta. do 2 eexists. split; [reflexivity|]. split; field.
    + destruct (HC i l Hl) as (c & C1 & C2). rewrite (nth_error_nth _ _ _ C1). exact C2.
Qed.

Lemma sort_object_at r q objs : exists l, sort_object r objs q = l /\ Permutation (objs q) l /\
  (q = r -> StronglySorted downward l) /\ (q <> r -> l = objs q).
Proof.
  eexists. split; [reflexivity|]. unfold sort_object. destruct (Nat.eqb_spec q r) as [->|H].
  - split; [apply sort_down_perm|]. split; [intros; apply sort_down_sorted|congruence].
  - split; [reflexivity|]. split; [congruence|auto].
Qed.

Lemma insert_down_id x l : StronglySorted downward (x :: l) -> insert_down x l = x :: l.
Proof.
  destruct l as [|y t]; [reflexivity|]. intros H. cbn [insert_down]. inversion H as [|? ? _ HF]; subst. inversion HF; subst.
  unfold downward in *. now rewrite (proj2 (Qle_bool_iff y x)).
Qed.
Lemma sort_down_id l : StronglySorted downward l -> sort_down l = l.
Proof.
  induction l as [|x l IH]; intros H; [reflexivity|]. cbn [sort_down fold_right]. fold (sort_down l).
  rewrite IH by (now inversion H). now apply insert_down_id.
Qed.

(** The list objects after the call: those used have been sorted, the others are as before. *)
Definition afterwards (objs objs' : nat -> list Q) (ci pi : nat) : Prop :=
  forall q, Permutation (objs q) (objs' q) /\ (q = ci \/ q = pi -> StronglySorted downward (objs' q)) /\
            (q <> ci -> q <> pi -> objs' q = objs q) /\ (StronglySorted downward (objs q) -> objs' q = objs q).

Lemma sorted_objects objs ci pi : afterwards objs (sort_object pi (sort_object ci objs)) ci pi.
Proof.
  intros q. unfold sort_object. destruct (Nat.eqb_spec q pi) as [->|Hp].
  - destruct (Nat.eqb_spec pi ci) as [->|Hc].
    + split; [etransitivity; apply sort_down_perm|]. split; [intros; apply sort_down_sorted|]. split; [congruence|].
      intros H. rewrite !sort_down_id; auto. now rewrite sort_down_id.
    + split; [apply sort_down_perm|]. split; [intros; apply sort_down_sorted|]. split; [congruence|]. apply sort_down_id.
  - destruct (Nat.eqb_spec q ci) as [->|Hc].
    + split; [apply sort_down_perm|]. split; [intros; apply sort_down_sorted|]. split; [congruence|]. apply sort_down_id.
    + split; [reflexivity|]. split; [intros [|]; congruence|]. auto.
Qed.

Lemma settings_spec fmt objs deflt ciset piset :
  let ci := match is_limits ciset with Some r => r | None => deflt end in
  let pi := match is_limits piset with Some r => r | None => deflt end in
  objs ci <> [] -> objs pi <> [] ->
  exists pb cb objs', band_settings fmt objs deflt ciset piset = Ok (pb, cb, objs') /\ afterwards objs objs' ci pi /\
    bands_are fmt "CI" (objs' ci) (setup_default_cmap (is_cmap ciset) true) (is_colors ciset) cb /\
    bands_are fmt "PI" (objs' pi) (setup_default_cmap (is_cmap piset) false) (is_colors piset) pb.
Proof.
  intros ci pi Hc Hp. unfold band_settings. fold ci pi. set (o := sort_object pi (sort_object ci objs)).
  pose proof (sorted_objects objs ci pi) as HA. fold o in HA.
  assert (NE : forall q, objs q <> [] -> o q <> []).
  { intros q Hq E. destruct (HA q) as (P & _). rewrite E in P. apply Permutation_sym, Permutation_nil in P. contradiction. }
  destruct (colours_spec (o ci) (is_cmap ciset) (is_colors ciset) true (NE _ Hc)) as (cc & C1 & C2 & C3).
  destruct (colours_spec (o pi) (is_cmap piset) (is_colors piset) false (NE _ Hp)) as (pc & P1 & P2 & P3).
  rewrite C1, P1. cbn [bind].
  destruct (bands_spec fmt "PI" _ _ _ _ _ P1 P2 P3) as (pb & PB1 & PB2).
  destruct (bands_spec fmt "CI" _ _ _ _ _ C1 C2 C3) as (cb & CB1 & CB2).
  rewrite PB1, CB1. cbn [bind]. exists pb, cb, o. auto.
Qed.

Lemma settings_empty fmt objs deflt ciset piset :
  let ci := match is_limits ciset with Some r => r | None => deflt end in
  let pi := match is_limits piset with Some r => r | None => deflt end in
  objs ci = [] \/ objs pi = [] -> band_settings fmt objs deflt ciset piset = Err ValueError.
Proof.
  intros ci pi H. unfold band_settings. fold ci pi. set (o := sort_object pi (sort_object ci objs)).
  pose proof (sorted_objects objs ci pi) as HA. fold o in HA.
  assert (NE : forall q, objs q = [] -> o q = []).
  { intros q Hq. destruct (HA q) as (P & _). rewrite Hq in P. now apply Permutation_nil in P. }
  assert (NE' : forall q, objs q <> [] -> o q <> []).
  { intros q Hq E. destruct (HA q) as (P & _). rewrite E in P. apply Permutation_sym, Permutation_nil in P. contradiction. }
  destruct (objs ci) as [|x t] eqn:Ec.
  - rewrite (NE ci Ec). reflexivity.
  - destruct H as [H|H]; [discriminate|].
    assert (Hci : objs ci <> []) by congruence.
    destruct (colours_spec (o ci) (is_cmap ciset) (is_colors ciset) true (NE' ci Hci)) as (cc & C1 & _). rewrite C1. cbn [bind].
    rewrite (NE pi H). reflexivity.
Qed.

(** ** Outlines *)

Lemma gather_ok {A} (x : list A) ix : (forall i, In i ix -> i < List.length x) ->
  exists r, gather x ix = Ok r /\ List.length r = List.length ix /\ forall k i, nth_error ix k = Some i -> nth_error r k = nth_error x i.
Proof.
  induction ix as [|i t IH]; intros H; cbn [gather].
  - exists []. split; [reflexivity|]. split; [reflexivity|]. intros k j Hk. destruct k; discriminate.
  - destruct (nth_error x i) as [v|] eqn:E; [|apply nth_error_None in E; specialize (H i (or_introl eq_refl)); lia].
    destruct IH as (r & R1 & R2 & R3); [intros; apply H; now right|]. cbn [of_option bind]. rewrite R1. cbn [bind].
    exists (v :: r). split; [reflexivity|]. split; [cbn; congruence|]. intros [|k] j Hk; cbn in *; [injection Hk as <-; now rewrite E|eauto].
Qed.

Lemma reversed_ok {A} n (x : list A) : n <= List.length x -> exists r, reversed n x = Ok r /\ List.length r = n /\
  forall k, k < n -> nth_error r (n - 1 - k) = nth_error x k.
Proof.
  intros H. unfold reversed. destruct (gather_ok x (rev (seq 0 n))) as (r & R1 & R2 & R3).
  - intros i Hi. apply in_rev, in_seq in Hi. lia.
  - exists r. split; [exact R1|]. rewrite rev_length, seq_length in R2. split; [exact R2|]. intros k Hk. apply R3.
    assert (G : forall m j, j < m -> nth_error (rev (seq 0 m)) (m - 1 - j) = Some j).
    { clear. induction m as [|m IH]; intros j Hj; [lia|]. rewrite seq_S, rev_app_distr. cbn [rev app Nat.add].
      destruct (Nat.eq_dec j m) as [->|Hn]; [replace (S m - 1 - m) with 0 by lia; reflexivity|].
      replace (S m - 1 - j) with (S (m - 1 - j)) by lia. cbn [nth_error]. apply IH. lia. }
    now apply G.
Qed.
Lemma reversed_fails {A} n (x : list A) : List.length x < n -> reversed n x = Err IndexError.
Proof.
  intros H. unfold reversed. destruct n as [|n]; [lia|]. rewrite seq_S, rev_app_distr. cbn [rev app gather Nat.add].
  rewrite (proj2 (nth_error_None x n)) by lia. reflexivity.
Qed.

Lemma nth_error_combine {A B} (x : list A) (y : list B) k a b : nth_error x k = Some a -> nth_error y k = Some b ->
  nth_error (combine x y) k = Some (a, b).
Proof.
  revert y k. induction x as [|u x IH]; intros [|v y] [|k] H1 H2; cbn in *; try discriminate; [congruence|auto].
Qed.

Lemma outline_spec {A} (time1 time2 lower upper : list A) :
  let n := List.length time1 in
  List.length time2 = n -> List.length lower = n -> List.length upper = n ->
  exists corners, outline time1 time2 lower upper = Ok corners /\ List.length corners = 2 * n /\
    forall k a b l u, nth_error time1 k = Some a -> nth_error time2 k = Some b ->
      nth_error lower k = Some l -> nth_error upper k = Some u ->
      nth_error corners k = Some (a, b, l) /\ nth_error corners (2 * n - 1 - k) = Some (a, b, u).
Proof.
  intros n H2 H3 H4. unfold outline. fold n.
  destruct (reversed_ok n time1 ltac:(lia)) as (r1 & A1 & A2 & A3).
  destruct (reversed_ok n time2 ltac:(lia)) as (r2 & B1 & B2 & B3).
  destruct (reversed_ok n upper ltac:(lia)) as (r3 & C1 & C2 & C3).
  rewrite A1, B1, C1. cbn [bind]. eexists. split; [reflexivity|].
  split; [rewrite !combine_length, !app_length; fold n; lia|].
  intros k a b l u Ha Hb Hl Hu. assert (Hk : k < n) by (apply nth_error_Some; congruence). split.
  - apply nth_error_combine; [apply nth_error_combine|]; rewrite nth_error_app1 by lia; assumption.
  - assert (G : forall (B : Type) (x r : list B) v, List.length x = n -> nth_error r (n - 1 - k) = Some v ->
       nth_error (x ++ r) (2 * n - 1 - k) = Some v).
    { intros B x r v Hx Hr. rewrite nth_error_app2 by lia. rewrite Hx. rewrite <- Hr. f_equal. lia. }
    apply nth_error_combine; [apply nth_error_combine|]; apply G; try lia; try reflexivity;
      [rewrite A3|rewrite B3|rewrite C3]; auto.
Qed.
