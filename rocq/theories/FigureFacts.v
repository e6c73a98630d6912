(** Facts about the figures of IntervalFigures.v. *)

From Coq Require Import ZArith QArith Bool Lia List String Reals Lra Arith Qreals Sorted Permutation.
From Verif Require Import Base Num ChainFiles Results PlotUtil Propagation Colours RVec QuantSpec QuantFacts BandFacts ColourFacts
  ResultFacts ResultThms MergeFacts IntervalFigures FigureSpec.
Import ListNotations.
Close Scope Q_scope.
Close Scope R_scope.
Open Scope list_scope.
Open Scope nat_scope.

(** ** Styles *)
Section Styles.
Context {F : Type} `{NF : Num F}.
Definition flat_dict (d : pydict F) : Prop := forall k sub, lookup k d <> Some (PDict sub).

Lemma loop_flat (d : pydict F) u : flat_dict d -> forall s0, NoDup (map fst u) ->
  (forall k, In k (map fst u) -> lookup k s0 = lookup k d) -> exists s, loop d u s0 = Ok s.
Proof.
  intros FD. induction u as [|[k v] t IH]; intros s0 N D; [now exists s0|]. cbn [loop]. cbn [map fst] in *.
  rewrite step_default by (apply D; now left). inversion N; subst.
  assert (X : exists s, loop d t (setkey k v s0) = Ok s).
  { apply IH; auto. intros k' I. rewrite lookup_setkey. destruct (String.eqb_spec k' k) as [->|]; [contradiction|]. apply D. now right. }
  destruct (lookup k d) as [[]|] eqn:L; cbn [bind]; auto. now specialize (FD k d0).
Qed.

Lemma styled_ok (d : pydict F) u entries : flat_dict d -> display u entries -> exists s, check_settings d u = Ok s /\ styled d entries s.
Proof.
  intros FD [N [->|[-> ->]]].
  - rewrite check_settings_dict. destruct (loop_flat d entries FD d N) as [s E]; [auto|]. exists s. split; auto.
    destruct (loop_spec d entries d s N (fun _ _ => eq_refl) E) as (A & B & _).
    intros k. destruct (lookup k entries) eqn:L; [now apply B|now apply A].
  - exists d. split; [reflexivity|]. intros k. reflexivity.
Qed.

Lemma style_keys (d entries s : pydict F) k : styled d entries s -> ~ In k (map fst d) ->
  existsb (String.eqb k) (map fst s) = existsb (String.eqb k) (map fst entries).
Proof.
  intros H N. apply eq_true_iff_eq. rewrite !existsb_exists.
  assert (X : In k (map fst s) <-> In k (map fst entries)).
  { rewrite <- !lookup_in. rewrite (H k). destruct (lookup k d) eqn:L.
    - exfalso. apply N. apply lookup_in. congruence.
    - destruct (lookup k entries); split; intros; congruence. }
  split; intros (k' & I & E); apply String.eqb_eq in E; subst k'; exists k; rewrite String.eqb_refl; tauto.
Qed.
End Styles.

(** ** Bands *)

Lemma Q2R_eq a b : (a == b)%Q -> Q2R a = Q2R b. Proof. apply Qeq_eqR. Qed.

Lemma range_values L lo hi : percentage L -> (lo == (50 - L / 2) / 100)%Q -> (hi == (50 + L / 2) / 100)%Q ->
  Q2R lo = ((50 - Q2R L / 2) / 100)%R /\ Q2R hi = ((50 + Q2R L / 2) / 100)%R /\ Forall unit_interval [lo; hi].
Proof.
  intros [P1 P2] E1 E2.
  assert (A : Q2R lo = ((50 - Q2R L / 2) / 100)%R).
  { rewrite (Q2R_eq _ _ E1). rewrite Q2R_div, Q2R_minus, Q2R_div by discriminate. unfold Q2R at 1 3 4. cbn. field. }
  assert (B : Q2R hi = ((50 + Q2R L / 2) / 100)%R).
  { rewrite (Q2R_eq _ _ E2). rewrite Q2R_div, Q2R_plus, Q2R_div by discriminate. unfold Q2R at 1 3 4. cbn. field. }
  split; [exact A|]. split; [exact B|]. apply Qle_Rle in P1, P2.
  assert (E0 : Q2R 0 = 0%R) by (unfold Q2R; cbn [Qnum Qden]; lra). assert (E3 : Q2R 1 = 1%R) by (unfold Q2R; cbn [Qnum Qden]; lra).
  assert (E4 : Q2R 100 = 100%R) by (unfold Q2R; cbn [Qnum Qden]; lra).
  rewrite E0 in P1. rewrite E4 in P2.
  repeat constructor; apply Rle_Qle; rewrite ?A, ?B, ?E0, ?E3; lra.
Qed.

Lemma curves_ok ncol x L b lo hi : 2 <= List.length x -> percentage L -> b_range b = [lo; hi] ->
  (lo == (50 - L / 2) / 100)%Q -> (hi == (50 + L / 2) / 100)%Q ->
  exists c1 c2, curves_of ncol (finm x) b = Ok (fin c1, fin c2) /\ List.length c1 = ncol /\ List.length c2 = ncol /\
    is_band ncol x (Q2R L) [fin c1; fin c2].
Proof.
  intros N P R E1 E2. destruct (range_values L lo hi P E1 E2) as (A & B & U).
  exists (map (rquant x lo) (seq 0 ncol)), (map (rquant x hi) (seq 0 ncol)). split.
  - unfold curves_of. rewrite R, quantile_value by auto. reflexivity.
  - rewrite !map_length, !seq_length. split; [reflexivity|]. split; [reflexivity|]. exact (curves_band ncol x L lo hi A B).
Qed.

Lemma mapM_shown {A B} (f : A -> res B) l : (forall a, In a l -> exists b, f a = Ok b) ->
  exists r, mapM f l = Ok r /\ List.length r = List.length l /\
    forall i a, nth_error l i = Some a -> exists b, nth_error r i = Some b /\ f a = Ok b.
Proof.
  induction l as [|a l IH]; intros H; [exists []; repeat split; auto; intros [|]; discriminate|].
  destruct (H a ltac:(now left)) as [b Eb]. destruct IH as (r & E & L & I); [intros; apply H; now right|].
  exists (b :: r). cbn [mapM]. rewrite Eb. cbn [bind]. rewrite E. split; [reflexivity|]. split; [cbn; now rewrite L|].
  intros [|i] a' E'; cbn in *; [injection E' as <-; eauto|auto].
Qed.

Lemma nth_sorted (Ls : list Q) : StronglySorted downward Ls -> forall i j a b, i <= j -> nth_error Ls i = Some a -> nth_error Ls j = Some b -> (b <= a)%Q.
Proof.
  induction 1 as [|x l S IH H]; intros i j a b LE E1 E2; [destruct i; discriminate|].
  destruct i as [|i]; cbn in E1.
  - injection E1 as <-. destruct j as [|j]; cbn in E2; [injection E2 as <-; apply Qle_refl|].
    rewrite Forall_forall in H. apply H. eapply nth_error_In; eauto.
  - destruct j as [|j]; [lia|]. cbn in E2. apply (IH i j); auto. lia.
Qed.

Lemma nth_some {A} (l : list A) i : i < List.length l -> exists x, nth_error l i = Some x.
Proof. intros H. destruct (nth_error l i) eqn:E; eauto. apply nth_error_None in E. lia. Qed.

Section Shown.
Variable shape : drawn XR -> list R -> list R -> colour -> string -> Prop.
Variable f : band -> res (drawn XR).
Variables (ncol : nat) (x : list (list R)).
Hypothesis Hx : 2 <= List.length x.
Hypothesis Hf : forall b lo hi, curves_of ncol (finm x) b = Ok (fin lo, fin hi) -> List.length lo = ncol -> List.length hi = ncol ->
  exists d, f b = Ok d /\ shape d lo hi (b_colour b) (b_label b).

Lemma shown fmt ty Ls cm given bs : bands_are fmt ty Ls cm given bs -> Forall percentage Ls -> StronglySorted downward Ls ->
  exists ds, mapM f bs = Ok ds /\ bands_shown shape fmt ty Ls cm given ncol x ds.
Proof.
  intros [LE BA] P S.
  assert (Hb : forall i L, nth_error Ls i = Some L -> exists b d lo hi, nth_error bs i = Some b /\ f b = Ok d /\
     shape d lo hi (b_colour b) (fmt L ++ "% " ++ ty)%string /\ is_band ncol x (Q2R L) [fin lo; fin hi] /\ colour_of Ls cm given i L (b_colour b)).
  { intros i L E. destruct (BA i L E) as (b & B1 & B2 & (lo & hi & R & E1 & E2) & B4).
    assert (PL : percentage L). { rewrite Forall_forall in P. apply P. eapply nth_error_In; eauto. }
    destruct (curves_ok ncol x L b lo hi Hx PL R E1 E2) as (c1 & c2 & C & L1 & L2 & IB).
    destruct (Hf b c1 c2 C L1 L2) as (d & D & SD). rewrite B2 in SD. exists b, d, c1, c2. auto. }
  destruct (mapM_shown f bs) as (ds & E & L & I).
  { intros b Ib. apply In_nth_error in Ib as [i Ei]. destruct (nth_some Ls i) as [l El].
    - rewrite <- LE. apply nth_error_Some. congruence.
    - destruct (Hb i l El) as (b' & d & lo & hi & E1 & E2 & _). rewrite Ei in E1. injection E1 as <-. eauto. }
  exists ds. split; [exact E|].
  assert (Hd : forall i L, nth_error Ls i = Some L -> exists d lo hi c, nth_error ds i = Some d /\
     shape d lo hi c (fmt L ++ "% " ++ ty)%string /\ is_band ncol x (Q2R L) [fin lo; fin hi] /\ colour_of Ls cm given i L c).
  { intros i l El. destruct (Hb i l El) as (b & d & lo & hi & E1 & E2 & E3 & E4 & E5). destruct (I i b E1) as (d' & E6 & E7).
    rewrite E2 in E7. injection E7 as <-. exists d, lo, hi, (b_colour b). auto. }
  split; [congruence|]. split; [exact Hd|].
  intros i j d d' LEij Ei Ej.
  destruct (nth_some Ls i) as [l El]. { rewrite <- LE, <- L. apply nth_error_Some. congruence. }
  destruct (nth_some Ls j) as [l' El']. { rewrite <- LE, <- L. apply nth_error_Some. congruence. }
  destruct (Hd i l El) as (d1 & lo & hi & c & A1 & A2 & A3 & _). destruct (Hd j l' El') as (d2 & lo' & hi' & c' & B1 & B2 & B3 & _).
  rewrite Ei in A1. injection A1 as <-. rewrite Ej in B1. injection B1 as <-.
  exists lo, hi, c, (fmt l ++ "% " ++ ty)%string, lo', hi', c', (fmt l' ++ "% " ++ ty)%string. split; auto. split; auto.
  assert (Pl : percentage l). { rewrite Forall_forall in P. apply P. eapply nth_error_In; eauto. }
  assert (Pl' : percentage l'). { rewrite Forall_forall in P. apply P. eapply nth_error_In; eauto. }
  pose proof (nth_sorted Ls S i j l l' LEij El El') as Q1. destruct Pl as [_ Pl], Pl' as [Pl' _]. apply Qle_Rle in Q1, Pl, Pl'.
  assert (E0 : Q2R 0 = 0%R) by (unfold Q2R; cbn [Qnum Qden]; lra). assert (E4 : Q2R 100 = 100%R) by (unfold Q2R; cbn [Qnum Qden]; lra).
  rewrite E0 in Pl'. rewrite E4 in Pl. apply (band_nested ncol x (Q2R l') (Q2R l)); auto.
Qed.

Lemma median_in fmt ty Ls cm given ds : bands_shown shape fmt ty Ls cm given ncol x ds -> Forall percentage Ls ->
  exists m, median_of ncol (finm x) = Ok (fin m) /\ median_shown shape ncol x ds m.
Proof.
  intros (L & B & _) P. exists (map (rquant x (1#2)%Q) (seq 0 ncol)).
  assert (U : Forall unit_interval [(1#2)%Q]) by (repeat constructor; unfold Qle; cbn; lia).
  split. { unfold median_of. rewrite quantile_value by auto. reflexivity. }
  assert (H2 : Q2R (1#2) = (1 / 2)%R) by (unfold Q2R; cbn; lra).
  assert (M : forall j, j < ncol -> is_quantile (Rcol j x) (1 / 2)%R (nth j (map (rquant x (1#2)%Q) (seq 0 ncol)) 0%R)).
  { intros j J. rewrite nth_map_range by auto. rewrite <- H2. apply rquant_is. }
  split; [now rewrite map_length, seq_length|]. split; [exact M|].
  intros d Id. apply In_nth_error in Id as [i Ei]. destruct (nth_some Ls i) as [l El]. { rewrite <- L. apply nth_error_Some. congruence. }
  destruct (B i l El) as (d' & lo & hi & c & A1 & A2 & A3 & _). rewrite Ei in A1. injection A1 as <-.
  exists lo, hi, c, (fmt l ++ "% " ++ ty)%string. split; auto.
  assert (Pl : percentage l). { rewrite Forall_forall in P. apply P. eapply nth_error_In; eauto. } destruct Pl as [P0 P1]. apply Qle_Rle in P0, P1.
  assert (E0 : Q2R 0 = 0%R) by (unfold Q2R; cbn [Qnum Qden]; lra). assert (E4 : Q2R 100 = 100%R) by (unfold Q2R; cbn [Qnum Qden]; lra).
  rewrite E0 in P0. rewrite E4 in P1.
  apply (band_nested ncol x 0 (Q2R l)); try lra; auto.
  exists (map (rquant x (1#2)%Q) (seq 0 ncol)), (map (rquant x (1#2)%Q) (seq 0 ncol)). rewrite map_length, seq_length.
  repeat split; auto; replace ((50 - 0 / 2) / 100)%R with (1 / 2)%R by lra; replace ((50 + 0 / 2) / 100)%R with (1 / 2)%R by lra; now apply M.
Qed.
End Shown.

(** ** What is drawn *)

Lemma as_fill_ok ncol x time style : List.length time = ncol ->
  existsb (String.eqb "facecolor") (map fst style) = false -> existsb (String.eqb "label") (map fst style) = false ->
  forall b lo hi, curves_of ncol (finm x) b = Ok (fin lo, fin hi) -> List.length lo = ncol -> List.length hi = ncol ->
  exists d, (let* (lo, hi) := curves_of ncol (finm x) b in fill_between time lo hi (b_colour b) (b_label b) style) = Ok d /\
    as_fill time style d lo hi (b_colour b) (b_label b).
Proof.
  intros LT K1 K2 b lo hi C L1 L2. rewrite C. cbn [bind]. unfold fill_between. cbn [existsb]. rewrite K1, K2. cbn [orb].
  unfold bdim, stretch. assert (F1 : List.length (fin lo) = ncol) by (unfold fin; now rewrite map_length).
  assert (F2 : List.length (fin hi) = ncol) by (unfold fin; now rewrite map_length). rewrite F1, F2, LT, !Nat.eqb_refl.
  eexists. split; [reflexivity|]. reflexivity.
Qed.

Lemma as_surface_ok ncol x (time : list (XR * XR)) : List.length time = ncol ->
  forall b lo hi, curves_of ncol (finm x) b = Ok (fin lo, fin hi) -> List.length lo = ncol -> List.length hi = ncol ->
  exists d, (let* (lo, hi) := curves_of ncol (finm x) b in
             let* corners := outline (map fst time) (map snd time) lo hi in Ok (Surface corners (b_colour b) (b_label b))) = Ok d /\
    as_surface time d lo hi (b_colour b) (b_label b).
Proof.
  intros LT b lo hi C L1 L2. rewrite C. cbn [bind].
  destruct (outline_spec (map fst time) (map snd time) (fin lo) (fin hi)) as (cs & E & LC & I); unfold fin; rewrite ?map_length; try congruence.
  rewrite map_length in LC, I. change (map Fin lo) with (fin lo). change (map Fin hi) with (fin hi). rewrite E. cbn [bind].
  eexists. split; [reflexivity|]. exists cs. split; [reflexivity|]. split; [exact LC|].
  intros k p q Ek. assert (K : k < ncol). { rewrite <- LT. apply nth_error_Some. congruence. }
  apply I; try (rewrite nth_error_map, Ek; reflexivity); unfold fin; rewrite nth_error_map.
  - rewrite (nth_error_nth' lo 0%R) by lia. reflexivity.
  - rewrite (nth_error_nth' hi 0%R) by lia. reflexivity.
Qed.

Lemma default_styles : @default_interval_display XR _ = interval_style /\ @default_model_display XR = model_style /\
  @default_data_display XR = data_style.
Proof. unfold default_interval_display, interval_style. rewrite XR_n1. auto. Qed.

Lemma flat_styles : flat_dict interval_style /\ flat_dict model_style /\ flat_dict data_style.
Proof.
  unfold flat_dict, interval_style, model_style, data_style. cbn [lookup].
  repeat split; intros k sub; repeat (match goal with |- context [if ?c then _ else _] => destruct c end); discriminate.
Qed.

Lemma styles_ok ui um ud ei em ed : display ui ei -> display um em -> display ud ed ->
  exists si sm sd, @setup_display_settings XR _ ui um ud = Ok (si, sm, sd) /\
    styled interval_style ei si /\ styled model_style em sm /\ styled data_style ed sd.
Proof.
  intros Hi Hm Hd. destruct flat_styles as (Fi & Fm & Fd). destruct default_styles as (Di & Dm & Dd).
  destruct (styled_ok _ _ _ Fi Hi) as (si & Ei & Si). destruct (styled_ok _ _ _ Fm Hm) as (sm & Em & Sm). destruct (styled_ok _ _ _ Fd Hd) as (sd & Ed & Sd).
  exists si, sm, sd. split; [|auto]. unfold setup_display_settings. rewrite Di, Dm, Dd, Ei, Em, Ed. reflexivity.
Qed.

Lemma true_dec (f : pyflag) : f = IsTrue /\ is_true f = true \/ f <> IsTrue /\ is_true f = false.
Proof. destruct f; [left|right|right]; split; auto; discriminate. Qed.

Lemma percentages objs objs' ci pi q : afterwards objs objs' ci pi -> q = ci \/ q = pi -> Forall percentage (objs q) ->
  Forall percentage (objs' q) /\ StronglySorted downward (objs' q).
Proof.
  intros A Q P. destruct (A q) as (H1 & H2 & _). split; [|auto]. rewrite Forall_forall in *. intros L I. apply P. now apply (Permutation_in _ (Permutation_sym H1)).
Qed.

Section Both.
Variable shape : drawn XR -> list R -> list R -> colour -> string -> Prop.
Variable f : list (list XR) -> band -> res (drawn XR).
Variables (ncol : nat) (cred : list (list R)) (pred : option (list (list R))).
Variables (fmt : Q -> string) (Lc Lp : list Q) (cmc cmp : string) (gc gp : option (list string)) (cb pb : list band).
Variable line : list XR -> res (drawn XR).
Variable as_line : list R -> drawn XR.
Variable a : pargs XR.
Hypothesis Hc : 2 <= List.length cred.
Hypothesis Hp : a_addprediction a = IsTrue -> exists p, pred = Some p /\ 2 <= List.length p.
Hypothesis Hf : forall x b lo hi, curves_of ncol (finm x) b = Ok (fin lo, fin hi) -> List.length lo = ncol -> List.length hi = ncol ->
  exists d, f (finm x) b = Ok d /\ shape d lo hi (b_colour b) (b_label b).
Hypothesis Hl : forall m, List.length m = ncol -> line (fin m) = Ok (as_line m).
Hypothesis Bc : bands_are fmt "CI" Lc cmc gc cb.
Hypothesis Bp : bands_are fmt "PI" Lp cmp gp pb.
Hypothesis Pc : Forall percentage Lc. Hypothesis Sc : StronglySorted downward Lc.
Hypothesis Pp : Forall percentage Lp. Hypothesis Sp : StronglySorted downward Lp.

Lemma bands_and_model : exists pis cis mdl,
  (if is_true (a_addprediction a) then let* p := of_option AttributeError (option_map finm pred) in mapM (f p) pb else Ok []) = Ok pis /\
  (if is_true (a_addcredible a) then mapM (f (finm cred)) cb else Ok []) = Ok cis /\
  (if is_true (a_addmodel a) then let* m := median_of ncol (finm cred) in let* l := line m in Ok [l] else Ok []) = Ok mdl /\
  if_true (a_addprediction a) (fun ds => exists p, pred = Some p /\ bands_shown shape fmt "PI" Lp cmp gp ncol p ds) pis /\
  if_true (a_addcredible a) (bands_shown shape fmt "CI" Lc cmc gc ncol cred) cis /\
  if_true (a_addmodel a) (fun ds => exists m, ds = [as_line m] /\ median_shown shape ncol cred cis m) mdl.
Proof.
  destruct (shown shape (f (finm cred)) ncol cred Hc (Hf cred) fmt "CI" Lc cmc gc cb Bc Pc Sc) as (ds & E & SH).
  destruct (median_in shape ncol cred Hc fmt "CI" Lc cmc gc ds SH Pc) as (m & Em & M).
  assert (P : exists pis, (if is_true (a_addprediction a) then let* p := of_option AttributeError (option_map finm pred) in mapM (f p) pb else Ok []) = Ok pis /\
     if_true (a_addprediction a) (fun ds => exists p, pred = Some p /\ bands_shown shape fmt "PI" Lp cmp gp ncol p ds) pis).
  { destruct (true_dec (a_addprediction a)) as [[T ->]|[T ->]].
    - destruct (Hp T) as (p & -> & Lp2). cbn [option_map of_option bind].
      destruct (shown shape (f (finm p)) ncol p Lp2 (Hf p) fmt "PI" Lp cmp gp pb Bp Pp Sp) as (ps & Eps & SP).
      exists ps. split; [exact Eps|]. split; [eauto|intros; contradiction].
    - exists []. split; auto. split; [intros; contradiction|auto]. }
  destruct P as (pis & EP & HP). exists pis.
  assert (C : exists cis, (if is_true (a_addcredible a) then mapM (f (finm cred)) cb else Ok []) = Ok cis /\
     if_true (a_addcredible a) (bands_shown shape fmt "CI" Lc cmc gc ncol cred) cis /\ (forall d, In d cis -> In d ds)).
  { destruct (true_dec (a_addcredible a)) as [[T ->]|[T ->]].
    - exists ds. split; [exact E|]. split; [split; [auto|intros; contradiction]|auto].
    - exists []. split; auto. split; [split; [intros; contradiction|auto]|intros d []]. }
  destruct C as (cis & EC & HC & IC). exists cis.
  assert (M' : median_shown shape ncol cred cis m). { destruct M as (M1 & M2 & M3). split; auto. }
  destruct (true_dec (a_addmodel a)) as [[T ->]|[T ->]].
  - exists [as_line m]. split; [exact EP|]. split; [exact EC|]. rewrite Em. cbn [bind]. rewrite Hl by apply M. split; [reflexivity|].
    split; [exact HP|]. split; [exact HC|]. split; [eauto|intros; contradiction].
  - exists []. repeat (split; [assumption|]). split; [reflexivity|]. split; [exact HP|]. split; [exact HC|]. split; [intros; contradiction|auto].
Qed.
End Both.
