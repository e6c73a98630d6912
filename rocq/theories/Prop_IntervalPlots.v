(** C91: plots of prediction and credible intervals. *)

From Coq Require Import ZArith QArith Bool Lia List String Ascii Arith.
From Verif Require Import Base Num Names ChainFiles Samplers Settings PredInt PredData PanelFacts OriginFacts IntervalPlots.
Import ListNotations.
Close Scope Q_scope.
Open Scope list_scope.
Open Scope nat_scope.
Open Scope res_scope.

(** ** Specification *)
(** Whether the flag asks for prediction intervals to be left out. *)
Definition switched_off (f : flag) : Prop := f = FlagBool false \/ f = FlagText "off".
(** All data sets with all columns of their intervals, in order. *)
Definition places {A} (cred : list (list A)) : list (nat * nat) :=
  List.concat (map (fun ii => map (pair ii) (seq 0 (List.length (nth ii cred [])))) (seq 0 (List.length cred))).
(** Entry [i] of column [jj] of an array with [k] columns. *)
Definition column_in {F} (y : nda F) (jj : nat) (col : list F) : Prop :=
  exists n k, nd_shape y = [n; k] /\ jj < k /\ List.length col = n /\ forall i, i < n -> nth_error col i = nth_error (nd_entries y) (i * k + jj).

Section Spec.
Context {F U : Type}.
Variables (datapred : list (dstruct F U)) (cred : list (list (list (list F)))) (pred : option (list (list (list (list F))))).

(** Intervals with [q] bands around the middle curve, for data sets with one column of times; [drawn] are the prediction
    intervals that are drawn. *)
Record plottable (drawn : bool) (q : nat) (adddata : bool) : Prop := mkplottable {
  pl_sets : List.length cred = List.length datapred;
  pl_first : exists lines r t, cred = (lines :: r) :: t;
  pl_lines : forall ii jj col lines, nth_error cred ii = Some col -> nth_error col jj = Some lines -> List.length lines = 2 * q + 1;
  pl_bands : q <= if drawn then 1 else 4;
  pl_pred : drawn = true -> exists p, pred = Some p /\ List.length p = List.length cred /\
    forall ii col, nth_error cred ii = Some col -> exists pcol, nth_error p ii = Some pcol /\ List.length pcol = List.length col /\ Forall (fun lines => lines <> []) pcol;
  pl_time : forall ii d, nth_error datapred ii = Some d -> exists x n, nth_error (s_xdata d) 0 = Some x /\ nd_shape x = [n; 1];
  pl_data : adddata = true -> forall ii d col, nth_error datapred ii = Some d -> nth_error cred ii = Some col ->
    exists y n k, nth_error (s_ydata d) 0 = Some y /\ nd_shape y = [n; k] /\ List.length (nd_entries y) = n * k /\ List.length col <= k
}.

(** The panel of column [jj] of data set [ii] shows the intervals, the model and the data of that column. *)
Definition shows (drawn : bool) (q : nat) (adddata addlegend : bool) (place : nat * nat) (p : ipanel F) : Prop :=
  let (ii, jj) := place in
  exists d x lines, nth_error datapred ii = Some d /\ nth_error (s_xdata d) 0 = Some x /\ nth_error (nth ii cred []) jj = Some lines /\
    n_time p = nd_entries x /\ nth_error lines q = Some (n_model p) /\
    List.length (n_bands p) = q + (if drawn then 1 else 0) /\
    (forall k, k < q -> exists b, nth_error (n_bands p) (k + if drawn then 1 else 0) = Some b /\
       nth_error lines k = Some (b_lower b) /\ nth_error lines (2 * q - k) = Some (b_upper b)) /\
    (drawn = true -> exists pr plines b, pred = Some pr /\ nth_error (nth ii pr []) jj = Some plines /\ nth_error (n_bands p) 0 = Some b /\
       nth_error plines 0 = Some (b_lower b) /\ nth_error plines (List.length plines - 1) = Some (b_upper b)) /\
    NoDup (map (@b_label F) (n_bands p)) /\ NoDup (map (@b_colour F) (n_bands p)) /\
    (adddata = false -> n_data p = None) /\
    (adddata = true -> exists y col, nth_error (s_ydata d) 0 = Some y /\ column_in y jj col /\ n_data p = Some (x, col)) /\
    n_legend p = addlegend /\ n_of p = List.length (nth ii cred []) /\ n_at p = jj + 1.
End Spec.

(** ** Proofs *)
Lemma digit_before x : forall a s t c, Forall (fun d => d < 10) x -> Forall (fun d => d < 10) a -> nat_of_ascii c < 48 ->
  append (string_of (map digit_char x)) (String c s) = append (string_of (map digit_char a)) (String c t) -> x = a /\ s = t.
Proof.
  induction x as [|d x IH]; intros [|e a] s t c X A C H; cbn [map string_of fold_right append] in H.
  - injection H as H. auto.
  - injection H as H1 H2. inversion A; subst. rewrite digit_char_nat in C by assumption. lia.
  - injection H as H1 H2. inversion X; subst. rewrite digit_char_nat in C by assumption. lia.
  - injection H as H1 H2. inversion X; subst. inversion A; subst. apply digit_char_inj in H1; auto. subst.
    destruct (IH a s t c) as [-> ->]; auto.
Qed.
Lemma dec_before a b c s t : nat_of_ascii c < 48 -> append (dec a) (String c s) = append (dec b) (String c t) -> a = b /\ s = t.
Proof.
  intros C H. destruct (digits_spec a) as (A1 & A2 & _), (digits_spec b) as (B1 & B2 & _).
  destruct (digit_before (digits a) (digits b) s t c A2 B2 C H) as [E ->]. split; [|reflexivity]. rewrite <- A1, <- B1. now rewrite E.
Qed.
Lemma figure_inj a b c d : figure_name a b = figure_name c d -> (a, b) = (c, d).
Proof.
  unfold figure_name. intros H. apply append_inj_l in H. apply dec_before in H as [-> H]; [|cbn; lia].
  f_equal. injection H as H. now apply dec_inj.
Qed.

Lemma title_inj nb ny ny' a b c d t : batch_column_title nb ny a b = Some t -> batch_column_title nb ny' c d = Some t -> a < nb -> c < nb -> (a, b) = (c, d).
Proof.
  unfold batch_column_title. destruct (1 <? nb) eqn:N.
  - intros H1 H2 _ _. rewrite <- H2 in H1. injection H1 as H. apply dec_before in H as [-> H]; [|cbn; lia]. f_equal. injection H as H. now apply dec_inj.
  - apply Nat.ltb_ge in N. intros H1 H2 A C. assert (a = 0) by lia. assert (c = 0) by lia. subst a c. f_equal.
    destruct (1 <? ny); [|discriminate]. destruct (1 <? ny'); [|discriminate]. rewrite <- H2 in H1. injection H1 as H. now apply dec_inj.
Qed.

Lemma places_in {A} (cred : list (list A)) ii jj : In (ii, jj) (places cred) <-> ii < List.length cred /\ jj < List.length (nth ii cred []).
Proof.
  unfold places. rewrite in_concat. split.
  - intros (l & Hl & H). apply in_map_iff in Hl as (i & <- & Hi). apply in_map_iff in H as (j & E & Hj). inversion E; subst. apply in_seq in Hi, Hj. lia.
  - intros [Hi Hj]. eexists. split; [apply in_map_iff; exists ii; split; [reflexivity|apply in_seq; lia]|]. apply in_map_iff. exists jj. split; [reflexivity|apply in_seq; lia].
Qed.
Lemma nodup_blocks {A} (f : nat -> list A) (g : A -> nat) l : NoDup l -> (forall i a, In a (f i) -> g a = i) -> (forall i, NoDup (f i)) -> NoDup (List.concat (map f l)).
Proof.
  intros N G D. induction N as [|i l Hi _ IH]; cbn [map List.concat]; [constructor|].
  assert (X : forall a, In a (f i) -> ~ In a (List.concat (map f l))).
  { intros a Ha H. apply in_concat in H as (m & Hm & H). apply in_map_iff in Hm as (j & <- & Hj). apply G in Ha. apply G in H. congruence. }
  clear Hi. specialize (D i). revert X. induction (f i) as [|a t IHt]; intros X; cbn; [exact IH|]. inversion D; subst. constructor.
  - rewrite in_app_iff. intros [H|H]; [contradiction|]. apply (X a); [now left|exact H].
  - apply IHt; [assumption|]. intros b Hb. apply X. now right.
Qed.
Lemma places_nodup {A} (cred : list (list A)) : NoDup (places cred).
Proof.
  unfold places. apply (nodup_blocks _ fst); [apply seq_NoDup| |].
  - intros i [a b] H. apply in_map_iff in H as (j & E & _). now inversion E.
  - intros i. generalize (seq_NoDup (List.length (nth i cred [])) 0). intros N. induction N as [|j l Hj _ IH]; cbn; constructor; [|exact IH].
    intros H. apply in_map_iff in H as (k & E & Hk). inversion E; subst. contradiction.
Qed.
Lemma nodup_map {A B} (f : A -> B) l : NoDup l -> (forall a b, In a l -> In b l -> f a = f b -> a = b) -> NoDup (map f l).
Proof.
  induction 1 as [|a l Ha _ IH]; intros J; cbn [map]; constructor.
  - intros H. apply in_map_iff in H as (b & E & Hb). apply J in E; [congruence|now right|now left].
  - apply IH. intros x y Hx Hy. apply J; now right.
Qed.
Lemma Forall2_concat {A B} (P : A -> B -> Prop) l : forall r, Forall2 (Forall2 P) l r -> Forall2 P (List.concat l) (List.concat r).
Proof. induction l; intros r H; inversion H; subst; cbn; [constructor|]. apply Forall2_app; auto. Qed.
Lemma Forall2_map_eq {A B C} (P : A -> B -> Prop) (f : A -> C) (g : B -> C) l r : Forall2 P l r -> (forall a b, P a b -> g b = f a) -> map g r = map f l.
Proof. intros H K. induction H; cbn; [reflexivity|]. f_equal; auto. Qed.

Lemma from_end_at {A} k (l : list A) x : k < List.length l -> nth_error l (List.length l - 1 - k) = Some x -> from_end k l = Ok x.
Proof.
  intros L H. unfold from_end. rewrite (nth_error_nth' (rev l) x) by (rewrite rev_length; lia). rewrite rev_nth by lia.
  rewrite (nth_error_nth l (List.length l - S k) x (x := x)); [reflexivity|]. rewrite <- H. f_equal. lia.
Qed.
Lemma nth_some {A} (l : list A) i : i < List.length l -> exists x, nth_error l i = Some x.
Proof. intros H. destruct (nth_error l i) eqn:E; [eauto|]. apply nth_error_None in E. lia. Qed.
Lemma nth_of_error {A} (l : list A) i d x : nth_error l i = Some x -> nth i l d = x.
Proof. intros H. now apply nth_error_nth. Qed.
Lemma Forall2_at {A B} (P : A -> B -> Prop) l r : Forall2 P l r -> forall i x, nth_error l i = Some x -> exists y, nth_error r i = Some y /\ P x y.
Proof. induction 1; intros [|i] x0 E; try discriminate; cbn in *; [inversion E; subst; eauto|eauto]. Qed.
Lemma Forall2_map_some {A B C} (f : A -> option C) (g : B -> C) l r : Forall2 (fun a b => f a = Some (g b)) l r -> map Some (map g r) = map f l.
Proof. induction 1; cbn; [reflexivity|]. now f_equal. Qed.
Lemma firstn_seq_some {A} q (l : list A) : q <= List.length l -> map (nth_error l) (seq 0 q) = map Some (firstn q l).
Proof.
  revert q. induction l as [|a l IH]; intros [|q] H; cbn in *; try lia; try reflexivity. f_equal. rewrite <- seq_shift, map_map. cbn. apply IH. lia.
Qed.
Lemma map_some_inj {A} (l : list A) : forall r, map Some l = map Some r -> l = r.
Proof. induction l as [|a l IH]; intros [|b r] H; cbn in H; try discriminate; [reflexivity|]. injection H as -> H. f_equal. auto. Qed.
Lemma F2_len {A B} (P : A -> B -> Prop) l r : Forall2 P l r -> List.length l = List.length r.
Proof. induction 1; cbn; auto. Qed.

Section Proofs.
Context {F U : Type}.

Lemma credible_bands (lines : list (list F)) q labels colours (f : nat -> res (band F)) :
  List.length lines = 2 * q + 1 -> q <= List.length labels -> q <= List.length colours ->
  (forall kk, f kk = let* lo := of_option IndexError (nth_error lines kk) in let* hi := from_end kk lines in
      let* c := of_option IndexError (nth_error colours kk) in let* l := of_option IndexError (nth_error labels kk) in Ok (mkband l c lo hi)) ->
  exists bands, mapM f (seq 0 q) = Ok bands /\
    List.length bands = q /\ map (@b_label F) bands = firstn q labels /\ map (@b_colour F) bands = firstn q colours /\
    forall k, k < q -> exists b, nth_error bands k = Some b /\ nth_error lines k = Some (b_lower b) /\ nth_error lines (2 * q - k) = Some (b_upper b).
Proof.
  intros L LL LC Hf.
  set (P := fun k (b : band F) => (nth_error lines k = Some (b_lower b) /\ nth_error lines (2 * q - k) = Some (b_upper b)) /\ nth_error labels k = Some (b_label b) /\ nth_error colours k = Some (b_colour b)).
  destruct (mapM_rel f P (seq 0 q)) as (bands & E & R).
  { intros k Hk. apply in_seq in Hk. destruct (nth_some lines k ltac:(lia)) as [lo Hlo]. destruct (nth_some lines (2 * q - k) ltac:(lia)) as [hi Hhi].
    destruct (nth_some labels k ltac:(lia)) as [l Hl]. destruct (nth_some colours k ltac:(lia)) as [c Hc].
    exists (mkband l c lo hi). split; [|repeat split; assumption]. rewrite Hf, Hlo. cbn [of_option bind]. rewrite (from_end_at k lines hi); [|lia|rewrite <- Hhi; f_equal; lia].
    cbn [bind]. rewrite Hc, Hl. reflexivity. }
  exists bands. split; [exact E|]. split; [rewrite <- (F2_len _ _ _ R); apply seq_length|].
  split; [|split].
  - apply map_some_inj. rewrite <- firstn_seq_some by exact LL. apply Forall2_map_some. clear -R. induction R; constructor; [apply H|assumption].
  - apply map_some_inj. rewrite <- firstn_seq_some by exact LC. apply Forall2_map_some. clear -R. induction R; constructor; [apply H|assumption].
  - intros k Hk. destruct (Forall2_at _ _ _ R k k) as (b & Hb & Pb & _); [|eauto].
    rewrite (nth_error_nth' _ 0) by (rewrite seq_length; lia). now rewrite seq_nth by lia.
Qed.

Variables (datapred : list (dstruct F U)) (cred : list (list (list (list F)))) (pred : option (list (list (list (list F))))).
Variables (drawn : bool) (q : nat) (adddata addlegend : bool).
Hypothesis H : plottable datapred cred pred drawn q adddata.

Let cl := clabels drawn q.
Let cols := setup_interval_colors drawn.

Lemma labels_ok : q <= List.length cl /\ NoDup ((if drawn then ["95% PI"%string] else []) ++ firstn q cl).
Proof.
  pose proof (pl_bands _ _ _ _ _ _ H) as B. unfold cl, clabels. destruct drawn.
  - destruct q as [|[|?]]; [| |lia]; cbn; split; try lia; repeat constructor; cbn; intuition discriminate.
  - destruct q as [|[|[|[|[|?]]]]]; try lia; cbn; split; try lia; repeat constructor; cbn; intuition discriminate.
Qed.
Lemma colours_ok : q <= List.length (fst cols) /\ NoDup ((if drawn then ["#225ea8"%string] else []) ++ firstn q (fst cols)).
Proof.
  pose proof (pl_bands _ _ _ _ _ _ H) as B. unfold cols, setup_interval_colors. destruct drawn.
  - destruct q as [|[|?]]; [| |lia]; cbn; split; try lia; repeat constructor; cbn; intuition discriminate.
  - destruct q as [|[|[|[|[|?]]]]]; try lia; cbn; split; try lia; repeat constructor; cbn; intuition discriminate.
Qed.

(** What is shown, with the names and titles of the model. *)
Definition panel_at (place : nat * nat) (p : ipanel F) : Prop :=
  shows datapred cred pred drawn q adddata addlegend place p /\ n_figure p = figure_name (fst place) (snd place) /\
  n_title p = batch_column_title (List.length cred) (List.length (nth (fst place) cred [])) (fst place) (snd place).

Lemma panel_shown ii jj col d x : nth_error cred ii = Some col -> nth_error datapred ii = Some d -> nth_error (s_xdata d) 0 = Some x -> jj < List.length col ->
  exists p, interval_panel col (if drawn then pred else None) d (List.length cred) (q + 1) cl ["95% PI"%string] (fst cols) (snd cols) adddata addlegend (nd_entries x) ii jj = Ok p /\
    panel_at (ii, jj) p.
Proof.
  intros Hc Hd Hx Hj. destruct (nth_some col jj Hj) as [lines Hl]. pose proof (pl_lines _ _ _ _ _ _ H _ _ _ _ Hc Hl) as LL.
  destruct labels_ok as [LB LN], colours_ok as [CB CN].
  destruct (credible_bands lines q cl (fst cols)
    (fun kk => let* lines := of_option IndexError (nth_error col jj) in
                               let* lo := of_option IndexError (nth_error lines kk) in
                               let* hi := from_end kk lines in
                               let* c := of_option IndexError (nth_error (fst cols) kk) in
                               let* l := of_option IndexError (nth_error cl kk) in
                               Ok (mkband l c lo hi)) LL LB CB) as (bands & EB & BL & BN & BC & BB).
  { intros kk. rewrite Hl. reflexivity. }
  destruct (nth_some lines q ltac:(lia)) as [model Hm].
  assert (D : exists data, (if adddata then
                  let* x := of_option IndexError (nth_error (s_xdata d) 0) in
                  let* y := of_option IndexError (nth_error (s_ydata d) 0) in
                  let* col := column_of y jj in Ok (Some (x, col))
                else Ok None) = Ok data /\ (adddata = false -> data = None) /\
      (adddata = true -> exists y col, nth_error (s_ydata d) 0 = Some y /\ column_in y jj col /\ data = Some (x, col))).
  { destruct adddata eqn:A; [|exists None; repeat split; discriminate || reflexivity].
    destruct (pl_data _ _ _ _ _ _ H eq_refl _ _ _ Hd Hc) as (y & n & k & Hy & Sy & Ly & Ky).
    assert (Cy : exists c, column_of y jj = Ok c /\ column_in y jj c).
    { unfold column_of. rewrite Sy. rewrite (proj2 (Nat.ltb_lt jj k)) by lia.
      destruct (mapM_rel (fun i => of_option IndexError (nth_error (nd_entries y) (i * k + jj))) (fun i v => nth_error (nd_entries y) (i * k + jj) = Some v) (seq 0 n)) as (c & E & R).
      { intros i Hi. apply in_seq in Hi. destruct (nth_some (nd_entries y) (i * k + jj)) as [v Hv]; [rewrite Ly; clear - Hi Ky Hj; nia|].
        exists v. rewrite Hv. auto. }
      exists c. split; [exact E|]. exists n, k. split; [exact Sy|]. split; [lia|]. split; [rewrite <- (F2_len _ _ _ R); apply seq_length|].
      intros i Hi. destruct (Forall2_at _ _ _ R i i) as (v & Hv & Pv); [rewrite (nth_error_nth' _ 0) by (rewrite seq_length; lia); now rewrite seq_nth by lia|].
      now rewrite Hv, Pv. }
    destruct Cy as (c & Ec & Ic). exists (Some (x, c)). rewrite Hx, Hy. cbn [of_option bind]. rewrite Ec. split; [reflexivity|]. split; [discriminate|]. intros _. eauto. }
  destruct D as (data & ED & D0 & D1).
  assert (Pr : exists first, (match (if drawn then pred else None) with
                 | None => Ok []
                 | Some p => let* col := of_option IndexError (nth_error p ii) in
                             let* lines := of_option IndexError (nth_error col jj) in
                             let* lo := of_option IndexError (nth_error lines 0) in
                             let* hi := from_end 0 lines in
                             let* c := of_option IndexError (nth_error (snd cols) 0) in
                             let* l := of_option IndexError (nth_error ["95% PI"%string] 0) in
                             Ok [mkband l c lo hi]
                 end) = Ok first /\ List.length first = (if drawn then 1 else 0) /\ map (@b_label F) first = (if drawn then ["95% PI"%string] else []) /\
      map (@b_colour F) first = (if drawn then ["#225ea8"%string] else []) /\
      (drawn = true -> exists pr plines b, pred = Some pr /\ nth_error (nth ii pr []) jj = Some plines /\ nth_error first 0 = Some b /\
       nth_error plines 0 = Some (b_lower b) /\ nth_error plines (List.length plines - 1) = Some (b_upper b))).
  { unfold cols. destruct drawn eqn:DR; [|exists []; repeat split; discriminate].
    destruct (pl_pred _ _ _ _ _ _ H eq_refl) as (pr & EP & _ & PP). destruct (PP _ _ Hc) as (pcol & P1 & P2 & P3).
    destruct (nth_some pcol jj ltac:(lia)) as [plines Hp]. assert (NE : plines <> []) by (rewrite Forall_forall in P3; apply P3; eapply nth_error_In; eauto).
    assert (PL : 0 < List.length plines) by (destruct plines; cbn; [congruence|lia]).
    destruct (nth_some plines 0 PL) as [lo Hlo]. destruct (nth_some plines (List.length plines - 1) ltac:(lia)) as [hi Hhi].
    exists [mkband "95% PI" "#225ea8" lo hi]. rewrite EP, P1. cbn [of_option bind]. rewrite Hp. cbn [of_option bind]. rewrite Hlo. cbn [of_option bind].
    rewrite (from_end_at 0 plines hi); [|exact PL|rewrite <- Hhi; f_equal; lia]. split; [reflexivity|]. repeat split. intros _. exists pr, plines. eexists. split; [reflexivity|].
    rewrite (nth_of_error _ _ [] _ P1). repeat split; eauto. }
  destruct Pr as (first & EF & F1 & F2 & F3 & F4).
  eexists. split.
  - unfold interval_panel. rewrite EF. cbn [bind]. replace (q + 1 - 1) with q by lia. unfold range. rewrite EB. cbn [bind]. rewrite Hl. cbn [of_option bind].
    rewrite (proj2 (Nat.eqb_neq (q + 1) 0)) by lia. rewrite Hm. cbn [of_option bind]. rewrite ED. cbn [bind]. reflexivity.
  - unfold panel_at, shows. cbn [n_figure n_title n_time n_model n_bands n_data n_legend n_of n_at fst snd]. rewrite (nth_of_error _ _ [] _ Hc).
    split; [|split; reflexivity]. exists d, x, lines. split; [exact Hd|]. split; [exact Hx|]. split; [exact Hl|]. split; [reflexivity|]. split; [exact Hm|].
    split; [rewrite app_length; lia|]. split; [|split; [|split; [|split; [|split; [exact D0|split; [exact D1|repeat split]]]]]].
    + intros k Hk. destruct (BB k Hk) as (b & B1 & B2). exists b. split; [|exact B2]. rewrite nth_error_app2 by lia. rewrite <- B1. f_equal. lia.
    + intros DT. destruct (F4 DT) as (pr & plines & b & X1 & X2 & X3 & X4). exists pr, plines, b. split; [exact X1|]. split; [exact X2|]. split; [|exact X4].
      rewrite nth_error_app1; [exact X3|]. rewrite F1, DT. lia.
    + rewrite map_app, F2, BN. exact LN.
    + rewrite map_app, F3, BC. exact CN.
Qed.

Lemma panels_shown flag : drawn = true <-> pred <> None /\ ~ switched_off flag ->
  exists panels, plot_prediction_intervals datapred cred pred flag adddata addlegend = Ok panels /\ Forall2 panel_at (places cred) panels.
Proof.
  intros HD.
  assert (EC : check_prediction_interval_flag flag pred = if drawn then pred else None).
  { unfold check_prediction_interval_flag, switched_off in *. destruct flag as [[]|s|z]; cbn [convert_flag_to_boolean].
    - destruct drawn; [reflexivity|]. destruct pred; [|reflexivity]. exfalso. enough (false = true) by discriminate. apply HD. split; [discriminate|]. intros [?|?]; discriminate.
    - destruct drawn; [|reflexivity]. exfalso. destruct HD as [HD _]. destruct (HD eq_refl) as [_ N]. apply N. now left.
    - destruct (String.eqb s "on") eqn:E1; [|destruct (String.eqb s "off") eqn:E2].
      + apply String.eqb_eq in E1. subst. destruct drawn; [reflexivity|]. destruct pred; [|reflexivity]. exfalso. enough (false = true) by discriminate. apply HD. split; [discriminate|]. intros [?|?]; discriminate.
      + apply String.eqb_eq in E2. subst. destruct drawn; [|reflexivity]. exfalso. destruct HD as [HD _]. destruct (HD eq_refl) as [_ N]. apply N. now right.
      + apply String.eqb_neq in E2. destruct drawn; [reflexivity|]. destruct pred; [|reflexivity]. exfalso. enough (false = true) by discriminate. apply HD. split; [discriminate|]. intros [X|X]; [discriminate|]. injection X. auto.
    - destruct drawn; [reflexivity|]. destruct pred; [|reflexivity]. exfalso. enough (false = true) by discriminate. apply HD. split; [discriminate|]. intros [?|?]; discriminate. }
  assert (HV : match (if drawn then pred else None) with None => false | Some _ => true end = drawn).
  { destruct drawn eqn:D; [|reflexivity]. destruct (pl_pred _ _ _ _ _ _ H eq_refl) as (p & -> & _). reflexivity. }
  unfold plot_prediction_intervals. cbv zeta. rewrite EC, HV.
  assert (EM : setup_counting_metrics cred = Ok (List.length cred, q + 1, q)).
  { destruct (pl_first _ _ _ _ _ _ H) as (l & r & t & E). pose proof (pl_lines _ _ _ _ _ _ H 0 0 (l :: r) l) as L. unfold setup_counting_metrics. rewrite E in *. cbn [nth_error of_option bind].
    rewrite (L eq_refl eq_refl). replace ((2 * q + 1 + 1) / 2) with (q + 1); [now replace (q + 1 - 1) with q by lia|]. symmetry. replace (2 * q + 1 + 1) with ((q + 1) * 2) by lia. apply Nat.div_mul. lia. }
  rewrite EM. cbn [bind]. fold cl. fold cols. rewrite (surjective_pairing cols).
  match goal with |- context [mapM ?g (range _)] => set (f := g) end.
  destruct (mapM_rel f (fun ii ps => Forall2 panel_at (map (pair ii) (seq 0 (List.length (nth ii cred [])))) ps) (range (List.length datapred))) as (sets & ES & RS).
  { intros ii Hi. apply in_seq in Hi. destruct (nth_some datapred ii ltac:(lia)) as [d Hd]. destruct (nth_some cred ii) as [col Hc]; [rewrite (pl_sets _ _ _ _ _ _ H); lia|].
    destruct (pl_time _ _ _ _ _ _ H _ _ Hd) as (x & n & Hx & Sx).
    destruct (mapM_rel (interval_panel col (if drawn then pred else None) d (List.length cred) (q + 1) cl ["95% PI"%string] (fst cols) (snd cols) adddata addlegend (nd_entries x) ii)
       (fun jj p => panel_at (ii, jj) p) (range (List.length col))) as (ps & EP & RP).
    { intros jj Hj. apply in_seq in Hj. apply panel_shown; auto. lia. }
    exists ps. split.
    - unfold f. rewrite Hc. cbn [of_option bind]. rewrite Hd. cbn [of_option bind]. rewrite Hx. cbn [of_option bind].
      unfold flat_time. rewrite Sx. cbn [nth_error of_option bind size_of fold_right]. replace (n * (1 * 1) =? n) with true; [exact EP|]. symmetry. apply Nat.eqb_eq. lia.
    - rewrite (nth_of_error _ _ [] _ Hc). unfold range in RP. clear - RP. induction RP; cbn; constructor; auto. }
  rewrite ES. cbn [bind]. eexists. split; [reflexivity|]. unfold places. apply Forall2_concat. rewrite (pl_sets _ _ _ _ _ _ H). unfold range in RS. clear - RS. induction RS; cbn; constructor; auto.
Qed.
End Proofs.

(** Beside the theorem: every column of every data set gets a figure of its own, which shows what belongs to it; where there is
    more than one panel all have titles that tell them apart. *)
Theorem C91_interval_plots {F U : Type} (datapred : list (dstruct F U)) cred pred flag adddata addlegend drawn q :
  plottable datapred cred pred drawn q adddata -> (drawn = true <-> pred <> None /\ ~ switched_off flag) ->
  exists panels, plot_prediction_intervals datapred cred pred flag adddata addlegend = Ok panels /\
    Forall2 (shows datapred cred pred drawn q adddata addlegend) (places cred) panels /\
    NoDup (map (@n_figure F) panels) /\
    (1 < List.length panels -> Forall (fun p => n_title p <> None) panels /\ NoDup (map (@n_title F) panels)).
Proof.
  intros H HD. destruct (panels_shown datapred cred pred drawn q adddata addlegend H flag HD) as (panels & E & R).
  exists panels. split; [exact E|]. split; [|split].
  - clear - R. induction R as [|a b l r [S _] _ IH]; constructor; assumption.
  - rewrite (Forall2_map_eq _ (fun pl => figure_name (fst pl) (snd pl)) (@n_figure F) _ _ R) by (intros a b (_ & X & _); exact X).
    apply nodup_map; [apply places_nodup|]. intros [a b] [c d] _ _ X. now apply figure_inj.
  - intros M. rewrite (Forall2_map_eq _ (fun pl => batch_column_title (List.length cred) (List.length (nth (fst pl) cred [])) (fst pl) (snd pl)) (@n_title F) _ _ R) by (intros a b (_ & _ & X); exact X).
    assert (T : forall ii jj, In (ii, jj) (places cred) -> exists t, batch_column_title (List.length cred) (List.length (nth ii cred [])) ii jj = Some t).
    { intros ii jj I1. apply places_in in I1 as [Hi Hj]. unfold batch_column_title. destruct (1 <? List.length cred) eqn:N; [eauto|]. apply Nat.ltb_ge in N.
      assert (ii = 0) by lia. subst ii. rewrite <- (F2_len _ _ _ R) in M. unfold places in M. replace (List.length cred) with 1 in M by lia. cbn [seq map List.concat] in M.
      rewrite app_nil_r, map_length, seq_length in M. rewrite (proj2 (Nat.ltb_lt 1 _)) by exact M. eauto. }
    split.
    + assert (G : forall l r, Forall2 (panel_at datapred cred pred drawn q adddata addlegend) l r -> incl l (places cred) -> Forall (fun p => n_title p <> None) r).
      { induction 1 as [|[ii jj] b l r (_ & _ & X) _ IH]; intros I1; constructor; [|apply IH; intros z Hz; apply I1; now right].
        rewrite X. cbn [fst snd]. destruct (T ii jj (I1 _ (or_introl eq_refl))) as [t ->]. discriminate. }
      apply (G _ _ R). apply incl_refl.
    + apply nodup_map; [apply places_nodup|]. intros [a b] [c d] I1 I2 X. cbn [fst snd] in X. destruct (T _ _ I1) as [t Ht]. rewrite Ht in X. symmetry in X.
      apply places_in in I1 as [L1 _], I2 as [L2 _]. exact (title_inj _ _ _ _ _ _ _ _ Ht X L1 L2).
Qed.
Print Assumptions C91_interval_plots.

(** The finding: flags may be integers (plotting/utilities.py 306-307), but a zero, unlike False and 'off', does not leave the
    prediction intervals out. *)
Theorem C91_zero_is_not_off {F U : Type} (datapred : list (dstruct F U)) cred pr adddata addlegend q :
  plottable datapred cred (Some pr) true q adddata ->
  exists panels, plot_prediction_intervals datapred cred (Some pr) (FlagInt 0) adddata addlegend = Ok panels /\ panels <> [] /\
    Forall2 (shows datapred cred (Some pr) true q adddata addlegend) (places cred) panels.
Proof.
  intros H. destruct (C91_interval_plots datapred cred (Some pr) (FlagInt 0) adddata addlegend true q H) as (panels & E & R & _).
  { split; [|reflexivity]. intros _. split; [discriminate|]. intros [X|X]; discriminate. }
  exists panels. split; [exact E|]. split; [|exact R]. intros ->. inversion R as [N|]. destruct (pl_first _ _ _ _ _ _ H) as (l & r & t & C).
  assert (I1 : In (0, 0) (places cred)) by (apply places_in; rewrite C; cbn; lia). rewrite <- N in I1. contradiction.
Qed.
Print Assumptions C91_zero_is_not_off.

(** Two data sets, the second with two columns; three curves for each column. *)
Definition demo_struct (y : nda nat) : dstruct nat unit := mkdstruct [mknda [2; 1] [0; 1]] [y] [2] [nd_shape y] [1] [tt].
(** The data sets. *)
Definition demo_pred : list (dstruct nat unit) := [demo_struct (mknda [2; 1] [5; 6]); demo_struct (mknda [2; 2] [10; 20; 30; 40])].
(** Curves of the model. *)
Definition demo_cred : list (list (list (list nat))) := [[[[1; 2]; [3; 4]; [5; 6]]]; [[[7; 8]; [9; 10]; [11; 12]]; [[13; 14]; [15; 16]; [17; 18]]]].
(** Curves of the observations. *)
Definition demo_obs : list (list (list (list nat))) := [[[[0; 1]; [8; 9]]]; [[[6; 7]; [13; 14]]; [[12; 13]; [20; 21]]]].
Example C91_case : plottable demo_pred demo_cred (Some demo_obs) true 1 true /\
  rmap (map (fun p => (n_figure p, n_title p, map (@b_upper nat) (n_bands p), n_model p, n_data p)))
    (plot_prediction_intervals demo_pred demo_cred (Some demo_obs) (FlagText "on") true true) =
  Ok [("Batch # 0 | Column # 0", Some "Batch #0, Column #0", [[8; 9]; [5; 6]], [3; 4], Some (mknda [2; 1] [0; 1], [5; 6]));
      ("Batch # 1 | Column # 0", Some "Batch #1, Column #0", [[13; 14]; [11; 12]], [9; 10], Some (mknda [2; 1] [0; 1], [10; 30]));
      ("Batch # 1 | Column # 1", Some "Batch #1, Column #1", [[20; 21]; [17; 18]], [15; 16], Some (mknda [2; 1] [0; 1], [20; 40]))]%string.
Proof.
  split; [|reflexivity]. constructor.
  - reflexivity.
  - repeat eexists.
  - intros [|[|[|ii]]] [|[|[|jj]]] col lines H1 H2; cbn in H1; inversion H1; subst; cbn in H2; inversion H2; reflexivity.
  - lia.
  - intros _. eexists. split; [reflexivity|]. split; [reflexivity|].
    intros [|[|[|ii]]] col H; cbn in H; inversion H; subst; eexists; (split; [reflexivity|]); (split; [reflexivity|]); repeat constructor; discriminate.
  - intros [|[|[|ii]]] d H; cbn in H; inversion H; subst; eexists _, 2; split; reflexivity.
  - intros _ [|[|[|ii]]] d col H K; cbn in H, K; inversion H; subst; inversion K; subst; eexists _, _, _; repeat split; cbn; lia.
Qed.
