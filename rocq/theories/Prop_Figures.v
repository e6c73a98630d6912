(** C94: the figures of propagated intervals, in two and three dimensions. *)

From Coq Require Import ZArith QArith Bool Lia List String Reals Lra Arith Qreals Sorted Permutation.
From Verif Require Import Base Num ChainFiles Results PlotUtil Propagation Colours RVec QuantSpec QuantFacts BandFacts ColourFacts
  IntervalFigures FigureSpec FigureFacts.
Import ListNotations.
Close Scope Q_scope.
Close Scope R_scope.
Open Scope list_scope.
Open Scope nat_scope.

(** The list of limits that a set of interval settings ends up with. *)
Definition limits_of (deflt : nat) (s : iset) : nat := match is_limits s with Some r => r | None => deflt end.
(** The colour map of a set of interval settings. *)
Definition cmap_of (deflt : string) (s : iset) : string := match is_cmap s with Some m => m | None => deflt end.

(** In two dimensions.  [cred] and [pred] are the responses to the parameters of a chain, one row for each of its points, and
    [ncol] is the number of times.  The figure consists of the prediction bands, the credible bands, the median of the responses
    and the data, in this order, each if its flag is True (for the data, also if it is None); the data are drawn against [xdata]
    if that is given.  Bands and curves are drawn with the user's display settings, and the defaults for what is not set.  The
    settings of the bands are returned if asked for. *)
Theorem C94_figure_partial : forall fmt objs ncol cred pred time ydata xdata (a : pargs XR) ei em ed,
  let ci := limits_of (a_limits a) (a_ciset a) in
  let pi := limits_of (a_limits a) (a_piset a) in
  let xs := match xdata with Some x => x | None => time end in
  objs ci <> [] -> objs pi <> [] -> Forall percentage (objs ci) -> Forall percentage (objs pi) ->
  2 <= List.length cred -> (a_addprediction a = IsTrue -> exists p, pred = Some p /\ 2 <= List.length p) ->
  List.length time = ncol -> (forall y, ydata = Some y -> List.length y = List.length xs) ->
  display (a_interval_display a) ei -> display (a_model_display a) em -> display (a_data_display a) ed ->
  ~ In "facecolor"%string (map fst ei) -> ~ In "label"%string (map fst ei) ->
  exists fig objs' pis cis mdl dat si sm sd,
    plot_intervals fmt objs ncol (mkinterval (finm cred) (option_map finm pred)) time ydata xdata a = Ok (fig, objs') /\
    afterwards objs objs' ci pi /\ styled interval_style ei si /\ styled model_style em sm /\ styled data_style ed sd /\
    g_drawn fig = pis ++ cis ++ mdl ++ dat /\
    if_true (a_addprediction a) (fun ds => exists p, pred = Some p /\
      bands_shown (as_fill time si) fmt "PI" (objs' pi) (cmap_of "winter" (a_piset a)) (is_colors (a_piset a)) ncol p ds) pis /\
    if_true (a_addcredible a)
      (bands_shown (as_fill time si) fmt "CI" (objs' ci) (cmap_of "autumn" (a_ciset a)) (is_colors (a_ciset a)) ncol cred) cis /\
    if_true (a_addmodel a) (fun ds => exists m, ds = [Line time (fin m) sm] /\ median_shown (as_fill time si) ncol cred cis m) mdl /\
    (dat = match ydata, a_adddata a with Some y, (IsTrue | IsNone) => [Line xs y sd] | _, _ => [] end) /\
    (g_legend fig = true <-> a_addlegend a = IsTrue) /\
    (match g_settings fig with
     | Some (pb, cb) => a_return_settings a = IsTrue /\
         bands_are fmt "PI" (objs' pi) (cmap_of "winter" (a_piset a)) (is_colors (a_piset a)) pb /\
         bands_are fmt "CI" (objs' ci) (cmap_of "autumn" (a_ciset a)) (is_colors (a_ciset a)) cb
     | None => a_return_settings a <> IsTrue
     end).
Proof.
  intros fmt objs ncol cred pred time ydata xdata a ei em ed ci pi xs Nc Np Pc Pp Lc Lp LT LY Di Dm Dd K1 K2.
  destruct (styles_ok _ _ _ _ _ _ Di Dm Dd) as (si & sm & sd & ES & Si & Sm & Sd).
  destruct (settings_spec fmt objs (a_limits a) (a_ciset a) (a_piset a) Nc Np) as (pb & cb & objs' & EB & AF & BC & BP).
  change (match is_limits (a_ciset a) with Some r => r | None => a_limits a end) with ci in *.
  change (match is_limits (a_piset a) with Some r => r | None => a_limits a end) with pi in *.
  destruct (percentages _ _ _ _ ci AF (or_introl eq_refl) Pc) as [Pc' Sc]. destruct (percentages _ _ _ _ pi AF (or_intror eq_refl) Pp) as [Pp' Sp].
  assert (KF : existsb (String.eqb "facecolor") (map fst si) = false).
  { rewrite (style_keys _ _ _ "facecolor"%string Si) by (cbn; intros H; repeat (destruct H as [H|H]; [discriminate|]); exact H).
    apply not_true_is_false. intros H. apply existsb_exists in H as (k & I & E). apply String.eqb_eq in E. subst k. contradiction. }
  assert (KL : existsb (String.eqb "label") (map fst si) = false).
  { rewrite (style_keys _ _ _ "label"%string Si) by (cbn; intros H; repeat (destruct H as [H|H]; [discriminate|]); exact H).
    apply not_true_is_false. intros H. apply existsb_exists in H as (k & I & E). apply String.eqb_eq in E. subst k. contradiction. }
  assert (HL : forall m, List.length m = ncol -> plot time (fin m) sm = Ok (Line time (fin m) sm)).
  { intros m Lm. unfold plot. unfold fin. rewrite map_length, LT, Lm, Nat.eqb_refl. reflexivity. }
  destruct (bands_and_model (as_fill time si)
     (fun x b => let* (lo, hi) := curves_of ncol x b in fill_between time lo hi (b_colour b) (b_label b) si) ncol cred pred
     fmt (objs' ci) (objs' pi) (setup_default_cmap (is_cmap (a_ciset a)) true) (setup_default_cmap (is_cmap (a_piset a)) false)
     (is_colors (a_ciset a)) (is_colors (a_piset a)) cb pb (fun m => plot time m sm) (fun m => Line time (fin m) sm) a Lc Lp
     (fun x => as_fill_ok ncol x time si LT KF KL) HL BC BP Pc' Sc Pp' Sp)
    as (pis & cis & mdl & E1 & E2 & E3 & H1 & H2 & H3).
  assert (ED : exists dat, (match ydata with
               | Some y => if data_flag ydata (a_adddata a) then let* l := plot xs y sd in Ok [l] else Ok []
               | None => Ok [] end) = Ok dat /\
     dat = match ydata, a_adddata a with Some y, (IsTrue | IsNone) => [Line xs y sd] | _, _ => [] end).
  { destruct ydata as [y|]; [|eauto]. unfold data_flag, plot. rewrite (LY y eq_refl), Nat.eqb_refl. destruct (a_adddata a); cbn; eauto. }
  destruct ED as (dat & E4 & H4).
  exists (mkfigure (pis ++ cis ++ mdl ++ dat) (is_true (a_addlegend a)) (if is_true (a_return_settings a) then Some (pb, cb) else None)), objs',
    pis, cis, mdl, dat, si, sm, sd.
  split.
  { unfold plot_intervals. rewrite ES. cbn [bind]. rewrite EB. cbn [bind prediction credible]. unfold fills. fold xs.
    rewrite E1. cbn [bind]. rewrite E2. cbn [bind]. rewrite E3. cbn [bind]. rewrite E4. reflexivity. }
  repeat (split; [assumption||reflexivity|]). split; [cbn [g_legend]; destruct (a_addlegend a); split; auto; discriminate|].
  cbn [g_settings]. destruct (a_return_settings a); cbn [is_true]; [split; [reflexivity|split; [exact BP|exact BC]]|discriminate|discriminate].
Qed.
Print Assumptions C94_figure_partial.

(** In three dimensions, over the points [time] of a plane.  Missing: data at points of their own, unless these are as many as
    the times; display settings of the intervals. *)
Theorem C94_figure_3d_partial : forall fmt objs ncol cred pred (time : list (XR * XR)) ydata xdata (a : pargs XR) ei em ed,
  let ci := limits_of (a_limits a) (a_ciset a) in
  let pi := limits_of (a_limits a) (a_piset a) in
  let xs := match xdata with Some x => x | None => time end in
  objs ci <> [] -> objs pi <> [] -> Forall percentage (objs ci) -> Forall percentage (objs pi) ->
  2 <= List.length cred -> (a_addprediction a = IsTrue -> exists p, pred = Some p /\ 2 <= List.length p) ->
  List.length time = ncol -> (forall y, ydata = Some y -> List.length y = ncol) -> List.length xs = ncol ->
  (a_adddata a = IsTrue -> ydata <> None) ->
  display (a_interval_display a) ei -> display (a_model_display a) em -> display (a_data_display a) ed ->
  exists fig objs' pis cis mdl dat sm sd,
    plot_3d_intervals fmt objs ncol (mkinterval (finm cred) (option_map finm pred)) time ydata xdata a = Ok (fig, objs') /\
    afterwards objs objs' ci pi /\ styled model_style em sm /\ styled data_style ed sd /\
    g_drawn fig = pis ++ cis ++ mdl ++ dat /\
    if_true (a_addprediction a) (fun ds => exists p, pred = Some p /\
      bands_shown (as_surface time) fmt "PI" (objs' pi) (cmap_of "winter" (a_piset a)) (is_colors (a_piset a)) ncol p ds) pis /\
    if_true (a_addcredible a)
      (bands_shown (as_surface time) fmt "CI" (objs' ci) (cmap_of "autumn" (a_ciset a)) (is_colors (a_ciset a)) ncol cred) cis /\
    if_true (a_addmodel a) (fun ds => exists m, ds = [Line3 (map fst time) (map snd time) (fin m) sm] /\
      median_shown (as_surface time) ncol cred cis m) mdl /\
    (dat = match ydata, a_adddata a with Some y, (IsTrue | IsNone) => [Line3 (map fst xs) (map snd xs) y sd] | _, _ => [] end) /\
    (g_legend fig = true <-> a_addlegend a = IsTrue) /\
    (match g_settings fig with
     | Some (pb, cb) => a_return_settings a = IsTrue /\
         bands_are fmt "PI" (objs' pi) (cmap_of "winter" (a_piset a)) (is_colors (a_piset a)) pb /\
         bands_are fmt "CI" (objs' ci) (cmap_of "autumn" (a_ciset a)) (is_colors (a_ciset a)) cb
     | None => a_return_settings a <> IsTrue
     end).
Proof.
  intros fmt objs ncol cred pred time ydata xdata a ei em ed ci pi xs Nc Np Pc Pp Lc Lp LT LY LX AD Di Dm Dd.
  destruct (styles_ok _ _ _ _ _ _ Di Dm Dd) as (si & sm & sd & ES & Si & Sm & Sd).
  destruct (settings_spec fmt objs (a_limits a) (a_ciset a) (a_piset a) Nc Np) as (pb & cb & objs' & EB & AF & BC & BP).
  change (match is_limits (a_ciset a) with Some r => r | None => a_limits a end) with ci in *.
  change (match is_limits (a_piset a) with Some r => r | None => a_limits a end) with pi in *.
  destruct (percentages _ _ _ _ ci AF (or_introl eq_refl) Pc) as [Pc' Sc]. destruct (percentages _ _ _ _ pi AF (or_intror eq_refl) Pp) as [Pp' Sp].
  assert (HL : forall m, List.length m = ncol -> plot3 (map fst time) (map snd time) (fin m) sm = Ok (Line3 (map fst time) (map snd time) (fin m) sm)).
  { intros m Lm. unfold plot3. unfold fin. rewrite !map_length, LT, Lm, Nat.eqb_refl. reflexivity. }
  destruct (bands_and_model (as_surface time)
     (fun x b => let* (lo, hi) := curves_of ncol x b in
                 let* corners := outline (map fst time) (map snd time) lo hi in Ok (Surface corners (b_colour b) (b_label b))) ncol cred pred
     fmt (objs' ci) (objs' pi) (setup_default_cmap (is_cmap (a_ciset a)) true) (setup_default_cmap (is_cmap (a_piset a)) false)
     (is_colors (a_ciset a)) (is_colors (a_piset a)) cb pb (fun m => plot3 (map fst time) (map snd time) m sm)
     (fun m => Line3 (map fst time) (map snd time) (fin m) sm) a Lc Lp (fun x => as_surface_ok ncol x time LT) HL BC BP Pc' Sc Pp' Sp)
    as (pis & cis & mdl & E1 & E2 & E3 & H1 & H2 & H3).
  assert (ED : exists dat, (if data_flag ydata (a_adddata a) then
                 let* y := of_option AttributeError ydata in
                 let* z := (if List.length y =? List.length (map fst time) then Ok y else Err ValueError) in
                 let* l := (match xdata with
                            | None => plot3 (map fst time) (map snd time) z sd
                            | Some x => plot3 (map fst x) (map snd x) z sd
                            end) in Ok [l]
               else Ok []) = Ok dat /\
     dat = match ydata, a_adddata a with Some y, (IsTrue | IsNone) => [Line3 (map fst xs) (map snd xs) y sd] | _, _ => [] end).
  { assert (X : forall y, ydata = Some y -> exists dat,
       (let* z := (if List.length y =? List.length (map fst time) then Ok y else Err ValueError) in
        let* l := (match xdata with
                   | None => plot3 (map fst time) (map snd time) z sd
                   | Some x => plot3 (map fst x) (map snd x) z sd end) in Ok [l]) = Ok dat /\ dat = [Line3 (map fst xs) (map snd xs) y sd]).
    { intros y Ey. pose proof (LY y Ey) as Ly. rewrite map_length, LT, Ly, Nat.eqb_refl. cbn [bind]. eexists. split; [|reflexivity].
      destruct xdata as [x|]; subst xs; unfold plot3; rewrite !map_length, Ly, ?LX, ?LT, Nat.eqb_refl; reflexivity. }
    destruct ydata as [y|].
    - destruct (X y eq_refl) as (dat & E & ->). unfold data_flag. cbn [of_option bind]. destruct (a_adddata a); cbn [is_true]; eauto.
    - unfold data_flag. destruct (a_adddata a); cbn [is_true]; eauto. now destruct AD. }
  destruct ED as (dat & E4 & H4).
  exists (mkfigure (pis ++ cis ++ mdl ++ dat) (is_true (a_addlegend a)) (if is_true (a_return_settings a) then Some (pb, cb) else None)), objs',
    pis, cis, mdl, dat, sm, sd.
  split.
  { unfold plot_3d_intervals. rewrite ES. cbn [bind]. rewrite EB. cbn [bind prediction credible]. unfold surfaces.
    rewrite E1. cbn [bind]. rewrite E2. cbn [bind]. rewrite E3. cbn [bind]. rewrite E4. reflexivity. }
  repeat (split; [assumption||reflexivity|]). split; [cbn [g_legend]; destruct (a_addlegend a); split; auto; discriminate|].
  cbn [g_settings]. destruct (a_return_settings a); cbn [is_true]; [split; [reflexivity|split; [exact BP|exact BC]]|discriminate|discriminate].
Qed.
Print Assumptions C94_figure_3d_partial.

(** ** What does not hold *)

(** Observations at points of their own are refused in three dimensions if they are not as many as the times, whatever else is
    asked for; in two dimensions they are drawn. *)
Theorem C94_refuted_data_3d : forall F (NF : Num F) fmt objs ncol i time y x (a : pargs F),
  a_adddata a <> IsOther -> List.length y <> List.length time ->
  exists e, plot_3d_intervals fmt objs ncol i time (Some y) (Some x) a = Err e.
Proof.
  intros F NF fmt objs ncol i time y x a A L. unfold plot_3d_intervals.
  destruct (setup_display_settings (a_interval_display a) (a_model_display a) (a_data_display a)) as [[[si sm] sd]|e]; cbn [bind]; eauto.
  destruct (band_settings fmt objs (a_limits a) (a_ciset a) (a_piset a)) as [[[pb cb] o]|e]; cbn [bind]; eauto.
  match goal with |- exists e, bind ?c _ = _ => destruct c as [pis|e]; cbn [bind]; eauto end.
  match goal with |- exists e, bind ?c _ = _ => destruct c as [cis|e]; cbn [bind]; eauto end.
  match goal with |- exists e, bind ?c _ = _ => destruct c as [mdl|e]; cbn [bind]; eauto end.
  assert (X : data_flag (Some y) (a_adddata a) = true) by (unfold data_flag; destruct (a_adddata a); auto; contradiction).
  rewrite X. cbn [of_option bind]. rewrite map_length. apply Nat.eqb_neq in L. rewrite L. cbn [bind]. eauto.
Qed.
Print Assumptions C94_refuted_data_3d.

(** Asking for data when there are none is an error in three dimensions, and has no effect in two. *)
Theorem C94_refuted_no_data_3d : forall F (NF : Num F) fmt objs ncol i time x (a : pargs F),
  a_adddata a = IsTrue -> exists e, plot_3d_intervals fmt objs ncol i time None x a = Err e.
Proof.
  intros F NF fmt objs ncol i time x a A. unfold plot_3d_intervals.
  destruct (setup_display_settings (a_interval_display a) (a_model_display a) (a_data_display a)) as [[[si sm] sd]|e]; cbn [bind]; eauto.
  destruct (band_settings fmt objs (a_limits a) (a_ciset a) (a_piset a)) as [[[pb cb] o]|e]; cbn [bind]; eauto.
  match goal with |- exists e, bind ?c _ = _ => destruct c as [pis|e]; cbn [bind]; eauto end.
  match goal with |- exists e, bind ?c _ = _ => destruct c as [cis|e]; cbn [bind]; eauto end.
  match goal with |- exists e, bind ?c _ = _ => destruct c as [mdl|e]; cbn [bind]; eauto end.
  rewrite A. cbn. eauto.
Qed.
Print Assumptions C94_refuted_no_data_3d.

(** The display settings of intervals have no effect in three dimensions. *)
Theorem C94_refuted_styles_3d : forall fmt objs ncol i time y x (a b : pargs XR) ea eb,
  a = mkpargs (a_limits b) (a_adddata b) (a_addmodel b) (a_addlegend b) (a_addcredible b) (a_addprediction b)
        (a_data_display b) (a_model_display b) (a_interval_display a) (a_ciset b) (a_piset b) (a_return_settings b) ->
  display (a_interval_display a) ea -> display (a_interval_display b) eb ->
  plot_3d_intervals fmt objs ncol i time y x a = plot_3d_intervals fmt objs ncol i time y x b.
Proof.
  intros fmt objs ncol i time y x a b ea eb E Da Db. unfold plot_3d_intervals. rewrite E. cbn [a_limits a_adddata a_addmodel a_addlegend
    a_addcredible a_addprediction a_data_display a_model_display a_interval_display a_ciset a_piset a_return_settings].
  unfold setup_display_settings. destruct default_styles as (Di & _). destruct flat_styles as (Fi & _). rewrite Di.
  destruct (styled_ok _ _ _ Fi Da) as (s1 & -> & _). destruct (styled_ok _ _ _ Fi Db) as (s2 & -> & _). cbn [bind].
  destruct (check_settings default_model_display (a_model_display b)) as [m|]; cbn [bind]; auto.
  destruct (check_settings default_data_display (a_data_display b)) as [d|]; cbn [bind]; auto.
Qed.
Print Assumptions C94_refuted_styles_3d.

(** Display settings of intervals with a label or a face colour cannot be used in two dimensions: the call ends in an error
    (a TypeError, unless something else fails before) as soon as a band is to be drawn. *)
Theorem C94_refuted_label : forall fmt objs ncol i time y x (a : pargs XR) ei,
  display (a_interval_display a) ei -> In "facecolor"%string (map fst ei) \/ In "label"%string (map fst ei) ->
  objs (limits_of (a_limits a) (a_ciset a)) <> [] -> a_addcredible a = IsTrue ->
  exists e, plot_intervals fmt objs ncol i time y x a = Err e.
Proof.
  intros fmt objs ncol i time y x a ei Di K NE A. unfold plot_intervals.
  unfold setup_display_settings. destruct default_styles as (D1 & _). destruct flat_styles as (Fi & _). rewrite D1.
  destruct (styled_ok _ _ _ Fi Di) as (si & -> & Si). cbn [bind].
  destruct (check_settings default_model_display (a_model_display a)) as [m|]; cbn [bind]; eauto.
  destruct (check_settings default_data_display (a_data_display a)) as [d|]; cbn [bind]; eauto.
  destruct (band_settings fmt objs (a_limits a) (a_ciset a) (a_piset a)) as [[[pb cb] o]|e] eqn:EB; cbn [bind]; eauto.
  match goal with |- exists e, bind ?c _ = _ => destruct c as [pis|e]; cbn [bind]; eauto end.
  rewrite A. cbn [is_true].
  assert (CB : cb <> []).
  { assert (DE : objs (limits_of (a_limits a) (a_piset a)) = [] \/ objs (limits_of (a_limits a) (a_piset a)) <> [])
      by (destruct (objs (limits_of (a_limits a) (a_piset a))); [now left|right; discriminate]).
    destruct DE as [E0|N0].
    - exfalso. unfold band_settings in EB. unfold limits_of in E0.
      set (ci := match is_limits (a_ciset a) with Some r => r | None => a_limits a end) in *.
      set (pi := match is_limits (a_piset a) with Some r => r | None => a_limits a end) in *.
      assert (Z : sort_object pi (sort_object ci objs) pi = []).
      { unfold sort_object. rewrite Nat.eqb_refl. destruct (Nat.eqb_spec pi ci) as [EQ|]; [rewrite <- EQ|]; rewrite E0; reflexivity. }
      match type of EB with bind ?c _ = _ => destruct c as [cc|]; cbn [bind] in EB; [|discriminate] end.
      unfold setup_interval_colors in EB at 1. rewrite Z in EB. discriminate.
    - destruct (settings_spec fmt objs (a_limits a) (a_ciset a) (a_piset a) NE N0) as (pb' & cb' & o' & EB' & AF & [BC _] & _).
      rewrite EB in EB'. injection EB' as <- <- <-. intros ->. destruct (AF (limits_of (a_limits a) (a_ciset a))) as (P & _).
      cbn [List.length] in BC. symmetry in BC. apply length_zero_iff_nil in BC. unfold limits_of in P. rewrite BC in P.
      apply Permutation_sym, Permutation_nil in P. now apply NE. }
  destruct cb as [|b cb]; [contradiction|]. unfold fills. cbn [mapM].
  destruct (curves_of ncol (credible i) b) as [[lo hi]|e]; cbn [bind]; eauto.
  assert (X : existsb (fun k => existsb (String.eqb k) (map fst si)) ["facecolor"; "label"]%string = true).
  { cbn [existsb]. rewrite (style_keys _ _ _ "facecolor"%string Si), (style_keys _ _ _ "label"%string Si)
      by (cbn; intros H; repeat (destruct H as [H|H]; [discriminate|]); exact H).
    rewrite orb_false_r. apply orb_true_iff. destruct K as [K|K]; [left|right]; apply existsb_exists; eexists; (split; [exact K|apply String.eqb_refl]). }
  unfold fill_between. rewrite X. cbn [bind]. eauto.
Qed.
Print Assumptions C94_refuted_label.

(** ** A case *)

(** Three responses at two times, with prediction intervals, limits in no particular order, a model colour and data. *)
Definition case_args {F} : pargs F :=
  mkpargs 0 IsNone IsTrue IsTrue IsTrue IsTrue PNone (PDict [("color", PStr "r")]%string) (PDict [("alpha", PInt 1)]%string)
    (mkiset (Some 1) None None) (mkiset None None (Some ["g"]%string)) IsOther.
Definition case_objs (r : nat) : list Q := match r with 0 => [95]%Q | 1 => [50; 90]%Q | _ => [] end.

Example C94_case :
  let cred := [[1; 2]; [3; 5]; [2; 2]]%R in let pred := Some [[0; 2]; [4; 7]]%R in
  let a : pargs XR := case_args in
  case_objs (limits_of (a_limits a) (a_ciset a)) <> [] /\ case_objs (limits_of (a_limits a) (a_piset a)) <> [] /\
  Forall percentage (case_objs (limits_of (a_limits a) (a_ciset a))) /\ Forall percentage (case_objs (limits_of (a_limits a) (a_piset a))) /\
  2 <= List.length cred /\ (exists p, pred = Some p /\ 2 <= List.length p) /\
  display (a_interval_display a) [("alpha", PInt 1)]%string /\ display (a_model_display a) [("color", PStr "r")]%string /\
  display (a_data_display a) [] /\ ~ In "facecolor"%string (map fst [("alpha", PInt 1 : pyval XR)]%string) /\
  ~ In "label"%string (map fst [("alpha", PInt 1 : pyval XR)]%string) /\
  (* the same with rational numbers *)
  match plot_intervals (fun _ => "L"%string) case_objs 2 (mkinterval [[Fin 1; Fin 2]; [Fin 3; Fin 5]; [Fin 2; Fin 2]]%Q (Some [[Fin 0; Fin 2]; [Fin 4; Fin 7]]%Q))
          [Fin 10; Fin 20]%Q (Some [Fin 7; Fin 8; Fin 9]%Q) (Some [Fin 10; Fin 15; Fin 20]%Q) (case_args : pargs XQ) with
  | Ok (fig, _) => List.length (g_drawn fig) = 5 /\ g_legend fig = true
  | Err _ => False
  end /\
  (* the observations at three points of their own are refused over two points of a plane *)
  plot_3d_intervals (fun _ => "L"%string) case_objs 2 (mkinterval [[Fin 1; Fin 2]; [Fin 3; Fin 5]; [Fin 2; Fin 2]]%Q (Some [[Fin 0; Fin 2]; [Fin 4; Fin 7]]%Q))
    [(Fin 10, Fin 1); (Fin 20, Fin 1)]%Q (Some [Fin 7; Fin 8; Fin 9]%Q) (Some [(Fin 10, Fin 1); (Fin 15, Fin 1); (Fin 20, Fin 1)]%Q) (case_args : pargs XQ) = Err ValueError /\
  match plot_3d_intervals (fun _ => "L"%string) case_objs 2 (mkinterval [[Fin 1; Fin 2]; [Fin 3; Fin 5]; [Fin 2; Fin 2]]%Q (Some [[Fin 0; Fin 2]; [Fin 4; Fin 7]]%Q))
    [(Fin 10, Fin 1); (Fin 20, Fin 1)]%Q None None (case_args : pargs XQ) with
  | Ok (fig, _) => List.length (g_drawn fig) = 4
  | Err _ => False
  end.
Proof.
  cbv zeta. split; [discriminate|]. split; [discriminate|].
  split; [repeat constructor; unfold Qle; cbn; lia|]. split; [repeat constructor; unfold Qle; cbn; lia|]. split; [cbn; lia|].
  split; [eexists; split; [reflexivity|cbn; lia]|].
  split; [split; [repeat constructor; cbn; tauto|now left]|]. split; [split; [repeat constructor; cbn; tauto|now left]|].
  split; [split; [constructor|right; split; reflexivity]|].
  split; [cbn; intros [H|H]; [discriminate|exact H]|]. split; [cbn; intros [H|H]; [discriminate|exact H]|].
  split; [vm_compute; auto|]. split; [vm_compute; reflexivity|]. vm_compute. reflexivity.
Qed.
