(** Model of the data structure with its arrays and user objects (settings/DataStructure.py), and of the data sets the model
    function is given when intervals are generated (plotting/PredictionIntervals.py 39-43, 59-101). *)

From Coq Require Import ZArith QArith Bool Lia List String.
From Verif Require Import Base Num ChainFiles Samplers Settings ParamFacts.
Import ListNotations.
Close Scope Q_scope.
Open Scope list_scope.
Open Scope nat_scope.
Open Scope res_scope.

Section PredData.
Context {F : Type} `{NF : Num F} {U : Type}.

(** settings/DataStructure.py 80-85: an array, with its shape and its entries row by row *)
Record nda : Type := mknda { nd_shape : list nat; nd_entries : list F }.
(** settings/DataStructure.py 42: what is given as x or y *)
Inductive given : Type := GArray (a : nda) | GList (l : list F) | GScalar (x : F).
(** settings/DataStructure.py 102-114 *)
Definition as_array (g : given) : nda :=
  match g with
  | GArray a => a
  | GList l => mknda [1; List.length l] l
  | GScalar x => mknda [1] [x]
  end.
(** settings/DataStructure.py 117-129 *)
Definition as_2d (a : nda) : nda :=
  if List.length (nd_shape a) =? 2 then a else mknda [size_of (nd_shape a); 1] (nd_entries a).

(** settings/DataStructure.py 34-40 *)
Record dstruct : Type := mkdstruct {
  s_xdata : list nda; s_ydata : list nda; s_n : list nat; s_shape : list (list nat); s_weight : list F; s_user : list U }.
(** settings/DataStructure.py 34-40 *)
Definition new_struct : dstruct := mkdstruct [] [] [] [] [] [].
(** settings/DataStructure.py 42-99 *)
Definition add_set (d : dstruct) (x y : given) (n : option nat) (weight : F) (user : U) : dstruct :=
  let x := as_2d (as_array x) in
  let y := as_2d (as_array y) in
  let cnt := match n with
             | None => [if size_of (nd_shape y) =? 1 then size_of (nd_shape y) else nth 0 (nd_shape y) 0]
             | Some _ => []
             end in
  mkdstruct (s_xdata d ++ [x]) (s_ydata d ++ [y]) (s_n d ++ cnt) (s_shape d ++ [nd_shape y]) (s_weight d ++ [weight]) (s_user d ++ [user]).

(** plotting/PredictionIntervals.py 59-79 *)
Definition analyze_data_structure (d : dstruct) : res (nat * list nat) :=
  let ndatabatches := List.length (s_shape d) in
  let* ncols := mapM (fun ii => let* sh := of_option IndexError (nth_error (s_shape d) ii) in
                                if negb (List.length sh =? 1) then of_option IndexError (nth_error sh 1) else Ok 1)
                     (seq 0 ndatabatches) in
  Ok (ndatabatches, ncols).
(** plotting/PredictionIntervals.py 83-101; weight and n are left at their defaults *)
Definition setup_data_structure_for_prediction (d : dstruct) (ndatabatches : nat) : res (list dstruct) :=
  mapM (fun ii => let* x := of_option IndexError (nth_error (s_xdata d) ii) in
                  let* y := of_option IndexError (nth_error (s_ydata d) ii) in
                  let* u := of_option IndexError (nth_error (s_user d) ii) in
                  Ok (add_set new_struct (GArray x) (GArray y) None n1 u))
       (seq 0 ndatabatches).
(** plotting/PredictionIntervals.py 39-43 *)
Definition prediction_data (d : dstruct) : res (list dstruct) :=
  let* (n, _) := analyze_data_structure d in setup_data_structure_for_prediction d n.

(** One call of add_data_set. *)
Record addition : Type := mkadd { ad_x : given; ad_y : given; ad_n : option nat; ad_weight : F; ad_user : U }.
Definition build (l : list addition) : dstruct :=
  fold_left (fun d c => add_set d (ad_x c) (ad_y c) (ad_n c) (ad_weight c) (ad_user c)) l new_struct.
End PredData.
Arguments nda F : clear implicits.
Arguments given F : clear implicits.
Arguments dstruct F U : clear implicits.
Arguments addition F U : clear implicits.

(** What is stored of an argument: rows, columns and entries.  A two-dimensional array is stored as it is, another array as a
    column, a list as a row, a number as a single entry. *)
Definition stores {F} (g : given F) (rows cols : nat) (entries : list F) : Prop :=
  match g with
  | GArray a => nd_entries a = entries /\ (nd_shape a = [rows; cols] \/ List.length (nd_shape a) <> 2 /\ rows = size_of (nd_shape a) /\ cols = 1)
  | GList l => l = entries /\ rows = 1 /\ cols = List.length l
  | GScalar x => entries = [x] /\ rows = 1 /\ cols = 1
  end.

Section Facts.
Context {F : Type} `{NF : Num F} {U : Type}.

Lemma as_2d_stores (g : given F) : exists r c e, as_2d (as_array g) = mknda [r; c] e /\ stores g r c e.
Proof.
  destruct g as [[sh e]|l|x]; unfold as_2d; cbn [as_array nd_shape nd_entries stores].
  - destruct (Nat.eqb_spec (List.length sh) 2) as [E|E].
    + destruct sh as [|a [|b [|]]]; try discriminate. exists a, b, e. auto.
    + exists (size_of sh), 1, e. auto 6.
  - exists 1, (List.length l), l. auto.
  - exists 1, 1, [x]. auto.
Qed.

Lemma build_snoc (l : list (addition F U)) c : build (l ++ [c]) = add_set (build l) (ad_x c) (ad_y c) (ad_n c) (ad_weight c) (ad_user c).
Proof. unfold build. now rewrite fold_left_app. Qed.
Lemma build_fields (l : list (addition F U)) :
  s_xdata (build l) = map (fun c => as_2d (as_array (ad_x c))) l /\ s_ydata (build l) = map (fun c => as_2d (as_array (ad_y c))) l /\
  s_shape (build l) = map (fun c => nd_shape (as_2d (as_array (ad_y c)))) l /\ s_weight (build l) = map (@ad_weight F U) l /\
  s_user (build l) = map (@ad_user F U) l.
Proof.
  induction l as [|c l (A & B & C & D & E)] using rev_ind; [repeat split|].
  rewrite build_snoc, !map_app. cbn [add_set s_xdata s_ydata s_shape s_weight s_user map]. rewrite A, B, C, D, E. auto 6.
Qed.

(** The structure without its user objects, as in Settings.v. *)
Definition kind_of (g : given F) : ykind := match g with GArray a => YArray (nd_shape a) | GList l => YList (List.length l) | GScalar _ => YScalar end.
Definition flat_of (g : given F) : list F := match g with GArray a => nd_entries a | GList l => l | GScalar x => [x] end.
Definition as_call (c : addition F U) : call F := mkcall (flat_of (ad_x c)) (kind_of (ad_y c)) (flat_of (ad_y c)) (ad_n c) (ad_weight c).
Lemma flat_2d g : nd_entries (as_2d (as_array g)) = flat_of g.
Proof. unfold as_2d. destruct g; cbn; [destruct (_ =? 2)|..]; reflexivity. Qed.
Lemma shape_2d g : nd_shape (as_2d (as_array g)) = convert_to_2d (convert_to_numpy_array (kind_of g)).
Proof. unfold as_2d, convert_to_2d. destruct g; cbn; [destruct (_ =? 2)|..]; reflexivity. Qed.
Lemma build_refines (l : list (addition F U)) :
  dt_sets (add_all (map as_call l)) = map2 (fun xy w => mkds (nd_entries (fst xy)) (nd_entries (snd xy)) w) (combine (s_xdata (build l)) (s_ydata (build l))) (s_weight (build l)) /\
  dt_n (add_all (map as_call l)) = s_n (build l) /\ dt_shape (add_all (map as_call l)) = s_shape (build l).
Proof.
  induction l as [|c l (A & B & C)] using rev_ind; [repeat split|].
  assert (X : add_all (map as_call (l ++ [c])) = add_data_set (add_all (map as_call l)) (flat_of (ad_x c)) (kind_of (ad_y c)) (flat_of (ad_y c)) (ad_n c) (ad_weight c)).
  { rewrite map_app. unfold add_all. rewrite fold_left_app. reflexivity. }
  rewrite X, build_snoc. unfold add_data_set, add_set. cbn [dt_sets dt_n dt_shape s_xdata s_ydata s_n s_shape s_weight].
  destruct (build_fields l) as (P1 & P2 & P3 & P4 & P5).
  rewrite A, B, C, !shape_2d. split; [|split; reflexivity].
  rewrite P1, P2, P4. clear. induction l as [|d l IH]; cbn [map app combine map2 fst snd]; [now rewrite !flat_2d|]. now rewrite <- IH.
Qed.

Lemma mapM_range {A B} (f : nat -> res B) (P : A -> B -> Prop) : forall (l : list A) k,
  (forall j a, nth_error l j = Some a -> exists b, f (k + j) = Ok b /\ P a b) ->
  exists r, mapM f (seq k (List.length l)) = Ok r /\ Forall2 P l r.
Proof.
  induction l as [|a l IH]; intros k H; cbn [List.length seq mapM].
  - exists []. split; [reflexivity|constructor].
  - destruct (H 0 a eq_refl) as (b & H1 & H2). rewrite Nat.add_0_r in H1. rewrite H1. cbn [bind].
    destruct (IH (S k)) as (r & H3 & H4). { intros j x Hj. rewrite Nat.add_succ_comm. exact (H (S j) x Hj). }
    rewrite H3. cbn [bind]. exists (b :: r). split; [reflexivity|constructor; assumption].
Qed.

(** A structure with the data set of the call [c], and nothing else. *)
Definition holds_only (c : addition F U) (d : dstruct F U) : Prop :=
  exists rx cx ex ry cy ey, stores (ad_x c) rx cx ex /\ stores (ad_y c) ry cy ey /\
    s_xdata d = [mknda [rx; cx] ex] /\ s_ydata d = [mknda [ry; cy] ey] /\ s_shape d = [[ry; cy]] /\ s_n d = [ry] /\ s_user d = [ad_user c].

Lemma analyzed (l : list (addition F U)) : exists ncols, analyze_data_structure (build l) = Ok (List.length l, ncols) /\
  Forall2 (fun c w => exists r e, stores (ad_y c) r w e) l ncols.
Proof.
  destruct (build_fields l) as (_ & _ & P3 & _). unfold analyze_data_structure. rewrite P3, map_length.
  match goal with |- context [mapM ?f _] => destruct (mapM_range f (fun c w => exists r e, stores (ad_y c) r w e) l 0) as (r & H1 & H2) end.
  { intros j c Hj. cbn [Nat.add]. rewrite (map_nth_error _ _ _ Hj). cbn [of_option bind].
    destruct (as_2d_stores (ad_y c)) as (r & w & e & H1 & H2). rewrite H1. cbn. eauto. }
  rewrite H1. cbn [bind]. eauto.
Qed.
Lemma predicted (l : list (addition F U)) : exists preds, prediction_data (build l) = Ok preds /\
  Forall2 (fun c p => holds_only c p /\ s_weight p = [n1]) l preds.
Proof.
  destruct (analyzed l) as (ncols & HA & _). unfold prediction_data. rewrite HA. cbn [bind]. unfold setup_data_structure_for_prediction.
  destruct (build_fields l) as (P1 & P2 & P3 & P4 & P5).
  match goal with |- context [mapM ?f _] => destruct (mapM_range f (fun c p => holds_only c p /\ s_weight p = [n1]) l 0) as (r & H1 & H2) end.
  { intros j c Hj. cbn [Nat.add]. rewrite P1, P2, P5, !(map_nth_error _ _ _ Hj). cbn [of_option bind].
    destruct (as_2d_stores (ad_x c)) as (rx & cx & ex & X1 & X2). destruct (as_2d_stores (ad_y c)) as (ry & cy & ey & Y1 & Y2). rewrite X1, Y1.
    eexists. split; [reflexivity|]. split; [|reflexivity]. exists rx, cx, ex, ry, cy, ey. split; [exact X2|]. split; [exact Y2|].
    cbn. do 3 (split; [reflexivity|]). split; [|reflexivity]. f_equal. unfold size_of. cbn.
    destruct (Nat.eqb_spec (ry * (cy * 1)) 1) as [E|E]; [|reflexivity]. rewrite Nat.mul_1_r in E. apply Nat.eq_mul_1 in E as [-> ->]. reflexivity. }
  exists r. split; assumption.
Qed.
End Facts.
