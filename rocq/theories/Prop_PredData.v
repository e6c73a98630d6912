(** Properties of the data sets used for prediction. *)

From Coq Require Import ZArith QArith Bool Lia List String.
From Verif Require Import Base Num ChainFiles Samplers Settings ParamFacts PredData.
Import ListNotations.
Close Scope Q_scope.
Open Scope list_scope.
Open Scope nat_scope.

(** ** C82: data sets used for prediction

    There is one structure for each data set of the run, which holds the x, y and user object of that data set and no others. *)
Theorem C82_data_sets_for_prediction_partial :
  forall F (NF : Num F) U (l : list (addition F U)),
  exists preds, prediction_data (build l) = Ok preds /\ Forall2 (fun c p => holds_only c p /\ s_weight p = [n1]) l preds.
Proof. intros. apply predicted. Qed.
Print Assumptions C82_data_sets_for_prediction_partial.

(** The numbers of columns found are those stored. *)
Theorem C82_columns :
  forall F (NF : Num F) U (l : list (addition F U)),
  exists ncols, analyze_data_structure (build l) = Ok (List.length l, ncols) /\ Forall2 (fun c w => exists r e, stores (ad_y c) r w e) l ncols.
Proof. intros. apply analyzed. Qed.
Print Assumptions C82_columns.

(** The weight of a data set is not taken along: it is 1 whatever was given. *)
Theorem C82_refuted_weights :
  forall F (NF : Num F) U (l : list (addition F U)) j c,
  nth_error l j = Some c -> ad_weight c <> n1 ->
  exists preds p, prediction_data (build l) = Ok preds /\ nth_error preds j = Some p /\ s_weight p <> [ad_weight c].
Proof.
  intros F NF U l j c Hj Hw. destruct (predicted l) as (preds & H1 & H2).
  assert (X : exists p, nth_error preds j = Some p /\ s_weight p = [n1]).
  { clear -H2 Hj. revert j Hj. induction H2 as [|a b l m [_ H] _ IH]; intros [|j] Hj; try discriminate; cbn in *; [eauto|auto]. }
  destruct X as (p & X1 & X2). exists preds, p. split; [exact H1|]. split; [exact X1|]. rewrite X2. congruence.
Qed.
Print Assumptions C82_refuted_weights.

(** The structure with arrays and user objects is the one used in the simulator, with these added. *)
Theorem C82_same_structure_as_in_runs :
  forall F (NF : Num F) U (l : list (addition F U)), let d := add_all (map as_call l) in
  dt_sets d = map2 (fun xy w => mkds (nd_entries (fst xy)) (nd_entries (snd xy)) w) (combine (s_xdata (build l)) (s_ydata (build l))) (s_weight (build l)) /\
  dt_n d = s_n (build l) /\ dt_shape d = s_shape (build l).
Proof. intros. apply build_refines. Qed.
Print Assumptions C82_same_structure_as_in_runs.

Example C82_case : let one q : XQ := Fin q in
  let l := [mkadd (GArray (mknda [2] [one 1; one 2]%Q)) (GArray (mknda [2; 1] [one 3; one 4]%Q)) None (one (1 # 2)%Q) true;
            mkadd (GList [one 5; one 6]%Q) (GScalar (one 7%Q)) (Some 4) n1 false] in
  (exists c, nth_error l 0 = Some c /\ ad_weight c <> n1) /\
  exists p q, prediction_data (build l) = Ok [p; q] /\ s_xdata p = [mknda [2; 1] [one 1; one 2]%Q] /\ s_user p = [true] /\ s_n q = [1] /\
    s_xdata q = [mknda [1; 2] [one 5; one 6]%Q] /\ s_user q = [false].
Proof.
  cbv zeta. split. { eexists. split; [reflexivity|]. cbn. intros H. inversion H. }
  do 2 eexists. split; [vm_compute; reflexivity|]. repeat split.
Qed.
