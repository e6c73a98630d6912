(** Vocabulary for statements about log files: blocks of rows and how they tile a range.
    Nothing here refers to the loop that writes them. *)

From Coq Require Import Arith Bool Lia List String.
From Verif Require Import Base Simulator.
Import ListNotations.
Open Scope list_scope.
Open Scope nat_scope.

(** [tiles a c bs]: the half-open intervals [bs] are non-empty, each begins where the one before it
    ended, the first begins at [a] and the last ends at [c]. *)
Inductive tiles : nat -> nat -> list (nat * nat) -> Prop :=
| tiles_nil a : tiles a a []
| tiles_cons a b c bs : a < b -> tiles b c bs -> tiles a c ((a, b) :: bs).

(** Every interval has at most [s] elements. *)
Definition small (s : nat) (bs : list (nat * nat)) : Prop := Forall (fun b => snd b - fst b <= s) bs.

(** The rows [a], ..., [b - 1] of a matrix. *)
Definition rows_of {A} (M : list A) (b : nat * nat) : list A := firstn (snd b - fst b) (skipn (fst b) M).

(** What the log index and an h5 file say about an interval: first and last row. *)
Definition label (b : nat * nat) : nat * nat := (fst b, snd b - 1).

(** The files in which a run keeps its chains, as (name, rows) pairs. *)
Definition chain_files {F} (m : mcmc F) : list (string * list (list F)) :=
  [(Settings.o_chainfile (m_opts m), m_chain m); (Settings.o_sschainfile (m_opts m), m_sschain m)] ++
  match m_s2chain m with Some s => [(Settings.o_s2chainfile (m_opts m), s)] | None => [] end.

(** The four log files have different names. *)
Definition distinct_files {F} (m : mcmc F) : Prop :=
  NoDup [Settings.o_chainfile (m_opts m); Settings.o_sschainfile (m_opts m);
         Settings.o_s2chainfile (m_opts m); Settings.o_covchainfile (m_opts m)].

Lemma tiles_le a c bs : tiles a c bs -> a <= c.
Proof. induction 1; lia. Qed.

Lemma tiles_app a b c xs ys : tiles a b xs -> tiles b c ys -> tiles a c (xs ++ ys).
Proof. induction 1; cbn; auto. intros. constructor; auto. Qed.

(** Tiling rows gives back all of them. *)
Lemma skipn_add {A} x : forall y (l : list A), skipn x (skipn y l) = skipn (y + x) l.
Proof. induction y; intros [|h t]; cbn; auto. now rewrite skipn_nil. Qed.

Lemma rows_join {A} (M : list A) a b c : a <= b -> b <= c -> rows_of M (a, b) ++ rows_of M (b, c) = rows_of M (a, c).
Proof.
  intros. unfold rows_of. cbn. replace (skipn b M) with (skipn (b - a) (skipn a M)).
  - replace (c - a) with ((b - a) + (c - b)) by lia. generalize (skipn a M); intros l.
    rewrite <- (firstn_skipn (b - a) (firstn (b - a + (c - b)) l)). f_equal.
    + now rewrite firstn_firstn, Nat.min_l by lia.
    + rewrite skipn_firstn_comm. f_equal. lia.
  - rewrite skipn_add. f_equal. lia.
Qed.

Lemma tiles_rows {A} (M : list A) a c bs : tiles a c bs -> List.concat (map (rows_of M) bs) = rows_of M (a, c).
Proof.
  induction 1.
  - unfold rows_of. cbn. now rewrite Nat.sub_diag.
  - cbn [map List.concat]. rewrite IHtiles. apply rows_join; [lia|]. eapply tiles_le; eauto.
Qed.

Lemma rows_of_0 {A} (M : list A) c : rows_of M (0, c) = firstn c M.
Proof. unfold rows_of. cbn. now rewrite Nat.sub_0_r. Qed.
