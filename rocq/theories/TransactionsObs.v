(** A client of the transactional planner (the dataset layer and the trainer,
    dataset/source_dataset.py:140-225, trainer/base.py): it fetches batches, commits
    initial parts of what it fetched, rolls back, restarts from the saved state, goes
    to the next epoch, and may meet an exception anywhere in a fetch. *)
From Verif Require Import Base Rng Sequential Planner Transactions.
Set Implicit Arguments.
Unset Strict Implicit.

(** What the client holds.  [cl_done]: committed batches with their data, all epochs;
    [cl_pending]: fetched and not committed; [cl_usable] is false after an exception. *)
Record client (X A T O : Type) := {
  cl_txn : txn X A T;
  cl_usable : bool;
  cl_pending : list (token A T * O);
  cl_done : list (batch A * O)
}.

Section Client.
  Variables X A T O : Type.
  Variable fd : feed X A T.
  Variable shape : A -> Z.
  Variable cf : pconfig.
  Variable comp : option (composer A O).
  Variable initial_digest : Z -> bytes -> bytes.
  Variable token_digest : bytes -> batch A -> bytes -> bytes.
  Variable state_eqb : pstate A T -> pstate A T -> bool.
  Variable decode : batch A -> res O.     (* _decode_batch, source_dataset.py:91-99 *)

  (** One round of _iter_synchronous up to the look-ahead (source_dataset.py:200-216);
      without pipelines prepare_pipeline_batch changes nothing, so it does not matter
      when the prefetching path calls it. *)
  Definition fetch (fuel : nat) (t : txn X A T) : res (option (token A T * O) * txn X A T) :=
    '(otok, t1) <- next_transactional fd shape cf true token_digest fuel t ;;
    match otok with
    | None => Ok (None, t1)
    | Some tok =>
        data <- decode (tk_batch tok) ;;
        '(out, tok1, t2) <- prepare_pipeline comp token_digest t1 tok data ;;
        Ok (Some (tok1, out), t2)
    end.

  Definition same_commit (t t' : txn X A T) : Prop :=
    t_committed_state t' = t_committed_state t /\ t_committed_digest t' = t_committed_digest t
    /\ t_committed_blob t' = t_committed_blob t.

  Definition shown_of (p : token A T * O) : batch A * O := (tk_batch (fst p), snd p).

  Inductive does : client X A T O -> client X A T O -> Prop :=
  | do_fetch fuel t pend done tok out t' : fetch fuel t = Ok (Some (tok, out), t') ->
      does {| cl_txn := t; cl_usable := true; cl_pending := pend; cl_done := done |}
           {| cl_txn := t'; cl_usable := true; cl_pending := pend ++ [(tok, out)]; cl_done := done |}
  | do_see_end fuel t pend done t' : fetch fuel t = Ok (None, t') ->
      does {| cl_txn := t; cl_usable := true; cl_pending := pend; cl_done := done |}
           {| cl_txn := t'; cl_usable := true; cl_pending := pend; cl_done := done |}
  | do_fail t pend done t' : same_commit t t' ->   (* an exception: the rest of the object is in any state *)
      does {| cl_txn := t; cl_usable := true; cl_pending := pend; cl_done := done |}
           {| cl_txn := t'; cl_usable := false; cl_pending := pend; cl_done := done |}
  | do_finalize t pend tok out done tok' t' :
      finalize_terminal fd cf true token_digest t tok = Ok (tok', t') ->
      does {| cl_txn := t; cl_usable := true; cl_pending := pend ++ [(tok, out)]; cl_done := done |}
           {| cl_txn := t'; cl_usable := true; cl_pending := pend ++ [(tok', out)]; cl_done := done |}
  | do_commit t u now later done c t' :
      prepare_commit true comp state_eqb t (map fst now) = Ok c -> commit_prepared true t c = Ok t' ->
      does {| cl_txn := t; cl_usable := u; cl_pending := now ++ later; cl_done := done |}
           {| cl_txn := t'; cl_usable := u; cl_pending := later; cl_done := done ++ map shown_of now |}
  | do_rollback t u pend done t' : rollback fd shape cf true t = Ok t' ->
      does {| cl_txn := t; cl_usable := u; cl_pending := pend; cl_done := done |}
           {| cl_txn := t'; cl_usable := true; cl_pending := []; cl_done := done |}
  | do_restart t u pend done s t' : state_dict cf true t = Ok s -> load_state_dict fd shape cf comp s = Ok t' ->
      does {| cl_txn := t; cl_usable := u; cl_pending := pend; cl_done := done |}
           {| cl_txn := t'; cl_usable := true; cl_pending := []; cl_done := done |}
  | do_next_epoch t done t' : begin_next_epoch fd cf true initial_digest t = Ok t' ->
      does {| cl_txn := t; cl_usable := true; cl_pending := []; cl_done := done |}
           {| cl_txn := t'; cl_usable := true; cl_pending := []; cl_done := done |}.

  (** All states a client can get to from a new planner. *)
  Inductive history : client X A T O -> Prop :=
  | hist_new t : txn_init fd cf true comp initial_digest = Ok t ->
      history {| cl_txn := t; cl_usable := true; cl_pending := []; cl_done := [] |}
  | hist_step c c' : history c -> does c c' -> history c'.

  (** Fetching several batches in a row. *)
  Inductive fetches : txn X A T -> list (token A T * O) -> txn X A T -> Prop :=
  | fetches_nil t : fetches t [] t
  | fetches_cons fuel t tok t1 toks t2 : fetch fuel t = Ok (Some tok, t1) -> fetches t1 toks t2 ->
      fetches t (tok :: toks) t2.

  Definition published (c : client X A T O) : list (batch A * O) :=
    cl_done c ++ map shown_of (cl_pending c).
End Client.

(** A published batch without its terminal mark: items, mask, epoch, number, data. *)
Definition content {A O} (e : batch A * O) : list A * list bool * Z * Z * O :=
  (b_items (fst e), b_real (fst e), b_epoch (fst e), b_index (fst e), snd e).
