(** Model of the transactional interface of DatasetPlanner, dataset/planner.py:771-1203
    (tokens, pipeline state, terminal tokens, commit, epoch change, rollback,
    state_dict and load_state_dict), on top of the planner of Planner.v.
    Simplifications: the two digest functions (hashlib.sha256 over the fields listed
    at lines 344-392) and the equality of PlannerState objects are parameters; the
    conversion of a state to plain lists and dictionaries and back (lines 992-1177)
    is the identity; the signature compared by load_state_dict is the contract of
    Planner.v; when a call raises, its half-updated object is not described. *)
From Verif Require Import Base Rng Sequential Planner.
Set Implicit Arguments.
Unset Strict Implicit.

(** PipelineStateComposer as the planner uses it (core.py:1419-1478 and
    prepare_batch): the initial composite blob, one batch prepared from its decoded
    data and the current blob, and the check of a blob. *)
Record composer (A O : Type) := {
  cp_initial : bytes;
  cp_prepare : batch A -> O -> bytes -> res (O * bytes);
  cp_decode : bytes -> res unit
}.

(** planner.py:84-95 PlannerBatchToken (distributed_policy is the planner's own). *)
Record token (A T : Type) := {
  tk_epoch : Z;
  tk_index : Z;
  tk_before_digest : bytes;
  tk_after_digest : bytes;
  tk_batch : batch A;
  tk_before_state : option (pstate A T);
  tk_after_state : option (pstate A T);
  tk_before_blob : bytes;
  tk_after_blob : bytes
}.

(** planner.py:116-123 PreparedPlannerCommit. *)
Record prepared (A T : Type) := {
  pr_before_digest : bytes;
  pr_after_digest : bytes;
  pr_after_state : option (pstate A T);
  pr_after_blob : bytes;
  pr_count : Z
}.

(** The planner with its transaction fields (planner.py:168-170, 199-203). *)
Record txn (X A T : Type) := {
  t_pl : planner X A;
  t_committed_state : option (pstate A T);
  t_yield_state : option (pstate A T);
  t_committed_digest : bytes;
  t_yield_digest : bytes;
  t_committed_blob : bytes;
  t_yield_blob : bytes
}.

(** What state_dict returns (planner.py:963-974). *)
Record saved (A T : Type) := {
  sd_signature : bytes;
  sd_cursor : option (pstate A T);
  sd_digest : bytes;
  sd_blob : bytes
}.

(** dataclasses.replace(batch, is_last=True), line 841. *)
Definition mark_last {A} (b : batch A) : batch A :=
  {| b_items := b_items b; b_real := b_real b; b_epoch := b_epoch b; b_index := b_index b; b_last := true |}.

Section Transactions.
  Variables X A T O : Type.
  Variable fd : feed X A T.
  Variable shape : A -> Z.
  Variable cf : pconfig.
  Variable is_resumable : bool.                        (* source.capabilities.resumable *)
  Variable comp : option (composer A O).               (* pipeline_composer *)
  Variable initial_digest : Z -> bytes -> bytes.       (* _initial_digest, 344-357 *)
  Variable token_digest : bytes -> batch A -> bytes -> bytes.  (* _token_digest, 359-392 *)
  Variable state_eqb : pstate A T -> pstate A T -> bool.

  Definition opt_state_eqb (a b : option (pstate A T)) : bool :=
    match a, b with
    | Some x, Some y => state_eqb x y
    | None, None => true
    | _, _ => false
    end.

  Definition snapshot (p : planner X A) : res (option (pstate A T)) :=
    if is_resumable then s <- planner_state fd cf p ;; Ok (Some s) else Ok None.

  (** planner.py:167-170, 199-203: the end of __init__. *)
  Definition txn_init : res (txn X A T) :=
    let blob := match comp with Some c => cp_initial c | None => [] end in
    p <- start_epoch fd 0 ;;
    s <- snapshot p ;;
    Ok {| t_pl := p; t_committed_state := s; t_yield_state := s;
          t_committed_digest := initial_digest 0 blob; t_yield_digest := initial_digest 0 blob;
          t_committed_blob := blob; t_yield_blob := blob |}.

  (** planner.py:771-798 next_transactional_batch. *)
  Definition next_transactional (fuel : nat) (t : txn X A T) : res (option (token A T) * txn X A T) :=
    '(ob, p) <- next_batch fd shape cf fuel (t_pl t) ;;
    match ob with
    | None => Ok (None, {| t_pl := p; t_committed_state := t_committed_state t; t_yield_state := t_yield_state t;
                           t_committed_digest := t_committed_digest t; t_yield_digest := t_yield_digest t;
                           t_committed_blob := t_committed_blob t; t_yield_blob := t_yield_blob t |})
    | Some b =>
        after <- snapshot p ;;
        let after_digest := token_digest (t_yield_digest t) b (t_yield_blob t) in
        Ok (Some {| tk_epoch := b_epoch b; tk_index := b_index b; tk_before_digest := t_yield_digest t;
                    tk_after_digest := after_digest; tk_batch := b; tk_before_state := t_yield_state t;
                    tk_after_state := after; tk_before_blob := t_yield_blob t; tk_after_blob := t_yield_blob t |},
            {| t_pl := p; t_committed_state := t_committed_state t; t_yield_state := after;
               t_committed_digest := t_committed_digest t; t_yield_digest := after_digest;
               t_committed_blob := t_committed_blob t; t_yield_blob := t_yield_blob t |})
    end.

  (** planner.py:800-832 prepare_pipeline_batch, with batch = token.batch as in all
      calls (the check of line 807 then passes). *)
  Definition prepare_pipeline (t : txn X A T) (tok : token A T) (data : O) : res (O * token A T * txn X A T) :=
    match comp with
    | None => Ok (data, tok, t)
    | Some c =>
        guard zlist_eqb (tk_after_digest tok) (t_yield_digest t) else RuntimeError ;;
        '(out, blob) <- cp_prepare c (tk_batch tok) data (tk_before_blob tok) ;;
        let after_digest := token_digest (tk_before_digest tok) (tk_batch tok) blob in
        Ok (out,
            {| tk_epoch := tk_epoch tok; tk_index := tk_index tok; tk_before_digest := tk_before_digest tok;
               tk_after_digest := after_digest; tk_batch := tk_batch tok; tk_before_state := tk_before_state tok;
               tk_after_state := tk_after_state tok; tk_before_blob := tk_before_blob tok; tk_after_blob := blob |},
            {| t_pl := t_pl t; t_committed_state := t_committed_state t; t_yield_state := t_yield_state t;
               t_committed_digest := t_committed_digest t; t_yield_digest := after_digest;
               t_committed_blob := t_committed_blob t; t_yield_blob := blob |})
    end.

  (** planner.py:834-854 finalize_terminal_token. *)
  Definition finalize_terminal (t : txn X A T) (tok : token A T) : res (token A T * txn X A T) :=
    guard pl_finished (t_pl t) else RuntimeError ;;
    guard zlist_eqb (tk_after_digest tok) (t_yield_digest t) else RuntimeError ;;
    let b := mark_last (tk_batch tok) in
    after <- snapshot (t_pl t) ;;
    let after_digest := token_digest (tk_before_digest tok) b (tk_after_blob tok) in
    Ok ({| tk_epoch := tk_epoch tok; tk_index := tk_index tok; tk_before_digest := tk_before_digest tok;
           tk_after_digest := after_digest; tk_batch := b; tk_before_state := tk_before_state tok;
           tk_after_state := after; tk_before_blob := tk_before_blob tok; tk_after_blob := tk_after_blob tok |},
        {| t_pl := t_pl t; t_committed_state := t_committed_state t; t_yield_state := after;
           t_committed_digest := t_committed_digest t; t_yield_digest := after_digest;
           t_committed_blob := t_committed_blob t; t_yield_blob := t_yield_blob t |}).

  (** planner.py:875-902: the loop of prepare_commit. *)
  Fixpoint check_tokens (toks : list (token A T)) (epoch batch_no : Z) (digest blob : bytes)
      (expected : option (pstate A T)) : res (bytes * bytes) :=
    match toks with
    | [] => Ok (digest, blob)
    | tok :: rest =>
        guard zlist_eqb (tk_before_digest tok) digest else RuntimeError ;;
        guard (tk_epoch tok =? epoch) && (tk_index tok =? batch_no) else RuntimeError ;;
        guard zlist_eqb (tk_before_blob tok) blob else RuntimeError ;;
        guard negb (is_resumable && negb (opt_state_eqb (tk_before_state tok) expected)) else RuntimeError ;;
        _ <- match comp with
             | Some c => cp_decode c (tk_after_blob tok)
             | None => if nonempty (tk_after_blob tok) then Err RuntimeError else Ok tt
             end ;;
        guard (List.length (tk_after_digest tok) =? 64)%nat else RuntimeError ;;
        check_tokens rest epoch (batch_no + 1) (tk_after_digest tok) (tk_after_blob tok) (tk_after_state tok)
    end.

  (** planner.py:856-926 prepare_commit (without the coordination descriptor). *)
  Definition prepare_commit (t : txn X A T) (toks : list (token A T)) : res (prepared A T) :=
    match toks with
    | [] => Err ValueError
    | tok0 :: _ =>
        let '(epoch, batch_no) := match t_committed_state t with
                                  | Some s => (ps_epoch s, ps_index s)
                                  | None => (tk_epoch tok0, tk_index tok0)
                                  end in
        '(digest, blob) <- check_tokens toks epoch batch_no (t_committed_digest t) (t_committed_blob t)
                             (t_committed_state t) ;;
        Ok {| pr_before_digest := t_committed_digest t; pr_after_digest := digest;
              pr_after_state := tk_after_state (last toks tok0); pr_after_blob := blob;
              pr_count := zlen toks |}
    end.

  (** planner.py:928-936 commit_prepared. *)
  Definition commit_prepared (t : txn X A T) (c : prepared A T) : res (txn X A T) :=
    guard zlist_eqb (pr_before_digest c) (t_committed_digest t) else RuntimeError ;;
    guard negb (is_resumable && match pr_after_state c with None => true | Some _ => false end) else RuntimeError ;;
    Ok {| t_pl := t_pl t;
          t_committed_state := if is_resumable then pr_after_state c else t_committed_state t;
          t_yield_state := t_yield_state t;
          t_committed_digest := pr_after_digest c; t_yield_digest := t_yield_digest t;
          t_committed_blob := pr_after_blob c; t_yield_blob := t_yield_blob t |}.

  (** planner.py:941-953 begin_next_epoch. *)
  Definition begin_next_epoch (t : txn X A T) : res (txn X A T) :=
    guard pl_finished (t_pl t) else RuntimeError ;;
    guard zlist_eqb (t_yield_digest t) (t_committed_digest t) else RuntimeError ;;
    p <- start_epoch fd (pl_epoch (t_pl t) + 1) ;;
    s <- snapshot p ;;
    let d := initial_digest (pl_epoch p) (t_committed_blob t) in
    Ok {| t_pl := p; t_committed_state := s; t_yield_state := s; t_committed_digest := d; t_yield_digest := d;
          t_committed_blob := t_committed_blob t; t_yield_blob := t_committed_blob t |}.

  (** planner.py:955-961 rollback_uncommitted. *)
  Definition rollback (t : txn X A T) : res (txn X A T) :=
    guard is_resumable else RuntimeError ;;
    match t_committed_state t with
    | None => Err RuntimeError   (* unreachable: a resumable source always has one *)
    | Some s =>
        p <- planner_restore fd shape cf s ;;
        Ok {| t_pl := p; t_committed_state := t_committed_state t; t_yield_state := t_committed_state t;
              t_committed_digest := t_committed_digest t; t_yield_digest := t_committed_digest t;
              t_committed_blob := t_committed_blob t; t_yield_blob := t_committed_blob t |}
    end.

  (** planner.py:963-974 state_dict. *)
  Definition state_dict (t : txn X A T) : res (saved A T) :=
    guard is_resumable else RuntimeError ;;
    Ok {| sd_signature := pc_contract cf; sd_cursor := t_committed_state t;
          sd_digest := t_committed_digest t; sd_blob := t_committed_blob t |}.

  (** planner.py:1179-1203 load_state_dict. *)
  Definition load_state_dict (s : saved A T) : res (txn X A T) :=
    guard zlist_eqb (sd_signature s) (pc_contract cf) else RuntimeError ;;
    match sd_cursor s with
    | None => Err RuntimeError
    | Some cur =>
        guard (List.length (sd_digest s) =? 64)%nat else RuntimeError ;;
        _ <- match comp with
             | Some c => cp_decode c (sd_blob s)
             | None => if nonempty (sd_blob s) then Err RuntimeError else Ok tt
             end ;;
        p <- planner_restore fd shape cf cur ;;
        Ok {| t_pl := p; t_committed_state := Some cur; t_yield_state := Some cur;
              t_committed_digest := sd_digest s; t_yield_digest := sd_digest s;
              t_committed_blob := sd_blob s; t_yield_blob := sd_blob s |}
    end.
End Transactions.
