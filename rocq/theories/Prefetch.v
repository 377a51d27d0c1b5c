(** Model of dataset/source_dataset.py:47-295, SourceBatchDataset: the synchronous
    iterator and the prefetching iterator over the transactional planner of
    Transactions.v.
    Simplifications: decoding a batch (lines 91-142) is a function of what
    local_slice reads, the items and the mask; sample keys are part of the decoded
    value; the thread pool completes submitted jobs in any order at any time; an
    iterator that raises is not described further (see __iter__, lines 278-295, in
    the comment of [session]). *)
From Verif Require Import Base Rng Sequential Planner Transactions.
Set Implicit Arguments.
Unset Strict Implicit.

(** lines 60-89: constructor arguments. *)
Record dconfig := {
  dc_workers : Z;          (* prefetch_workers *)
  dc_depth : Z;            (* prefetch_batches *)
  dc_train : bool;         (* planner.runtime_context.mode == "train" *)
  dc_final_early : bool    (* finalize_in_prefetch *)
}.

(** lines 63-66. *)
Definition dconfig_check (d : dconfig) : res unit :=
  guard 0 <=? dc_workers d else ValueError ;;
  guard 0 <? dc_depth d else ValueError ;;
  Ok tt.

(** lines 232-235. *)
Definition chunk_size (d : dconfig) : Z := Z.max 1 (dc_depth d / Z.max 2 (dc_workers d)).

Inductive event (A T O : Type) :=
| Yielded (tok : token A T) (out : O)     (* a BatchEnvelope handed to the consumer *)
| Committed (n : nat).                    (* the consumer commits its first n open tokens *)

Section Dataset.
  Variables X A T O : Type.
  Variable fd : feed X A T.
  Variable shape : A -> Z.
  Variable cf : pconfig.
  Variable is_resumable : bool.
  Variable comp : option (composer A O).
  Variable token_digest : bytes -> batch A -> bytes -> bytes.
  Variable state_eqb : pstate A T -> pstate A T -> bool.
  Variable dc : dconfig.
  Variable decode : list A -> list bool -> res O.                          (* _decode_batch, 91-98 *)
  Variable decode_many : list (list A * list bool) -> res (list O).        (* _decode_batches up to 141 *)
  Variable finalize_batch : O -> res O.                                    (* constructor argument *)
  Variable fuel : nat.

  Notation txn := (txn X A T).
  Notation token := (token A T).
  Notation next := (next_transactional fd shape cf is_resumable token_digest fuel).
  Notation terminal := (finalize_terminal fd cf is_resumable token_digest).

  Definition slice (tok : token) : list A * list bool := (b_items (tk_batch tok), b_real (tk_batch tok)).

  (** planner.commit_batch, planner.py:938-939. *)
  Definition commit_all (t : txn) (toks : list token) : res txn :=
    c <- prepare_commit is_resumable comp state_eqb t toks ;;
    commit_prepared is_resumable t c.

  (** ** The synchronous iterator, lines 199-225 *)
  Inductive sctl := SStart | SNext (tok : token) | SEnd.
  Record sync := { sy_t : txn; sy_ctl : sctl; sy_open : list token }.

  (** lines 207-225: one round, up to the yield. *)
  Definition sync_serve (t : txn) (tok : token) (opened : list token) : res (event A T O * sync) :=
    decoded <- decode (fst (slice tok)) (snd (slice tok)) ;;
    data <- finalize_batch decoded ;;
    '(out, tok1, t1) <- prepare_pipeline comp token_digest t tok data ;;
    '(following, tok2, t2) <-
      (if b_last (tk_batch tok1) then Ok (None, tok1, t1)
       else '(f, t2) <- next t1 ;;
            match f with
            | None => '(tok2, t3) <- terminal t2 tok1 ;; Ok (None, tok2, t3)
            | Some _ => Ok (f, tok1, t2)
            end) ;;
    t3 <- (if dc_train dc then Ok t2 else commit_all t2 [tok2]) ;;
    Ok (Yielded tok2 out,
        {| sy_t := t3;
           sy_ctl := if b_last (tk_batch tok2) then SEnd
                     else match following with Some f => SNext f | None => SEnd end;
           sy_open := if dc_train dc then opened ++ [tok2] else opened |}).

  (** lines 200-206 and 225: the next yield. *)
  Definition sync_next (s : sync) : res (event A T O * sync) :=
    match sy_ctl s with
    | SStart =>
        '(cur, t) <- next (sy_t s) ;;
        match cur with
        | None => Err RuntimeError
        | Some tok => sync_serve t tok (sy_open s)
        end
    | SNext tok => sync_serve (sy_t s) tok (sy_open s)
    | SEnd => Err StopIteration
    end.

  Inductive sstep : sync -> event A T O -> sync -> Prop :=
  | ss_yield s e s' : sync_next s = Ok (e, s') -> sstep s e s'
  | ss_commit s n t' : dc_train dc = true -> commit_all (sy_t s) (firstn n (sy_open s)) = Ok t' ->
      sstep s (Committed A T O n) {| sy_t := t'; sy_ctl := sy_ctl s; sy_open := skipn n (sy_open s) |}.
  Inductive sruns : sync -> list (event A T O) -> sync -> Prop :=
  | sr_nil s : sruns s [] s
  | sr_cons s e s1 es s2 : sstep s e s1 -> sruns s1 es s2 -> sruns s (e :: es) s2.
  Definition sync_init (t : txn) : sync := {| sy_t := t; sy_ctl := SStart; sy_open := [] |}.

  (** ** The prefetching iterator, lines 164-182 and 227-276 *)
  Inductive gctl := GStart | GHave (tok : token) | GEnd.

  (** lines 172-180: look one batch ahead, then yield. *)
  Definition gen_emit (tok : token) (t : txn) : res (token * gctl * txn) :=
    if b_last (tk_batch tok) then Ok (tok, GEnd, t)
    else '(f, t1) <- next t ;;
         match f with
         | None => '(tok1, t2) <- terminal t1 tok ;; Ok (tok1, GEnd, t2)
         | Some f => Ok (tok, GHave f, t1)
         end.

  (** next(planned), lines 165-182; None is StopIteration. *)
  Definition gen_next (g : gctl) (t : txn) : res (option token * gctl * txn) :=
    match g with
    | GStart =>
        '(cur, t1) <- next t ;;
        match cur with
        | None => Err RuntimeError
        | Some tok => '(tok1, g1, t2) <- gen_emit tok t1 ;; Ok (Some tok1, g1, t2)
        end
    | GHave tok => '(tok1, g1, t2) <- gen_emit tok t ;; Ok (Some tok1, g1, t2)
    | GEnd => Ok (None, GEnd, t)
    end.

  (** lines 243-248: take up to [n] planned batches; true when the end was met. *)
  Fixpoint take_planned (n : nat) (g : gctl) (t : txn) : res (list token * bool * gctl * txn) :=
    match n with
    | 0%nat => Ok ([], false, g, t)
    | S n1 =>
        '(o, g1, t1) <- gen_next g t ;;
        match o with
        | None => Ok ([], true, g1, t1)
        | Some tok => '(toks, ex, g2, t2) <- take_planned n1 g1 t1 ;; Ok (tok :: toks, ex, g2, t2)
        end
    end.

  Definition job := option (res (list O)).      (* the future: None while it is not done *)
  Inductive pctl :=
  | PFill                                   (* at lines 265 and 275 *)
  | PPop                                    (* at line 267 *)
  | PServe (l : list (token * O))           (* in the loop of lines 272-274 *)
  | PDone
  | PFailed (e : exn).
  Record pref := {
    pf_t : txn; pf_gen : gctl; pf_pending : list (list token * job); pf_count : Z;
    pf_exhausted : bool; pf_ctl : pctl; pf_open : list token
  }.

  (** lines 105-150, in a worker. *)
  Definition run_job (items : list token) : res (list O) :=
    ds <- decode_many (map slice items) ;;
    if dc_final_early dc then mapM finalize_batch ds else Ok ds.

  (** lines 237-260. *)
  Definition submit_chunk (s : pref) : res pref :=
    if pf_exhausted s || (dc_depth dc <=? pf_count s) then Ok s
    else
      let capacity := dc_depth dc - pf_count s in
      '(items, ex, g, t) <- take_planned (Z.to_nat (Z.min (chunk_size dc) capacity)) (pf_gen s) (pf_t s) ;;
      match items with
      | [] => Ok {| pf_t := t; pf_gen := g; pf_pending := pf_pending s; pf_count := pf_count s;
                    pf_exhausted := ex; pf_ctl := pf_ctl s; pf_open := pf_open s |}
      | _ => Ok {| pf_t := t; pf_gen := g; pf_pending := pf_pending s ++ [(items, None)];
                   pf_count := pf_count s + zlen items; pf_exhausted := ex; pf_ctl := pf_ctl s; pf_open := pf_open s |}
      end.

  (** lines 184-197 _publish (with _finalize, 152-162). *)
  Definition publish (s : pref) (tok : token) (decoded : O) (rest : list (token * O)) : res (event A T O * pref) :=
    data <- (if dc_final_early dc then Ok decoded else finalize_batch decoded) ;;
    '(out, tok1, t1) <- prepare_pipeline comp token_digest (pf_t s) tok data ;;
    t2 <- (if dc_train dc then Ok t1 else commit_all t1 [tok1]) ;;
    Ok (Yielded tok1 out,
        {| pf_t := t2; pf_gen := pf_gen s; pf_pending := pf_pending s; pf_count := pf_count s - 1;
           pf_exhausted := pf_exhausted s; pf_ctl := PServe rest;
           pf_open := if dc_train dc then pf_open s ++ [tok1] else pf_open s |}).

  Definition goto (s : pref) (c : pctl) : pref :=
    {| pf_t := pf_t s; pf_gen := pf_gen s; pf_pending := pf_pending s; pf_count := pf_count s;
       pf_exhausted := pf_exhausted s; pf_ctl := c; pf_open := pf_open s |}.
  Definition with_pending (s : pref) (l : list (list token * job)) : pref :=
    {| pf_t := pf_t s; pf_gen := pf_gen s; pf_pending := l; pf_count := pf_count s;
       pf_exhausted := pf_exhausted s; pf_ctl := pf_ctl s; pf_open := pf_open s |}.

  (** The iterator, its workers and its consumer, one step at a time. *)
  Inductive pstep : pref -> list (event A T O) -> pref -> Prop :=
  | ps_fill s : pf_ctl s = PFill -> (pf_count s <? dc_depth dc) && negb (pf_exhausted s) = true ->
      pstep s [] (match submit_chunk s with Ok s' => s' | Err e => goto s (PFailed e) end)      (* 265-266, 275-276 *)
  | ps_filled s : pf_ctl s = PFill -> (pf_count s <? dc_depth dc) && negb (pf_exhausted s) = false ->
      pstep s [] (goto s PPop)
  | ps_work s before items after : pf_pending s = before ++ (items, None) :: after ->
      pstep s [] (with_pending s (before ++ (items, Some (run_job items)) :: after))
  | ps_pop s items r rest : pf_ctl s = PPop -> pf_pending s = (items, Some r) :: rest ->                 (* 268-272 *)
      pstep s [] (goto (with_pending s rest)
        match r with
        | Ok ds => if (List.length ds =? List.length items)%nat then PServe (combine items ds) else PFailed RuntimeError
        | Err e => PFailed e
        end)
  | ps_end s : pf_ctl s = PPop -> pf_pending s = [] -> pstep s [] (goto s PDone)
  | ps_yield s tok d rest e s' : pf_ctl s = PServe ((tok, d) :: rest) -> publish s tok d rest = Ok (e, s') ->
      pstep s [e] s'
  | ps_yield_err s tok d rest e : pf_ctl s = PServe ((tok, d) :: rest) -> publish s tok d rest = Err e ->
      pstep s [] (goto s (PFailed e))
  | ps_served s : pf_ctl s = PServe [] -> pstep s [] (goto s PFill)
  | ps_commit s n t' : dc_train dc = true -> commit_all (pf_t s) (firstn n (pf_open s)) = Ok t' ->
      pstep s [Committed A T O n]
        {| pf_t := t'; pf_gen := pf_gen s; pf_pending := pf_pending s; pf_count := pf_count s;
           pf_exhausted := pf_exhausted s; pf_ctl := pf_ctl s; pf_open := skipn n (pf_open s) |}.
  Inductive pruns : pref -> list (event A T O) -> pref -> Prop :=
  | pr_nil s : pruns s [] s
  | pr_snoc s es s1 es1 s2 : pruns s es s1 -> pstep s1 es1 s2 -> pruns s (es ++ es1) s2.
  Definition pref_init (t : txn) : pref :=
    {| pf_t := t; pf_gen := GStart; pf_pending := []; pf_count := 0; pf_exhausted := false; pf_ctl := PFill; pf_open := [] |}.
End Dataset.
