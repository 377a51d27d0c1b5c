(** dataset/telemetry.py 971-994 (_AdjustableConcurrencyGate) and 997-1137
    (ObservedSourceBatchDataset._iter_prefetched): the measured prefetching iterator, whose
    depth, number of workers and decode limit may change while it runs.
    It shares [submit_chunk], [publish] and the control points of Prefetch.v (the code is
    the same up to reading the limits from the tuner).  Left out: the counters.
    Simplifications: a locked block, and the code of the iterator between two of its control
    points, is one step; the tuner is called between steps; futures and thread start-up of
    the executor are its FIFO queue and its number of threads. *)
From Verif Require Import Base Rng Sequential Planner Transactions Prefetch.
Set Implicit Arguments. Unset Strict Implicit.

(** Where a submitted chunk is: in the executor's queue; in a thread that is about to look
    at the gate's counter; in a thread that waits for a notification; being decoded; past
    the gate's [finally] block, its future not yet set; done. *)
Inductive wstat := Queued | AtGate | Waiting | Active | Leaving | Finished.
Definition is_active (w : wstat) : bool := match w with Active => true | _ => false end.
Definition is_busy (w : wstat) : bool := match w with AtGate | Waiting | Active | Leaving => true | _ => false end.
Definition count (f : wstat -> bool) (l : list wstat) : Z := zlen (filter f l).
(** Condition.notify_all *)
Definition notify (l : list wstat) : list wstat := map (fun w => match w with Waiting => AtGate | w => w end) l.

Section Observed.
  Variables X A T O : Type.
  Variable fd : feed X A T.
  Variable shape : A -> Z.
  Variable cf : pconfig.
  Variable is_resumable : bool.
  Variable token_digest : bytes -> batch A -> bytes -> bytes.
  Variable state_eqb : pstate A T -> pstate A T -> bool.
  Variable train early : bool.                       (* planner mode, finalize_in_prefetch *)
  Variable decode_many : list (list A * list bool) -> res (list O).
  Variable finalize_batch : O -> res O.
  Variable fuel : nat.
  Variable slots : Z.                                (* _maximum_prefetch_workers *)

  Notation token := (token A T).
  Notation comp := (@None (composer A O)).
  Definition mkdc (w d : Z) : dconfig := {| dc_workers := w; dc_depth := d; dc_train := train; dc_final_early := early |}.

  (** [o_workers], [o_depth]: active_prefetch_workers and active_prefetch_batches (1037-1046);
      [o_limit]: the gate's limit, if there is a gate (1030-1034); [o_stat]: one entry for
      each chunk of [pf_pending]. *)
  Record obs := { o_p : pref X A T O; o_workers : Z; o_depth : Z; o_limit : option Z; o_stat : list wstat }.
  Definition with_p (s : obs) (p : pref X A T O) (l : list wstat) : obs :=
    {| o_p := p; o_workers := o_workers s; o_depth := o_depth s; o_limit := o_limit s; o_stat := l |}.
  Notation submit s := (submit_chunk fd shape cf is_resumable token_digest (mkdc (o_workers s) (o_depth s)) fuel (o_p s)).
  Notation publish s := (publish is_resumable comp token_digest state_eqb (mkdc (o_workers s) (o_depth s)) finalize_batch (o_p s)).
  Notation run_job s := (run_job (mkdc (o_workers s) (o_depth s)) decode_many finalize_batch).
  Notation more s := ((pf_count (o_p s) <? o_depth s) && negb (pf_exhausted (o_p s))).

  (** The iterator: 1117-1137. *)
  Inductive istep : obs -> list (event A T O) -> obs -> Prop :=
  | os_fill s p' : pf_ctl (o_p s) = PFill A T O -> more s = true ->                    (* 1118-1119, 1136-1137 *)
      p' = (match submit s with Ok p' => p' | Err e => goto (o_p s) (PFailed A T O e) end) ->
      istep s [] (with_p s p' (o_stat s ++ repeat Queued (List.length (pf_pending p') - List.length (pf_pending (o_p s)))))
  | os_filled s : pf_ctl (o_p s) = PFill A T O -> more s = false -> istep s [] (with_p s (goto (o_p s) (PPop A T O)) (o_stat s))
  | os_pop s items r rest : pf_ctl (o_p s) = PPop A T O -> pf_pending (o_p s) = (items, Some r) :: rest ->      (* 1120-1128 *)
      istep s [] (with_p s (goto (with_pending (o_p s) rest)
        match r with
        | Ok ds => if (List.length ds =? List.length items)%nat then PServe (combine items ds) else PFailed A T O RuntimeError
        | Err e => PFailed A T O e
        end) (tl (o_stat s)))
  | os_end s : pf_ctl (o_p s) = PPop A T O -> pf_pending (o_p s) = [] -> istep s [] (with_p s (goto (o_p s) (PDone A T O)) (o_stat s))
  | os_yield s tok d rest e p' : pf_ctl (o_p s) = PServe ((tok, d) :: rest) -> publish s tok d rest = Ok (e, p') ->  (* 1129-1133 *)
      istep s [e] (with_p s p' (o_stat s))
  | os_yield_err s tok d rest e : pf_ctl (o_p s) = PServe ((tok, d) :: rest) -> publish s tok d rest = Err e ->
      istep s [] (with_p s (goto (o_p s) (PFailed A T O e)) (o_stat s))
  | os_served s : pf_ctl (o_p s) = PServe [] ->                                        (* 1134-1135: set_limit *)
      istep s [] {| o_p := goto (o_p s) (PFill A T O); o_workers := o_workers s; o_depth := o_depth s;
                    o_limit := option_map (fun _ => o_workers s) (o_limit s);
                    o_stat := match o_limit s with Some _ => notify (o_stat s) | None => o_stat s end |}.

  (** The decode threads: 984-994 and 1072-1075. *)
  Inductive wstep : obs -> obs -> Prop :=
  | ow_start s a b : o_stat s = a ++ Queued :: b -> ~ In Queued a -> count is_busy (o_stat s) < slots ->
      wstep s (with_p s (o_p s) (a ++ AtGate :: b))
  | ow_wait s a b l : o_stat s = a ++ AtGate :: b -> o_limit s = Some l -> l <= count is_active (o_stat s) ->       (* 986-987 *)
      wstep s (with_p s (o_p s) (a ++ Waiting :: b))
  | ow_enter s a b : o_stat s = a ++ AtGate :: b -> match o_limit s with Some l => count is_active (o_stat s) < l | None => True end -> (* 988 *)
      wstep s (with_p s (o_p s) (a ++ Active :: b))
  | ow_leave s a b : o_stat s = a ++ Active :: b -> wstep s (with_p s (o_p s) (notify (a ++ Leaving :: b)))          (* 989-994 *)
  | ow_done s a b pa items pb : o_stat s = a ++ Leaving :: b -> pf_pending (o_p s) = pa ++ (items, None) :: pb -> List.length pa = List.length a ->
      wstep s (with_p s (with_pending (o_p s) (pa ++ (items, Some (run_job s items)) :: pb)) (a ++ Finished :: b)).

  (** The consumer: it commits what it got, or the tuner changes the parameters (1156-1174). *)
  Inductive cstep : obs -> list (event A T O) -> obs -> Prop :=
  | oc_commit s n t' : train = true -> commit_all is_resumable comp state_eqb (pf_t (o_p s)) (firstn n (pf_open (o_p s))) = Ok t' ->
      cstep s [Committed A T O n] (with_p s
        {| pf_t := t'; pf_gen := pf_gen (o_p s); pf_pending := pf_pending (o_p s); pf_count := pf_count (o_p s);
           pf_exhausted := pf_exhausted (o_p s); pf_ctl := pf_ctl (o_p s); pf_open := skipn n (pf_open (o_p s)) |} (o_stat s))
  | oc_tune s w d : o_limit s <> None -> 1 <= w -> 1 <= d ->
      cstep s [] {| o_p := o_p s; o_workers := w; o_depth := d; o_limit := Some w; o_stat := notify (o_stat s) |}.

  Inductive ostep : obs -> list (event A T O) -> obs -> Prop :=
  | o_iter s es s' : istep s es s' -> ostep s es s'
  | o_work s s' : wstep s s' -> ostep s [] s'
  | o_user s es s' : cstep s es s' -> ostep s es s'.
  Inductive oruns : obs -> list (event A T O) -> obs -> Prop :=
  | or_nil s : oruns s [] s
  | or_snoc s es s1 es1 s2 : oruns s es s1 -> ostep s1 es1 s2 -> oruns s (es ++ es1) s2.
  (** [tuned]: there is a tuner, and with it a gate. *)
  Definition obs_init (t : txn X A T) (tuned : bool) (w d : Z) : obs :=
    {| o_p := pref_init O t; o_workers := w; o_depth := d; o_limit := if tuned then Some w else None; o_stat := [] |}.
End Observed.
