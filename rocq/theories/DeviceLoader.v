(** Model of the loaders that copy batches to a CUDA device while the device computes,
    utils/training_utils.py:340-760: CudaPrefetchLoaderWrapper and StaticSlotLoaderWrapper.

    There are three agents: the main thread, which runs the generator and between two batches
    the training code, and the two streams of the device, which execute what was enqueued, each
    in order, at any time.  A tensor is a location of the device memory, a host tensor is a
    buffer (batch number, index of the tensor in the batch).  The training code launches kernels that read
    the tensors of a batch; what each of them reads is recorded.

    Simplified: one compute stream (torch.cuda.current_stream is the same at every call);
    kernels only read the tensors of the batch; telemetry (timing events, statistics, the audit
    dictionary) is left out; a copy from host memory reads the buffer when the copy stream
    executes it (pinned memory; a pageable copy is earlier, before the host can go on). *)
From Verif Require Import Base.
Set Implicit Arguments.
Unset Strict Implicit.

Section Device.
Variable V : Type.   (* contents of a tensor *)
Variable Ev : Type.  (* names of CUDA events *)

(** A host tensor: batch and index. *)
Definition buffer := (nat * nat)%type.
Definition buffer_eqb (a b : buffer) : bool := ((fst a =? fst b) && (snd a =? snd b))%nat.

Inductive dop :=
| Copy (src : buffer) (dst : nat)      (* device tensor dst := host tensor src *)
| Read (what : buffer) (from : nat)    (* a kernel that was given device tensor [from] as tensor [what] *)
| Rec (e : Ev)                         (* event.record(stream) *)
| WaitE (e : Ev).                      (* stream.wait_event(event) *)

(** What the two streams have executed and have still to execute; the memories; and the
    values that kernels have read. *)
Record dev := {
  copy_done : list dop; copyq : list dop;
  comp_done : list dop; compq : list dop;
  mem : nat -> V; host : buffer -> V;
  reads : list (buffer * V)
}.
(** event.query(): the record has been executed. *)
Definition fired (d : dev) (e : Ev) : Prop := In (Rec e) (copy_done d) \/ In (Rec e) (comp_done d).
Definition put (f : nat -> V) (n : nat) (v : V) : nat -> V := fun m => if (m =? n)%nat then v else f m.
Definition set_buffer (f : buffer -> V) (h : buffer) (v : V) : buffer -> V := fun g => if buffer_eqb g h then v else f g.
Definition exec_mem (d : dev) (o : dop) : nat -> V := match o with Copy h l => put (mem d) l (host d h) | _ => mem d end.
Definition exec_reads (d : dev) (o : dop) : list (buffer * V) :=
  match o with Read w l => reads d ++ [(w, mem d l)] | _ => reads d end.
(** A stream stops at a wait for an event that has not happened. *)
Definition can_run (d : dev) (o : dop) : Prop := match o with WaitE e => fired d e | _ => True end.
Inductive dstep (d : dev) : dev -> Prop :=
| d_copy o rest : copyq d = o :: rest -> can_run d o -> dstep d
    {| copy_done := copy_done d ++ [o]; copyq := rest; comp_done := comp_done d; compq := compq d;
       mem := exec_mem d o; host := host d; reads := exec_reads d o |}
| d_comp o rest : compq d = o :: rest -> can_run d o -> dstep d
    {| copy_done := copy_done d; copyq := copyq d; comp_done := comp_done d ++ [o]; compq := rest;
       mem := exec_mem d o; host := host d; reads := exec_reads d o |}.
(** The main thread enqueues work. *)
Definition enq_copy (d : dev) (l : list dop) : dev :=
  {| copy_done := copy_done d; copyq := copyq d ++ l; comp_done := comp_done d; compq := compq d;
     mem := mem d; host := host d; reads := reads d |}.
Definition enq_comp (d : dev) (l : list dop) : dev :=
  {| copy_done := copy_done d; copyq := copyq d; comp_done := comp_done d; compq := compq d ++ l;
     mem := mem d; host := host d; reads := reads d |}.
Definition with_host (d : dev) (h : buffer -> V) : dev :=
  {| copy_done := copy_done d; copyq := copyq d; comp_done := comp_done d; compq := compq d;
     mem := mem d; host := h; reads := reads d |}.
Definition dev_init (m : nat -> V) (h : buffer -> V) : dev :=
  {| copy_done := []; copyq := []; comp_done := []; compq := []; mem := m; host := h; reads := [] |}.
End Device.
Arguments WaitE {Ev} e. Arguments Rec {Ev} e. Arguments Copy {Ev} src dst. Arguments Read {Ev} what from.

(** ** CudaPrefetchLoaderWrapper, lines 340-631 *)
Section Prefetch.
Variable V : Type.
Variable prefetch_batches : nat.

(** lines 369-375: an integer in [1, 4]. *)
Definition prefetch_new (n : Z) : res nat := guard (1 <=? n) && (n <=? 4) else ValueError ;; Ok (Z.to_nat n).

(** A batch of the source: its tensors, and whether it ends the epoch (_is_terminal_batch, 466-473). *)
Record hbatch := { hb_tensors : list V; hb_terminal : bool }.

(** The copy_end event of a batch (551), and the event the caching allocator records on a
    stream known from record_stream when the tensor is freed. *)
Inductive pevent := CopyEnd (k : nat) | Freed (k : nat).

Inductive pphase :=
| PFill (deliver : option nat)   (* the loops at 583 and 621, before the first batch or before yielding one *)
| PHead                          (* 585 *)
| PRelease                       (* 520-521 *)
| PSync                          (* 522-524 *)
| PPop                           (* 588-620 *)
| PUser                          (* suspended at the yield, 623: the training code runs *)
| PClosing (why : option bool)   (* 626; Some true: the loop ended, Some false: closed, None: an exception *)
| PEnd (why : option bool).

Record pstate := {
  pd : dev V pevent;
  src : list hbatch;           (* what the source would still deliver *)
  taken : list hbatch;         (* what next(source) has returned *)
  exhausted : bool;            (* 510 *)
  pending : list nat;          (* 507, by batch number *)
  retired : list nat;          (* 508 *)
  used : list nat;             (* tensors on which record_stream has been called, by batch *)
  held : list nat;             (* delivered batches that are still referenced *)
  dropped : list nat;          (* delivered batches that are not *)
  blk : buffer -> nat;         (* the device tensor of each tensor *)
  phase : pphase;
  asked : nat;                 (* how often the training code has asked for a batch *)
  nexts : nat;                 (* how often next(source) has been called *)
  delivered : list nat         (* the batches it got *)
}.

Definition pinit (m : nat -> V) (h : buffer -> V) (b : buffer -> nat) (source : list hbatch) : pstate :=
  {| pd := dev_init pevent m h; src := source; taken := []; exhausted := false; pending := []; retired := []; used := [];
     held := []; dropped := []; blk := b; phase := PFill None; asked := 1; nexts := 0; delivered := [] |}.

(** The caching allocator gives memory of the copy stream's pool to the copy stream: memory never
    used, or memory of a freed tensor, but if other streams were recorded for that tensor then only
    after the events recorded on them at that moment. *)
Definition width (st : pstate) (k : nat) : nat := match nth_error (taken st) k with Some b => List.length (hb_tensors b) | None => 0%nat end.
Definition available (st : pstate) (l : nat) : Prop :=
  forall k i, (k < List.length (taken st))%nat -> (i < width st k)%nat -> blk st (k, i) = l ->
  In k (dropped st) /\ (In k (used st) -> fired (pd st) (Freed k)).

Definition buffers (k n : nat) : list buffer := map (fun i => (k, i)) (seq 0 n).
(** value.to(device, non_blocking) for each tensor (_move_batch, 386-458). *)
Definition copies (k : nat) (n : nat) (b : buffer -> nat) : list (dop pevent) := map (fun h => Copy h (b h)) (buffers k n).
Definition host_of (h : buffer -> V) (k : nat) (ts : list V) : buffer -> V :=
  fun g => if (fst g =? k)%nat then nth (snd g) ts (h g) else h g.
Definition set_phase (st : pstate) (p : pphase) : pstate :=
  {| pd := pd st; src := src st; taken := taken st; exhausted := exhausted st; pending := pending st; retired := retired st;
     used := used st; held := held st; dropped := dropped st; blk := blk st; phase := p; asked := asked st; nexts := nexts st; delivered := delivered st |}.

Definition more (st : pstate) : bool := ((List.length (pending st) <? prefetch_batches)%nat && negb (exhausted st))%bool.

Inductive pstep (st : pstate) : pstate -> Prop :=
| p_device d : dstep (pd st) d -> pstep st
    {| pd := d; src := src st; taken := taken st; exhausted := exhausted st; pending := pending st; retired := retired st;
       used := used st; held := held st; dropped := dropped st; blk := blk st; phase := phase st; asked := asked st; nexts := nexts st; delivered := delivered st |}
(** enqueue_one, 526-580: next(source) gives a batch; it is copied to fresh device tensors; the
    copies and the event go to the copy stream. *)
| p_enqueue what b rest bl : phase st = PFill what -> more st = true -> src st = b :: rest ->
    let k := List.length (taken st) in
    let n := List.length (hb_tensors b) in
    (forall g, fst g <> k -> bl g = blk st g) ->
    NoDup (map bl (buffers k n)) -> (forall i, (i < n)%nat -> available st (bl (k, i))) -> pstep st
    {| pd := enq_copy (with_host (pd st) (host_of (host (pd st)) k (hb_tensors b))) (copies k n bl ++ [Rec (CopyEnd k)]);
       src := rest; taken := taken st ++ [b]; exhausted := hb_terminal b; pending := pending st ++ [k]; retired := retired st;
       used := used st; held := held st; dropped := dropped st; blk := bl; phase := PFill what; asked := asked st; nexts := S (nexts st); delivered := delivered st |}
(** enqueue_one: the source has ended (533-535). *)
| p_exhaust what : phase st = PFill what -> more st = true -> src st = [] -> pstep st
    {| pd := pd st; src := src st; taken := taken st; exhausted := true; pending := pending st; retired := retired st;
       used := used st; held := held st; dropped := dropped st; blk := blk st; phase := PFill what; asked := asked st; nexts := S (nexts st); delivered := delivered st |}
(** next(source) or a copy raises. *)
| p_raise what : phase st = PFill what -> more st = true -> pstep st
    {| pd := pd st; src := src st; taken := taken st; exhausted := exhausted st; pending := pending st; retired := retired st;
       used := used st; held := held st; dropped := dropped st; blk := blk st; phase := PClosing None; asked := asked st; nexts := S (nexts st); delivered := delivered st |}
(** 583 is done; 621 is done and the batch is yielded. *)
| p_start : phase st = PFill None -> more st = false -> pstep st (set_phase st PHead)
| p_yield k : phase st = PFill (Some k) -> more st = false -> pstep st
    {| pd := pd st; src := src st; taken := taken st; exhausted := exhausted st; pending := pending st; retired := retired st;
       used := used st; held := held st; dropped := dropped st; blk := blk st; phase := PUser; asked := asked st; nexts := nexts st; delivered := delivered st ++ [k] |}
(** 585. *)
| p_loop : phase st = PHead -> pending st <> [] -> pstep st (set_phase st PRelease)
| p_finish : phase st = PHead -> pending st = [] -> pstep st (set_phase st (PClosing (Some true)))
(** 520-521: query() of the oldest retired batch. *)
| p_release k r : phase st = PRelease -> retired st = k :: r -> fired (pd st) (CopyEnd k) -> pstep st
    {| pd := pd st; src := src st; taken := taken st; exhausted := exhausted st; pending := pending st; retired := r;
       used := used st; held := held st; dropped := dropped st; blk := blk st; phase := PRelease; asked := asked st; nexts := nexts st; delivered := delivered st |}
| p_keep : phase st = PRelease -> match retired st with [] => True | k :: _ => ~ fired (pd st) (CopyEnd k) end ->
    pstep st (set_phase st PSync)
(** 522-524: wait for the oldest one. *)
| p_sync k r : phase st = PSync -> (prefetch_batches + 1 <= List.length (retired st))%nat -> retired st = k :: r ->
    fired (pd st) (CopyEnd k) -> pstep st
    {| pd := pd st; src := src st; taken := taken st; exhausted := exhausted st; pending := pending st; retired := r;
       used := used st; held := held st; dropped := dropped st; blk := blk st; phase := PPop; asked := asked st; nexts := nexts st; delivered := delivered st |}
| p_nosync : phase st = PSync -> (List.length (retired st) < prefetch_batches + 1)%nat -> pstep st (set_phase st PPop)
(** 588-620: the compute stream waits for the copy, its use of the tensors is recorded, the host
    batch is kept with its event. *)
| p_pop k r : phase st = PPop -> pending st = k :: r -> pstep st
    {| pd := enq_comp (pd st) [WaitE (CopyEnd k)];
       src := src st; taken := taken st; exhausted := exhausted st; pending := r; retired := retired st ++ [k];
       used := used st ++ [k]; held := held st ++ [k]; dropped := dropped st; blk := blk st; phase := PFill (Some k);
       asked := asked st; nexts := nexts st; delivered := delivered st |}
(** The training code launches a kernel with a tensor of a batch it holds, *)
| p_launch k i : phase st = PUser -> In k (held st) -> In k (delivered st) -> (i < width st k)%nat -> pstep st
    {| pd := enq_comp (pd st) [Read (k, i) (blk st (k, i))];
       src := src st; taken := taken st; exhausted := exhausted st; pending := pending st; retired := retired st;
       used := used st; held := held st; dropped := dropped st; blk := blk st; phase := phase st; asked := asked st; nexts := nexts st; delivered := delivered st |}
(** lets go of a batch (the allocator records an event on the streams given to record_stream), *)
| p_drop k l1 l2 : phase st = PUser -> held st = l1 ++ k :: l2 -> pstep st
    {| pd := enq_comp (pd st) (if existsb (Nat.eqb k) (used st) then [Rec (Freed k)] else []);
       src := src st; taken := taken st; exhausted := exhausted st; pending := pending st; retired := retired st;
       used := used st; held := l1 ++ l2; dropped := dropped st ++ [k]; blk := blk st; phase := phase st; asked := asked st; nexts := nexts st; delivered := delivered st |}
(** asks for the next batch, or closes the iterator. *)
| p_next : phase st = PUser -> pstep st
    {| pd := pd st; src := src st; taken := taken st; exhausted := exhausted st; pending := pending st; retired := retired st;
       used := used st; held := held st; dropped := dropped st; blk := blk st; phase := PHead; asked := S (asked st); nexts := nexts st; delivered := delivered st |}
| p_close : phase st = PUser -> pstep st (set_phase st (PClosing (Some false)))
(** 476-480: prefetch_stream.synchronize(). *)
| p_end why : phase st = PClosing why -> copyq (pd st) = [] -> pstep st (set_phase st (PEnd why))
(** Host memory that the wrapper no longer refers to is used for something else. *)
| p_scribble k i v : (k < List.length (taken st))%nat -> ~ In k (pending st) -> ~ In k (retired st) -> pstep st
    {| pd := with_host (pd st) (set_buffer (host (pd st)) (k, i) v);
       src := src st; taken := taken st; exhausted := exhausted st; pending := pending st; retired := retired st;
       used := used st; held := held st; dropped := dropped st; blk := blk st; phase := phase st; asked := asked st; nexts := nexts st; delivered := delivered st |}.

Inductive preach (m : nat -> V) (h : buffer -> V) (b : buffer -> nat) (source : list hbatch) : pstate -> Prop :=
| pr_init : preach m h b source (pinit m h b source)
| pr_step st st' : preach m h b source st -> pstep st st' -> preach m h b source st'.
End Prefetch.

(** ** _synchronize_and_close, lines 475-497, and lines 754-758: the exceptions that
    synchronize() and close() raise, if any; whether close() is called, and the exception the caller sees. *)
Definition synchronize_and_close (sync_error close_error : option exn) : bool * option exn :=
  match sync_error with
  | None => (true, close_error)
  | Some e => (true, Some e)
  end.
Definition static_synchronize_and_close (sync_error close_error : option exn) : bool * option exn :=
  match sync_error with
  | None => (true, close_error)
  | Some e => (false, Some e)
  end.

(** ** StaticSlotLoaderWrapper, lines 634-758 *)
Section Static.
Variable V D : Type.               (* contents; shape and dtype *)
Variable schema_eqb : list (nat * D) -> list (nat * D) -> bool.   (* == of the tuples *)

(** A batch: its tensors by name (the mask, if any, is one more tensor: 676-678). *)
Definition sbatch := list (nat * D * V).
Definition schema_of (b : sbatch) : list (nat * D) := map fst b.
Definition names_of (b : sbatch) : list nat := map (fun t => fst (fst t)) b.
Definition value_of (b : sbatch) (name : nat) : option V :=
  match find (fun t => (fst (fst t) =? name)%nat) b with Some t => Some (snd t) | None => None end.

(** read_done events (705-706, 752-753) are numbered; ready (735-736) belongs to a batch. *)
Inductive sevent := ReadDone (n : nat) | Ready (k : nat).
Inductive sphase :=
| SIdle                     (* no iterator *)
| SNext                     (* 711 *)
| SUser (k : nat)           (* suspended at the yield of batch k *)
| SClosing.                 (* 754-758 *)

Record sstate := {
  sd : dev V sevent;
  ssrc : list sbatch;               (* what the source of the current iterator would still deliver *)
  sgiven : list sbatch;             (* the batches read so far, by all iterators *)
  slots : option (list (nat * D));  (* 657-658: _schema, once the slots are built *)
  nrec : nat;                       (* number of read_done events *)
  sphase_ : sphase;
  sraised : bool                    (* a RuntimeError has been raised *)
}.
Definition sinit (m : nat -> V) (h : buffer -> V) : sstate :=
  {| sd := dev_init sevent m h; ssrc := []; sgiven := []; slots := None; nrec := 0; sphase_ := SIdle; sraised := false |}.
(** 731-736: all tensors of batch k are copied to the slots, behind the last read_done. *)
Definition slot_ops (k r : nat) (b : sbatch) : list (dop sevent) :=
  WaitE (ReadDone r) :: map (fun name => Copy (k, name) name) (names_of b) ++ [Rec (Ready k)].
Definition host_slots (h : buffer -> V) (k : nat) (b : sbatch) : buffer -> V :=
  fun g => if (fst g =? k)%nat then match value_of b (snd g) with Some v => v | None => h g end else h g.
Definition matches (st : sstate) (b : sbatch) : bool :=
  match slots st with None => true | Some s => schema_eqb (schema_of b) s end.

Inductive sstep (st : sstate) : sstate -> Prop :=
| s_device d : dstep (sd st) d -> sstep st
    {| sd := d; ssrc := ssrc st; sgiven := sgiven st; slots := slots st; nrec := nrec st; sphase_ := sphase_ st; sraised := sraised st |}
(** 700-706: a new iterator over some source. *)
| s_iter source : sphase_ st = SIdle -> sstep st
    {| sd := enq_comp (sd st) [Rec (ReadDone (nrec st))]; ssrc := source; sgiven := sgiven st; slots := slots st;
       nrec := S (nrec st); sphase_ := SNext; sraised := sraised st |}
(** 711-749: a batch; copies and events. *)
| s_batch b rest : sphase_ st = SNext -> ssrc st = b :: rest -> matches st b = true ->
    let k := List.length (sgiven st) in
    sstep st
    {| sd := enq_comp (enq_copy (with_host (sd st) (host_slots (host (sd st)) k b)) (slot_ops k (nrec st - 1) b)) [WaitE (Ready k)];
       ssrc := rest; sgiven := sgiven st ++ [b]; slots := Some (match slots st with Some s => s | None => schema_of b end);
       nrec := nrec st; sphase_ := SUser k; sraised := sraised st |}
(** 725-729. *)
| s_mismatch b rest : sphase_ st = SNext -> ssrc st = b :: rest -> matches st b = false -> sstep st
    {| sd := sd st; ssrc := rest; sgiven := sgiven st; slots := slots st; nrec := nrec st; sphase_ := SClosing; sraised := true |}
(** 712-713, or the source raises. *)
| s_stop : sphase_ st = SNext -> sstep st
    {| sd := sd st; ssrc := ssrc st; sgiven := sgiven st; slots := slots st; nrec := nrec st; sphase_ := SClosing; sraised := sraised st |}
(** The training code launches a kernel with a tensor of the batch it has just been given, *)
| s_launch k b name : sphase_ st = SUser k -> nth_error (sgiven st) k = Some b -> In name (names_of b) -> sstep st
    {| sd := enq_comp (sd st) [Read (k, name) name]; ssrc := ssrc st; sgiven := sgiven st; slots := slots st; nrec := nrec st;
       sphase_ := SUser k; sraised := sraised st |}
(** asks for the next one (750-753), or closes the iterator. *)
| s_next k : sphase_ st = SUser k -> sstep st
    {| sd := enq_comp (sd st) [Rec (ReadDone (nrec st))]; ssrc := ssrc st; sgiven := sgiven st; slots := slots st;
       nrec := S (nrec st); sphase_ := SNext; sraised := sraised st |}
| s_close k : sphase_ st = SUser k -> sstep st
    {| sd := sd st; ssrc := ssrc st; sgiven := sgiven st; slots := slots st; nrec := nrec st; sphase_ := SClosing; sraised := sraised st |}
(** 755: copy_stream.synchronize(). *)
| s_end : sphase_ st = SClosing -> copyq (sd st) = [] -> sstep st
    {| sd := sd st; ssrc := []; sgiven := sgiven st; slots := slots st; nrec := nrec st; sphase_ := SIdle; sraised := sraised st |}.
Inductive sreach (m : nat -> V) (h : buffer -> V) : sstate -> Prop :=
| sr_init : sreach m h (sinit m h)
| sr_step st st' : sreach m h st -> sstep st st' -> sreach m h st'.
End Static.
