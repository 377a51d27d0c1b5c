(** Model of utils/async_checkpoint.py: AsyncCheckpointWriter and _stage_tree.

    Three things run at once: the main thread (calls to submit and flush, and in between the
    training code, which launches kernels on the compute stream and changes CPU tensors),
    the writer thread, and the device, which executes the compute stream and the copy stream,
    each in order, waiting on events.  A tensor is identified by the object that callers
    hold (loc); its value is whatever a kernel or the host last stored.  A finaliser is
    called with an object and either commits one file with the object's content or raises
    (the outcome is arbitrary); the same goes for the post hook.

    Simplified: kernels write one tensor each and read tensors of the device only; the host
    sets CPU tensors; the memory of staged tensors is never reused (the caching allocator
    orders reuse on the copy stream); KeyboardInterrupt during join and exceptions of
    _stage_tree other than the out-of-memory error are not modelled; staging sees plain dicts,
    lists and tuples; [payloads] is a list, as in the only caller
    (trainer/base.py:2117-2147); for other iterables see Prop_AsyncWriter.v. *)
From Verif Require Import Base.
Set Implicit Arguments.
Unset Strict Implicit.

Section Writer.
Variables V K O : Type.        (* tensor values, dictionary keys, other Python objects *)

(** Nested structures with leaves in L. *)
Inductive tree (L : Type) : Type :=
| Leaf (l : L)
| Dict (items : list (K * tree L))
| Seq (tuple : bool) (items : list (tree L))
| Other (o : O).
Fixpoint tree_map (L M : Type) (f : L -> M) (t : tree L) : tree M :=
  match t with
  | Leaf l => Leaf (f l)
  | Dict items => Dict (map (fun kv => (fst kv, tree_map f (snd kv))) items)
  | Seq b items => Seq b (map (tree_map f) items)
  | Other _ o => Other M o
  end.
Fixpoint leaves (L : Type) (t : tree L) : list L :=
  match t with
  | Leaf l => [l]
  | Dict items => flat_map (fun kv => leaves (snd kv)) items
  | Seq _ items => flat_map (@leaves L) items
  | Other _ _ => []
  end.

(** A tensor: on the device or on the CPU. *)
Inductive loc := Gpu (n : nat) | Cpu (n : nat).
Definition loc_eqb (a b : loc) : bool :=
  match a, b with Gpu n, Gpu m | Cpu n, Cpu m => (n =? m)%nat | _, _ => false end.
Record store := { gpu : nat -> V; cpu : nat -> V }.
Definition value (s : store) (l : loc) : V := match l with Gpu n => gpu s n | Cpu n => cpu s n end.
Definition put (f : nat -> V) (n : nat) (v : V) : nat -> V := fun m => if (m =? n)%nat then v else f m.

(** ** _stage_tree, lines 36-59 *)
(** The memo maps a tensor to its staged copy; staged copies are numbered. *)
Definition memo := list (loc * nat).
Fixpoint memo_get (m : memo) (l : loc) : option nat :=
  match m with [] => None | (l1, n) :: r => if loc_eqb l l1 then Some n else memo_get r l end.
Definition like (l : loc) (n : nat) : loc := match l with Gpu _ => Gpu n | Cpu _ => Cpu n end.
Definition stage_leaf (l : loc) (st : memo * nat) : loc * (memo * nat) :=
  let '(m, next) := st in
  match memo_get m l with
  | Some n => (like l n, (m, next))
  | None => (like l next, ((l, next) :: m, S next))
  end.
Fixpoint stage_tree (t : tree loc) (st : memo * nat) : tree loc * (memo * nat) :=
  match t with
  | Leaf l => let '(l', st) := stage_leaf l st in (Leaf l', st)
  | Dict items =>
      let '(items, st) :=
        (fix go (items : list (K * tree loc)) st := match items with
           | [] => ([], st)
           | (k, x) :: r => let '(x, st) := stage_tree x st in let '(r, st) := go r st in ((k, x) :: r, st)
           end) items st in
      (Dict items, st)
  | Seq b items =>
      let '(items, st) :=
        (fix go (items : list (tree loc)) st := match items with
           | [] => ([], st)
           | x :: r => let '(x, st) := stage_tree x st in let '(r, st) := go r st in (x :: r, st)
           end) items st in
      (Seq b items, st)
  | Other _ o => (Other loc o, st)
  end.
(** Lines 116-119: one memo for all payloads. *)
Fixpoint stage_all (ps : list (tree loc)) (st : memo * nat) : list (tree loc) * (memo * nat) :=
  match ps with
  | [] => ([], st)
  | p :: r => let '(p, st) := stage_tree p st in let '(r, st) := stage_all r st in (p :: r, st)
  end.

(** ** The device *)
Inductive dop :=
| Kernel (n : nat) (f : (nat -> V) -> V)     (* compute work writing tensor n *)
| Copy (src dst : nat)                       (* staged.copy_(obj, non_blocking=True) *)
| Record_ (e : nat)                          (* event.record(stream) *)
| Wait (e : nat).                            (* stream.wait_event(event) *)

(** ** What happens, in order *)
Inductive event :=
| EKernel (n : nat) (f : (nat -> V) -> V)    (* the main thread launches a kernel *)
| EHost (n : nat) (v : V)                    (* the main thread sets a CPU tensor *)
| ESubmit (j : nat) (ps : list (tree loc)) (hook : bool)  (* submit accepts its j-th set of payloads *)
| ECommit (j i : nat) (c : tree V)           (* the i-th finaliser of submission j commits this content *)
| EFail (j : nat)                            (* a finaliser or the post hook of submission j raises *)
| EHook (j : nat)                            (* the post hook of submission j completes *)
| EDone (j : nat)                            (* submission j is complete *)
| ERaise                                     (* submit or flush raises to the caller *)
| EFlushed.                                  (* flush returns *)

(** The writer thread: lines 152-161. *)
Inductive writer := Running (snapshot_done j i : nat) (rest : list (tree loc)) (hook : bool) | Finished.
(** The main thread: running the training loop, joining (lines 78-81), waiting for the
    copy stream (line 125), or writing synchronously (102-110, 128-132). *)
Inductive call := CFlush | CSubmit (ps : list (tree loc)) (hook sync : bool) (oom : option nat).
Inductive mainth :=
| Idle
| Joining (c : call)
| Draining (j : nat) (ps : list (tree loc)) (hook : bool)
| Sync (j i : nat) (rest : list (tree loc)) (hook : bool).

Record state := {
  live : store;                       (* tensors of the training code *)
  staged : store;                     (* staged copies *)
  next_staged : nat; next_event : nat; jobs : nat;
  compute : list dop; copyq : list dop; fired : list nat;
  thread : option writer; error : bool; disabled : bool; main : mainth;
  log : list event
}.
Definition init (s0 s1 : store) : state :=
  {| live := s0; staged := s1; next_staged := 0; next_event := 0; jobs := 0; compute := []; copyq := []; fired := [];
     thread := None; error := false; disabled := false; main := Idle; log := [] |}.

Definition set_main st m ev := {| live := live st; staged := staged st; next_staged := next_staged st; next_event := next_event st;
  jobs := jobs st; compute := compute st; copyq := copyq st; fired := fired st; thread := thread st; error := error st;
  disabled := disabled st; main := m; log := log st ++ ev |}.

(** The device executes the head of a stream. *)
Definition exec (st : state) (o : dop) : option (store * store * list nat) :=
  match o with
  | Kernel n f => Some ({| gpu := put (gpu (live st)) n (f (gpu (live st))); cpu := cpu (live st) |}, staged st, fired st)
  | Copy a b => Some (live st, {| gpu := put (gpu (staged st)) b (gpu (live st) a); cpu := cpu (staged st) |}, fired st)
  | Record_ e => Some (live st, staged st, e :: fired st)
  | Wait e => if existsb (Nat.eqb e) (fired st) then Some (live st, staged st, fired st) else None
  end.

(** Submit after flush returned (lines 102-150).  [sync] is the environment variable or a
    device without CUDA; [oom] is the number of tensors staged before memory runs out. *)
Definition gpu_copies (m : memo) : list dop := flat_map (fun e => match fst e with Gpu a => [Copy a (snd e)] | Cpu _ => [] end) (rev m).
Definition cpu_copies (m : memo) (live : nat -> V) (s : nat -> V) : nat -> V :=
  fold_left (fun s e => match fst e with Cpu a => put s (snd e) (live a) | Gpu _ => s end) (rev m) s.
Definition accept (st : state) (ps : list (tree loc)) (hook sync : bool) (oom : option nat) : state :=
  let j := jobs st in
  let log' := log st ++ [ESubmit j ps hook] in
  if disabled st || sync then
    {| live := live st; staged := staged st; next_staged := next_staged st; next_event := next_event st; jobs := S j;
       compute := compute st; copyq := copyq st; fired := fired st; thread := None; error := false;
       disabled := disabled st; main := Sync j 0 ps hook; log := log' |}
  else
    let e := next_event st in
    let '(staged_ps, (m, next)) := stage_all ps ([], next_staged st) in
    match oom with
    | Some k =>
        let m := skipn (List.length m - k) m in   (* the memo is built in reverse *)
        {| live := live st; staged := {| gpu := gpu (staged st); cpu := cpu_copies m (cpu (live st)) (cpu (staged st)) |};
           next_staged := next; next_event := S e; jobs := S j;
           compute := compute st ++ [Record_ e]; copyq := copyq st ++ Wait e :: gpu_copies m;
           fired := fired st; thread := None; error := false; disabled := false; main := Draining j ps hook; log := log' |}
    | None =>
        {| live := live st; staged := {| gpu := gpu (staged st); cpu := cpu_copies m (cpu (live st)) (cpu (staged st)) |};
           next_staged := next; next_event := S (S e); jobs := S j;
           compute := compute st ++ [Record_ e; Wait (S e)]; copyq := copyq st ++ Wait e :: gpu_copies m ++ [Record_ (S e)];
           fired := fired st; thread := Some (Running (S e) j 0 staged_ps hook); error := false; disabled := false;
           main := Idle; log := log' |}
    end.

Definition is_gpu (l : loc) : bool := match l with Gpu _ => true | Cpu _ => false end.
Definition on_device (t : tree loc) : bool := existsb is_gpu (leaves t).

Inductive step (st : state) : state -> Prop :=
(** The training code. *)
| s_kernel n f : main st = Idle -> step st
    {| live := live st; staged := staged st; next_staged := next_staged st; next_event := next_event st; jobs := jobs st;
       compute := compute st ++ [Kernel n f]; copyq := copyq st; fired := fired st; thread := thread st; error := error st;
       disabled := disabled st; main := Idle; log := log st ++ [EKernel n f] |}
| s_host n v : main st = Idle -> step st
    {| live := {| gpu := gpu (live st); cpu := put (cpu (live st)) n v |}; staged := staged st;
       next_staged := next_staged st; next_event := next_event st; jobs := jobs st;
       compute := compute st; copyq := copyq st; fired := fired st; thread := thread st; error := error st;
       disabled := disabled st; main := Idle; log := log st ++ [EHost n v] |}
| s_call c : main st = Idle -> step st (set_main st (Joining c) [])
(** flush: lines 75-84. *)
| s_raise c : main st = Joining c -> thread st = None \/ thread st = Some Finished -> error st = true -> step st
    {| live := live st; staged := staged st; next_staged := next_staged st; next_event := next_event st; jobs := jobs st;
       compute := compute st; copyq := copyq st; fired := fired st; thread := None; error := false;
       disabled := disabled st; main := Idle; log := log st ++ [ERaise] |}
| s_flushed : main st = Joining CFlush -> thread st = None \/ thread st = Some Finished -> error st = false -> step st
    {| live := live st; staged := staged st; next_staged := next_staged st; next_event := next_event st; jobs := jobs st;
       compute := compute st; copyq := copyq st; fired := fired st; thread := None; error := false;
       disabled := disabled st; main := Idle; log := log st ++ [EFlushed] |}
| s_accept ps hook sync oom : main st = Joining (CSubmit ps hook sync oom) -> thread st = None \/ thread st = Some Finished ->
    error st = false -> step st (accept st ps hook sync oom)
(** The synchronous paths: reading a device tensor waits for the compute stream. *)
| s_drained j ps hook : main st = Draining j ps hook -> copyq st = [] -> step st
    {| live := live st; staged := staged st; next_staged := next_staged st; next_event := next_event st; jobs := jobs st;
       compute := compute st; copyq := copyq st; fired := fired st; thread := thread st; error := error st;
       disabled := true; main := Sync j 0 ps hook; log := log st |}
| s_sync_commit j i p rest hook : main st = Sync j i (p :: rest) hook -> (on_device p = true -> compute st = []) ->
    step st (set_main st (Sync j (S i) rest hook) [ECommit j i (tree_map (value (live st)) p)])
| s_sync_fail j i rest hook : main st = Sync j i rest hook -> rest <> [] \/ hook = true ->
    step st (set_main st Idle [EFail j; ERaise])
| s_sync_done j i hook : main st = Sync j i [] hook ->
    step st (set_main st Idle ((if hook then [EHook j] else []) ++ [EDone j]))
(** The writer thread. *)
| s_commit e j i p rest hook : thread st = Some (Running e j i (p :: rest) hook) -> In e (fired st) -> step st
    {| live := live st; staged := staged st; next_staged := next_staged st; next_event := next_event st; jobs := jobs st;
       compute := compute st; copyq := copyq st; fired := fired st; thread := Some (Running e j (S i) rest hook); error := error st;
       disabled := disabled st; main := main st; log := log st ++ [ECommit j i (tree_map (value (staged st)) p)] |}
| s_fail e j i rest hook : thread st = Some (Running e j i rest hook) -> In e (fired st) -> rest <> [] \/ hook = true -> step st
    {| live := live st; staged := staged st; next_staged := next_staged st; next_event := next_event st; jobs := jobs st;
       compute := compute st; copyq := copyq st; fired := fired st; thread := Some Finished; error := true;
       disabled := disabled st; main := main st; log := log st ++ [EFail j] |}
| s_done e j i hook : thread st = Some (Running e j i [] hook) -> In e (fired st) -> step st
    {| live := live st; staged := staged st; next_staged := next_staged st; next_event := next_event st; jobs := jobs st;
       compute := compute st; copyq := copyq st; fired := fired st; thread := Some Finished; error := error st;
       disabled := disabled st; main := main st; log := log st ++ (if hook then [EHook j] else []) ++ [EDone j] |}
(** The device. *)
| s_compute o rest l s f : compute st = o :: rest -> exec st o = Some (l, s, f) -> step st
    {| live := l; staged := s; next_staged := next_staged st; next_event := next_event st; jobs := jobs st;
       compute := rest; copyq := copyq st; fired := f; thread := thread st; error := error st;
       disabled := disabled st; main := main st; log := log st |}
| s_copy o rest l s f : copyq st = o :: rest -> exec st o = Some (l, s, f) -> step st
    {| live := l; staged := s; next_staged := next_staged st; next_event := next_event st; jobs := jobs st;
       compute := compute st; copyq := rest; fired := f; thread := thread st; error := error st;
       disabled := disabled st; main := main st; log := log st |}.

Inductive reachable (s0 s1 : store) : state -> Prop :=
| r_init : reachable s0 s1 (init s0 s1)
| r_step st st' : reachable s0 s1 st -> step st st' -> reachable s0 s1 st'.

End Writer.
Arguments Leaf {K O L} l.
Arguments Dict {K O L} items.
Arguments Seq {K O L} tuple items.
