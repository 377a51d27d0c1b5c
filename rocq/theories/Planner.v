(** Model of dataset/planner.py: DatasetPlanner (lines 120-770): batch planning,
    state capture and restore.
    The planner is written over a [feed]: the source cursor together with the
    shuffle reservoir.  PlannerFeed.v gives the two feeds of the code (object
    envelopes with StreamingShuffleReservoir, packed ids with
    PackedUInt64ShuffleReservoir).
    Simplifications: an exception is a result and the half-updated object is not
    modelled (the dataset layer rolls back after an exception); the packed ready
    buffer is a list (C05_ready_buffer_is_fifo proves that it behaves as one);
    schema, algorithm, manifest digest and configuration of a saved state are one
    byte string that is compared as a whole. *)
From Verif Require Import Base Rng Sequential.
Set Implicit Arguments.
Unset Strict Implicit.

(** [X]: cursor and reservoir; [A]: planned items; [T]: saved cursor and reservoir. *)
Record feed (X A T : Type) := {
  (* source.start_epoch (cycle 0) / start_cycle, and _new_reservoir *)
  fd_start : Z -> Z -> res X;
  (* one round of the loops of _refill_ready / _refill_packed_ready: what is put
     on the ready queue, and whether the source was found exhausted *)
  fd_pull : X -> res (list A * bool * X);
  (* self._reservoir.stats.offered *)
  fd_offered : X -> Z;
  (* if not self._reservoir.closed: self._reservoir.drain() *)
  fd_drain : X -> res X;
  (* source.save_cursor and reservoir.state() *)
  fd_save : X -> res T;
  (* state.reservoir.closed *)
  fd_closed : T -> bool;
  (* source.restore_cursor, _new_reservoir(cycle), reservoir.restore *)
  fd_restore : Z -> Z -> T -> res X
}.

(** PlannedEnvelopeBatch, planner.py:58-64. *)
Record batch (A : Type) := {
  b_items : list A;
  b_real : list bool;
  b_epoch : Z;
  b_index : Z;
  b_last : bool
}.

(** What the planner needs of PlannerConfig (33-56), the runtime context and the
    source: steps_per_epoch, max_shape_queues, planning_batch_size (310-316),
    mode == "train", _rank_sharded, _uniform_shape_code, _packed_uniform. *)
Record pconfig := {
  pc_steps : option Z;
  pc_max_queues : Z;
  pc_batch : nat;
  pc_train : bool;
  pc_sharded : bool;
  pc_uniform : option Z;
  pc_packed : bool;
  pc_contract : bytes
}.

(** planner.py:189-198: the mutable fields. *)
Record planner (X A : Type) := {
  pl_epoch : Z;
  pl_index : Z;
  pl_cycle : Z;
  pl_x : X;
  pl_ready : list A;
  pl_queues : list (Z * list A);  (* dict in insertion order *)
  pl_exhausted : bool;
  pl_finished : bool
}.

(** planner.py:67-81 PlannerState. *)
Record pstate (A T : Type) := {
  ps_contract : bytes;
  ps_epoch : Z;
  ps_index : Z;
  ps_cycle : Z;
  ps_feed : T;
  ps_ready : list A;
  ps_queues : list (Z * list A);
  ps_exhausted : bool;
  ps_finished : bool
}.

(** Python dict operations on association lists. *)
Fixpoint dict_get {V} (d : list (Z * V)) (k : Z) : option V :=
  match d with
  | [] => None
  | (k', v) :: t => if k =? k' then Some v else dict_get t k
  end.
(* d[k] = v: in place when present, appended otherwise *)
Fixpoint dict_set {V} (d : list (Z * V)) (k : Z) (v : V) : list (Z * V) :=
  match d with
  | [] => [(k, v)]
  | (k', w) :: t => if k =? k' then (k', v) :: t else (k', w) :: dict_set t k v
  end.
Fixpoint dict_del {V} (d : list (Z * V)) (k : Z) : list (Z * V) :=
  match d with
  | [] => []
  | (k', w) :: t => if k =? k' then t else (k', w) :: dict_del t k
  end.

Definition nonempty {A} (l : list A) : bool := match l with [] => false | _ => true end.

(** The padding loops of lines 484-487 and 628-629:
    while len(items) < n: items.append(real[(len(items) - len(real)) % len(real)]).
    [todo] = n - len(items). *)
Fixpoint pad_loop {A} (todo : nat) (real items : list A) : res (list A) :=
  match todo with
  | O => Ok items
  | S k =>
      match List.length real with
      | O => Err RuntimeError    (* ZeroDivisionError; callers never pass [] *)
      | _ =>
        x <- py_get real ((List.length items - List.length real) mod List.length real)%nat ;;
        pad_loop k real (items ++ [x])
      end
  end.
(** np.resize(values, n), line 527: values repeated cyclically. *)
Definition np_resize {A} (values : list A) (n : nat) : res (list A) :=
  mapM (fun i => py_get values (i mod List.length values)%nat) (range n).

Section Planner.
  Variables X A T : Type.
  Variable fd : feed X A T.
  Variable shape : A -> Z.      (* envelope.shape_code *)
  Variable cf : pconfig.

  Let planner := planner X A.

  Definition set_x (p : planner) (x : X) (ready : list A) (exhausted : bool) : planner :=
    {| pl_epoch := pl_epoch p; pl_index := pl_index p; pl_cycle := pl_cycle p; pl_x := x;
       pl_ready := ready; pl_queues := pl_queues p; pl_exhausted := exhausted;
       pl_finished := pl_finished p |}.
  Definition set_ready (p : planner) (ready : list A) : planner :=
    set_x p (pl_x p) ready (pl_exhausted p).
  Definition set_queues (p : planner) (q : list (Z * list A)) : planner :=
    {| pl_epoch := pl_epoch p; pl_index := pl_index p; pl_cycle := pl_cycle p; pl_x := pl_x p;
       pl_ready := pl_ready p; pl_queues := q; pl_exhausted := pl_exhausted p;
       pl_finished := pl_finished p |}.
  Definition set_finished (p : planner) : planner :=
    {| pl_epoch := pl_epoch p; pl_index := pl_index p; pl_cycle := pl_cycle p; pl_x := pl_x p;
       pl_ready := pl_ready p; pl_queues := pl_queues p; pl_exhausted := pl_exhausted p;
       pl_finished := true |}.

  (** planner.py:262-281 start_epoch. *)
  Definition start_epoch (epoch : Z) : res planner :=
    guard 0 <=? epoch else ValueError ;;
    x <- fd_start fd epoch 0 ;;
    Ok {| pl_epoch := epoch; pl_index := 0; pl_cycle := 0; pl_x := x; pl_ready := [];
          pl_queues := []; pl_exhausted := false; pl_finished := false |}.

  (** planner.py:400-437, 439-449 _refill_ready / _refill_packed_ready.  [fuel]
      bounds the number of rounds. *)
  Fixpoint refill (fuel : nat) (p : planner) : res planner :=
    match pl_ready p with
    | [] =>
        if pl_exhausted p then Ok p
        else match fuel with
             | O => Err OutOfFuel
             | S f =>
                 '(chunk, ended, x) <- fd_pull fd (pl_x p) ;;
                 refill f (set_x p x (pl_ready p ++ chunk) ended)
             end
    | _ => Ok p
    end.

  (** planner.py:318-334 _restart_source_cycle. *)
  Definition restart_cycle (p : planner) : res planner :=
    guard pc_sharded cf && pl_exhausted p && negb (nonempty (pl_ready p)) else RuntimeError ;;
    x <- fd_start fd (pl_epoch p) (pl_cycle p + 1) ;;
    Ok {| pl_epoch := pl_epoch p; pl_index := pl_index p; pl_cycle := pl_cycle p + 1; pl_x := x;
          pl_ready := []; pl_queues := pl_queues p; pl_exhausted := false;
          pl_finished := pl_finished p |}.

  (** lines 460-464, 598-602: may the epoch go on with another source cycle? *)
  Definition may_restart (index : Z) : bool :=
    pc_sharded cf && match pc_steps cf with Some s => index <? s | None => false end.

  (** lines 465-476, 603-614. *)
  Definition next_cycle (p : planner) (empty : Z) : res (planner * Z) :=
    let empty1 := if fd_offered fd (pl_x p) =? 0 then empty + 1 else 0 in
    guard empty1 <=? 16 else RuntimeError ;;
    p1 <- restart_cycle p ;;
    Ok (p1, empty1).

  Definition budget_last (index : Z) : bool :=
    match pc_steps cf with Some s => s <=? index + 1 | None => false end.

  (** planner.py:336-342 _finish_budget_epoch. *)
  Definition finish_budget (p : planner) : res planner :=
    x <- fd_drain fd (pl_x p) ;;
    Ok {| pl_epoch := pl_epoch p; pl_index := pl_index p; pl_cycle := pl_cycle p; pl_x := x;
          pl_ready := []; pl_queues := []; pl_exhausted := true; pl_finished := true |}.

  (** planner.py:565-586 _make_batch. *)
  Definition make_batch (p : planner) (items : list A) (real : list bool) (is_last : bool)
    : res (option (batch A) * planner) :=
    let b := {| b_items := items; b_real := real; b_epoch := pl_epoch p; b_index := pl_index p;
                b_last := is_last || budget_last (pl_index p) |} in
    let p1 := {| pl_epoch := pl_epoch p; pl_index := pl_index p + 1; pl_cycle := pl_cycle p;
                 pl_x := pl_x p; pl_ready := pl_ready p; pl_queues := pl_queues p;
                 pl_exhausted := pl_exhausted p; pl_finished := pl_finished p |} in
    if budget_last (pl_index p) then p2 <- finish_budget p1 ;; Ok (Some b, p2)
    else Ok (Some b, p1).

  Definition mask (real total : nat) : list bool := repeat true real ++ repeat false (total - real).

  (** planner.py:451-510 _next_uniform_batch and, with pc_packed, 512-552
      _next_packed_uniform_batch (there [parts] concatenated is [acc], no shape
      check is made and no rank sharding is possible; _packed_uniform implies not
      _rank_sharded, lines 183-188). *)
  Fixpoint uniform_loop (fuel fuel0 : nat) (code : Z) (p : planner) (acc : list A) (empty : Z)
    : res (option (batch A) * planner) :=
    match fuel with
    | O => Err OutOfFuel
    | S f =>
      if (List.length acc <? pc_batch cf)%nat then
        p1 <- refill fuel0 p ;;
        match pl_ready p1 with
        | [] =>
            if negb (pc_packed cf) && may_restart (pl_index p1) then
              '(p2, empty1) <- next_cycle p1 empty ;;
              uniform_loop f fuel0 code p2 acc empty1
            else if pc_train cf then Ok (None, set_finished p1)
            else match acc with
                 | [] => Ok (None, set_finished p1)
                 | _ =>
                   items <- (if pc_packed cf then np_resize acc (pc_batch cf)
                             else pad_loop (pc_batch cf - List.length acc) acc acc) ;;
                   make_batch (set_finished p1) items (mask (List.length acc) (pc_batch cf)) true
                 end
        | ready =>
            let take := Nat.min (pc_batch cf - List.length acc) (List.length ready) in
            guard pc_packed cf || forallb (fun e => shape e =? code) (firstn take ready)
              else RuntimeError ;;
            uniform_loop f fuel0 code (set_ready p1 (skipn take ready)) (acc ++ firstn take ready) empty
        end
      else make_batch p acc (mask (pc_batch cf) (pc_batch cf)) false
    end.

  (** planner.py:554-563 _append_shape. *)
  Definition append_shape (q : list (Z * list A)) (e : A) : res (list (Z * list A) * list A) :=
    match dict_get q (shape e) with
    | None =>
        guard zlen q <? pc_max_queues cf else RuntimeError ;;
        Ok (dict_set q (shape e) [e], [e])
    | Some l => Ok (dict_set q (shape e) (l ++ [e]), l ++ [e])
    end.

  (** sorted(shape for shape, queue in items() if queue), lines 619-621. *)
  Definition nonempty_shapes (q : list (Z * list A)) : list Z :=
    sort_by Z.ltb (map fst (filter (fun kv => nonempty (snd kv)) q)).

  (** planner.py:594-647 next_batch, the loop over mixed shapes. *)
  Fixpoint mixed_loop (fuel fuel0 : nat) (p : planner) (empty : Z) : res (option (batch A) * planner) :=
    match fuel with
    | O => Err OutOfFuel
    | S f =>
      p1 <- refill fuel0 p ;;
      match pl_ready p1 with
      | [] =>
          if may_restart (pl_index p1) then
            '(p2, empty1) <- next_cycle p1 empty ;;
            mixed_loop f fuel0 p2 empty1
          else if pc_train cf then Ok (None, set_finished (set_queues p1 []))
          else match nonempty_shapes (pl_queues p1) with
               | [] => Ok (None, set_finished p1)
               | code :: _ =>
                   match dict_get (pl_queues p1) code with
                   | None => Err KeyError
                   | Some real =>
                       let p2 := set_queues p1 (dict_del (pl_queues p1) code) in
                       items <- pad_loop (pc_batch cf - List.length real) real real ;;
                       let is_last := negb (existsb (fun kv => nonempty (snd kv)) (pl_queues p2)) in
                       make_batch (if is_last then set_finished p2 else p2) items
                         (mask (List.length real) (pc_batch cf)) is_last
                   end
               end
      | e :: ready =>
          '(q, l) <- append_shape (pl_queues p1) e ;;
          let p2 := set_queues (set_ready p1 ready) q in
          if (List.length l =? pc_batch cf)%nat then
            make_batch (set_queues p2 (dict_set q (shape e) [])) l
              (mask (pc_batch cf) (pc_batch cf)) false
          else mixed_loop f fuel0 p2 empty
      end
    end.

  (** planner.py:588-592 next_batch. *)
  Definition next_batch (fuel : nat) (p : planner) : res (option (batch A) * planner) :=
    if pl_finished p then Ok (None, p)
    else match pc_uniform cf with
         | Some code => uniform_loop fuel fuel code p [] 0
         | None => mixed_loop fuel fuel p 0
         end.

  (** planner.py:649-669 local_slice, with rank_local_identity (core.py:23-66). *)
  Definition local_slice (rank local : nat) (b : batch A) : res (list A * list bool) :=
    let (items, m) :=
      if pc_sharded cf then (b_items b, b_real b)
      else (firstn local (skipn (rank * local) (b_items b)),
            firstn local (skipn (rank * local) (b_real b))) in
    guard (List.length items =? local)%nat else RuntimeError ;;
    Ok (items, m).

  (** planner.py:671-694 state; sorted(items()) sorts by the distinct keys. *)
  Definition planner_state (p : planner) : res (pstate A T) :=
    s <- fd_save fd (pl_x p) ;;
    Ok {| ps_contract := pc_contract cf; ps_epoch := pl_epoch p; ps_index := pl_index p;
          ps_cycle := pl_cycle p; ps_feed := s; ps_ready := pl_ready p;
          ps_queues := filter (fun kv => nonempty (snd kv))
                         (sort_by (fun a b => fst a <? fst b) (pl_queues p));
          ps_exhausted := pl_exhausted p; ps_finished := pl_finished p |}.

  (** planner.py:696-769 restore. *)
  Definition planner_restore (s : pstate A T) : res planner :=
    guard zlist_eqb (ps_contract s) (pc_contract cf) else ValueError ;;
    guard 0 <=? ps_index s else ValueError ;;
    guard match pc_steps cf with None => true | Some k => ps_index s <=? k end else ValueError ;;
    guard match pc_steps cf with
          | None => true
          | Some k => negb ((ps_index s =? k) && negb (ps_finished s))
          end else ValueError ;;
    guard Bool.eqb (ps_exhausted s) (fd_closed fd (ps_feed s)) else ValueError ;;
    guard negb (ps_finished s && (negb (ps_exhausted s) || nonempty (ps_ready s)
                                  || nonempty (ps_queues s))) else ValueError ;;
    guard zlen (ps_queues s) <=? pc_max_queues cf else ValueError ;;
    guard negb (has_dup (map fst (ps_queues s))) else ValueError ;;
    guard forallb (fun kv => nonempty (snd kv) && (List.length (snd kv) <? pc_batch cf)%nat)
            (ps_queues s) else ValueError ;;
    guard forallb (fun kv => forallb (fun e => shape e =? fst kv) (snd kv)) (ps_queues s)
      else ValueError ;;
    _ <- start_epoch (ps_epoch s) ;;
    guard 0 <=? ps_cycle s else ValueError ;;
    x <- fd_restore fd (ps_epoch s) (ps_cycle s) (ps_feed s) ;;
    Ok {| pl_epoch := ps_epoch s; pl_index := ps_index s; pl_cycle := ps_cycle s; pl_x := x;
          pl_ready := ps_ready s; pl_queues := ps_queues s; pl_exhausted := ps_exhausted s;
          pl_finished := ps_finished s |}.
End Planner.
