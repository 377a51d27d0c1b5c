(** The training loop: trainer/base.py 3987-4126 ([run]), with 3603-3668 (deferred finite checks), 1738-1748 (which iterations
    save), 3707-3958 (what a step does to the trainer's state), 3930-3955 (commit of the data cursor), 1957-2092 (when a state
    counts as saved), 1563 (resume).

    [W] is everything a step changes - weights, optimizer, schedules, random generators; [step], [clip] and [observe] are
    arbitrary functions for the optimizer step, the weight clipping before it and whatever logging, validation and profiling do
    to random generators.  Batches come from a stream by position.  Anything that can go wrong is in a [weather], one per
    iteration; an exception may come at any of the points named there, from an operation or from an interrupt.  The ranks of a
    distributed job do the same thing (C57), so one is modelled. *)
From Verif Require Import Base.
Set Implicit Arguments. Unset Strict Implicit.

Section Loop.
Variables W batch : Type.
Variable batch_at : nat -> batch.
Variable clip : W -> W.
Variable step : Z -> W -> list batch -> W.
Variable observe : Z -> W -> W.
(** Are the losses of the earlier micro-steps finite?  Is the last loss with the gradient norm? *)
Variables early_finite last_finite : Z -> W -> list batch -> bool.

(** lines 290-370 *)
Record config := { iterations : Z; batch_size : Z; accumulation : nat; log_interval : Z; show_interval : Z; val_interval : Z; has_val : bool;
                   save_interval : Z; temp_save_interval : Z; state_save_interval : option Z;
                   deferred : bool (* one process and no gradient scaler *) }.
Variable cfg : config.

(** What is written: the files of one save.  [full]: with the training state, so that it can be resumed. *)
Record ckpt := { at_iteration : Z; at_rows : Z; at_w : W; at_cursor : nat; full : bool }.
(** What may go wrong in a save: the state file is still there and compares equal or not; nothing is written; it is written, but an
    exception comes before it is noted; the background writer fails afterwards. *)
Inductive saving := Saves | Refuses | SavesAndRaises | Loses.
Record attempt := { kept : bool; equal : bool; outcome : saving }.
Record weather := {
  top : bool;                      (* an interrupt before the first line of the iteration *)
  fetch_fails : option nat;        (* the fetch of the n-th micro-step raises *)
  between_counters : bool;         (* an interrupt between the two counters *)
  step_fails : bool;               (* a hook, a pass or a check raises before anything is changed *)
  commit_fails : bool;             (* the commit of the cursor cannot be prepared *)
  change_fails : option W;         (* an optimizer or a hook after it raises and leaves this behind *)
  after_commit : bool;             (* an interrupt after the cursor was committed *)
  log_fails : bool; show_fails : bool; val_fails : bool; profiler_fails : bool;
  gap : bool;                      (* an interrupt after the state is declared safe *)
  save : attempt;
}.
Record st := {
  iteration : Z; rows : Z; w : W; committed : nat; pending : nat;
  slots : list bool; counter : nat; in_flight : list (nat * Z);
  safe : bool; divergent : bool; mutated : bool; attempt_failed : bool; last_saved : option Z; writer_failed : bool;
  sums : list Z; records : list (Z * list Z);  (* the steps summed up so far; logged: iteration and the steps averaged *)
  disk : list ckpt                             (* what was ever written, the latest first *)
}.
Definition set_counters i r s := {| iteration := i; rows := r; w := w s; committed := committed s; pending := pending s; slots := slots s; counter := counter s; in_flight := in_flight s; safe := safe s; divergent := divergent s; mutated := mutated s; attempt_failed := attempt_failed s; last_saved := last_saved s; writer_failed := writer_failed s; sums := sums s; records := records s; disk := disk s |}.
Definition set_w x s := {| iteration := iteration s; rows := rows s; w := x; committed := committed s; pending := pending s; slots := slots s; counter := counter s; in_flight := in_flight s; safe := safe s; divergent := divergent s; mutated := mutated s; attempt_failed := attempt_failed s; last_saved := last_saved s; writer_failed := writer_failed s; sums := sums s; records := records s; disk := disk s |}.
Definition set_cursor c p s := {| iteration := iteration s; rows := rows s; w := w s; committed := c; pending := p; slots := slots s; counter := counter s; in_flight := in_flight s; safe := safe s; divergent := divergent s; mutated := mutated s; attempt_failed := attempt_failed s; last_saved := last_saved s; writer_failed := writer_failed s; sums := sums s; records := records s; disk := disk s |}.
Definition set_queue sl c q s := {| iteration := iteration s; rows := rows s; w := w s; committed := committed s; pending := pending s; slots := sl; counter := c; in_flight := q; safe := safe s; divergent := divergent s; mutated := mutated s; attempt_failed := attempt_failed s; last_saved := last_saved s; writer_failed := writer_failed s; sums := sums s; records := records s; disk := disk s |}.
Definition set_safe b s := {| iteration := iteration s; rows := rows s; w := w s; committed := committed s; pending := pending s; slots := slots s; counter := counter s; in_flight := in_flight s; safe := b; divergent := divergent s; mutated := mutated s; attempt_failed := attempt_failed s; last_saved := last_saved s; writer_failed := writer_failed s; sums := sums s; records := records s; disk := disk s |}.
Definition set_divergent b s := {| iteration := iteration s; rows := rows s; w := w s; committed := committed s; pending := pending s; slots := slots s; counter := counter s; in_flight := in_flight s; safe := safe s; divergent := b; mutated := mutated s; attempt_failed := attempt_failed s; last_saved := last_saved s; writer_failed := writer_failed s; sums := sums s; records := records s; disk := disk s |}.
Definition set_mutated b s := {| iteration := iteration s; rows := rows s; w := w s; committed := committed s; pending := pending s; slots := slots s; counter := counter s; in_flight := in_flight s; safe := safe s; divergent := divergent s; mutated := b; attempt_failed := attempt_failed s; last_saved := last_saved s; writer_failed := writer_failed s; sums := sums s; records := records s; disk := disk s |}.
Definition set_saved f l b d s := {| iteration := iteration s; rows := rows s; w := w s; committed := committed s; pending := pending s; slots := slots s; counter := counter s; in_flight := in_flight s; safe := safe s; divergent := divergent s; mutated := mutated s; attempt_failed := f; last_saved := l; writer_failed := b; sums := sums s; records := records s; disk := d |}.
Definition set_metrics m r s := {| iteration := iteration s; rows := rows s; w := w s; committed := committed s; pending := pending s; slots := slots s; counter := counter s; in_flight := in_flight s; safe := safe s; divergent := divergent s; mutated := mutated s; attempt_failed := attempt_failed s; last_saved := last_saved s; writer_failed := writer_failed s; sums := m; records := r; disk := disk s |}.

(** A piece of the loop: the new state, and whether it went through (or raised). *)
Definition op := st -> st * bool.
Definition then_ (a b : op) : op := fun s => let '(s', ok) := a s in if ok then b s' else (s', false).
Notation "a >> b" := (then_ a b) (at level 61, right associativity).
Definition do_ (f : st -> st) : op := fun s => (f s, true).
Definition raise_if (b : bool) : op := fun s => (s, negb b).
Definition when (b : st -> bool) (a : op) : op := fun s => if b s then a s else (s, true).

(** lines 1738-1748 *)
Definition every (n i : Z) : bool := i mod n =? 0.
Definition save_due (i : Z) : bool :=
  every (save_interval cfg) i || every (temp_save_interval cfg) i || match state_save_interval cfg with Some n => every n i | None => false end.
Definition val_due (i : Z) : bool := every (val_interval cfg) i && has_val cfg.

(** lines 3603-3622: two slots, used in turn *)
Definition enqueue (check : bool) : op := do_ (fun s =>
  let k := (counter s mod 2)%nat in
  set_queue (upd (slots s) k check) (S (counter s)) (in_flight s ++ [(k, iteration s)]) s).
(** lines 3624-3655 *)
Fixpoint judge (n : nat) : op := fun s =>
  match n with
  | O => (s, true)
  | S n =>
      match in_flight s with
      | [] => (s, true)
      | (k, _) :: rest =>
          let s := set_queue (slots s) (counter s) rest s in
          if nth k (slots s) false then judge n s else (set_divergent true s, false)
      end
  end.
Definition drain (include_current : bool) : op := fun s =>
  judge (if include_current then List.length (in_flight s) else (List.length (in_flight s) - 1)%nat) s.

(** lines 4219-4316 (the batch and its token), 3730 *)
Definition fetch (fails : bool) : op := raise_if fails >> do_ (fun s => set_cursor (committed s) (S (pending s)) s).
(** lines 3707-3958.  The batches are those fetched since the last commit. *)
Definition taken (s : st) : list batch := map batch_at (seq (committed s) (pending s)).
Fixpoint more_fetches (wx : weather) (n : nat) (todo : nat) : op :=
  match todo with
  | O => do_ (fun s => s)
  | S todo => fetch (match fetch_fails wx with Some k => (k =? n)%nat | None => false end) >> more_fetches wx (S n) todo
  end.
Definition train_step (wx : weather) : op :=
  do_ (fun s => set_w (clip (w s)) s)
  >> more_fetches wx 1 (accumulation cfg - 1)
  >> raise_if (step_fails wx)
  >> (fun s => if early_finite (iteration s) (w s) (taken s) then (s, true) else (set_divergent true s, false))
  >> (fun s => if deferred cfg then enqueue (last_finite (iteration s) (w s) (taken s)) s
               else if last_finite (iteration s) (w s) (taken s) then (s, true) else (set_divergent true s, false))
  >> (fun s => if commit_fails wx then (set_divergent true s, false) else (s, true))
  >> do_ (set_mutated true)
  >> (fun s => match change_fails wx with Some junk => (set_divergent true (set_w junk s), false) | None => (set_w (step (iteration s) (w s) (taken s)) s, true) end)
  >> do_ (fun s => set_cursor (committed s + pending s) 0 s)
  >> raise_if (after_commit wx).

(** lines 1957-2092 *)
Definition state_due (force : bool) (i : Z) : bool := force || match state_save_interval cfg with None => true | Some n => every n i end.
Definition save_checkpoint (force : bool) (a : attempt) : op := fun s =>
  if writer_failed s then (set_saved true (last_saved s) false (disk s) s, false)
  else
    let wanted := state_due force (iteration s) in
    let noted := if wanted then Some (iteration s) else last_saved s in
    if wanted && kept a && existsb (fun c => (at_iteration c =? iteration s) && full c) (disk s)
    then (if equal a then (set_saved (attempt_failed s) (Some (iteration s)) false (disk s) s, true) else (set_saved true (last_saved s) false (disk s) s, false))
    else
      let c := {| at_iteration := iteration s; at_rows := rows s; at_w := w s; at_cursor := committed s; full := wanted |} in
      match outcome a with
      | Saves => (set_saved (attempt_failed s) noted false (c :: disk s) s, true)
      | Refuses => (set_saved true (last_saved s) false (disk s) s, false)
      | SavesAndRaises => (set_saved (attempt_failed s) (last_saved s) false (c :: disk s) s, false)
      | Loses => (set_saved (attempt_failed s) noted true (disk s) s, true)
      end.
Definition flush : op := fun s => if writer_failed s then (set_saved true (last_saved s) false (disk s) s, false) else (s, true).

(** lines 4033-4059 *)
Definition metrics (wx : weather) : op :=
  do_ (fun s => set_metrics (sums s ++ [iteration s]) (records s) s)
  >> (fun s =>
        let mean := sums s in
        let due := every (log_interval cfg) (iteration s) || every (show_interval cfg) (iteration s) in
        let s := if due then set_metrics [] (records s) s else s in
        (when (fun s => every (log_interval cfg) (iteration s)) (raise_if (log_fails wx) >> do_ (fun s => set_metrics (sums s) (records s ++ [(iteration s, mean)]) s))
         >> when (fun s => every (show_interval cfg) (iteration s)) (raise_if (show_fails wx))) s).
(** lines 4012-4088: one turn of the loop *)
Definition turn (wx : weather) : op :=
  raise_if (top wx)
  >> do_ (fun s => set_mutated false (set_safe false s))
  >> fetch (match fetch_fails wx with Some O => true | _ => false end)
  >> do_ (fun s => set_counters (iteration s + 1) (rows s) s)
  >> raise_if (between_counters wx)
  >> do_ (fun s => set_counters (iteration s) (rows s + batch_size cfg * Z.of_nat (accumulation cfg)) s)
  >> (fun s =>
        let '(s, ok) := train_step wx s in
        if ok then (s, true)
        else
          let s := set_counters (iteration s - 1) (rows s - batch_size cfg * Z.of_nat (accumulation cfg)) s in
          (if mutated s then set_divergent true s else s, false))
  >> metrics wx
  >> (fun s => drain (save_due (iteration s) || val_due (iteration s)) s)
  >> when (fun s => val_due (iteration s)) (raise_if (val_fails wx))
  >> do_ (fun s => set_w (observe (iteration s) (w s)) s)
  >> raise_if (profiler_fails wx)
  >> do_ (set_safe true)
  >> raise_if (gap wx)
  >> when (fun s => save_due (iteration s)) (save_checkpoint false (save wx)).
Variable sky : Z -> weather. (* by iteration *)
Fixpoint turns (fuel : nat) : op := fun s =>
  match fuel with O => (s, true) | S fuel => if iteration s <? iterations cfg then (turn (sky (iteration s + 1)) >> turns fuel) s else (s, true) end.

(** What may go wrong outside the loop. *)
Record ending := { at_start : bool; before_loop : bool; after_loop : bool; final_save : attempt; last_word : bool; emergency : attempt }.
(** lines 3992-4110: the state the trainer ends with, and whether [run] returns *)
Definition run (e : ending) : op := fun s =>
  let s := set_queue (slots s) (counter s) [] (set_divergent false (set_safe false s)) in
  let '(s, ok) :=
    (raise_if (at_start e)
     >> do_ (fun s => set_safe true (set_metrics [] (records s) (set_cursor (committed s) 0 s)))
     >> raise_if (before_loop e)
     >> turns (S (Z.to_nat (iterations cfg - iteration s))) (* one more than needed *)
     >> raise_if (after_loop e)
     >> when (fun s => match last_saved s with Some i => negb (i =? iteration s) | None => true end) (drain true >> save_checkpoint true (final_save e))
     >> flush
     >> raise_if (last_word e)) s in
  if ok then (s, true)
  else if safe s && negb (divergent s) && negb (attempt_failed s) && match last_saved s with Some i => negb (i =? iteration s) | None => true end
       then (fst (save_checkpoint true (emergency e) s), false)
       else (s, false).

(** A process that starts afresh (lines 365-371) or resumes (lines 1540-1563) with what is on disk. *)
Definition fresh (w0 : W) : st := {| iteration := 0; rows := 0; w := w0; committed := 0; pending := 0; slots := [false; false]; counter := 0; in_flight := []; safe := true; divergent := false;
  mutated := false; attempt_failed := false; last_saved := None; writer_failed := false; sums := []; records := []; disk := [] |}.
Definition resumed (c : ckpt) (files : list ckpt) : st := {| iteration := at_iteration c; rows := at_rows c; w := at_w c; committed := at_cursor c; pending := 0; slots := [false; false]; counter := 0; in_flight := []; safe := true;
  divergent := false; mutated := false; attempt_failed := false; last_saved := Some (at_iteration c); writer_failed := false; sums := []; records := []; disk := files |}.
End Loop.
