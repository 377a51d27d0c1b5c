(** Model of dataset/sequential_source.py: InterleavedSequentialSource
    (construction checks, rank sharding, interleaved reading, cursor
    save/restore, identity check of materialize_batch, key digest).
    Simplifications: a file is its byte contents, a stream is an offset into
    them ([peek]/[tell]/[seek] of a regular file); only the raw mode is modelled
    ([read_raw_entry] and [decode_raw_entry] given), which is the mode both
    callers in the repository use (simple_binary.py:188, packed_binary.py:331);
    paths, stat and the SHA-256 file identities are inputs. *)
From Verif Require Import Base Rng Source Composite.
Set Implicit Arguments.
Unset Strict Implicit.

(** sequential_source.py:23-30 [SequentialFileDescriptor]; [q_content] is what
    [open_file(path)] reads. *)
Record seq_file := {
  q_key : bytes;
  q_size : Z;
  q_compressed : bool;
  q_content : bytes
}.

(** sequential_source.py:33-37 [SequentialPayload]. *)
Record seq_payload := {
  y_raw : bytes;
  y_sub : option Z;
  y_epoch : Z
}.

(** The format callbacks of the constructor, lines 111-117:
    [f_read rest] is the number of bytes [read_raw_entry] takes from a stream
    whose unread part is [rest]; [f_decode] is [decode_raw_entry] (only whether
    it raises matters here); [f_count] is [subrecord_count]. *)
Record seq_format := {
  f_id : bytes;
  f_read : bytes -> res nat;
  f_decode : bytes -> res unit;
  f_shape : bytes -> res (option shape);
  f_count : option (bytes -> res Z)
}.

(** The constructed source, lines 163-192. *)
Record seq_source := {
  q_files : list seq_file;
  q_format : seq_format;
  q_seed : Z;
  q_shuffle : bool;
  q_num : Z;  (* sample_rate = q_num / q_den *)
  q_den : Z;
  q_active : nat;
  q_quantum : Z;
  q_shapes : list shape;
  q_identity : bytes;
  q_world : Z;
  q_rank : Z;
  q_sharded : bool
}.

(** lines 40-66: [_PendingEntry], [_ActiveReader], [SequentialCursor]. *)
Record pending := {
  p_raw : bytes;
  p_entry : Z;
  p_shape : Z;
  p_next : Z;
  p_count : Z
}.
Record reader := {
  r_file : nat;
  r_offset : nat;
  r_entry : Z;
  r_pending : option pending
}.
Record seq_cursor := {
  sc_epoch : Z;
  sc_cycle : Z;
  sc_rank : Z;
  sc_order : list nat;
  sc_next : nat;
  sc_active : list reader;
  sc_turn : nat;
  sc_quantum : Z
}.

(** Construction, lines 120-192 (the checks that do not concern paths). *)
Definition make_sequential (files : list seq_file) (fmt : seq_format) (seed : Z) (shuffle : bool)
    (num den : Z) (active_streams read_quantum : Z) (output_shapes : list shape)
    (identity : bytes) : res seq_source :=
  guard (0 <? den) && (0 <=? num) && (num <=? den) else ValueError ;;
  guard 0 <? active_streams else ValueError ;;
  guard 0 <? read_quantum else ValueError ;;
  guard negb (match files with [] => true | _ => false end) else ValueError ;;
  guard negb (match sorted_shapes output_shapes with [] => true | _ => false end) else ValueError ;;
  Ok {| q_files := files; q_format := fmt; q_seed := seed; q_shuffle := shuffle;
        q_num := num; q_den := den; q_active := Z.to_nat active_streams;
        q_quantum := read_quantum; q_shapes := sorted_shapes output_shapes;
        q_identity := identity; q_world := 1; q_rank := 0; q_sharded := false |}.

(** lines 203-219 [configure_distributed]. *)
Definition seq_configure (s : seq_source) (world rank : Z) (sharded : bool) : res seq_source :=
  guard (0 <? world) && (0 <=? rank) && (rank <? world) else ValueError ;;
  guard negb (sharded && (zlen (q_files s) <? world)) else ValueError ;;
  Ok {| q_files := q_files s; q_format := q_format s; q_seed := q_seed s;
        q_shuffle := q_shuffle s; q_num := q_num s; q_den := q_den s;
        q_active := q_active s; q_quantum := q_quantum s; q_shapes := q_shapes s;
        q_identity := q_identity s; q_world := world; q_rank := rank; q_sharded := sharded |}.

(** capabilities.resumable, lines 197-199. *)
Definition seq_resumable (s : seq_source) : bool := negb (existsb q_compressed (q_files s)).

(** ** File order and sharding, lines 261-304 *)

(** sorted(l, key) for a list of distinct keys: insertion sort by a strict order. *)
Fixpoint insert_by {A} (lt : A -> A -> bool) (x : A) (l : list A) : list A :=
  match l with
  | [] => [x]
  | y :: t => if lt y x then y :: insert_by lt x t else x :: y :: t
  end.
Definition sort_by {A} (lt : A -> A -> bool) (l : list A) : list A :=
  fold_right (insert_by lt) [] l.

Definition size_of (files : list seq_file) (i : nat) : Z :=
  match nth_error files i with Some f => q_size f | None => 0 end.

(** key=lambda index: (-self.descriptors[index].size, index), lines 280-283. *)
Definition bigger_first (files : list seq_file) (i j : nat) : bool :=
  (size_of files j <? size_of files i)
  || ((size_of files i =? size_of files j) && (i <? j)%nat).

(** min(range(world), key=lambda c: (loads[c], c)), lines 288-291. *)
Fixpoint argmin_from (i best : nat) (best_load : Z) (loads : list Z) : nat :=
  match loads with
  | [] => best
  | l :: rest =>
      if l <? best_load then argmin_from (S i) i l rest
      else argmin_from (S i) best best_load rest
  end.
Definition argmin (loads : list Z) : nat :=
  match loads with [] => O | l :: rest => argmin_from 1 0 l rest end.

(** The loop of lines 284-294. *)
Fixpoint assign_files (files : list seq_file) (world : nat) (position : nat) (by_size : list nat)
    (assignments : list (list nat)) (loads : list Z) : res (list (list nat) * list Z) :=
  match by_size with
  | [] => Ok (assignments, loads)
  | i :: rest =>
      let r := if (position <? world)%nat then position else argmin loads in
      a <- py_get assignments r ;;
      assignments1 <- py_set assignments r (a ++ [i]) ;;
      l <- py_get loads r ;;
      loads1 <- py_set loads r (l + size_of files i) ;;
      assign_files files world (S position) rest assignments1 loads1
  end.

(** lines 278-294: the assignment of all files to ranks, with the loads. *)
Definition shard_files (files : list seq_file) (world : nat) : res (list (list nat) * list Z) :=
  assign_files files world 0
    (sort_by (bigger_first files) (range (List.length files)))
    (repeat [] world) (repeat 0 world).

Section Hash.
  Variable header : bytes.
  Variable hash64 : bytes -> Z.

  (** lines 261-304 [_file_order]. *)
  Definition seq_file_order (s : seq_source) (epoch cycle rank : Z) : res (list nat) :=
    let n := List.length (q_files s) in
    if negb (q_sharded s) then
      if negb (q_shuffle s) then Ok (range n)
      else deterministic_permutation header hash64 n (q_seed s) (str "sequential_file_order")
             (if cycle =? 0 then KTuple [KInt epoch; KBytes (q_identity s)]
              else KTuple [KInt epoch; KInt cycle; KBytes (q_identity s)])
    else
      '(assignments, _) <- shard_files (q_files s) (Z.to_nat (q_world s)) ;;
      a <- py_get assignments (Z.to_nat rank) ;;
      let shard := sort_by Nat.ltb a in
      if negb (q_shuffle s) then Ok shard
      else
        perm <- deterministic_permutation header hash64 (List.length shard) (q_seed s)
                  (str "sequential_shard_file_order")
                  (KTuple [KInt epoch; KInt cycle; KInt rank; KBytes (q_identity s)]) ;;
        mapM (py_get shard) perm.

  (** lines 253-259 [_open_reader]. *)
  Definition open_reader (s : seq_source) (file : nat) (entry : Z) : res reader :=
    _ <- py_get (q_files s) file ;;
    Ok {| r_file := file; r_offset := 0; r_entry := entry; r_pending := None |}.

  (** lines 309-318 [start_cycle]. *)
  Definition seq_start (s : seq_source) (epoch cycle rank : Z) : res seq_cursor :=
    guard (0 <=? epoch) && (0 <=? cycle) else ValueError ;;
    guard (rank =? q_rank s) && (0 <=? rank) && (rank <? q_world s) else ValueError ;;
    order <- seq_file_order s epoch cycle rank ;;
    let count := Nat.min (q_active s) (List.length order) in
    active <- mapM (fun i => f <- py_get order i ;; open_reader s f 0) (range count) ;;
    Ok {| sc_epoch := epoch; sc_cycle := cycle; sc_rank := rank; sc_order := order;
          sc_next := count; sc_active := active; sc_turn := 0; sc_quantum := 0 |}.

  (** lines 320-330 [_augmentation_epoch]. *)
  Definition augmentation_epoch (s : seq_source) (epoch cycle : Z) : res Z :=
    if cycle =? 0 then Ok epoch
    else u <- rng_u64 header hash64 (q_seed s) (str "sequential_cycle_epoch")
                (KTuple [KInt epoch; KInt cycle]) 0 ;;
         Ok (u mod 2 ^ 63).

  Definition set_active (c : seq_cursor) (active : list reader) : seq_cursor :=
    {| sc_epoch := sc_epoch c; sc_cycle := sc_cycle c; sc_rank := sc_rank c;
       sc_order := sc_order c; sc_next := sc_next c; sc_active := active;
       sc_turn := sc_turn c; sc_quantum := sc_quantum c |}.
  Definition set_turn (c : seq_cursor) (turn : nat) (quantum : Z) : seq_cursor :=
    {| sc_epoch := sc_epoch c; sc_cycle := sc_cycle c; sc_rank := sc_rank c;
       sc_order := sc_order c; sc_next := sc_next c; sc_active := sc_active c;
       sc_turn := turn; sc_quantum := quantum |}.
  Definition set_next (c : seq_cursor) (next : nat) : seq_cursor :=
    {| sc_epoch := sc_epoch c; sc_cycle := sc_cycle c; sc_rank := sc_rank c;
       sc_order := sc_order c; sc_next := next; sc_active := sc_active c;
       sc_turn := sc_turn c; sc_quantum := sc_quantum c |}.

  (** Python list.pop(i). *)
  Definition remove_at {A} (l : list A) (i : nat) : list A := firstn i l ++ skipn (S i) l.

  (** lines 341-354 [_replace_or_remove]. *)
  Definition replace_or_remove (s : seq_source) (c : seq_cursor) : res seq_cursor :=
    r <- py_get (sc_active c) (sc_turn c) ;;
    match r_pending r with
    | Some _ => Err RuntimeError
    | None =>
        if (sc_next c <? List.length (sc_order c))%nat then
          f <- py_get (sc_order c) (sc_next c) ;;
          rd <- open_reader s f 0 ;;
          active <- py_set (sc_active c) (sc_turn c) rd ;;
          Ok (set_turn (set_active (set_next c (S (sc_next c))) active) (sc_turn c) 0)
        else
          let active := remove_at (sc_active c) (sc_turn c) in
          let turn := match active with
                      | [] => sc_turn c
                      | _ => (sc_turn c mod List.length active)%nat
                      end in
          Ok (set_turn (set_active c active) turn 0)
    end.

  (** lines 356-359 [_advance_turn]. *)
  Definition advance_turn (c : seq_cursor) : seq_cursor :=
    set_turn c
      (match sc_active c with
       | [] => sc_turn c
       | _ => ((sc_turn c + 1) mod List.length (sc_active c))%nat
       end) 0.

  (** The record key of one subrecord, lines 446-461. *)
  Definition seq_key (s : seq_source) (f : seq_file) (cycle entry sub : Z) : key :=
    let base := match f_count (q_format s) with
                | None => [KInt entry]
                | Some _ => [KInt entry; KInt sub]
                end in
    let address := if cycle =? 0 then base else KInt cycle :: base in
    KTuple [str "sequential"; KBytes (q_key f); KStr (f_id (q_format s)); KTuple address].

  Definition seq_overhead : Z := 256.   (* line 20 *)

  Definition seq_envelope (s : seq_source) (file : nat) (f : seq_file) (cycle a : Z)
      (raw : bytes) (entry code sub : Z) : envelope seq_payload :=
    {| e_source_id := Z.of_nat file;
       e_key := seq_key s f cycle entry sub;
       e_shape := code;
       e_payload := {| y_raw := raw;
                       y_sub := match f_count (q_format s) with None => None | Some _ => Some sub end;
                       y_epoch := a |};
       e_bytes := zlen raw + seq_overhead |}.

  (** lines 433-482 [_next_pending_envelope]; returns the envelope (if one was
      admitted) and the reader's new pending entry.  [fuel] counts the
      subrecords left; it cannot run out when next < count. *)
  Fixpoint next_pending (fuel : nat) (s : seq_source) (epoch cycle : Z) (file : nat) (f : seq_file)
      (p : pending) : res (option (envelope seq_payload) * option pending) :=
    match fuel with
    | O => Err OutOfFuel
    | S fuel' =>
        let sub := p_next p in
        let p1 := {| p_raw := p_raw p; p_entry := p_entry p; p_shape := p_shape p;
                     p_next := p_next p + 1; p_count := p_count p |} in
        let leftover := if p_next p + 1 =? p_count p then None else Some p1 in
        a <- augmentation_epoch s epoch cycle ;;
        ok <- sample_is_admitted header hash64 (q_num s) (q_den s) (q_seed s) a
                (seq_key s f cycle (p_entry p) sub) ;;
        if ok then
          Ok (Some (seq_envelope s file f cycle a (p_raw p) (p_entry p) (p_shape p) sub), leftover)
        else match leftover with
             | None => Ok (None, None)
             | Some p2 => next_pending fuel' s epoch cycle file f p2
             end
    end.
  Definition pending_fuel (p : pending) : nat := Z.to_nat (p_count p - p_next p).

  Definition set_pending (r : reader) (p : option pending) : reader :=
    {| r_file := r_file r; r_offset := r_offset r; r_entry := r_entry r; r_pending := p |}.

  (** One iteration of the loop of lines 364-431: continue with a new cursor
      ([inl]) or return ([inr]). *)
  Definition seq_step (s : seq_source) (c : seq_cursor)
    : seq_cursor + res (option (envelope seq_payload) * seq_cursor) :=
    match sc_active c with
    | [] => inr (Ok (None, c))
    | _ =>
      match nth_error (sc_active c) (sc_turn c) with
      | None => inr (Err IndexError)
      | Some r =>
        match nth_error (q_files s) (r_file r) with
        | None => inr (Err IndexError)
        | Some f =>
          match r_pending r with
          | Some p =>
              match next_pending (pending_fuel p) s (sc_epoch c) (sc_cycle c) (r_file r) f p with
              | Err e => inr (Err e)
              | Ok (env, leftover) =>
                  let c1 := set_active c (upd (sc_active c) (sc_turn c) (set_pending r leftover)) in
                  match env with
                  | Some e => inr (Ok (Some e, c1))
                  | None => inl c1
                  end
              end
          | None =>
              let rest := skipn (r_offset r) (q_content f) in
              match rest with
              | [] => match replace_or_remove s c with
                      | Ok c1 => inl c1
                      | Err e => inr (Err e)
                      end
              | _ =>
                match f_read (q_format s) rest with
                | Err EOFError => inr (Err RuntimeError)
                | Err e => inr (Err e)
                | Ok n =>
                  let raw := firstn n rest in
                  match raw with
                  | [] => inr (Err RuntimeError)
                  | _ =>
                    let entry := r_entry r in
                    let r1 := {| r_file := r_file r;
                                 r_offset := (r_offset r + List.length raw)%nat;
                                 r_entry := entry + 1; r_pending := None |} in
                    let turn := sc_turn c in
                    let c1 := set_turn (set_active c (upd (sc_active c) turn r1))
                                turn (sc_quantum c + 1) in
                    let c2 := if q_quantum s <=? sc_quantum c1 then advance_turn c1 else c1 in
                    match f_shape (q_format s) raw with
                    | Err e => inr (Err e)
                    | Ok None => inl c2
                    | Ok (Some sh) =>
                      match index_of sh (q_shapes s) with
                      | None => inr (Err RuntimeError)
                      | Some code =>
                        match match f_count (q_format s) with
                              | None => Ok 1
                              | Some cnt => cnt raw
                              end with
                        | Err e => inr (Err e)
                        | Ok count =>
                          if count <? 0 then inr (Err RuntimeError)
                          else if count =? 0 then inl c2
                          else
                            let p := {| p_raw := raw; p_entry := entry; p_shape := Z.of_nat code;
                                        p_next := 0; p_count := count |} in
                            match next_pending (pending_fuel p) s (sc_epoch c) (sc_cycle c)
                                    (r_file r) f p with
                            | Err e => inr (Err e)
                            | Ok (env, leftover) =>
                                let c3 := set_active c2 (upd (sc_active c2) turn (set_pending r1 leftover)) in
                                match env with
                                | Some e => inr (Ok (Some e, c3))
                                | None => inl c3
                                end
                            end
                        end
                      end
                    end
                  end
                end
              end
          end
        end
      end
    end.

  (** Loop bound: every iteration consumes a byte, closes a file or finishes a
      pending entry (SequentialFacts proves the bound is never reached). *)
  Definition content_of (s : seq_source) (file : nat) : bytes :=
    match nth_error (q_files s) file with Some f => q_content f | None => [] end.
  Definition reader_measure (s : seq_source) (r : reader) : nat :=
    (1 + (List.length (content_of s (r_file r)) - r_offset r)
       + match r_pending r with Some _ => 1 | None => 0 end)%nat.
  Definition file_measure (s : seq_source) (file : nat) : nat :=
    (1 + List.length (content_of s file))%nat.
  Definition seq_measure (s : seq_source) (c : seq_cursor) : nat :=
    (list_sum (map (reader_measure s) (sc_active c))
     + list_sum (map (file_measure s) (skipn (sc_next c) (sc_order c))))%nat.

  Fixpoint seq_loop (fuel : nat) (s : seq_source) (c : seq_cursor)
    : res (option (envelope seq_payload) * seq_cursor) :=
    match fuel with
    | O => Err OutOfFuel
    | S fuel' => match seq_step s c with
                 | inl c1 => seq_loop fuel' s c1
                 | inr r => r
                 end
    end.

  (** lines 361-431 [next_envelope]. *)
  Definition seq_next (s : seq_source) (c : seq_cursor)
    : res (option (envelope seq_payload) * seq_cursor) :=
    seq_loop (S (seq_measure s c)) s c.

  (** The reading interface; the class defines no [next_envelopes]. *)
  Definition sequential_source (s : seq_source) : source seq_cursor seq_payload :=
    {| s_next := seq_next s; s_many := None |}.

  (** ** Cursor state, lines 604-772 *)
  Record pending_state := {
    ps_raw : bytes; ps_entry : Z; ps_shape : Z; ps_next : Z; ps_count : Z
  }.
  Record reader_state := {
    rs_file : Z; rs_entry : Z; rs_offset : Z; rs_pending : option pending_state
  }.
  Record cursor_state := {
    cs_epoch : Z; cs_cycle : Z; cs_rank : Z; cs_order : list Z; cs_next : Z;
    cs_turn : Z; cs_quantum : Z; cs_active : list reader_state
  }.

  Definition save_pending (p : pending) : pending_state :=
    {| ps_raw := p_raw p; ps_entry := p_entry p; ps_shape := p_shape p;
       ps_next := p_next p; ps_count := p_count p |}.
  Definition save_reader (r : reader) : reader_state :=
    {| rs_file := Z.of_nat (r_file r); rs_entry := r_entry r; rs_offset := Z.of_nat (r_offset r);
       rs_pending := option_map save_pending (r_pending r) |}.

  (** lines 604-635 [save_cursor]. *)
  Definition seq_save (s : seq_source) (c : seq_cursor) : res cursor_state :=
    guard seq_resumable s else RuntimeError ;;
    Ok {| cs_epoch := sc_epoch c; cs_cycle := sc_cycle c; cs_rank := sc_rank c;
          cs_order := map Z.of_nat (sc_order c); cs_next := Z.of_nat (sc_next c);
          cs_turn := Z.of_nat (sc_turn c); cs_quantum := sc_quantum c;
          cs_active := map save_reader (sc_active c) |}.

  (** len(l) != len(set(l)) *)
  Fixpoint has_dup (l : list Z) : bool :=
    match l with
    | [] => false
    | x :: t => existsb (Z.eqb x) t || has_dup t
    end.

  (** The pending part of lines 699-754. *)
  Definition restore_pending (s : seq_source) (entry : Z) (p : pending_state) : res pending :=
    match f_count (q_format s) with
    | None => Err ValueError
    | Some cnt =>
      guard negb (match ps_raw p with [] => true | _ => false end)
            && (ps_entry p =? entry - 1)
            && (0 <=? ps_shape p) && (ps_shape p <? zlen (q_shapes s))
            && (0 <? ps_next p) && (ps_next p <? ps_count p) else ValueError ;;
      _ <- f_decode (q_format s) (ps_raw p) ;;
      sh <- f_shape (q_format s) (ps_raw p) ;;
      n <- cnt (ps_raw p) ;;
      guard (match sh with
             | None => false
             | Some x => match index_of x (q_shapes s) with
                         | Some code => Z.of_nat code =? ps_shape p
                         | None => false
                         end
             end) && (n =? ps_count p) else ValueError ;;
      Ok {| p_raw := ps_raw p; p_entry := ps_entry p; p_shape := ps_shape p;
            p_next := ps_next p; p_count := ps_count p |}
    end.

  (** lines 688-757, one reader. *)
  Definition restore_reader (s : seq_source) (r : reader_state) : res reader :=
    guard (0 <=? rs_file r) && (rs_file r <? zlen (q_files s)) else ValueError ;;
    guard (0 <=? rs_entry r) && (0 <=? rs_offset r) else ValueError ;;
    rd <- open_reader s (Z.to_nat (rs_file r)) (rs_entry r) ;;
    p <- match rs_pending r with
         | None => Ok None
         | Some ps => p <- restore_pending s (rs_entry r) ps ;; Ok (Some p)
         end ;;
    Ok {| r_file := r_file rd; r_offset := Z.to_nat (rs_offset r);
          r_entry := r_entry rd; r_pending := p |}.

  (** lines 637-772 [restore_cursor]; the schema field and the int() conversions
      are not modelled. *)
  Definition seq_restore (s : seq_source) (t : cursor_state) : res seq_cursor :=
    guard seq_resumable s else RuntimeError ;;
    initial <- seq_start s (cs_epoch t) (cs_cycle t) (cs_rank t) ;;
    let order := sc_order initial in
    guard zlist_eqb (cs_order t) (map Z.of_nat order) else ValueError ;;
    guard (0 <=? cs_next t) && (cs_next t <=? zlen order) else ValueError ;;
    match cs_active t with
    | [] =>
        guard (cs_turn t =? 0) && (cs_quantum t =? 0) && (cs_next t =? zlen order) else ValueError ;;
        Ok {| sc_epoch := cs_epoch t; sc_cycle := cs_cycle t; sc_rank := cs_rank t;
              sc_order := order; sc_next := Z.to_nat (cs_next t); sc_active := [];
              sc_turn := 0; sc_quantum := 0 |}
    | _ =>
        guard (0 <=? cs_turn t) && (cs_turn t <? zlen (cs_active t)) else ValueError ;;
        guard (0 <=? cs_quantum t) && (cs_quantum t <? q_quantum s) else ValueError ;;
        guard zlen (cs_active t) <=? Z.of_nat (q_active s) else ValueError ;;
        let scheduled := firstn (Z.to_nat (cs_next t)) (cs_order t) in
        let files := map rs_file (cs_active t) in
        guard negb (has_dup files)
              && forallb (fun i => existsb (Z.eqb i) scheduled) files else ValueError ;;
        active <- mapM (restore_reader s) (cs_active t) ;;
        Ok {| sc_epoch := cs_epoch t; sc_cycle := cs_cycle t; sc_rank := cs_rank t;
              sc_order := order; sc_next := Z.to_nat (cs_next t); sc_active := active;
              sc_turn := Z.to_nat (cs_turn t); sc_quantum := cs_quantum t |}
    end.
End Hash.

(** ** Materialisation identity and key digest *)

(** lines 484-518, 529-540 of materialize_batch, for one envelope: the checks
    before decoding; returns what materialize_entry is given (raw entry,
    augmentation epoch, subrecord). *)
Definition seq_identify (s : seq_source) (e : envelope seq_payload) : res (bytes * Z * option Z) :=
  guard 0 <=? e_source_id e else RuntimeError ;;  (* simplification: Python would wrap a negative index *)
  match nth_error (q_files s) (Z.to_nat (e_source_id e)) with
  | None => Err RuntimeError
  | Some f =>
    match e_key e with
    | KTuple [_; _; _; KTuple address] =>
      let base_length := match f_count (q_format s) with None => 1 | Some _ => 2 end in
      match (if zlen address =? base_length then Some (KInt 0)
             else hd_error address) with
      | None => Err IndexError
      | Some cycle =>
        let zero := key_eqb cycle (KInt 0) in
        match hd_error (if zero then address else tl address) with
        | None => Err IndexError
        | Some entry =>
          let sub := y_sub (e_payload e) in
          guard Bool.eqb (match sub with None => true | _ => false end)
                         (match f_count (q_format s) with None => true | _ => false end)
            else RuntimeError ;;
          let base := match sub with None => [entry] | Some k => [entry; KInt k] end in
          let expected := KTuple [str "sequential"; KBytes (q_key f); KStr (f_id (q_format s));
                                  KTuple (if zero then base else cycle :: base)] in
          guard key_eqb (e_key e) expected else RuntimeError ;;
          Ok (y_raw (e_payload e), y_epoch (e_payload e), sub)
        end
      end
    | _ => Err ValueError
    end
  end.

(** struct.pack("<Q", v). *)
Definition pack_u64 (v : Z) : res bytes :=
  guard (0 <=? v) && (v <? two64) else StructError ;; Ok (le_bytes 8 v).

(** "NNUE-sequential-record-key-v2\0", line 182. *)
Definition seq_key_magic : bytes :=
  [78; 78; 85; 69; 45; 115; 101; 113; 117; 101; 110; 116; 105; 97; 108; 45; 114; 101; 99; 111; 114;
   100; 45; 107; 101; 121; 45; 118; 50; 0].

Definition as_int (k : key) : option Z := match k with KInt z => Some z | _ => None end.

(** lines 546-574 [update_record_key_digest]: the bytes fed to the digest. *)
Definition seq_key_digest (s : seq_source) (k : key) : res bytes :=
  match k with
  | KTuple [ns; KBytes file_key; KStr fid; KTuple address] =>
      let base_length := match f_count (q_format s) with None => 1 | Some _ => 2 end in
      guard key_eqb ns (str "sequential") && zlist_eqb fid (f_id (q_format s))
            && (zlen file_key =? 32)
            && ((zlen address =? base_length) || (zlen address =? base_length + 1))
            && forallb (fun v => match as_int v with Some z => 0 <=? z | None => false end) address
        else ValueError ;;
      idlen <- pack_u32 (zlen (f_id (q_format s))) ;;   (* constructor, line 183 *)
      body <- mapM (fun v => match as_int v with Some z => pack_u64 z | None => Err ValueError end)
                address ;;
      Ok (seq_key_magic ++ idlen ++ f_id (q_format s) ++ file_key
          ++ le_bytes 4 (zlen address) ++ List.concat body)
  | _ => Err ValueError
  end.
