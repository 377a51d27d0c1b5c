(** * C44: the decoded-array cache of the processed NPZ decoder

    Models /repo/dataset/decoder.py lines 63-102 (cache fields of the
    constructor, [configure_cache], [cache_state]) and 346-412 ([_load],
    [_is_mmap_cache_entry], [_evict_array_cache]).  /repo/dataset/telemetry.py
    lines 495-533 repeats [_load] around a few counters; the counters are not
    modelled.

    Any number of decode workers call [_load] at the same time.  Every
    [with self._array_cache_condition:] block holds one lock, so it is one
    atomic step; [condition.wait()] gives the lock back and sleeps until a
    [notify_all]; reading the file happens outside the lock.  A step is named
    by a label, the schedule is the list of labels, and a label that the code
    could not execute in the current state makes [exec] answer [None].

    Not modelled: an exception delivered asynchronously inside a locked block
    (KeyboardInterrupt between two lines), spurious wake-ups (the [while] loop
    treats them like a wake-up, CPython's Condition has none), pickling. *)
From Coq Require Import ZArith List Bool Lia.
From Verif Require Import Base BaseFacts.
Import ListNotations.
Set Implicit Arguments.
Unset Strict Implicit.
Open Scope Z_scope.

(** ** Arrays, entries *)

(** One numpy array as the cache sees it: whether it is an [np.memmap], its
    [nbytes] and its contents (opaque). *)
Record array := mk_array { a_mmap : bool; a_nbytes : Z; a_data : Z }.

(** The dict of arrays of one file: [cached.values()] in order. *)
Definition entry := list array.

Definition path := Z.

(** decoder.py 372-376 [_is_mmap_cache_entry]. *)
Definition is_mmap_entry (e : entry) : bool :=
  negb (match e with [] => true | _ => false end) && forallb a_mmap e.

(** decoder.py 399, 409: [sum(array.nbytes for array in cached.values())]. *)
Definition entry_bytes (e : entry) : Z := zsum (map a_nbytes e).

(** ** The ordered dictionary *)

(** [self._array_cache_values]: an OrderedDict, oldest first. *)
Definition odict := list (path * entry).

(** [d.get(k)]. *)
Fixpoint od_get (d : odict) (k : path) : option entry :=
  match d with
  | [] => None
  | (k', v) :: d' => if k' =? k then Some v else od_get d' k
  end.

(** [del d[k]] (the first, and only, item with that key). *)
Fixpoint od_del (d : odict) (k : path) : odict :=
  match d with
  | [] => []
  | (k', v) :: d' => if k' =? k then d' else (k', v) :: od_del d' k
  end.

(** [d[k] = v]: replaces in place or appends. *)
Fixpoint od_set (d : odict) (k : path) (v : entry) : odict :=
  match d with
  | [] => [(k, v)]
  | (k', v') :: d' => if k' =? k then (k', v) :: d' else (k', v') :: od_set d' k v
  end.

(** [d.move_to_end(k)]: KeyError when absent. *)
Definition od_move_to_end (d : odict) (k : path) : res odict :=
  match od_get d k with
  | Some v => Ok (od_del d k ++ [(k, v)])
  | None => Err KeyError
  end.

(** ** Eviction *)

(** decoder.py 378-388 [evict_oldest]. *)
Fixpoint find_victim (d : odict) (mm : bool) : option path :=
  match d with
  | [] => None
  | (k, v) :: d' => if Bool.eqb (is_mmap_entry v) mm then Some k else find_victim d' mm
  end.

Definition evict_oldest (d : odict) (mm : bool) : res odict :=
  match find_victim d mm with
  | None => Err RuntimeError
  | Some k => Ok (od_del d k)
  end.

(** decoder.py 390-393: [mmap_count]. *)
Definition count_mmap (d : odict) : Z :=
  zsum (map (fun kv => if is_mmap_entry (snd kv) then 1 else 0) d).

(** decoder.py 395-397: the first [while].  The fuel is the number of items;
    NpzCacheFacts.v shows it is never used up. *)
Fixpoint evict_mmap (fuel : nat) (cap : Z) (d : odict) (mmap_count : Z) : res odict :=
  if mmap_count >? cap then
    match fuel with
    | O => Err OutOfFuel
    | S f =>
        d' <- evict_oldest d true ;;
        evict_mmap f cap d' (mmap_count - 1)
    end
  else Ok d.

(** decoder.py 398-402: [loaded_bytes]. *)
Definition sum_loaded_bytes (d : odict) : Z :=
  zsum (map (fun kv => entry_bytes (snd kv))
            (filter (fun kv => negb (is_mmap_entry (snd kv))) d)).

(** decoder.py 407-410: the inner [for ... break] subtracts the bytes of the
    first loaded entry. *)
Fixpoint first_loaded_bytes (d : odict) : Z :=
  match d with
  | [] => 0
  | (_, v) :: d' => if is_mmap_entry v then first_loaded_bytes d' else entry_bytes v
  end.

(** decoder.py 403-412: the second [while]. *)
Fixpoint evict_loaded (fuel : nat) (cap bytes_cap : Z) (d : odict)
         (loaded_count loaded_bytes : Z) : res odict :=
  if (loaded_count >? 1) && ((loaded_count >? cap) || (loaded_bytes >? bytes_cap)) then
    match fuel with
    | O => Err OutOfFuel
    | S f =>
        let loaded_bytes := loaded_bytes - first_loaded_bytes d in
        d' <- evict_oldest d false ;;
        evict_loaded f cap bytes_cap d' (loaded_count - 1) loaded_bytes
    end
  else Ok d.

(** decoder.py 377-412 [_evict_array_cache]. *)
Definition evict (mmap_cap cap bytes_cap : Z) (d : odict) : res odict :=
  let mmap_count := count_mmap d in
  let loaded_count := zlen d - mmap_count in
  d <- evict_mmap (List.length d) mmap_cap d mmap_count ;;
  evict_loaded (List.length d) cap bytes_cap d loaded_count (sum_loaded_bytes d).

(** ** The calls *)

(** Where one call of [_load(path)] stands. *)
Inductive phase :=
| Called                     (* about to take the lock, line 348 *)
| Asleep                     (* inside condition.wait(), line 350 *)
| Woken                      (* notified, about to take the lock again *)
| Reading                    (* in _load_uncached, line 357, lock released *)
| ReadOk (a : entry)         (* about to take the lock, line 363 *)
| ReadErr (e : exn)          (* about to take the lock, line 359 *)
| Finished (r : res entry).  (* returned or raised *)

Record call := mk_call { c_path : path; c_phase : phase }.

(** The decoder's cache fields (decoder.py 63-69) and the calls made so far. *)
Record world := mk_world {
  w_cap : Z;                 (* _array_cache_capacity *)
  w_bytes_cap : Z;           (* _array_cache_byte_capacity *)
  w_mmap_cap : Z;            (* _mmap_cache_capacity *)
  w_cache : odict;           (* _array_cache_values *)
  w_loading : list path;     (* _array_cache_loading, a set *)
  w_calls : list call
}.

(** decoder.py 63-69. *)
Definition initial : world :=
  mk_world 6 (1152 * 1024 * 1024) 16 [] [] [].

(** A Python argument of [configure_cache]: an exact int or anything else. *)
Inductive pyarg := PyInt (z : Z) | PyOther.

(** What happens next. *)
Inductive label :=
| Invoke (p : path)                       (* a worker calls _load(path) *)
| Enter (i : nat)                         (* call i runs the locked block at line 348 *)
| Read (i : nat) (r : res entry)          (* call i's _load_uncached ends with r *)
| Publish (i : nat)                       (* call i runs the locked block at 359 or 363 *)
| Configure (n b : pyarg).                (* configure_cache(entries=n, byte_capacity=b) *)

Definition set_calls (w : world) (cs : list call) : world :=
  mk_world (w_cap w) (w_bytes_cap w) (w_mmap_cap w) (w_cache w) (w_loading w) cs.

Definition set_phase (w : world) (i : nat) (ph : phase) : world :=
  set_calls w
    match nth_error (w_calls w) i with
    | Some c => upd (w_calls w) i (mk_call (c_path c) ph)
    | None => w_calls w
    end.

Definition set_cache (w : world) (d : odict) : world :=
  mk_world (w_cap w) (w_bytes_cap w) (w_mmap_cap w) d (w_loading w) (w_calls w).

Definition set_loading (w : world) (l : list path) : world :=
  mk_world (w_cap w) (w_bytes_cap w) (w_mmap_cap w) (w_cache w) l (w_calls w).

Definition mem (p : path) (l : list path) : bool := existsb (Z.eqb p) l.

(** [set.remove]: KeyError when absent. *)
Fixpoint set_remove (l : list path) (p : path) : option (list path) :=
  match l with
  | [] => None
  | q :: l' => if q =? p then Some l'
               else match set_remove l' p with Some r => Some (q :: r) | None => None end
  end.

(** [condition.notify_all()]: every sleeping call must take the lock again. *)
Definition wake (c : call) : call :=
  match c_phase c with
  | Asleep => mk_call (c_path c) Woken
  | _ => c
  end.

Definition notify_all (w : world) : world := set_calls w (map wake (w_calls w)).

(** decoder.py 348-355: the first locked block, up to its end, to a [wait] or
    to the [return]. *)
Definition enter_block (w : world) (i : nat) (p : path) : world :=
  if mem p (w_loading w) then set_phase w i Asleep
  else match od_get (w_cache w) p with
       | Some cached =>
           match od_move_to_end (w_cache w) p with
           | Ok d => set_phase (set_cache w d) i (Finished (Ok cached))
           | Err e => set_phase w i (Finished (Err e))
           end
       | None => set_phase (set_loading w (p :: w_loading w)) i Reading
       end.

(** decoder.py 358-362: the handler of a failed read; then [raise]. *)
Definition failed_block (w : world) (i : nat) (p : path) (e : exn) : world :=
  match set_remove (w_loading w) p with
  | Some l => set_phase (notify_all (set_loading w l)) i (Finished (Err e))
  | None => set_phase w i (Finished (Err KeyError))
  end.

(** decoder.py 363-369: the second locked block.  An exception of a line skips
    the later lines, with the earlier effects kept. *)
Definition publish_block (w : world) (i : nat) (p : path) (a : entry) : world :=
  let d := od_set (w_cache w) p a in
  match od_move_to_end d p with
  | Err e => set_phase (set_cache w d) i (Finished (Err e))
  | Ok d =>
      match evict (w_mmap_cap w) (w_cap w) (w_bytes_cap w) d with
      | Err e => set_phase (set_cache w d) i (Finished (Err e))
      | Ok d =>
          match set_remove (w_loading w) p with
          | None => set_phase (set_cache w d) i (Finished (Err KeyError))
          | Some l =>
              set_phase (notify_all (set_loading (set_cache w d) l)) i (Finished (Ok a))
          end
      end
  end.

(** decoder.py 75-84 [configure_cache]. *)
Definition configure (w : world) (n b : pyarg) : world * res unit :=
  match n with
  | PyInt n =>
      if n <=? 0 then (w, Err ValueError) else
      match b with
      | PyInt b =>
          if b <=? 0 then (w, Err ValueError) else
          let w := mk_world n b (w_mmap_cap w) (w_cache w) (w_loading w) (w_calls w) in
          match evict (w_mmap_cap w) (w_cap w) (w_bytes_cap w) (w_cache w) with
          | Ok d => (set_cache w d, Ok tt)
          | Err e => (w, Err e)
          end
      | PyOther => (w, Err ValueError)
      end
  | PyOther => (w, Err ValueError)
  end.

(** decoder.py 86-102 [cache_state]: entries, bytes, capacities. *)
Definition cache_state (w : world) : Z * Z * Z * Z :=
  let loaded := filter (fun e => negb (is_mmap_entry e)) (map snd (w_cache w)) in
  (zlen loaded, zsum (map entry_bytes loaded), w_cap w, w_bytes_cap w).

(** One step. [abspath] is [os.path.abspath] (decoder.py 347). *)
Definition exec (abspath : path -> path) (w : world) (l : label) : option world :=
  match l with
  | Invoke p => Some (set_calls w (w_calls w ++ [mk_call (abspath p) Called]))
  | Enter i =>
      match nth_error (w_calls w) i with
      | Some c =>
          match c_phase c with
          | Called | Woken => Some (enter_block w i (c_path c))
          | _ => None
          end
      | None => None
      end
  | Read i r =>
      match nth_error (w_calls w) i with
      | Some c =>
          match c_phase c with
          | Reading =>
              Some (set_phase w i (match r with Ok a => ReadOk a | Err e => ReadErr e end))
          | _ => None
          end
      | None => None
      end
  | Publish i =>
      match nth_error (w_calls w) i with
      | Some c =>
          match c_phase c with
          | ReadOk a => Some (publish_block w i (c_path c) a)
          | ReadErr e => Some (failed_block w i (c_path c) e)
          | _ => None
          end
      | None => None
      end
  | Configure n b => Some (fst (configure w n b))
  end.

Fixpoint exec_all (abspath : path -> path) (w : world) (ls : list label) : option world :=
  match ls with
  | [] => Some w
  | l :: ls' => match exec abspath w l with
                | Some w' => exec_all abspath w' ls'
                | None => None
                end
  end.
