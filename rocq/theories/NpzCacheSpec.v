(** * C44: what the NPZ array cache promises, without its code *)
From Coq Require Import ZArith List Bool.
From Verif Require Import Base NpzCache.
Import ListNotations.
Set Implicit Arguments.
Unset Strict Implicit.
Open Scope Z_scope.

(** The memory-mapped files of a cache and those held in memory, oldest first. *)
Definition mapped (d : odict) : odict := filter (fun kv => is_mmap_entry (snd kv)) d.
Definition in_memory (d : odict) : odict := filter (fun kv => negb (is_mmap_entry (snd kv))) d.

Definition keys (d : odict) : list path := map fst d.
Definition total_bytes (d : odict) : Z := zsum (map (fun kv => entry_bytes (snd kv)) d).

(** The limits on the memory-mapped files and on the files held in memory: a
    single file is kept whatever its size. *)
Definition mapped_fits (mmap_cap : Z) (l : odict) : Prop := zlen l <= mmap_cap.
Definition memory_fits (cap bytes_cap : Z) (l : odict) : Prop :=
  zlen l <= 1 \/ (zlen l <= cap /\ total_bytes l <= bytes_cap).

(** [s] is the longest end of [l] with property [P]. *)
Definition longest_end {A} (P : list A -> Prop) (s l : list A) : Prop :=
  (exists pre, l = pre ++ s) /\ P s /\
  forall pre' s', l = pre' ++ s' -> P s' -> (List.length s' <= List.length s)%nat.

(** [d'] keeps some items of [d], in the same order. *)
Definition keeps_some (d' d : odict) : Prop :=
  exists keep : path -> bool, d' = filter (fun kv => keep (fst kv)) d.

(** ** Observables of a history: which call succeeded or failed when *)

Definition path_of (w : world) (i : nat) (p : path) : Prop :=
  exists c, nth_error (w_calls w) i = Some c /\ c_path c = p.

Definition result_of (w : world) (i : nat) (r : res entry) : Prop :=
  exists c, nth_error (w_calls w) i = Some c /\ c_phase c = Finished r.

(** The call is between its decision to read the file and the end of the
    locked block that publishes the outcome. *)
Definition is_reading (ph : phase) : bool :=
  match ph with Reading | ReadOk _ | ReadErr _ => true | _ => false end.

Definition is_finished (ph : phase) : bool :=
  match ph with Finished _ => true | _ => false end.

(** The schedule gives call [i]'s read the outcome [r]. *)
Definition read_outcome (ls : list label) (i : nat) (r : res entry) : Prop := In (Read i r) ls.

(** Steps of the calls already made (nobody calls or reconfigures). *)
Definition internal (l : label) : bool :=
  match l with Enter _ | Read _ _ | Publish _ => true | _ => false end.

