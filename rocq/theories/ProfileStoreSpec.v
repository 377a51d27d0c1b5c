(** What the cache of tuning profiles must do: vocabulary for the theorems of
    Prop_ProfileStore.v, independent of how [load] and [save] are written. *)
From Verif Require Import Base Checkpoint Json ProfileStore.
Set Implicit Arguments. Unset Strict Implicit.

(** A key as [hexdigest] of SHA-256 writes it. *)
Definition digest (k : ustr) : Prop := List.length k = 64%nat /\ Forall (fun c => 48 <= c <= 57 \/ 97 <= c <= 102) k.
(** The file [n] of the directory. *)
Definition at_name (d : dir) (n : ustr) : option file := obj_get (entries d) n.
Definition one_per_name (d : dir) : Prop := NoDup (map fst (entries d)).
(** The name of a profile: a digest and ".json". *)
Definition profile (n : ustr) : Prop := exists k, digest k /\ n = k ++ ulit ".json".
(** The number of profiles among some entries. *)
Definition profiles (d : dir) : list (ustr * file) := filter (fun e => is_profile (fst e)) (entries d).
(** Every profile in the directory is the complete text of one of these records, under its own key. *)
Definition holds (render : json -> list Z) (records : list json) (d : dir) : Prop :=
  forall n f, at_name d n = Some f -> profile n ->
  exists r, In r records /\ content f = render r /\ n = exact_key r ++ ulit ".json".
(** A record [json.loads] gives back, whose key is a digest. *)
Definition storable (parse : list Z -> option json) (render : json -> list Z) (r : json) : Prop :=
  parse (render r) = Some r /\ digest (exact_key r).

(** A record of the current format: its schema, its two keys as texts, and a resolved configuration. *)
Definition current_format (r : json) : Prop :=
  exists d e c resolved, r = JObj d /\ obj_get d (ulit "schema") = Some (JStr (ulit "pipeline-tuning-v1"))
  /\ obj_get d (ulit "exact_key") = Some (JStr e) /\ obj_get d (ulit "compatible_key") = Some (JStr c) /\ obj_get d (ulit "resolved") = Some (JObj resolved).

Section Reach.
Variables (parse : list Z -> option json) (render : json -> list Z) (max_entries : Z).
(** Everything that can happen to a cache directory: calls start in any process and thread (one at a
    time in each), file operations of the running calls alternate in any way and can fail, and a call
    can end or be killed between any two operations.  [log] are the records passed to [save] so far. *)
Inductive reach (log0 : list json) (d0 : dir) : list json -> dir -> list task -> Prop :=
| at_start : reach log0 d0 log0 d0 []
| load_called log d ts p t e c m :
    reach log0 d0 log d ts -> 0 <= p -> 0 <= t -> ~ In (p, t) (map (fun x => (pid x, tid x)) ts) -> digest e ->
    reach log0 d0 log d (Task p t (CLoad e c m) (program parse max_entries p t (CLoad e c m)) :: ts)
| save_called log d ts p t r chunks :
    reach log0 d0 log d ts -> 0 <= p -> 0 <= t -> ~ In (p, t) (map (fun x => (pid x, tid x)) ts) ->
    storable parse render r -> List.concat chunks = render r ->
    reach log0 d0 (r :: log) d (Task p t (CSave r chunks) (program parse max_entries p t (CSave r chunks)) :: ts)
| operation log d ts1 p t c o k ts2 now d' a :
    reach log0 d0 log d (ts1 ++ Task p t c (Do o k) :: ts2) -> served true now d o d' a ->
    reach log0 d0 log d' (ts1 ++ Task p t c (k a) :: ts2)
| gone log d ts1 x ts2 :
    reach log0 d0 log d (ts1 ++ x :: ts2) -> reach log0 d0 log d (ts1 ++ ts2).
End Reach.
