(** The record-source interface of dataset/source.py and the contract every
    source must meet for the planner and the composite source. *)
From Verif Require Import Base Rng.
Set Implicit Arguments.

(** source.py:42-49 [RecordEnvelope].  [P] is the native payload type. *)
Record envelope (P : Type) := {
  e_source_id : Z;
  e_key : key;
  e_shape : Z;
  e_payload : P;
  e_bytes : Z
}.

(** source.py:55-75 [RecordSource], the reading part.  [s_many] is the optional
    [next_envelopes] method ([hasattr] in the code).  Cursors are values: a method
    that mutates its cursor returns the new value. *)
Record source (C P : Type) := {
  s_next : C -> res (option (envelope P) * C);
  s_many : option (C -> nat -> res (list (envelope P) * C))
}.

(** Contract: [R c l] means "from cursor [c] exactly the records [l] are still to come". *)
Record serves {C P} (src : source C P) (R : C -> list (envelope P) -> Prop) : Prop := {
  serves_next : forall c l, R c l ->
    exists c', s_next src c = Ok (hd_error l, c') /\ R c' (tl l);
  serves_many : forall f c l limit, s_many src = Some f -> R c l -> (0 < limit)%nat ->
    exists chunk rest c', f c limit = Ok (chunk, c') /\ l = chunk ++ rest /\ R c' rest
      /\ (List.length chunk <= limit)%nat /\ (chunk = [] -> l = [])
}.
