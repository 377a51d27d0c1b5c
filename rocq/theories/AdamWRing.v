(** The ring of gradient address tables: utils/fused_adamw.py 175-237 ([_LaunchPlan]) and 471-533 ([step]), as host and CUDA stream interleave.

    One plan, one stream.  A copy with non_blocking=True reads the pinned buffer when the stream comes to it.  Not modelled: other streams, a copy
    that is half done (C65_no_buffer_is_overwritten_in_flight shows that it could not be seen). *)
From Verif Require Import Base.
Set Implicit Arguments. Unset Strict Implicit.

Section Ring.
Variable T : Type. (* a table of addresses *)
Definition staging_slots : nat := 3. (* line 60 *)
(** what is put into the stream: an upload of a slot, a kernel with the table it was given ([None]: the one made with the plan), any other work *)
Inductive work := Copy (slot : nat) | Kernel (argument : option nat) | Other.
(** where [step] is: outside; in consumed.synchronize(), line 232; at line 233; at line 234; in the try; in the finally *)
Inductive place := Outside | Synchronizing (t : T) | Writing (t : T) | Uploading | Trying | Finally.
Record ring := { initial : T; host : nat -> T; device : nat -> T; event : nat -> nat; slot : nat; argument : option nat; stream : list work; done : nat; at_ : place }.
(** a new plan: lines 202-227; events that were never recorded are complete *)
Definition new_plan (t : T) (garbage : nat -> T) : ring :=
  {| initial := t; host := garbage; device := garbage; event := fun _ => 0%nat; slot := 0; argument := None; stream := []; done := 0; at_ := Trying |}.
Inductive label := Same | Moved (t : T) | Synchronized | Written | Uploaded | Launched | Raised | Recorded | Foreign | Ran (read : option T).
Definition put A (k : nat) (a : A) (f : nat -> A) : nat -> A := fun j => if (j =? k)%nat then a else f j.
Definition run_host (s : ring) (l : label) : option ring :=
  match l, at_ s with
  | Same, Outside => (* line 406 *)
      Some {| initial := initial s; host := host s; device := device s; event := event s; slot := slot s; argument := argument s; stream := stream s; done := done s; at_ := Trying |}
  | Moved t, Outside => (* line 230 *)
      Some {| initial := initial s; host := host s; device := device s; event := event s; slot := (slot s + 1) mod staging_slots; argument := argument s; stream := stream s; done := done s; at_ := Synchronizing t |}
  | Synchronized, Synchronizing t => (* line 232 *)
      if (event s (slot s) <=? done s)%nat
      then Some {| initial := initial s; host := host s; device := device s; event := event s; slot := slot s; argument := argument s; stream := stream s; done := done s; at_ := Writing t |}
      else None
  | Written, Writing t => (* line 233 *)
      Some {| initial := initial s; host := put (slot s) t (host s); device := device s; event := event s; slot := slot s; argument := argument s; stream := stream s; done := done s; at_ := Uploading |}
  | Uploaded, Uploading => (* lines 234-235 *)
      Some {| initial := initial s; host := host s; device := device s; event := event s; slot := slot s; argument := Some (slot s); stream := stream s ++ [Copy (slot s)]; done := done s; at_ := Trying |}
  | Launched, Trying => (* line 510 *)
      Some {| initial := initial s; host := host s; device := device s; event := event s; slot := slot s; argument := argument s; stream := stream s ++ [Kernel (argument s)]; done := done s; at_ := Finally |}
  | Raised, Trying => (* an exception before the launch *)
      Some {| initial := initial s; host := host s; device := device s; event := event s; slot := slot s; argument := argument s; stream := stream s; done := done s; at_ := Finally |}
  | Recorded, Finally => (* lines 238-240 *)
      Some {| initial := initial s; host := host s; device := device s; event := put (slot s) (List.length (stream s)) (event s); slot := slot s; argument := argument s; stream := stream s; done := done s; at_ := Outside |}
  | Foreign, _ =>
      Some {| initial := initial s; host := host s; device := device s; event := event s; slot := slot s; argument := argument s; stream := stream s ++ [Other]; done := done s; at_ := at_ s |}
  | _, _ => None
  end.
Definition run_device (s : ring) : option (ring * option T) :=
  let advance dev := {| initial := initial s; host := host s; device := dev; event := event s; slot := slot s; argument := argument s; stream := stream s; done := S (done s); at_ := at_ s |} in
  match nth_error (stream s) (done s) with
  | None => None
  | Some (Copy k) => Some (advance (put k (host s k) (device s)), None)
  | Some (Kernel None) => Some (advance (device s), Some (initial s))
  | Some (Kernel (Some k)) => Some (advance (device s), Some (device s k))
  | Some Other => Some (advance (device s), None)
  end.
Inductive step (s : ring) : label -> ring -> Prop :=
| S_host l s' : run_host s l = Some s' -> step s l s'
| S_device s' r : run_device s = Some (s', r) -> step s (Ran r) s'.
Inductive run (s0 : ring) : list label -> ring -> Prop :=
| R_start : run s0 [] s0
| R_step tr s l s' : run s0 tr s -> step s l s' -> run s0 (tr ++ [l]) s'.

(** ** Specification *)
(** the tables that the kernels should read: for each, the one of the last move before its launch *)
Fixpoint wanted (current : T) (tr : list label) : list T :=
  match tr with [] => [] | Moved t :: r => wanted t r | Launched :: r => current :: wanted current r | _ :: r => wanted current r end.
(** the tables they did read *)
Definition reads (tr : list label) : list T := flat_map (fun l => match l with Ran (Some t) => [t] | _ => [] end) tr.
(** work put into the stream and finished *)
Definition enqueued (tr : list label) : nat := List.length (filter (fun l => match l with Uploaded | Launched | Foreign => true | _ => false end) tr).
Definition executed (tr : list label) : nat := List.length (filter (fun l => match l with Ran _ => true | _ => false end) tr).
Definition no_move (tr : list label) : Prop := forall t, ~ List.In (Moved t) tr.
End Ring.
Arguments Outside {T}. Arguments Uploading {T}. Arguments Trying {T}. Arguments Finally {T}.
Arguments Same {T}. Arguments Synchronized {T}. Arguments Written {T}. Arguments Uploaded {T}. Arguments Launched {T}. Arguments Raised {T}. Arguments Recorded {T}. Arguments Foreign {T}.
