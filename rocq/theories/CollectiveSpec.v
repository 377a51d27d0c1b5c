(** Specification vocabulary for C57: how ranks run together. *)
From Verif Require Import Base Collective.
Set Implicit Arguments. Unset Strict Implicit.

Section Ranks.
Variables text batch desc : Type.
Notation prog := (prog text batch desc).
Notation msg := (msg text batch desc).
Notation failure := (failure text desc).
Variable world : nat.

(** [meets P R]: ranks 0 .. world - 1 run their programs [P r] to the end, with the results [R r]: all arrive at the same
    kind of collective again and again - everybody then gets everybody's message, in rank order - until all are done.  There is
    no such [R] if some rank waits in a collective that another one never enters. *)
Inductive meets (A : Type) : (nat -> prog A) -> (nat -> A + failure) -> Prop :=
| m_done P R : (forall r, (r < world)%nat -> P r = Done (R r)) -> meets P R
| m_coll P R k (m : nat -> msg) next :
    (forall r, (r < world)%nat -> P r = Coll k (m r) (next r)) ->
    meets (fun r => next r (map m (seq 0 world))) R -> meets P R.

(** All ranks succeed, or all raise, and raise the same. *)
Definition same_fate (A : Type) (R : nat -> A + failure) : Prop :=
  (forall r, (r < world)%nat -> exists a, R r = inl a) \/ (exists e, forall r, (r < world)%nat -> R r = inr e).
(** All ranks succeed or all raise. *)
Definition united (A : Type) (R : nat -> A + failure) : Prop :=
  (forall r, (r < world)%nat -> exists a, R r = inl a) \/ (forall r, (r < world)%nat -> exists e, R r = inr e).

(** The ranks with something to report, with it. *)
Definition reports (errs : nat -> list text) : list (nat * list text) :=
  filter (fun p => negb (empty (snd p))) (map (fun r => (r, errs r)) (seq 0 world)).

(** No rank waits for another that does not come; all succeed exactly if [C], and otherwise all raise the same exception. *)
Definition ends_together (A : Type) (P : nat -> prog A) (C : Prop) : Prop :=
  exists R, meets P R /\ same_fate R /\ ((forall r, (r < world)%nat -> exists a, R r = inl a) <-> C).
(** Ranks that do not run to the end together. *)
Definition hangs (A : Type) (P : nat -> prog A) : Prop := ~ exists R, meets P R.
End Ranks.

(** ** What is expected of one call *)
Section Calls.
Variables text batch desc : Type.
Variable world : nat.
Local Notation "'ranks' '(' 'fun' r '=>' P ')'" := (forall r : nat, (r < world)%nat -> P) (at level 0, r name, P at level 200).
(** The batch a rank has got. *)
Definition own (x : fetching text batch desc) : option batch :=
  match first x with Item b => Some b | Stop => match second x with Item b => Some b | _ => None end | Broken _ => None end.
Definition fetched (x : nat -> fetching text batch desc) : Prop :=
  ranks (fun r => own (x r) <> None) /\ ranks (fun r => token (x r) = token (x 0%nat)).
(** The same kind of data set everywhere, and the bookkeeping of the sampler (not covered by a try block) does not fail. *)
Definition fetch_uniform (x : nat -> fetching text batch desc) : Prop :=
  ranks (fun r => first (x r) = Stop -> advance (x r) = None) /\ ranks (fun r => stage (x r) = None)
  /\ (ranks (fun r => token (x r) = None) \/ ranks (fun r => token (x r) <> None)).
(** A finite loss, no errors and the same metrics on all ranks (or the metrics seen before). *)
Definition checked (x : nat -> checking text desc) : Prop :=
  ranks (fun r => errors (x r) = [] /\ loss_ok (x r) = true /\ finite (x r) = true)
  /\ ranks (fun r => match expected (x r) with None => schema (x r) = schema (x 0%nat) | Some d => schema (x r) = d end).
Definition check_uniform (x : nat -> checking text desc) : Prop :=
  ranks (fun r => expected (x r) = None) \/ ranks (fun r => expected (x r) <> None).
Definition prepared_ok (x : nat -> option (desc + text)) : Prop :=
  ranks (fun r => x r = None) \/ exists d, ranks (fun r => x r = Some (inl d)).
Definition prepare_uniform (x : nat -> option (desc + text)) : Prop :=
  ranks (fun r => x r = None) \/ ranks (fun r => exists d, x r = Some (inl d)) \/ ranks (fun r => exists e, x r = Some (inr e)).
(** One micro-step. *)
Definition uniform (x : nat -> micro text batch desc) : Prop :=
  (ranks (fun r => fetch (x r) = None) \/ exists f, ranks (fun r => fetch (x r) = Some (f r)) /\ fetch_uniform f)
  /\ check_uniform (fun r => before (x r)) /\ check_uniform (fun r => after (x r)) /\ prepare_uniform (fun r => prepared (x r))
  /\ ranks (fun r => sync_grads (x r) = sync_grads (x 0%nat)).
Definition fine (x : nat -> micro text batch desc) : Prop :=
  (forall f, ranks (fun r => fetch (x r) = Some (f r)) -> fetched f)
  /\ ranks (fun r => hook (x r) = []) /\ checked (fun r => before (x r))
  /\ (sync_grads (x 0%nat) = true -> checked (fun r => after (x r)) /\ prepared_ok (fun r => prepared (x r)))
  /\ ranks (fun r => optimizer (x r) = None).
End Calls.

(** ** Evaluation *)
Section Evaluation.
Variables text batch : Type.
(** The batches of one rank, at most [limit] of them. *)
Definition cut (limit : option nat) (l : list batch) : list batch := match limit with Some n => firstn n l | None => l end.
(** Does the loader get to the point where it breaks?  Not if the limit comes first. *)
Definition at_break (limit : option nat) (l : list batch) (breaks : option text) : bool :=
  match breaks with
  | None => false
  | Some _ => match limit with Some n => (List.length l <? n)%nat | None => true end
  end.
(** [n] steps: with the rank's own batches, then with repetitions marked as such. *)
Definition delivered (n : nat) (l : list batch) (known : batch -> Prop) (out : yields batch) : Prop :=
  exists pad, out = map (fun b => (b, true)) (firstn n l) ++ map (fun b => (b, false)) pad /\ List.length out = n /\ Forall known pad.
Definition loads (limit : option nat) (x : loader text batch) : Prop := creation x = None /\ at_break limit (items x) (breaks x) = false.
End Evaluation.
