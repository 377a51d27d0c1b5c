(** Vocabulary for statements about planned batches: the real samples of a
    batch, the samples of a shape, which part of the record stream has been
    consumed, and what a client of the planner sees. *)
From Verif Require Import Base Rng Sequential Planner.
Set Implicit Arguments.
Unset Strict Implicit.

(** The samples marked valid. *)
Definition reals {A} (items : list A) (real : list bool) : list A :=
  map fst (filter snd (combine items real)).

Definition of_shape {A} (shape : A -> Z) (t : Z) (l : list A) : list A :=
  filter (fun e => shape e =? t) l.

Arguments reals {A} items real : simpl never.
Arguments of_shape {A} shape t l : simpl never.

(** Reading on from the items left of a cycle, possibly into later cycles of the
    same epoch: [eats ep (c, items) E (c', rest)]. *)
Inductive eats {A} (stream : Z -> Z -> res (list A)) (ep : Z) : Z * list A -> list A -> Z * list A -> Prop :=
| eats_here cy items E rest : items = E ++ rest -> eats stream ep (cy, items) E (cy, rest)
| eats_next cy items l E p : stream ep (cy + 1) = Ok l -> eats stream ep (cy + 1, l) E p ->
    eats stream ep (cy, items) (items ++ E) p.

(** The checks of PlannerConfig.__post_init__ (planner.py:39-56), of the runtime
    context (core.py:23-66) and of DatasetPlanner.__init__ (planner.py:145-161,
    177-188). *)
Record config_ok (cf : pconfig) : Prop := {
  ok_batch : (0 < pc_batch cf)%nat;
  ok_queues : 0 < pc_max_queues cf;
  ok_steps : forall s, pc_steps cf = Some s -> 0 < s;
  ok_sharded : pc_sharded cf = true -> pc_train cf = true /\ pc_steps cf <> None;
  ok_packed : pc_packed cf = true -> pc_sharded cf = false /\ pc_uniform cf <> None
}.

(** A full batch of [n] distinct slots, all marked real, of a single shape. *)
Definition full_batch {A} (shape : A -> Z) (n : nat) (b : batch A) : Prop :=
  List.length (b_items b) = n /\ b_real b = repeat true n
  /\ exists s, Forall (fun e => shape e = s) (b_items b).

(** A batch of [n] slots of which the first [k] are real and the others repeat them
    cyclically, of a single shape. *)
Definition padded_batch {A} (shape : A -> Z) (n : nat) (b : batch A) : Prop :=
  exists k s, (0 < k <= n)%nat /\ List.length (b_items b) = n
    /\ b_real b = repeat true k ++ repeat false (n - k)
    /\ (forall i, (i < n)%nat -> nth_error (b_items b) i = nth_error (b_items b) (i mod k))
    /\ Forall (fun e => shape e = s) (b_items b).

(** Everything the batches [bs] contain as real samples. *)
Definition samples {A} (bs : list (batch A)) : list A :=
  flat_map (fun b => reals (b_items b) (b_real b)) bs.

Section Client.
  Variables X A T : Type.
  Variable fd : feed X A T.
  Variable shape : A -> Z.
  Variable cf : pconfig.

  (** Successive next_batch calls and the batches they returned. *)
  Inductive plan : planner X A -> list (batch A) -> planner X A -> Prop :=
  | plan_nil p : plan p [] p
  | plan_cons fuel p b p1 bs p2 :
      next_batch fd shape cf fuel p = Ok (Some b, p1) -> plan p1 bs p2 -> plan p (b :: bs) p2.

  (** next_batch reports the end of the epoch. *)
  Definition at_end (p : planner X A) : Prop :=
    exists fuel p', next_batch fd shape cf fuel p = Ok (None, p').
End Client.
