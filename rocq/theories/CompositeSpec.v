(** What a weighted mix of finite record streams should be, independent of the
    composite source's buffering (specification vocabulary for C10). *)
From Verif Require Import Base.
Set Implicit Arguments.

Section Spec.
  Variable E : Type.

  (** One cycle: walk the schedule, take the next record of each named child,
      skip children that have nothing left. *)
  Fixpoint deal (sched : list nat) (rems : list (list E)) : list (nat * E) * list (list E) :=
    match sched with
    | [] => ([], rems)
    | c :: rest =>
        match nth c rems [] with
        | [] => deal rest rems
        | x :: r => let '(out, rems') := deal rest (upd rems c r) in ((c, x) :: out, rems')
        end
    end.

  Fixpoint rounds (n : nat) (sched : list nat) (rems : list (list E))
    : list (nat * E) * list (list E) :=
    match n with
    | O => ([], rems)
    | S m => let '(out, rems1) := deal sched rems in
             let '(more, rems2) := rounds m sched rems1 in (out ++ more, rems2)
    end.

  (** min_i floor(n_i / w_i); 0 without children. *)
  Fixpoint complete_cycles (ws : list Z) (rems : list (list E)) : nat :=
    match ws, rems with
    | [w], [r] => Z.to_nat (zlen r / w)
    | w :: ws', r :: rems' => Nat.min (Z.to_nat (zlen r / w)) (complete_cycles ws' rems')
    | _, _ => O
    end.

  Definition total_records (rems : list (list E)) : nat :=
    fold_right (fun r n => (List.length r + n)%nat) O rems.

  (** With [sync] only whole cycles; otherwise until everything is dealt (every
      cycle deals at least one record while any is left). *)
  Definition mixed_stream (sync : bool) (ws : list Z) (sched : list nat) (rems : list (list E))
    : list (nat * E) :=
    fst (rounds (if sync then complete_cycles ws rems else total_records rems) sched rems).

  (** The records of child [i] in a mixed stream. *)
  Definition from_child (i : nat) (out : list (nat * E)) : list E :=
    map snd (filter (fun p => (fst p =? i)%nat) out).
End Spec.
