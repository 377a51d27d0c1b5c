(** The planner as seen from outside: what batches a stream of items is cut into.
    No source, cursor, reservoir or ready queue appears here; [stream epoch cycle]
    is the list of items one source cycle contributes (or the error of starting it). *)
From Verif Require Import Base Rng Sequential Planner.
Set Implicit Arguments.
Unset Strict Implicit.

Record astate (A : Type) := {
  a_epoch : Z;
  a_index : Z;
  a_cycle : Z;
  a_size : Z;                     (* items this cycle had in total *)
  a_items : list A;               (* items of this cycle not yet planned *)
  a_queues : list (Z * list A);   (* per-shape queues *)
  a_finished : bool
}.

Section Spec.
  Variable A : Type.
  Variable stream : Z -> Z -> res (list A).
  Variable shape : A -> Z.
  Variable cf : pconfig.

  Let astate := astate A.

  Definition a_start (epoch : Z) : res astate :=
    guard 0 <=? epoch else ValueError ;;
    l <- stream epoch 0 ;;
    Ok {| a_epoch := epoch; a_index := 0; a_cycle := 0; a_size := zlen l; a_items := l;
          a_queues := []; a_finished := false |}.

  Definition a_set (a : astate) (items : list A) (q : list (Z * list A)) (fin : bool) : astate :=
    {| a_epoch := a_epoch a; a_index := a_index a; a_cycle := a_cycle a; a_size := a_size a;
       a_items := items; a_queues := q; a_finished := fin |}.

  (** Emit a batch; the last batch of the budget ends the epoch. *)
  Definition a_emit (a : astate) (items : list A) (real : list bool) (is_last : bool)
    : option (batch A) * astate :=
    let last := budget_last cf (a_index a) in
    (Some {| b_items := items; b_real := real; b_epoch := a_epoch a; b_index := a_index a;
             b_last := is_last || last |},
     {| a_epoch := a_epoch a; a_index := a_index a + 1; a_cycle := a_cycle a; a_size := a_size a;
        a_items := if last then [] else a_items a;
        a_queues := if last then [] else a_queues a;
        a_finished := a_finished a || last |}).

  Definition a_next_cycle (a : astate) (empty : Z) : res (astate * Z) :=
    let empty1 := if a_size a =? 0 then empty + 1 else 0 in
    guard empty1 <=? 16 else RuntimeError ;;
    l <- stream (a_epoch a) (a_cycle a + 1) ;;
    Ok ({| a_epoch := a_epoch a; a_index := a_index a; a_cycle := a_cycle a + 1; a_size := zlen l;
           a_items := l; a_queues := a_queues a; a_finished := a_finished a |}, empty1).

  (** real, then real again cyclically, up to length n *)
  Definition cyclic (real : list A) (n : nat) : list A :=
    flat_map (fun i => match nth_error real (i mod List.length real)%nat with Some x => [x] | None => [] end)
      (range n).

  (** [cycles] bounds the number of source cycles one batch may need. *)
  Fixpoint a_uniform (cycles : nat) (a : astate) (acc : list A) (empty : Z)
    : res (option (batch A) * astate) :=
    let need := (pc_batch cf - List.length acc)%nat in
    if (need <=? List.length (a_items a))%nat then
      Ok (a_emit (a_set a (skipn need (a_items a)) (a_queues a) (a_finished a))
            (acc ++ firstn need (a_items a)) (mask (pc_batch cf) (pc_batch cf)) false)
    else
      let acc1 := acc ++ a_items a in
      let a1 := a_set a [] (a_queues a) (a_finished a) in
      if may_restart cf (a_index a) then
        match cycles with
        | O => Err OutOfFuel
        | S k => '(a2, empty1) <- a_next_cycle a1 empty ;; a_uniform k a2 acc1 empty1
        end
      else if pc_train cf || negb (nonempty acc1) then Ok (None, a_set a1 [] (a_queues a1) true)
      else Ok (a_emit (a_set a1 [] (a_queues a1) true) (cyclic acc1 (pc_batch cf))
                 (mask (List.length acc1) (pc_batch cf)) true).

  (** Put items on their queues until one is full. *)
  Fixpoint absorb (q : list (Z * list A)) (items : list A)
    : res (list (Z * list A) * option (list A) * list A) :=
    match items with
    | [] => Ok (q, None, [])
    | e :: t =>
        '(q1, l) <- append_shape shape cf q e ;;
        if (List.length l =? pc_batch cf)%nat then Ok (dict_set q1 (shape e) [], Some l, t)
        else absorb q1 t
    end.

  Fixpoint a_mixed (cycles : nat) (a : astate) (empty : Z) : res (option (batch A) * astate) :=
    '(q, full, rest) <- absorb (a_queues a) (a_items a) ;;
    match full with
    | Some l => Ok (a_emit (a_set a rest q (a_finished a)) l (mask (pc_batch cf) (pc_batch cf)) false)
    | None =>
        if may_restart cf (a_index a) then
          match cycles with
          | O => Err OutOfFuel
          | S k => '(a2, empty1) <- a_next_cycle (a_set a [] q (a_finished a)) empty ;;
                   a_mixed k a2 empty1
          end
        else if pc_train cf then Ok (None, a_set a [] [] true)
        else match nonempty_shapes q with
             | [] => Ok (None, a_set a [] q true)
             | code :: _ =>
                 match dict_get q code with
                 | None => Err KeyError
                 | Some real =>
                     let q1 := dict_del q code in
                     let is_last := negb (existsb (fun kv => nonempty (snd kv)) q1) in
                     Ok (a_emit (a_set a [] q1 (is_last || a_finished a)) (cyclic real (pc_batch cf))
                           (mask (List.length real) (pc_batch cf)) is_last)
                 end
             end
    end.

  Definition a_next (cycles : nat) (a : astate) : res (option (batch A) * astate) :=
    if a_finished a then Ok (None, a)
    else match pc_uniform cf with
         | Some _ => a_uniform cycles a [] 0
         | None => a_mixed cycles a 0
         end.
End Spec.
