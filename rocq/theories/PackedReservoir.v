(** Model of dataset/planner_cpp/packed_shuffle.cpp (PackedUInt64Reservoir) and
    of its Python wrapper dataset/packed.py:PackedUInt64ShuffleReservoir and
    FIFO dataset/packed.py:PackedUInt64ReadyBuffer. *)
From Verif Require Import Base Rng Reservoir.
Set Implicit Arguments.

(** packed_shuffle.cpp:152-160, private fields. *)
Record prsv := {
  p_slots : list Z;
  p_rng_counter : Z;
  p_offered : Z;
  p_emitted : Z;
  p_peak : Z;
  p_closed : bool
}.

Definition prsv_init : prsv :=
  {| p_slots := []; p_rng_counter := 0; p_offered := 0; p_emitted := 0; p_peak := 0;
     p_closed := false |}.

(** packed_shuffle.cpp:131-150 [random_slot]: one loop iteration.  [limit] wraps
    to 0 when the remainder is 0, hence the extra test in the code. *)
Definition p_reject_step (rng_base upper counter : Z) : Z + res (Z * Z) :=
  let remainder := two64 mod upper in
  let limit := (0 - remainder) mod two64 in
  if two63 <=? counter then inr (Err RuntimeError)
  else
    let value := splitmix_raw rng_base counter in
    if (remainder =? 0) || (value <? limit) then inr (Ok (value mod upper, counter + 1))
    else inl (counter + 1).

Definition p_random_slot (rng_base counter upper : Z) : res (Z * Z) :=
  match loop_pos loop_bound (p_reject_step rng_base upper) counter with
  | inr r => r
  | inl _ => Err OutOfFuel
  end.

(** packed_shuffle.cpp:42-44: preflight draws; only the counter matters. *)
Fixpoint preflight (n : nat) (rng_base counter upper : Z) : res Z :=
  match n with
  | O => Ok counter
  | S m => '(_, c) <- p_random_slot rng_base counter upper ;; preflight m rng_base c upper
  end.

Section Core.
  Variable capacity : Z.
  Variable rng_base : Z.

  (** packed_shuffle.cpp:48-61: the admission loop; returns slots, counter and
      the values written to [output_view] in order. *)
  Fixpoint p_loop (slots : list Z) (counter : Z) (input : list Z)
    : res (list Z * Z * list Z) :=
    match input with
    | [] => Ok (slots, counter, [])
    | item :: rest =>
        if zlen slots <? capacity then p_loop (slots ++ [item]) counter rest
        else
          '(index, c) <- p_random_slot rng_base counter capacity ;;
          x <- py_get slots (Z.to_nat index) ;;
          back <- py_get slots (List.length slots - 1) ;;
          s1 <- py_set slots (Z.to_nat index) back ;;
          s2 <- py_set s1 (List.length s1 - 1) item ;;
          '(s3, c3, outs) <- p_loop s2 c rest ;;
          Ok (s3, c3, x :: outs)
    end.

  (** packed_shuffle.cpp:22-68 [offer].  The output buffer has exactly
      [output_count] cells: writing a different number of values would be
      undefined behaviour, modelled as [IndexError] (proved unreachable). *)
  Definition p_offer (p : prsv) (input : list Z) : res (prsv * list Z) :=
    guard negb (p_closed p) else RuntimeError ;;
    let free_slots := capacity - zlen (p_slots p) in
    let output_count := if free_slots <? zlen input then zlen input - free_slots else 0 in
    pre <- preflight (Z.to_nat output_count) rng_base (p_rng_counter p) capacity ;;
    guard negb (two63 <=? pre) else RuntimeError ;;
    '(s, c, outs) <- p_loop (p_slots p) (p_rng_counter p) input ;;
    guard zlen outs =? output_count else IndexError ;;
    Ok ({| p_slots := s; p_rng_counter := c;
           p_offered := (p_offered p + zlen input) mod two64;
           p_emitted := (p_emitted p + output_count) mod two64;
           p_peak := if p_peak p <? zlen s then zlen s else p_peak p;
           p_closed := p_closed p |}, outs).

  (** packed_shuffle.cpp:70-94 [drain], with the permutation check. *)
  Fixpoint p_gather (slots : list Z) (seen : list bool) (order : list nat) : res (list Z) :=
    match order with
    | [] => Ok []
    | i :: rest =>
        match nth_error slots i, nth_error seen i with
        | Some x, Some false => xs <- p_gather slots (upd seen i true) rest ;; Ok (x :: xs)
        | _, _ => Err ValueError
        end
    end.
  Definition p_drain (p : prsv) (order : list nat) : res (prsv * list Z) :=
    if p_closed p then Ok (p, [])
    else
      guard (List.length order =? List.length (p_slots p))%nat else ValueError ;;
      out <- p_gather (p_slots p) (repeat false (List.length (p_slots p))) order ;;
      Ok ({| p_slots := []; p_rng_counter := p_rng_counter p; p_offered := p_offered p;
             p_emitted := (p_emitted p + zlen (p_slots p)) mod two64;
             p_peak := p_peak p; p_closed := true |}, out).
End Core.

(** packed.py:279-316 [offer_block] (single cycle) and [drain] of the wrapper. *)
Definition w_drain header hash64 (cf : rconfig) (p : prsv) : res (prsv * list Z) :=
  if p_closed p then Ok (p, [])
  else
    order <- deterministic_permutation header hash64 (List.length (p_slots p)) (cf_seed cf)
               (str "shuffle_reservoir_drain")
               (KTuple [str RESERVOIR_ALGORITHM; KInt (cf_epoch cf);
                        KTuple (cf_stream_key cf); KInt (p_offered p); KInt (p_rng_counter p)]) ;;
    p_drain p order.

Inductive pop := POffer (block : list Z) | PDrain.

Definition p_apply header hash64 cf (p : prsv) (o : pop) : res (prsv * list Z) :=
  match o with
  | POffer b => p_offer (cf_capacity cf) (cf_rng_base cf) p b
  | PDrain => w_drain header hash64 cf p
  end.

Fixpoint p_run header hash64 cf (p : prsv) (ops : list pop) : res (prsv * list Z) :=
  match ops with
  | [] => Ok (p, [])
  | o :: rest =>
      '(p1, out1) <- p_apply header hash64 cf p o ;;
      '(p2, out2) <- p_run header hash64 cf p1 rest ;;
      Ok (p2, out1 ++ out2)
  end.

(** packed.py:116-185 PackedUInt64ReadyBuffer: a deque of chunks plus an offset
    into the first chunk. *)
Record ready := { chunks : list (list Z); head : nat; rsize : nat }.
Definition ready_empty : ready := {| chunks := []; head := 0; rsize := 0 |}.

(** packed.py:132-136 [extend]. *)
Definition ready_extend (b : ready) (values : list Z) : ready :=
  match values with
  | [] => b
  | _ => {| chunks := chunks b ++ [values]; head := head b;
            rsize := rsize b + List.length values |}
  end.

(** packed.py:154-164: the multi-chunk loop. *)
Fixpoint pop_parts (fuel : nat) (cs : list (list Z)) (hd remaining : nat)
  : res (list (list Z) * nat * list Z) :=
  match remaining with
  | O => Ok (cs, hd, [])
  | _ =>
      match fuel with
      | O => Err OutOfFuel
      | S n =>
          match cs with
          | [] => Err IndexError
          | chunk :: rest =>
              let take := Nat.min remaining (List.length chunk - hd) in
              let part := firstn take (skipn hd chunk) in
              let hd1 := (hd + take)%nat in
              let rem1 := (remaining - take)%nat in
              '(cs2, hd2, parts) <-
                (if (hd1 =? List.length chunk)%nat then pop_parts n rest O rem1
                 else pop_parts n cs hd1 rem1) ;;
              Ok (cs2, hd2, part ++ parts)
          end
      end
  end.

(** packed.py:138-168 [pop]. *)
Definition ready_pop (b : ready) (count : nat) : res (ready * list Z) :=
  guard (count <=? rsize b)%nat else ValueError ;;
  match count with
  | O => Ok (b, [])
  | _ =>
      match chunks b with
      | [] => Err IndexError
      | first :: rest =>
          let available := (List.length first - head b)%nat in
          if (count <=? available)%nat then
            let values := firstn count (skipn (head b) first) in
            let h := (head b + count)%nat in
            Ok (if (h =? List.length first)%nat
                then {| chunks := rest; head := 0; rsize := rsize b - count |}
                else {| chunks := chunks b; head := h; rsize := rsize b - count |}, values)
          else
            '(cs, h, values) <- pop_parts (S (List.length (chunks b))) (chunks b) (head b) count ;;
            Ok ({| chunks := cs; head := h; rsize := rsize b - count |}, values)
      end
  end.

(** packed.py:170-181 [state] (the id list; little-endian packing not modelled). *)
Definition ready_state (b : ready) : list Z :=
  match rsize b with
  | O => []
  | _ => match chunks b with
         | [] => []
         | first :: rest => skipn (head b) first ++ List.concat rest
         end
  end.
