(** Model of dataset/composite_source.py: [_weighted_cycle] and
    CompositeRecordSource (construction, reading, cursor save/restore).
    Not modelled: materialize_batch, digests, close_cursor (resource release). *)
From Verif Require Import Base Rng Source.
Set Implicit Arguments.

(** ** _weighted_cycle, composite_source.py:34-48 *)

(** max(range(len(weights)), key=lambda child: (scores[child], -child)):
    the largest score, the smallest index among equals. *)
Fixpoint argmax_from (i : nat) (best : nat) (best_score : Z) (scores : list Z) : nat :=
  match scores with
  | [] => best
  | s :: rest =>
      if best_score <? s then argmax_from (S i) i s rest
      else argmax_from (S i) best best_score rest
  end.
Definition argmax (scores : list Z) : nat :=
  match scores with
  | [] => O                      (* weights are non-empty *)
  | s :: rest => argmax_from 1 0 s rest
  end.

Fixpoint add_lists (a b : list Z) : list Z :=
  match a, b with
  | x :: a', y :: b' => x + y :: add_lists a' b'
  | _, _ => []
  end.

(** for _ in range(total): the loop body of lines 41-47. *)
Fixpoint weighted_loop (steps : nat) (weights : list Z) (total : Z) (scores : list Z)
  : res (list nat) :=
  match steps with
  | O => Ok []
  | S n =>
      let scores1 := add_lists scores weights in
      let selected := argmax scores1 in
      s <- py_get scores1 selected ;;
      scores2 <- py_set scores1 selected (s - total) ;;
      rest <- weighted_loop n weights total scores2 ;;
      Ok (selected :: rest)
  end.

Definition weighted_cycle (weights : list Z) : res (list nat) :=
  guard negb (match weights with [] => true | _ => false end)
        && forallb (fun w => 0 <? w) weights else ValueError ;;
  weighted_loop (Z.to_nat (zsum weights)) weights (zsum weights) (map (fun _ => 0) weights).

(** ** Shapes: sorted(set) enumeration, composite_source.py:69-87 *)
Definition shape := list Z.
Fixpoint shape_ltb (a b : shape) : bool :=        (* Python tuple < *)
  match a, b with
  | _, [] => false
  | [], _ => true
  | x :: a', y :: b' => (x <? y) || ((x =? y) && shape_ltb a' b')
  end.
Fixpoint insert_shape (s : shape) (l : list shape) : list shape :=
  match l with
  | [] => [s]
  | t :: rest => if zlist_eqb s t then l
                 else if shape_ltb s t then s :: l else t :: insert_shape s rest
  end.
Definition sorted_shapes (l : list shape) : list shape := fold_right insert_shape [] l.
Fixpoint index_of (s : shape) (l : list shape) : option nat :=
  match l with
  | [] => None
  | t :: rest => if zlist_eqb s t then Some O
                 else match index_of s rest with Some i => Some (S i) | None => None end
  end.
(** {code: shape for shape, code in normalized.items()}[code]; codes are distinct. *)
Fixpoint shape_of_code (m : list (shape * Z)) (code : Z) : option shape :=
  match m with
  | [] => None
  | (s, c) :: rest => if c =? code then Some s else shape_of_code rest code
  end.

(** ** CompositeRecordSource *)
Section Composite.
  Variables C P : Type.   (* cursors and payloads of the children (a sum type when they differ) *)

  (** composite_source.py:17-20 CompositePayload. *)
  Record cpayload := { cp_child : nat; cp_envelope : envelope P }.

  Record composite := {
    children : list (source C P);
    child_ids : list bytes;                  (* UTF-8 *)
    cw : list Z;                             (* weights *)
    sync_length : bool;
    schedule : list nat;
    child_shapes : list (list (shape * Z))   (* shape_codes of each child *)
  }.

  Fixpoint has_dup {A} (eqb : A -> A -> bool) (l : list A) : bool :=
    match l with
    | [] => false
    | a :: t => existsb (eqb a) t || has_dup eqb t
    end.

  (** composite_source.py:54-87 [__init__] (the capability flags are not modelled). *)
  Definition make_composite (cs : list (source C P)) (ids : list bytes) (ws : list Z)
      (sync : bool) (shapes : list (list (shape * Z))) : res composite :=
    guard negb (match cs with [] => true | _ => false end)
          && (List.length cs =? List.length ids)%nat
          && (List.length cs =? List.length ws)%nat else ValueError ;;
    guard negb (has_dup zlist_eqb ids) else ValueError ;;
    sched <- weighted_cycle ws ;;
    guard (List.length cs =? List.length shapes)%nat
          && forallb (fun m => match m with [] => false | _ => true end) shapes else TypeError ;;
    guard forallb (fun m => negb (has_dup Z.eqb (map snd m))) shapes else ValueError ;;
    Ok {| children := cs; child_ids := ids; cw := ws; sync_length := sync;
          schedule := sched; child_shapes := shapes |}.

  (** composite_source.py:22-32 CompositeCursor (epoch, cycle and rank are in [cc_id]). *)
  Record ccursor := {
    cc_id : Z * Z * Z;
    cc_children : list C;
    cc_exhausted : list bool;
    cc_pending : list (envelope cpayload);
    cc_pos : nat;
    cc_cycle : Z;
    cc_terminal : bool
  }.

  Variable comp : composite.

  Definition parent_shapes : list shape :=
    sorted_shapes (List.concat (map (map fst) (child_shapes comp))).

  (** composite_source.py:182-203 [_wrap]. *)
  Definition wrap (child : nat) (e : envelope P) : res (envelope cpayload) :=
    m <- py_get (child_shapes comp) child ;;
    id <- py_get (child_ids comp) child ;;
    match shape_of_code m (e_shape e) with
    | None => Err RuntimeError
    | Some s =>
        match index_of s parent_shapes with
        | None => Err KeyError
        | Some code =>
            Ok {| e_source_id := Z.of_nat child;
                  e_key := KTuple [str "composite"; KStr id; e_key e];
                  e_shape := Z.of_nat code;
                  e_payload := {| cp_child := child; cp_envelope := e |};
                  e_bytes := e_bytes e + 128 |}
        end
    end.

  (** composite_source.py:147-180 [start_cycle]: children start, nothing pending. *)
  Definition start_cycle (id : Z * Z * Z) (starts : list C) : ccursor :=
    {| cc_id := id; cc_children := starts; cc_exhausted := map (fun _ => false) starts;
       cc_pending := []; cc_pos := 0; cc_cycle := 0; cc_terminal := false |}.

  (** Mutable part of the cursor while a fill runs. *)
  Definition cstate := (list C * list bool)%type.

  (** composite_source.py:205-213 [_next_child] (without the wrap). *)
  Definition next_child (st : cstate) (child : nat) : res (option (envelope P) * cstate) :=
    src <- py_get (children comp) child ;;
    c <- py_get (fst st) child ;;
    '(e, c') <- s_next src c ;;
    cs <- py_set (fst st) child c' ;;
    match e with
    | None => ex <- py_set (snd st) child true ;; Ok (None, (cs, ex))
    | Some x => Ok (Some x, (cs, snd st))
    end.

  (** composite_source.py:226-243: the while loop of [_next_child_many];
      [acc] is [envelopes], the bool result says that the child ran out. *)
  Fixpoint many_loop (fuel : nat) (src : source C P) (c : C) (limit : nat)
      (acc : list (envelope P)) : res (list (envelope P) * C * bool) :=
    if (List.length acc <? limit)%nat then
      match fuel with
      | O => Err OutOfFuel
      | S n =>
          match s_many src with
          | Some f =>
              '(chunk, c') <- f c (limit - List.length acc)%nat ;;
              match chunk with
              | [] => Ok (acc, c', true)
              | _ => many_loop n src c' limit (acc ++ chunk)
              end
          | None =>
              '(e, c') <- s_next src c ;;
              match e with
              | None => Ok (acc, c', true)
              | Some x => many_loop n src c' limit (acc ++ [x])
              end
          end
      end
    else Ok (acc, c, false).

  (** composite_source.py:215-245 [_next_child_many]. *)
  Definition next_child_many (st : cstate) (child limit : nat)
    : res (list (envelope P) * cstate) :=
    ex <- py_get (snd st) child ;;
    if ex then Ok ([], st)
    else
      src <- py_get (children comp) child ;;
      c <- py_get (fst st) child ;;
      '(es, c', ended) <- many_loop limit src c limit [] ;;
      cs <- py_set (fst st) child c' ;;
      exs <- (if ended then py_set (snd st) child true else Ok (snd st)) ;;
      Ok (es, (cs, exs)).

  (** composite_source.py:248-251: the list comprehension over the children. *)
  Fixpoint gather (st : cstate) (child : nat) (weights : list Z) (cycle_count : nat)
    : res (list (list (envelope P)) * cstate) :=
    match weights with
    | [] => Ok ([], st)
    | w :: rest =>
        '(es, st1) <- next_child_many st child (Z.to_nat w * cycle_count)%nat ;;
        '(ess, st2) <- gather st1 (S child) rest cycle_count ;;
        Ok (es :: ess, st2)
    end.

  (** min(len(envelopes) // weight for ...). *)
  Fixpoint min_complete (ess : list (list (envelope P))) (weights : list Z) : option Z :=
    match ess, weights with
    | e :: ess', w :: ws' =>
        let q := zlen e / w in
        match min_complete ess' ws' with
        | None => Some q
        | Some m => Some (Z.min q m)
        end
    | _, _ => None
    end.

  (** One pass of lines 274-279: the schedule loop over buffered envelopes.
      [positions] are the read positions per child. *)
  Fixpoint deal_pass (sched : list nat) (ess : list (list (envelope P))) (positions : list nat)
    : res (list (envelope cpayload) * list nat) :=
    match sched with
    | [] => Ok ([], positions)
    | child :: rest =>
        p <- py_get positions child ;;
        es <- py_get ess child ;;
        match nth_error es p with
        | None => deal_pass rest ess positions
        | Some e =>
            w <- wrap child e ;;
            ps <- py_set positions child (S p) ;;
            '(out, ps') <- deal_pass rest ess ps ;;
            Ok (w :: out, ps')
        end
    end.

  (** Lines 272-280: for _ in range(completed_cycles); also counts non-empty passes. *)
  Fixpoint deal_passes (n : nat) (ess : list (list (envelope P))) (positions : list nat)
    : res (list (envelope cpayload) * Z) :=
    match n with
    | O => Ok ([], 0)
    | S m =>
        '(out, ps) <- deal_pass (schedule comp) ess positions ;;
        '(more, k) <- deal_passes m ess ps ;;
        Ok (out ++ more, (match out with [] => 0 | _ => 1 end) + k)
    end.

  Definition set_children (cur : ccursor) (st : cstate) : ccursor :=
    {| cc_id := cc_id cur; cc_children := fst st; cc_exhausted := snd st;
       cc_pending := cc_pending cur; cc_pos := cc_pos cur; cc_cycle := cc_cycle cur;
       cc_terminal := cc_terminal cur |}.
  Definition set_terminal (cur : ccursor) : ccursor :=
    {| cc_id := cc_id cur; cc_children := cc_children cur; cc_exhausted := cc_exhausted cur;
       cc_pending := []; cc_pos := 0; cc_cycle := cc_cycle cur; cc_terminal := true |}.
  Definition set_pending (cur : ccursor) (p : list (envelope cpayload)) (k : Z) : ccursor :=
    {| cc_id := cc_id cur; cc_children := cc_children cur; cc_exhausted := cc_exhausted cur;
       cc_pending := p; cc_pos := 0; cc_cycle := cc_cycle cur + k;
       cc_terminal := cc_terminal cur |}.

  (** composite_source.py:247-288 [_fill_cycles].  (All callers have just cleared
      [pending], so [set_terminal] clearing it again is what the code leaves.) *)
  Definition fill_cycles (cur : ccursor) (cycle_count : nat) : res (bool * ccursor) :=
    '(ess, st) <- gather (cc_children cur, cc_exhausted cur) 0 (cw comp) cycle_count ;;
    let cur1 := set_children cur st in
    completed <-
      (if sync_length comp then
         match min_complete ess (cw comp) with
         | None => Err ValueError                       (* min() of an empty sequence *)
         | Some q => Ok (if q =? 0 then None else Some (Z.to_nat q))
         end
       else if forallb (fun es => match es with [] => true | _ => false end) ess then Ok None
       else Ok (Some cycle_count)) ;;
    match completed with
    | None => Ok (false, set_terminal cur1)
    | Some n =>
        '(pending, nonempty) <- deal_passes n ess (map (fun _ => O) (children comp)) ;;
        match pending with
        | [] => Ok (false, set_terminal cur1)
        | _ => Ok (true, set_pending cur1 pending nonempty)
        end
    end.

  (** composite_source.py:293-299: the sync loop of [_fill_cycle]; [None] = a child ended. *)
  Fixpoint sync_pass (sched : list nat) (st : cstate)
    : res (option (list (envelope cpayload)) * cstate) :=
    match sched with
    | [] => Ok (Some [], st)
    | child :: rest =>
        '(e, st1) <- next_child st child ;;
        match e with
        | None => Ok (None, st1)
        | Some x =>
            w <- wrap child x ;;
            '(out, st2) <- sync_pass rest st1 ;;
            Ok (match out with None => None | Some l => Some (w :: l) end, st2)
        end
    end.

  (** composite_source.py:304-309: the other loop of [_fill_cycle]. *)
  Fixpoint free_pass (sched : list nat) (st : cstate)
    : res (list (envelope cpayload) * cstate) :=
    match sched with
    | [] => Ok ([], st)
    | child :: rest =>
        ex <- py_get (snd st) child ;;
        if ex then free_pass rest st
        else
          '(e, st1) <- next_child st child ;;
          match e with
          | None => free_pass rest st1
          | Some x =>
              w <- wrap child x ;;
              '(out, st2) <- free_pass rest st1 ;;
              Ok (w :: out, st2)
          end
    end.

  (** composite_source.py:290-316 [_fill_cycle]. *)
  Definition fill_cycle (cur : ccursor) : res (bool * ccursor) :=
    if sync_length comp then
      '(out, st) <- sync_pass (schedule comp) (cc_children cur, cc_exhausted cur) ;;
      let cur1 := set_children cur st in
      match out with
      | None => Ok (false, set_terminal cur1)
      | Some pending => Ok (true, set_pending cur1 pending 1)
      end
    else if forallb (fun b => b) (cc_exhausted cur) then Ok (false, set_terminal cur)
    else
      '(pending, st) <- free_pass (schedule comp) (cc_children cur, cc_exhausted cur) ;;
      let cur1 := set_children cur st in
      match pending with
      | [] => Ok (false, set_terminal cur1)
      | _ => Ok (true, set_pending cur1 pending 1)
      end.

  (** cursor.pending_position += n, and the reset when the buffer is used up. *)
  Definition advance (cur : ccursor) (n : nat) : ccursor :=
    if (cc_pos cur + n =? List.length (cc_pending cur))%nat then
      {| cc_id := cc_id cur; cc_children := cc_children cur; cc_exhausted := cc_exhausted cur;
         cc_pending := []; cc_pos := 0; cc_cycle := cc_cycle cur; cc_terminal := cc_terminal cur |}
    else
      {| cc_id := cc_id cur; cc_children := cc_children cur; cc_exhausted := cc_exhausted cur;
         cc_pending := cc_pending cur; cc_pos := cc_pos cur + n; cc_cycle := cc_cycle cur;
         cc_terminal := cc_terminal cur |}.
  Definition clear_pending (cur : ccursor) : ccursor :=
    {| cc_id := cc_id cur; cc_children := cc_children cur; cc_exhausted := cc_exhausted cur;
       cc_pending := []; cc_pos := 0; cc_cycle := cc_cycle cur; cc_terminal := cc_terminal cur |}.

  (** composite_source.py:318-334 [next_envelope]. *)
  Definition next_envelope (cur : ccursor) : res (option (envelope cpayload) * ccursor) :=
    if cc_terminal cur then Ok (None, cur)
    else
      '(ok, cur1) <-
        (if (List.length (cc_pending cur) <=? cc_pos cur)%nat
         then fill_cycle (clear_pending cur) else Ok (true, cur)) ;;
      if negb ok then Ok (None, cur1)
      else
        e <- py_get (cc_pending cur1) (cc_pos cur1) ;;
        Ok (Some e, advance cur1 1).

  (** composite_source.py:343-370: the while loop of [next_envelopes]. *)
  Fixpoint envelopes_loop (fuel : nat) (limit : nat) (cur : ccursor)
      (out : list (envelope cpayload)) : res (list (envelope cpayload) * ccursor) :=
    if (List.length out <? limit)%nat && negb (cc_terminal cur) then
      match fuel with
      | O => Err OutOfFuel
      | S n =>
          '(ok, cur1) <-
            (if (List.length (cc_pending cur) <=? cc_pos cur)%nat then
               let remaining := (limit - List.length out)%nat in
               let k := List.length (schedule comp) in
               fill_cycles (clear_pending cur) (Nat.max 1 ((remaining + k - 1) / k))
             else Ok (true, cur)) ;;
          if negb ok then Ok (out, cur1)
          else
            let available := Nat.min (limit - List.length out)
                                     (List.length (cc_pending cur1) - cc_pos cur1) in
            envelopes_loop n limit (advance cur1 available)
              (out ++ firstn available (skipn (cc_pos cur1) (cc_pending cur1)))
      end
    else Ok (out, cur).

  (** composite_source.py:336-370 [next_envelopes]. *)
  Definition next_envelopes (cur : ccursor) (limit : nat)
    : res (list (envelope cpayload) * ccursor) :=
    guard (0 <? limit)%nat else ValueError ;;
    envelopes_loop limit limit cur [].

  (** The composite source as a source (so composites nest). *)
  Definition composite_source : source ccursor cpayload :=
    {| s_next := next_envelope; s_many := Some next_envelopes |}.

  (** ** Cursor save and restore, composite_source.py:490-601.
      [save_child]/[restore_child] are the children's own methods.  The saved
      payloads are kept as values (see DESIGN: canonical encoding is C30). *)
  Variable CS : Type.
  Variable save_child : nat -> C -> CS.
  Variable restore_child : nat -> CS -> res C.

  Record cstate_dict := {
    sd_schema : string;
    sd_id : Z * Z * Z;
    sd_children : list CS;
    sd_exhausted : list bool;
    sd_pending : list (envelope cpayload);
    sd_cycle : Z;
    sd_terminal : bool
  }.

  Definition COMPOSITE_SCHEMA : string := "composite-record-source-v3".

  Fixpoint save_children (i : nat) (cs : list C) : list CS :=
    match cs with [] => [] | c :: t => save_child i c :: save_children (S i) t end.

  Definition save_cursor (cur : ccursor) : cstate_dict :=
    {| sd_schema := COMPOSITE_SCHEMA; sd_id := cc_id cur;
       sd_children := save_children 0 (cc_children cur);
       sd_exhausted := cc_exhausted cur;
       sd_pending := skipn (cc_pos cur) (cc_pending cur);
       sd_cycle := cc_cycle cur; sd_terminal := cc_terminal cur |}.

  Variable child_identity_ok : nat -> Z * Z * Z -> C -> bool.  (* lines 559-569 *)
  Variable own_rank : Z.                                       (* self._rank if sharded else 0 *)

  Fixpoint restore_children (i : nat) (id : Z * Z * Z) (l : list CS) : res (list C) :=
    match l with
    | [] => Ok []
    | s :: t =>
        c <- restore_child i s ;;
        guard child_identity_ok i id c else ValueError ;;
        cs <- restore_children (S i) id t ;;
        Ok (c :: cs)
    end.

  Definition restore_cursor (s : cstate_dict) : res ccursor :=
    guard String.eqb (sd_schema s) COMPOSITE_SCHEMA else ValueError ;;
    let '(epoch, cyc, rank) := sd_id s in
    guard (List.length (sd_children s) =? List.length (children comp))%nat
          && (List.length (sd_exhausted s) =? List.length (children comp))%nat
          && (0 <=? epoch) && (0 <=? cyc) && (rank =? own_rank) && (0 <=? sd_cycle s)
          else ValueError ;;
    cs <- restore_children 0 (sd_id s) (sd_children s) ;;
    guard forallb (fun e => (cp_child (e_payload e) <? List.length (children comp))%nat)
                  (sd_pending s) else ValueError ;;
    guard negb (sd_terminal s && match sd_pending s with [] => false | _ => true end)
          else ValueError ;;
    Ok {| cc_id := sd_id s; cc_children := cs; cc_exhausted := sd_exhausted s;
          cc_pending := sd_pending s; cc_pos := 0; cc_cycle := sd_cycle s;
          cc_terminal := sd_terminal s |}.
End Composite.
