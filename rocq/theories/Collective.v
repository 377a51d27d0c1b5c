(** What the ranks of a distributed job exchange: trainer/base.py 565-587 ([_collective_dataset_call]), 589-608 (stream
    signatures), 1229-1260, 1394-1418, 1920-1943, 1957-1966, 1968-2092 ([_save_checkpoint]), 2149-2177
    ([_run_synchronized_operation]), 3461-3601 ([_synchronize_step_validity]), 3670-3705 ([_synchronize_phase_errors]),
    3707-3958 ([_run_train_step]), 4219-4316 ([_fetch_batch]), 4905-5047 ([_iter_collective_safe_batches]).

    A rank is a program that computes locally and takes part in collectives.  Collectives match by their order alone: all ranks
    have to arrive at the same kind of collective.  Local work - hooks, forward passes, dataset calls, file operations - appears
    as its outcome, which may be different on every rank.  [text] is the text of an exception, [batch] a batch, [desc] whatever
    ranks compare (digests, cursors, schemas). *)
From Verif Require Import Base.
Set Implicit Arguments. Unset Strict Implicit.

Section Ranks.
Variables text batch desc : Type.
Variable desc_eqb : desc -> desc -> bool.

(** What is sent. *)
Inductive msg :=
| MNothing
| MError (e : option (nat * list text))    (* the sender's rank and what went wrong there *)
| MFlag (b : bool)
| MCount (n : Z)
| MDesc (d : desc)
| MBatch (b : option batch).
Inductive kind := GatherObject | ReduceSum | GatherTensor | Barrier.
(** What a rank raises. *)
Inductive failure :=
| Collectively (who : list (nat * list text))   (* raised on the strength of everybody's report *)
| Differs (ds : list desc)                      (* compared values differ *)
| NoBatch (ranks : list nat)
| Alone (e : text)                              (* a local exception *)
| Unfinished.                                   (* fuel; never returned, see the theorems *)

Inductive prog (A : Type) :=
| Done (r : A + failure)
| Coll (k : kind) (m : msg) (next : list msg -> prog A).
Arguments Done {A}. Arguments Coll {A}.
Definition ret {A} (a : A) : prog A := Done (inl a).
Definition raise {A} (f : failure) : prog A := Done (inr f).
Fixpoint pbind {A B} (p : prog A) (f : A -> prog B) : prog B :=
  match p with
  | Done (inl a) => f a
  | Done (inr e) => Done (inr e)
  | Coll k m next => Coll k m (fun ms => pbind (next ms) f)
  end.
(** [try: p except BaseException as exc: handler(exc)] *)
Fixpoint catch {A} (p : prog A) (handler : failure -> prog A) : prog A :=
  match p with
  | Done (inl a) => Done (inl a)
  | Done (inr e) => handler e
  | Coll k m next => Coll k m (fun ms => catch (next ms) handler)
  end.
Definition exchange (k : kind) (m : msg) : prog (list msg) := Coll k m (fun ms => ret ms).

Definition errors_of (ms : list msg) : list (nat * list text) := flat_map (fun m => match m with MError (Some e) => [e] | _ => [] end) ms.
Definition count_of (ms : list msg) : Z := zsum (map (fun m => match m with MCount n => n | _ => 0 end) ms).
Definition descs_of (ms : list msg) : list desc := flat_map (fun m => match m with MDesc d => [d] | _ => [] end) ms.
Definition flags_of (ms : list msg) : list bool := flat_map (fun m => match m with MFlag b => [b] | _ => [] end) ms.
Definition batches_of (ms : list msg) : list batch := flat_map (fun m => match m with MBatch (Some b) => [b] | _ => [] end) ms.
Definition all_same (ds : list desc) : bool := match ds with [] => true | d :: r => forallb (fun e => desc_eqb e d) r end.
Definition empty {X} (l : list X) : bool := match l with [] => true | _ => false end.
(** the ranks whose flag is [b] *)
Definition ranks_with (b : bool) (flags : list bool) : list nat := map fst (filter (fun p => Bool.eqb (snd p) b) (combine (seq 0 (List.length flags)) flags)).

Variable world : nat.

(** lines 3670-3705 *)
Definition phase_errors (rank : nat) (errors : list text) : prog unit :=
  if (world =? 1)%nat then (if empty errors then ret tt else raise (Collectively [(rank, errors)]))
  else
    pbind (exchange ReduceSum (MCount (if empty errors then 1 else 0))) (fun ms =>
    if count_of ms =? Z.of_nat world then ret tt
    else pbind (exchange GatherObject (MError (if empty errors then None else Some (rank, errors)))) (fun ms =>
         raise (Collectively (errors_of ms)))).

(** lines 2149-2177; [outcome] is what the callback does on this rank *)
Definition synchronized (rank : nat) (main_only : bool) (outcome : option text) : prog unit :=
  pbind (exchange Barrier MNothing) (fun _ =>
  let mine := if negb main_only || (rank =? 0)%nat then outcome else None in
  pbind (exchange Barrier MNothing) (fun _ =>
  pbind (exchange GatherObject (MError (option_map (fun e => (rank, [e])) mine))) (fun ms =>
  if empty (errors_of ms) then ret tt else raise (Collectively (errors_of ms))))).

(** lines 565-587; also 1394-1418, 1920-1943, 2619-2638 and the blocks in 1968-2092 *)
Definition shared_call {A} (rank : nat) (outcome : A + text) : prog A :=
  let mine := MError (match outcome with inl _ => None | inr e => Some (rank, [e]) end) in
  pbind (if (world =? 1)%nat then ret [mine] else exchange GatherObject mine) (fun ms =>
  if empty (errors_of ms) then match outcome with inl a => ret a | inr e => raise (Alone e) end
  else raise (Collectively (errors_of ms))).

(** lines 589-608; also the comparisons of tokens and commits *)
Definition compared (d : desc) : prog unit :=
  pbind (if (world =? 1)%nat then ret [MDesc d] else exchange GatherObject (MDesc d)) (fun ms =>
  if all_same (descs_of ms) then ret tt else raise (Differs (descs_of ms))).

(** lines 4219-4316.  [first], [second]: what the two calls of next give; [advance], [stage]: the exceptions of the sampler's
    calls, which are not inside a try block; [token]: the descriptor if the data is a BatchEnvelope. *)
Inductive pull := Item (b : batch) | Stop | Broken (e : text).
Record fetching := { first : pull; advance : option text; second : pull; stage : option text; token : option desc }.
Definition pulled (p : pull) : option batch * option text :=
  match p with Item b => (Some b, None) | Stop => (None, None) | Broken e => (None, Some e) end.
Definition fetch_rest (rank : nat) (x : fetching) (data : option batch) (error : option text) : prog batch :=
  let mine := MError (option_map (fun e => (rank, [e])) error) in
  pbind (if (world =? 1)%nat then ret [mine] else exchange GatherObject mine) (fun ms =>
  if negb (empty (errors_of ms)) then raise (Collectively (errors_of ms))
  else
    let available := match data with Some _ => true | None => false end in
    pbind (if (world =? 1)%nat then ret [MFlag available] else exchange GatherTensor (MFlag available)) (fun ms =>
    if negb (empty (ranks_with false (flags_of ms))) then raise (NoBatch (ranks_with false (flags_of ms)))
    else
      match stage x with
      | Some e => raise (Alone e)
      | None =>
          pbind (match token x with Some d => compared d | None => ret tt end) (fun _ =>
          match data with Some b => ret b | None => raise Unfinished end)
      end)).
Definition fetch_batch (rank : nat) (x : fetching) : prog batch :=
  match first x with
  | Stop => match advance x with Some e => raise (Alone e) | None => fetch_rest rank x (fst (pulled (second x))) (snd (pulled (second x))) end
  | p => fetch_rest rank x (fst (pulled p)) (snd (pulled p))
  end.

(** lines 3461-3601 with more than one process, or one process and nothing deferred.  [expected]: the schema seen before. *)
Record checking := { schema : desc; expected : option desc; errors : list text; loss_ok : bool; finite : bool }.
Variables (schema_differs schema_changed bad_loss not_finite : text).
Definition validity_rest (rank : nat) (x : checking) (errs : list text) : prog unit :=
  let errs := if loss_ok x then errs else errs ++ [bad_loss] in
  if (world =? 1)%nat && negb (empty errs) then raise (Collectively [(rank, errs)])
  else
    let valid := empty errs && finite x && loss_ok x in
    pbind (if (world =? 1)%nat then ret [MCount (if valid then 1 else 0)] else exchange ReduceSum (MCount (if valid then 1 else 0))) (fun ms =>
    if count_of ms =? Z.of_nat world then ret tt
    else
      let errs := if empty errs then [not_finite] else errs in
      let mine := MError (Some (rank, errs)) in
      pbind (if (world =? 1)%nat then ret [mine] else exchange GatherObject mine) (fun ms =>
      raise (Collectively (errors_of ms)))).
Definition step_validity (rank : nat) (x : checking) : prog unit :=
  match expected x with
  | None =>
      pbind (if (world =? 1)%nat then ret [MDesc (schema x)] else exchange GatherObject (MDesc (schema x))) (fun ms =>
      validity_rest rank x (if all_same (descs_of ms) then errors x else errors x ++ [schema_differs]))
  | Some d => validity_rest rank x (if desc_eqb (schema x) d then errors x else errors x ++ [schema_changed])
  end.

(** lines 3731-3920: one micro-step.  [next_batch] is the fetch of a later micro-step; [grads] marks the averaging of
    gradients over the ranks in the last one (and in the others, without effect on the order of collectives, nothing).
    [prepared]: what prepare_commit gives (None: no tokens). *)
Record micro := { fetch : option fetching; hook : list text; before : checking; sync_grads : bool; after : checking;
                  prepared : option (desc + text); optimizer : option text }.
Variable name_of : failure -> text.
Definition mutation (rank : nat) (x : micro) : prog unit :=
  pbind (if sync_grads x then
           pbind (step_validity rank (after x)) (fun _ =>
           match prepared x with
           | None => ret tt
           | Some (inr e) => raise (Alone e)
           | Some (inl d) => compared d
           end)
         else ret tt) (fun _ =>
  match optimizer x with Some e => raise (Alone e) | None => ret tt end).
Definition micro_step (rank : nat) (x : micro) : prog unit :=
  pbind (match fetch x with Some f => pbind (fetch_batch rank f) (fun _ => ret tt) | None => ret tt end) (fun _ =>
  pbind (phase_errors rank (hook x)) (fun _ =>
  pbind (step_validity rank (before x)) (fun _ =>
  pbind (if sync_grads x then pbind (exchange ReduceSum MNothing) (fun _ => ret tt) else ret tt) (fun _ =>
  pbind (catch (pbind (mutation rank x) (fun _ => ret [])) (fun e => ret [name_of e])) (fun errs =>
  phase_errors rank errs))))).
(** lines 3707-3958 *)
Fixpoint micro_steps (rank : nat) (xs : list micro) : prog unit :=
  match xs with [] => ret tt | x :: r => pbind (micro_step rank x) (fun _ => micro_steps rank r) end.
Definition train_step (rank : nat) (xs : list micro) (post_hook : list text) : prog unit :=
  pbind (micro_steps rank xs) (fun _ => phase_errors rank post_hook).

(** lines 4905-4961: evaluation of a planned data set.  The batches the loader has for this rank; a loader that breaks does so
    after them.  The result are the batches handed to the caller before the end or the failure. *)
Record loader := { creation : option text; items : list batch; breaks : option text }.
Definition next_item (l : list batch) (breaks : option text) : pull :=
  match l with b :: _ => Item b | [] => match breaks with Some e => Broken e | None => Stop end end.
Definition yields := list (batch * bool).
Definition ends (out : yields) (p : prog unit) : prog (yields * option failure) :=
  catch (pbind p (fun _ => ret (out, None))) (fun e => ret (out, Some e)).
Definition after_phase (out : yields) (rank : nat) (errs : list text) (k : prog (yields * option failure)) : prog (yields * option failure) :=
  pbind (catch (pbind (phase_errors rank errs) (fun _ => ret None)) (fun e => ret (Some e))) (fun r =>
  match r with Some e => ret (out, Some e) | None => k end).
Definition error_list (p : pull) : list text := match p with Broken e => [e] | _ => [] end.
Fixpoint planned (fuel rank : nat) (limit : option nat) (index : nat) (l : list batch) (brk : option text) (out : yields)
    : prog (yields * option failure) :=
  match fuel with
  | O => ret (out, Some Unfinished)
  | S fuel =>
      if match limit with Some n => (n <=? index)%nat | None => false end then ret (out, None)
      else
        let p := next_item l brk in
        after_phase out rank (error_list p) (
          let available := match p with Item _ => true | _ => false end in
          pbind (if (world =? 1)%nat then ret [MFlag available] else exchange GatherTensor (MFlag available)) (fun ms =>
          let up := ranks_with true (flags_of ms) in
          if empty up then ret (out, None)
          else if negb (List.length up =? world)%nat then ret (out, Some (NoBatch up))
          else match p with
               | Item b => planned fuel rank limit (S index) (tl l) brk (out ++ [(b, true)])
               | _ => ret (out, Some Unfinished)
               end))
  end.
Definition planned_batches (fuel rank : nat) (limit : option nat) (x : loader) : prog (yields * option failure) :=
  after_phase [] rank (match creation x with Some e => [e] | None => [] end) (planned fuel rank limit 0 (items x) (breaks x) []).

(** lines 4963-5047: any other data set.  [last]: the batch to repeat when this rank has no more; [real]: its batches so far. *)
Fixpoint uneven (fuel rank : nat) (limit : option nat) (index real : nat) (l : list batch) (brk : option text) (last : option batch) (out : yields)
    : prog (yields * option failure) :=
  match fuel with
  | O => ret (out, Some Unfinished)
  | S fuel =>
      let p := if match limit with Some n => (n <=? real)%nat | None => false end then Stop else next_item l brk in
      after_phase out rank (error_list p) (
        let available := match p with Item _ => true | _ => false end in
        pbind (exchange GatherTensor (MFlag available)) (fun ms =>
        let up := ranks_with true (flags_of ms) in
        if empty up then ret (out, None)
        else
          pbind (if (index =? 0)%nat && negb (List.length up =? world)%nat
                 then exchange GatherObject (MBatch (match p with Item b => Some b | _ => None end))
                 else ret []) (fun ms =>
          match p with
          | Item b => uneven fuel rank limit (S index) (S real) (tl l) brk (Some b) (out ++ [(b, true)])
          | _ =>
              match last, batches_of ms with
              | Some b, _ | None, b :: _ => uneven fuel rank limit (S index) real l brk (Some b) (out ++ [(b, false)])
              | None, [] => ret (out, Some Unfinished)
              end
          end)))
  end.
Fixpoint alone (limit : option nat) (l : list batch) (brk : option text) (out : yields) : yields * option failure :=
  match limit, l with
  | Some O, _ => (out, None)
  | _, b :: r => alone (option_map pred limit) r brk (out ++ [(b, true)])
  | _, [] => (out, option_map Alone brk)
  end.
Definition uneven_batches (fuel rank : nat) (limit : option nat) (x : loader) : prog (yields * option failure) :=
  if (world =? 1)%nat then
    match creation x with Some e => ret ([], Some (Alone e)) | None => ret (alone limit (items x) (breaks x) []) end
  else after_phase [] rank (match creation x with Some e => [e] | None => [] end)
         (uneven fuel rank limit 0 0 (items x) (breaks x) None []).

(** lines 1957-1966 and 1968-2092: saving.  [exists_already]: the state file of this iteration is there; the results of the
    phases in turn.  [states_ok] is the check of the gathered continuation states, on the same list on every rank. *)
Record saving := { flush : option text; saves_state : bool; exists_already : bool; collision : unit + text; directory : unit + text;
                   sidecar : unit + text; continuation : unit + text; sidecar_check : unit + text; commit : option text }.
Variable generation : unit + text. (* of rank 0 *)
Variable states_ok : option text.
Definition save_checkpoint (rank : nat) (x : saving) : prog unit :=
  pbind (synchronized rank true (flush x)) (fun _ =>
  if saves_state x && exists_already x then shared_call rank (collision x)
  else
    pbind (if saves_state x then
             pbind (shared_call rank (directory x)) (fun _ =>
             pbind (pbind (if (world =? 1)%nat then ret [] else exchange GatherObject MNothing) (fun _ =>
                    match generation with inl _ => ret tt | inr e => raise (Collectively [(0%nat, [e])]) end)) (fun _ =>
             pbind (shared_call rank (sidecar x)) (fun _ =>
             pbind (shared_call rank (continuation x)) (fun _ =>
             pbind (match states_ok with Some e => raise (Alone e) | None => ret tt end) (fun _ =>
             shared_call rank (sidecar_check x))))))
           else ret tt) (fun _ =>
    synchronized rank true (commit x))).
End Ranks.
Arguments Done {text batch desc A}. Arguments Coll {text batch desc A}. Arguments ret {text batch desc A}. Arguments raise {text batch desc A}.
Arguments exchange {text batch desc}. Arguments MNothing {text batch desc}. Arguments MError {text batch desc}. Arguments MFlag {text batch desc}.
Arguments MCount {text batch desc}. Arguments MDesc {text batch desc}. Arguments MBatch {text batch desc}.
Arguments Collectively {text desc}. Arguments Differs {text desc}. Arguments NoBatch {text desc}. Arguments Alone {text desc}. Arguments Unfinished {text desc}.
Arguments phase_errors {text batch desc}. Arguments synchronized {text batch desc}. Arguments shared_call {text batch desc} world {A}. Arguments compared {text batch desc}.
Arguments Item {text batch}. Arguments Stop {text batch}. Arguments Broken {text batch}.
