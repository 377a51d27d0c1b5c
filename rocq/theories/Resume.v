(** The continuation state of every rank in a training checkpoint: trainer/base.py 2261-2331 (written by each rank),
    1593-1695 (validated when saving, pruning and loading), 1478-1511 (picked when resuming).

    Values are the Python values of StateCodec.v; dictionaries keep insertion order and have different keys.
    [digest] is the hex SHA-256 of a byte string, [float_equals] the comparison of a float with an integer; both
    arbitrary.  AttributeError is TypeError here. *)
From Verif Require Import Base Rng Json StateCodec.
Set Implicit Arguments. Unset Strict Implicit.

Section Resume.
Variable float_text : Z -> ustr.
Variable digest : bytes -> ustr.
Variable float_equals : Z -> Z -> bool.
Let encode := canonical_pipeline_state_bytes float_text.

Definition dict := list (key * value).
Definition is_key (name : ustr) (k : key) : bool := match k with KStr s => ustr_eqb s name | KOther _ => false end.
Definition lookup (d : dict) (name : ustr) : option value := option_map snd (find (fun kv => is_key name (fst kv)) d).
(** [d.get(name)] *)
Definition get (d : dict) (name : ustr) : value := match lookup d name with Some v => v | None => VNone end.
(** [d.pop(name, None)] *)
Definition without (d : dict) (name : ustr) : dict := filter (fun kv => negb (is_key name (fst kv))) d.
(** [d[name] = v] *)
Definition assign (d : dict) (name : ustr) (v : value) : dict :=
  match lookup d name with
  | Some _ => map (fun kv => if is_key name (fst kv) then (fst kv, v) else kv) d
  | None => d ++ [(KStr name, v)]
  end.
Definition is_true (v : value) : bool := match v with VBool true => true | _ => false end.
Definition is_none (v : value) : bool := match v with VNone => true | _ => false end.
Definition equals_int (v : value) (n : Z) : bool :=
  match v with VInt m => m =? n | VBool b => (if b then 1 else 0) =? n | VFloat f => float_equals f n | _ => false end.
Definition equals_str (v : value) (s : ustr) : bool := match v with VStr t => ustr_eqb t s | _ => false end.
Fixpoint hashable (v : value) : bool :=
  match v with VList _ | VDict _ => false | VTuple l => forallb hashable l | _ => true end.
(** The truth value of a Python value ([or {}]); tensors raise or not, here they count as true. *)
Definition falsy (v : value) : bool :=
  match v with
  | VNone | VBool false | VInt 0 | VStr [] | VBytes [] | VList [] | VTuple [] | VDict [] => true
  | VFloat f => float_equals f 0
  | _ => false
  end.

Definition k_supported := ulit "supported".
Definition k_reason := ulit "reason".
Definition k_slot := ulit "slot".
Definition k_rank := ulit "rank".
Definition k_kind := ulit "cursor_kind".
Definition k_signature := ulit "data_stream_signature".
Definition k_rng := ulit "rng".
Definition k_stream := ulit "stream".
Definition k_slice := ulit "slice".
Definition k_coordination := ulit "stream_coordination".
Definition k_sampler := ulit "sampler".
Definition k_vq := ulit "vq_runtime".
Definition k_tuning := ulit "pipeline_tuning".
Definition k_global := ulit "global_digest".
Definition k_local := ulit "local_digest".
Definition file_stream := ulit "file_stream_v1".
Definition map_sampler := ulit "map_sampler_v1".

(** lines 1669-1695, [_global_resume_projection] *)
Definition projection (state : dict) : res value :=
  let base := [(KStr k_supported, get state k_supported); (KStr k_kind, get state k_kind); (KStr k_signature, get state k_signature)] in
  vq <- match lookup state k_vq with
        | None => Ok []
        | Some VNone => Ok [(KStr k_vq, VNone)]
        | Some (VDict m) => Ok [(KStr k_vq, VDict [(KStr (ulit "version"), get m (ulit "version"));
            (KStr (ulit "schema"), get m (ulit "schema")); (KStr (ulit "autocast_mode"), get m (ulit "autocast_mode"))])]
        | Some _ => Err TypeError
        end ;;
  rest <- (if equals_str (get state k_kind) file_stream then
             let coordination := get state k_coordination in
             if is_none coordination then Ok [(KStr k_stream, get state k_stream)] else Ok [(KStr k_coordination, coordination)]
           else
             let sampler := get state k_sampler in
             if falsy sampler then Ok [(KStr k_sampler, VDict [])]
             else match sampler with VDict m => Ok [(KStr k_sampler, VDict (without m k_rank))] | _ => Err TypeError end) ;;
  Ok (VDict (base ++ vq ++ rest)).

(** lines 2276-2284 and 2323-2331 *)
Definition stamped (state : dict) : res dict :=
  p <- projection state ;;
  g <- encode p ;;
  let state := assign state k_global (VStr (digest g)) in
  b <- encode (VDict state) ;;
  Ok (assign state k_local (VStr (digest b))).

(** lines 2261-2331, [_local_resume_state].  [cursor] is the state of the stream with the slice bounds and the coordination
    state if there is one, or the state of the sampler. *)
Inductive cursor := Stream (state : value) (start stop : Z) (coordination : option value) | SamplerState (state : value).
Definition optional (name : ustr) (v : option value) : dict := match v with Some v => [(KStr name, v)] | None => [] end.
Definition captured (reason : option ustr) (index : Z) (signature rng : value) (c : cursor) (vq tuning : option value) : dict :=
  match reason with
  | Some r => [(KStr k_supported, VBool false); (KStr k_reason, VStr r); (KStr k_slot, VInt index); (KStr k_rank, VInt index)] ++ optional k_vq vq
  | None =>
      [(KStr k_supported, VBool true); (KStr k_slot, VInt index); (KStr k_rank, VInt index); (KStr k_signature, signature); (KStr k_rng, rng)]
      ++ match c with
         | Stream s a b co => [(KStr k_kind, VStr file_stream); (KStr k_stream, s); (KStr k_slice, VList [VInt a; VInt b])] ++ optional k_coordination co
         | SamplerState s => [(KStr k_kind, VStr map_sampler); (KStr k_sampler, s)]
         end
      ++ optional k_vq vq ++ optional k_tuning tuning
  end.
Definition local_resume_state reason index signature rng c vq tuning : res dict := stamped (captured reason index signature rng c vq tuning).

(** lines 1597-1607 *)
Definition legacy_keys : list ustr := [k_supported; k_signature; k_sampler; k_rng].
Definition legacy (v : value) : bool :=
  match v with
  | VDict d =>
      (match lookup d k_kind with None => true | Some _ => false end)
      && is_true (get d k_supported)
      && forallb (fun kv => existsb (fun n => is_key n (fst kv)) legacy_keys) d
      && forallb (fun n => match lookup d n with Some _ => true | None => false end) legacy_keys
  | _ => false
  end.

(** lines 1611-1655: one state; [seen] are the slots so far *)
Definition check_state (world : Z) (seen : list Z) (v : value) : res (Z * dict) :=
  match v with
  | VDict state =>
      let kind := get state k_kind in
      _ <- (if is_true (get state k_supported) then
              guard hashable kind else TypeError ;;
              guard equals_str kind file_stream || equals_str kind map_sampler else RuntimeError ;; Ok tt
            else guard is_none kind else RuntimeError ;; Ok tt) ;;
      slot <- match get state k_slot with VInt n => guard (0 <=? n) && (n <? world) else RuntimeError ;; Ok n | _ => Err RuntimeError end ;;
      guard equals_int (get state k_rank) slot else RuntimeError ;;
      guard negb (existsb (Z.eqb slot) seen) else RuntimeError ;;
      b <- encode (VDict (without state k_local)) ;;
      guard equals_str (get state k_local) (digest b) else RuntimeError ;;
      p <- projection state ;;
      g <- encode p ;;
      guard equals_str (get state k_global) (digest g) else RuntimeError ;;
      Ok (slot, state)
  | _ => Err RuntimeError
  end.
Fixpoint check_states (world : Z) (seen : list Z) (states : list value) : res (list (Z * dict)) :=
  match states with
  | [] => Ok []
  | v :: rest =>
      '(slot, state) <- check_state world seen v ;;
      more <- check_states world (slot :: seen) rest ;;
      Ok ((slot, state) :: more)
  end.
Definition same_text (a b : value) : bool := match a, b with VStr s, VStr t => ustr_eqb s t | _, _ => false end.
(** lines 1593-1667; the flag is [classify_legacy]'s second result *)
Definition validate (world : nat) (states : list value) : res (list value * bool) :=
  if forallb legacy states then Ok (states, true)
  else
    by_slot <- check_states (Z.of_nat world) [] states ;;
    guard forallb (fun k => existsb (fun sd => fst sd =? Z.of_nat k) by_slot) (seq 0 world) else RuntimeError ;;
    ordered <- mapM (fun k => match find (fun sd => fst sd =? Z.of_nat k) by_slot with Some sd => Ok (snd sd) | None => Err KeyError end) (seq 0 world) ;;
    guard (match ordered with
           | [] => false
           | first :: others => forallb (fun d => same_text (get d k_global) (get first k_global)) others
           end) else RuntimeError ;;
    Ok (map VDict ordered, false).

(** lines 1478-1511: the state a rank continues from *)
Definition select_state (world : nat) (rank : nat) (resume : value) : res (dict * bool) :=
  match resume with
  | VDict r =>
      guard hashable (get r (ulit "version")) else TypeError ;;
      guard equals_int (get r (ulit "version")) 1 || equals_int (get r (ulit "version")) 2 else RuntimeError ;;
      guard equals_int (get r (ulit "world_size")) (Z.of_nat world) else RuntimeError ;;
      states <- match lookup r (ulit "ranks") with None => Ok [] | Some (VList l) | Some (VTuple l) => Ok l | Some _ => Err TypeError end ;;
      guard (List.length states =? world)%nat else RuntimeError ;;
      '(ordered, old) <- validate world states ;;
      state <- py_get ordered rank ;;
      match state with
      | VDict d => guard negb (falsy (get d k_supported)) else RuntimeError ;; Ok (d, old)
      | _ => Err TypeError
      end
  | _ => Err RuntimeError
  end.
End Resume.
