(** dataset/core.py 99-111 and 1407-1804: field declarations and PipelineStateComposer. *)
From Verif Require Import Base Rng Checkpoint Json StateCodec FieldDigest.
Set Implicit Arguments. Unset Strict Implicit.

(** FieldSpec (core.py:99-111), after its own validation.  dtype kinds are character
    codes; [f_spatial] is [] for None and two axes otherwise. *)
Inductive scope := PerSample | BatchShared.
Inductive collate := Stack | Broadcast | AsList.
Inductive transform := Plain | BoardPolicy | FlatPolicyWithPass | Moves.
Record field_spec := {
  f_name : ustr; f_required : bool; f_scope : scope; f_spatial : list Z; f_side : option Z;
  f_collate : collate; f_kinds : list Z; f_transform : transform }.

(** A Python dict of batch fields, in insertion order. *)
Definition fields := list (ustr * fv).
Definition has (names : list ustr) (k : ustr) : bool := existsb (ustr_eqb k) names.
Definition dkeys (A : Type) (d : list (ustr * A)) : list ustr := map fst d.

(** numpy's dtype.kind *)
Definition kind_of (d : dtype) : Z :=
  match d with
  | Bool_ => 98 | UInt8 | UInt16 | UInt32 | UInt64 => 117 | Int8 | Int16 | Int32 | Int64 => 105
  | Float16 | Float32 | Float64 | BFloat16 => 102
  end.
(** Python sequence indexing [shape[i]] with a negative index counted from the end *)
Definition from_end (shape : list Z) (i : nat) : res Z :=
  match nth_error (rev shape) i with Some x => Ok x | None => Err IndexError end.

Section Validate.
(** numpy on values that are neither arrays nor tensors (lists, numbers, ...):
    np.asarray(value) as its shape and dtype kind. *)
Variable asarray : fv -> res (list Z * Z).
(** The rows of an array of shape (batch_size, 2), as int64 (the board_size field). *)
Variable int_pairs : fv -> list (Z * Z).
(** Whether row [i] of a field equals row 0 (torch.equal or np.array_equal). *)
Variable row_equal : fv -> nat -> bool.

(** core.py:1560-1569 *)
Definition view (v : fv) : res (list Z * Z) :=
  match v with
  | FTensor BFloat16 _ _ => Err TypeError (* Tensor.numpy() *)
  | FTensor d shape _ | FArray d shape _ => Ok (shape, kind_of d)
  | FObjects shape _ => Ok (shape, 79)
  | _ => asarray v
  end.
(** value.shape; an AttributeError otherwise (TypeError stands for it) *)
Definition shape_attr (v : fv) : res (list Z) :=
  match v with FTensor _ s _ | FArray _ s _ | FObjects s _ => Ok s | _ => Err TypeError end.
Definition is_list (v : fv) : bool := match v with FList _ | FTuple _ => true | _ => false end.
(** len(value) of a list or tuple *)
Definition rows_of (v : fv) : Z := match v with FList l | FTuple l => zlen l | _ => 0 end.
Definition pairs_eqb (a b : list Z) : bool := ustr_eqb a b.

(** core.py:1545-1553: the board sizes, if the batch has usable ones. *)
Definition board_sizes_of (data : fields) (n : Z) : res (option (list (Z * Z))) :=
  match obj_get data (ulit "board_size") with
  | None => Ok None
  | Some v =>
      '(shape, _) <- view v ;;
      Ok (if ustr_eqb shape [n; 2] then Some (int_pairs v) else None)
  end.
(** core.py:1614-1628 (spatial axes), 1643-1649 (side axis): an axis of the declared
    (per-sample) layout as an axis of the batched array. *)
Definition spatial_axis (sc : scope) (rank axis : Z) : res Z :=
  let a := match sc with
           | PerSample => if 0 <=? axis then axis + 1 else rank + axis
           | BatchShared => if 0 <=? axis then axis else rank + axis
           end in
  guard (0 <=? a) && (a <? rank) else ValueError ;; Ok a.
Definition dim (shape : list Z) (axis : Z) : Z := nth (Z.to_nat axis) shape 0.

(** core.py:1555-1699, one declared field. *)
Definition validate_field (data : fields) (boards : option (list (Z * Z))) (n : Z) (sp : field_spec) : res unit :=
  match obj_get data (f_name sp) with
  | None => guard negb (f_required sp) else ValueError ;; Ok tt
  | Some v =>
    '(shape, kind) <- view v ;;
    guard existsb (Z.eqb kind) (f_kinds sp) else ValueError ;;
    _ <- match f_scope sp with
         | PerSample =>
             guard match shape with [] => false | s :: _ => s =? n end else ValueError ;;
             guard match f_collate sp with AsList => is_list v && (rows_of v =? n) | _ => true end else ValueError ;;
             Ok tt
         | BatchShared =>
             guard match f_collate sp with AsList => is_list v | _ => true end else ValueError ;;
             guard match shape with [] => false | s :: _ => s =? n end else ValueError ;;
             guard 0 <? n else IndexError ;; (* first = value[0] *)
             guard forallb (row_equal v) (seq 1 (Z.to_nat n - 1)) else ValueError ;;
             Ok tt
         end ;;
    spatial <- mapM (spatial_axis (f_scope sp) (zlen shape)) (f_spatial sp) ;;
    _ <- match boards with
         | Some bs =>
             let physical := map (dim shape) spatial in
             guard forallb (fun hw => match physical with
                                      | [] => true
                                      | [a] => fst hw <=? a
                                      | a :: b :: _ => (fst hw <=? a) && (snd hw <=? b)
                                      end) bs else ValueError ;;
             Ok tt
         | None => Ok tt
         end ;;
    _ <- match f_side sp with
         | None => Ok tt
         | Some axis =>
             a <- spatial_axis (f_scope sp) (zlen shape) axis ;;
             guard 0 <? dim shape a else ValueError ;;
             guard negb (existsb (Z.eqb a) spatial) else ValueError ;;
             Ok tt
         end ;;
    match f_transform sp with
    | Plain => Ok tt
    | BoardPolicy =>
        match boards with
        | None => Err ValueError
        | Some bs =>
            input <- match obj_get data (ulit "board_input") with Some x => Ok x | None => Err KeyError end ;;
            ishape <- shape_attr input ;;
            h <- from_end ishape 1 ;;
            w <- from_end ishape 0 ;;
            let spatial_policy := match shape with
                                  | [_; a; b] => forallb (fun hw => (fst hw =? a) && (snd hw =? b)) bs
                                  | _ => false
                                  end in
            let flat_policy := match shape with
                               | [_; a] => forallb (fun hw => (a =? fst hw * snd hw) || (a =? fst hw * snd hw + 1) ||
                                                              (a =? h * w) || (a =? h * w + 1)) bs
                               | _ => false
                               end in
            guard spatial_policy || flat_policy else ValueError ;; Ok tt
        end
    | FlatPolicyWithPass =>
        match boards with
        | None => Err ValueError
        | Some bs =>
            guard match shape with
                  | [_; a] => forallb (fun hw => a =? fst hw * snd hw + 1) bs
                  | _ => false
                  end else ValueError ;; Ok tt
        end
    | Moves => guard match f_collate sp with AsList => true | _ => false end else ValueError ;; Ok tt
    end
  end.
(** core.py:1530-1699; prepare_batch never sets reject_unknown. *)
Definition validate_fields (data : fields) (specs : list field_spec) (n : Z) : res unit :=
  boards <- board_sizes_of data n ;;
  _ <- mapM (validate_field data boards n) specs ;; Ok tt.
End Validate.

Section Composer.
(** [W] is everything the pipeline objects can change about themselves and the rest of
    the program; [K] and [R] are the sample keys and rng keys. *)
Variables W K R : Type.

(** What a pipeline's prepare_batch or process_batch returns.  [c_prepared]: it is a
    PreparedPipelineResult; [c_data] is None if it is not a dictionary; [c_state] is the
    state it was given, as it left it.  A pipeline without initial_state (process_batch)
    has only [c_data]. *)
Record call_result := { c_prepared : bool; c_data : option fields; c_next : value; c_state : value }.
(** A pipeline.  [p_version] is None if schema_version is not an int; [p_initial] is None
    if it has no initial_state method.  [p_call] is given the field values as they are when
    it is called and returns them as they are when it returns: a change made in place shows
    in the returned dictionary. *)
Record pipeline := {
  p_id : ustr; p_version : option Z;
  p_inputs : list field_spec; p_outputs : list field_spec;
  p_initial : option value;
  p_signature : W -> value;
  p_call : W -> fields -> value -> list K -> list R -> W * res call_result }.

Variable asarray : fv -> res (list Z * Z).
Variable int_pairs : fv -> list (Z * Z).
Variable row_equal : fv -> nat -> bool.
Variable printable : Z -> bool.
Variable float_text : Z -> ustr.
Variable float_of : ustr -> Z.
Variable int_of_other : json -> res Z.
(** [f == n] of a float and an int *)
Variable float_is : Z -> Z -> bool.
Variable sha256 : bytes -> bytes.
Let encode := canonical_pipeline_state_bytes float_text.
Let decode := decode_canonical_pipeline_state float_text float_of int_of_other.
Let digest := field_value_digest printable float_text sha256.
Let validate := validate_fields asarray int_pairs row_equal.

Definition out_names (p : pipeline) : list ustr := map f_name (p_outputs p).
Definition in_names (p : pipeline) : list ustr := map f_name (p_inputs p).
Fixpoint distinct (l : list ustr) : bool :=
  match l with [] => true | x :: r => negb (has r x) && distinct r end.

(** One entry of the composite state: (pipeline_id, schema_version, state.hex()). *)
Definition entry (p : pipeline) (version : Z) (state : value) : res value :=
  b <- encode state ;; Ok (VTuple [VStr (p_id p); VInt version; VStr (hex b)]).

Record composer := {
  m_pipelines : list pipeline;
  m_fingerprints : list bytes;
  m_initial : bytes }.

(** ** core.py:1422-1465 *)
Fixpoint build (w : W) (ps : list pipeline) (produced : list ustr) : res (list (bytes * value)) :=
  match ps with
  | [] => Ok []
  | p :: r =>
      guard negb (ustr_eqb (p_id p) []) else ValueError ;;
      version <- match p_version p with Some v => Ok v | None => Err ValueError end ;;
      signature <- encode (p_signature p w) ;;
      guard distinct (out_names p) else ValueError ;;
      guard negb (existsb (has produced) (out_names p)) else ValueError ;;
      guard negb (existsb (has (in_names p)) (out_names p)) else ValueError ;;
      e <- entry p version (match p_initial p with Some s => s | None => VNone end) ;;
      rest <- build w r (produced ++ out_names p) ;;
      Ok ((sha256 signature, e) :: rest)
  end.
Definition compose (w : W) (ps : list pipeline) : res composer :=
  guard distinct (map p_id ps) else ValueError ;;
  built <- build w ps [] ;;
  blob <- encode (VList (map snd built)) ;;
  Ok {| m_pipelines := ps; m_fingerprints := map fst built; m_initial := blob |}.

(** ** core.py:1467-1480 *)
(** Iterating over a decoded value ([zip] and unpacking). *)
Definition items_of (v : value) : res (list value) :=
  match v with
  | VTuple l | VList l => Ok l
  | VStr s => Ok (map (fun c => VStr [c]) s)
  | VDict l => Ok (map (fun kv => VStr (key_text (fst kv))) l)
  | VBytes b => Ok (map VInt b)
  | VTensor p t =>
      match t_shape t with
      | [] => Err TypeError
      | k :: r => Ok (repeat (VTensor p {| t_dtype := t_dtype t; t_shape := r; t_data := [] |}) (Z.to_nat k))
      end
  | _ => Err TypeError
  end.
(** [a, b, c = value] *)
Definition unpack3 (v : value) : res (value * value * value) :=
  l <- items_of v ;; match l with [a; b; c] => Ok (a, b, c) | _ => Err ValueError end.
Definition equals_str (v : value) (s : ustr) : bool := match v with VStr t => ustr_eqb t s | _ => false end.
Definition equals_int (v : value) (n : Z) : bool :=
  match v with
  | VInt m => m =? n
  | VBool b => (if b then 1 else 0) =? n
  | VFloat f => float_is f n
  | _ => false
  end.
Definition decode_entry (p : pipeline) (v : value) : res value :=
  '(pid, version, text) <- unpack3 v ;;
  guard equals_str pid (p_id p) && match p_version p with Some n => equals_int version n | None => false end else ValueError ;;
  s <- match text with VStr s => Ok s | _ => Err TypeError end ;;
  b <- fromhex s ;;
  decode b.
Definition decode_blob (m : composer) (blob : bytes) : res (list value) :=
  v <- decode blob ;;
  l <- items_of v ;;
  guard (List.length l =? List.length (m_pipelines m))%nat else ValueError ;;
  mapM (fun pv => decode_entry (fst pv) (snd pv)) (combine (m_pipelines m) l).

(** ** core.py:1701-1804 *)
(** [sorted(key for key in before_keys.difference(output_names) if key in data and
    digest(data[key]) != before_field_digests[key])] *)
Definition mutated (p : pipeline) (before : list (ustr * bytes)) (data : fields) : res (list ustr) :=
  l <- mapM (fun kb => match obj_get data (fst kb) with
                       | None => Ok (fst kb, false)
                       | Some v => d <- digest v ;; Ok (fst kb, negb (bytes_eqb d (snd kb)))
                       end) (filter (fun kb => negb (has (out_names p) (fst kb))) before) ;;
  Ok (map fst (filter (fun kb => snd kb) l)).

(** One pipeline: the checks before the call. *)
Definition before_call (p : pipeline) (fingerprint : bytes) (w : W) (data : fields) (state : value) (n : Z)
  : res (bytes * bytes * value * list (ustr * bytes)) :=
  signature <- encode (p_signature p w) ;;
  guard bytes_eqb (sha256 signature) fingerprint else RuntimeError ;;
  input_bytes <- encode state ;;
  isolated <- decode input_bytes ;;
  digests <- mapM (fun kv => d <- digest (snd kv) ;; Ok (fst kv, d)) data ;;
  _ <- validate data (p_inputs p) n ;;
  Ok (signature, input_bytes, isolated, digests).
(** and after it *)
Definition after_call (p : pipeline) (signature input_bytes : bytes) (isolated : value) (digests : list (ustr * bytes))
    (w : W) (n : Z) (r : call_result) : res (fields * value) :=
  let stateful := match p_initial p with Some _ => true | None => false end in
  guard negb stateful || c_prepared r else TypeError ;;
  data <- match c_data r with Some d => Ok d | None => Err TypeError end ;;
  let next := if stateful then c_next r else VNone in
  changed <- mutated p digests data ;;
  guard negb (existsb (has (out_names p)) (dkeys digests)) else ValueError ;;
  guard forallb (fun k => has (dkeys digests) k || has (out_names p) k) (dkeys data) else ValueError ;;
  guard forallb (has (dkeys data)) (dkeys digests) else ValueError ;;
  guard match changed with [] => true | _ => false end else ValueError ;;
  _ <- validate data (p_outputs p) n ;;
  (* process_batch is not given the state *)
  after_state <- encode (if stateful then c_state r else isolated) ;;
  guard bytes_eqb after_state input_bytes else RuntimeError ;;
  after_signature <- encode (p_signature p w) ;;
  guard bytes_eqb after_signature signature else RuntimeError ;;
  Ok (data, next).
Definition run_one (p : pipeline) (fingerprint : bytes) (w : W) (data : fields) (state : value)
    (sks : list K) (rks : list R) : W * res (fields * value) :=
  match before_call p fingerprint w data state (zlen sks) with
  | Err e => (w, Err e)
  | Ok (signature, input_bytes, isolated, digests) =>
      match p_call p w data isolated sks rks with
      | (w1, Err e) => (w1, Err e)
      | (w1, Ok r) =>
          (w1, '(d, next) <- after_call p signature input_bytes isolated digests w1 (zlen sks) r ;;
               version <- match p_version p with Some v => Ok v | None => Err ValueError end ;;
               e <- entry p version next ;; Ok (d, e))
      end
  end.
Fixpoint run_all (ps : list (pipeline * bytes * value)) (w : W) (data : fields) (sks : list K) (rks : list R)
  : W * res (fields * list value) :=
  match ps with
  | [] => (w, Ok (data, []))
  | (p, fp, st) :: r =>
      match run_one p fp w data st sks rks with
      | (w1, Err e) => (w1, Err e)
      | (w1, Ok (d, e)) =>
          match run_all r w1 d sks rks with
          | (w2, Err x) => (w2, Err x)
          | (w2, Ok (d2, es)) => (w2, Ok (d2, e :: es))
          end
      end
  end.
Definition prepare_batch (m : composer) (w : W) (batch : fields) (sks : list K) (rks : list R) (current : option bytes)
  : W * res (fields * bytes) :=
  match
    (guard (List.length sks =? List.length rks)%nat else ValueError ;;
     decode_blob m (match current with None => m_initial m | Some b => b end))
  with
  | Err e => (w, Err e)
  | Ok states =>
      match run_all (combine (combine (m_pipelines m) (m_fingerprints m)) states) w batch sks rks with
      | (w1, Err e) => (w1, Err e)
      | (w1, Ok (data, entries)) =>
          (w1, blob <- encode (VList entries) ;; Ok (data, blob))
      end
  end.
End Composer.
