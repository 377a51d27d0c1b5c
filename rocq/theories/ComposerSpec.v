(** Specification vocabulary for C45. *)
From Verif Require Import Base Rng Checkpoint Json StateCodec StateCodecSpec FieldDigest Composer.
Set Implicit Arguments. Unset Strict Implicit.

(** ** Declared fields *)
Definition names (specs : list field_spec) : list ustr := map f_name specs.
Section Fields.
Variable asarray : fv -> res (list Z * Z).
Variable int_pairs : fv -> list (Z * Z).
Variable row_equal : fv -> nat -> bool.

(** Axis [axis] of one sample is axis [a] of the batch. *)
Definition placed (sc : scope) (rank axis a : Z) : Prop :=
  (axis < 0 /\ a = rank + axis \/ 0 <= axis /\ a = axis + match sc with PerSample => 1 | BatchShared => 0 end) /\ 0 <= a < rank.
(** The board sizes of the batch: those of a board_size field of shape (n, 2). *)
Definition boards_are (data : fields) (n : Z) (boards : option (list (Z * Z))) : Prop :=
  match obj_get data (ulit "board_size") with
  | None => boards = None
  | Some v => exists shape kind, view asarray v = Ok (shape, kind) /\
      (shape = [n; 2] /\ boards = Some (int_pairs v) \/ shape <> [n; 2] /\ boards = None)
  end.
(** A present field agrees with its declaration. *)
Definition conforms (data : fields) (boards : option (list (Z * Z))) (n : Z) (sp : field_spec) (v : fv) : Prop :=
  exists shape kind, view asarray v = Ok (shape, kind) /\
  In kind (f_kinds sp) /\
  (exists rest, shape = n :: rest) /\
  (f_collate sp = AsList -> is_list v = true /\ (f_scope sp = PerSample -> rows_of v = n)) /\
  (f_scope sp = BatchShared -> 0 < n /\ forall i, (0 < i < Z.to_nat n)%nat -> row_equal v i = true) /\
  (exists axes, Forall2 (placed (f_scope sp) (zlen shape)) (f_spatial sp) axes /\
    (forall bs h w, boards = Some bs -> In (h, w) bs ->
      (forall a, nth_error axes 0 = Some a -> h <= dim shape a) /\ (forall a, nth_error axes 1 = Some a -> w <= dim shape a)) /\
    (forall axis, f_side sp = Some axis -> exists a, placed (f_scope sp) (zlen shape) axis a /\ 0 < dim shape a /\ ~ In a axes)) /\
  match f_transform sp with
  | Plain => True
  | BoardPolicy => exists bs input ishape ih iw pre, boards = Some bs /\ obj_get data (ulit "board_input") = Some input /\
      shape_attr input = Ok ishape /\ ishape = pre ++ [ih; iw] /\
      ((exists r a b, shape = [r; a; b] /\ forall h w, In (h, w) bs -> h = a /\ w = b) \/
       (exists r a, shape = [r; a] /\ forall h w, In (h, w) bs -> In a [h * w; h * w + 1; ih * iw; ih * iw + 1]))
  | FlatPolicyWithPass => exists bs r a, boards = Some bs /\ shape = [r; a] /\ forall h w, In (h, w) bs -> a = h * w + 1
  | Moves => f_collate sp = AsList
  end.
(** The declared fields of a batch of [n] samples are all there, unless optional, and
    conform. *)
Definition fields_ok (data : fields) (specs : list field_spec) (n : Z) : Prop :=
  exists boards, boards_are data n boards /\
  forall sp, In sp specs ->
    match obj_get data (f_name sp) with
    | None => f_required sp = false
    | Some v => conforms data boards n sp v
    end.
End Fields.

Section Spec.
Variables W K R : Type.
Notation pipeline := (pipeline W K R).
Variable asarray : fv -> res (list Z * Z).
Variable int_pairs : fv -> list (Z * Z).
Variable row_equal : fv -> nat -> bool.
Variable printable : Z -> bool.
Variable float_text : Z -> ustr.
Variable sha256 : bytes -> bytes.
Let encode := canonical_pipeline_state_bytes float_text.
Let digest := field_value_digest printable float_text sha256.

Definition initial_of (p : pipeline) : value := match p_initial p with Some s => s | None => VNone end.
(** [blob] holds the states [sts] of the pipelines: it is the canonical encoding of the
    list of (identifier, schema version, hexadecimal of the state's encoding). *)
Inductive entry_for (p : pipeline) (st : value) : value -> Prop :=
| entry_is version b : p_version p = Some version -> encode st = Ok b ->
    entry_for p st (VTuple [VStr (p_id p); VInt version; VStr (hex b)]).
Definition stores (ps : list pipeline) (sts : list value) (blob : bytes) : Prop :=
  List.length sts = List.length ps /\
  exists entries, List.length entries = List.length ps /\
    (forall i p st e, nth_error ps i = Some p -> nth_error sts i = Some st -> nth_error entries i = Some e -> entry_for p st e) /\
    encode (VList entries) = Ok blob.

(** A chain that may be composed. *)
Definition encodable (v : value) : Prop := exists b, encode v = Ok b.
Definition valid_chain (w : W) (ps : list pipeline) : Prop :=
  NoDup (map (@p_id _ _ _) ps) /\
  (* no two declared outputs, of one pipeline or of two, have the same name *)
  NoDup (flat_map (fun p => names (p_outputs p)) ps) /\
  (forall p, In p ps ->
     p_id p <> [] /\
     (exists v, p_version p = Some v) /\
     (forall k, In k (names (p_outputs p)) -> ~ In k (names (p_inputs p))) /\
     encodable (p_signature p w) /\ encodable (initial_of p)) /\
  (* identifiers and schema versions can be written *)
  (exists blob, stores ps (map initial_of ps) blob).

(** The two values of a field have the same digest. *)
Definition looks_same (v v' : fv) : Prop := exists x, digest v = Ok x /\ digest v' = Ok x.
(** [after] is [before] with some of the names [outs] added. *)
Definition extends (outs : list ustr) (before after : fields) : Prop :=
  (forall k v, obj_get before k = Some v -> ~ In k outs /\ exists v', obj_get after k = Some v' /\ looks_same v v') /\
  (forall k, In k (dkeys after) -> In k (dkeys before) \/ In k outs).
Definition stateful (p : pipeline) : Prop := p_initial p <> None.

(** One pipeline of the chain, run on [data] with state [st] in world [w], the way the
    documentation wants it: it finds its inputs, adds its outputs and nothing else, and
    changes neither its declared configuration nor the state it was given. *)
Definition does (fingerprint : bytes) (p : pipeline) (w : W) (data : fields) (st : value) (sks : list K) (rks : list R)
    (w1 : W) (data1 : fields) (next : value) : Prop :=
  exists r, p_call p w data st sks rks = (w1, Ok r) /\
  c_data r = Some data1 /\
  (stateful p -> c_prepared r = true /\ next = c_next r /\ encode (c_state r) = encode st) /\
  (~ stateful p -> next = VNone) /\
  fields_ok asarray int_pairs row_equal data (p_inputs p) (zlen sks) /\
  fields_ok asarray int_pairs row_equal data1 (p_outputs p) (zlen sks) /\
  extends (names (p_outputs p)) data data1 /\
  (exists b, encode (p_signature p w) = Ok b /\ sha256 b = fingerprint /\ encode (p_signature p w1) = Ok b).
(** The chain: each pipeline gets what the one before it returned. *)
Inductive ran (sks : list K) (rks : list R) :
  list pipeline -> list bytes -> list value -> W -> fields -> list value -> W -> fields -> Prop :=
| ran_nil w data : ran sks rks [] [] [] w data [] w data
| ran_cons p ps fp fps st sts w data w1 data1 next nexts w2 data2 :
    does fp p w data st sks rks w1 data1 next ->
    ran sks rks ps fps sts w1 data1 nexts w2 data2 ->
    ran sks rks (p :: ps) (fp :: fps) (st :: sts) w data (next :: nexts) w2 data2.

(** Pipelines that compute: what they return depends on what they are given only (and
    their declared configuration does not change). *)
Definition pure (p : pipeline) : Prop :=
  (forall w w' data st sks rks, snd (p_call p w data st sks rks) = snd (p_call p w' data st sks rks)) /\
  (forall w w', p_signature p w = p_signature p w').
End Spec.
