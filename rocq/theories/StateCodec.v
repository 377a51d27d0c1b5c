(** dataset/core.py 694-811: the canonical encoding of pipeline states, record keys and
    manifests. *)
From Verif Require Import Base Rng Checkpoint Json.
Set Implicit Arguments. Unset Strict Implicit.

(** The tensor dtypes of _TENSOR_DTYPES (core.py:694-710). *)
Inductive dtype := Bool_ | UInt8 | UInt16 | UInt32 | UInt64 | Int8 | Int16 | Int32 | Int64
                 | Float16 | Float32 | Float64 | BFloat16.
Definition all_dtypes : list dtype :=
  [Bool_; UInt8; UInt16; UInt32; UInt64; Int8; Int16; Int32; Int64; Float16; Float32; Float64; BFloat16].
Definition dtype_name (d : dtype) : ustr :=
  match d with
  | Bool_ => ulit "bool" | UInt8 => ulit "uint8" | UInt16 => ulit "uint16" | UInt32 => ulit "uint32"
  | UInt64 => ulit "uint64" | Int8 => ulit "int8" | Int16 => ulit "int16" | Int32 => ulit "int32"
  | Int64 => ulit "int64" | Float16 => ulit "float16" | Float32 => ulit "float32"
  | Float64 => ulit "float64" | BFloat16 => ulit "bfloat16"
  end.
(** _TENSOR_DTYPES_BY_NAME (core.py:711) *)
Definition dtype_named (s : ustr) : option dtype := find (fun d => ustr_eqb (dtype_name d) s) all_dtypes.
Definition itemsize (d : dtype) : Z :=
  match d with
  | Bool_ | UInt8 | Int8 => 1
  | UInt16 | Int16 | Float16 | BFloat16 => 2
  | UInt32 | Int32 | Float32 => 4
  | UInt64 | Int64 | Float64 => 8
  end.

Record tensor := { t_dtype : dtype; t_shape : list Z; t_data : bytes (* C order, little endian *) }.

(** Python values.  Floats are the 64 bits of their binary64 encoding (so -0.0 and 0.0
    differ, and a NaN has its payload).  [VTensor plain t]: [plain] is false for a tensor
    that requires gradients, is not a dense strided CPU tensor, or has a dtype outside
    _TENSOR_DTYPES (core.py:735-740).  [VOther]: any other Python object. *)
Inductive key := KStr (s : ustr) | KOther (n : nat).
Inductive value :=
| VNone
| VBool (b : bool)
| VInt (n : Z)
| VFloat (bits : Z)
| VBytes (b : bytes)
| VStr (s : ustr)
| VList (l : list value)
| VTuple (l : list value)
| VDict (l : list (key * value)) (* in insertion order *)
| VTensor (plain : bool) (t : tensor)
| VOther (n : nat).

(** ** core.py:714-756 *)
(** math.isfinite: the exponent field is not all ones. *)
Definition finite (bits : Z) : bool := negb (bits / 2 ^ 52 mod 2 ^ 11 =? 2047).
(** bytes.hex() *)
Definition hex (b : bytes) : ustr := flat_map (fun x => [hex_digit (x / 16); hex_digit (x mod 16)]) b.
(** struct.pack(">d", value) *)
Definition pack_double (bits : Z) : bytes := rev (le_bytes 8 bits).
Definition int64_ok (n : Z) : bool := (- 2 ^ 63 <=? n) && (n <? 2 ^ 63).
Definition tag_bytes := ulit "$bytes".
Definition tag_f64 := ulit "$f64".
Definition tag_tensor := ulit "$tensor".
Definition reserved (k : ustr) : bool := ustr_eqb k tag_bytes || ustr_eqb k tag_f64 || ustr_eqb k tag_tensor.
Definition is_str_key (k : key) : bool := match k with KStr _ => true | KOther _ => false end.
Definition key_text (k : key) : ustr := match k with KStr s => s | KOther _ => [] end.
Definition f_dtype := ulit "dtype".
Definition f_shape := ulit "shape".
Definition f_data := ulit "data_le".
Fixpoint all_ok (A : Type) (l : list (res A)) : res (list A) :=
  match l with [] => Ok [] | x :: r => a <- x ;; b <- all_ok r ;; Ok (a :: b) end.
(** {key: ... for key, ... in ...} of computations that may raise, in the order given. *)
Definition all_ok_pairs (A : Type) (l : list (ustr * res A)) : res (list (ustr * A)) :=
  all_ok (map (fun kv => v <- snd kv ;; Ok (fst kv, v)) l).

Fixpoint canonical (v : value) : res json :=
  match v with
  | VNone => Ok JNull
  | VBool b => Ok (JBool b)
  | VStr s => Ok (JStr s)
  | VInt n => guard int64_ok n else ValueError ;; Ok (JInt n)
  | VFloat bits => guard finite bits else ValueError ;; Ok (JObj [(tag_f64, JStr (hex (pack_double bits)))])
  | VBytes b => Ok (JObj [(tag_bytes, JStr (hex b))])
  | VList l | VTuple l => js <- all_ok (map canonical l) ;; Ok (JList js)
  | VDict l =>
      guard forallb is_str_key (map fst l) else TypeError ;;
      guard negb (existsb reserved (map (fun kv => key_text (fst kv)) l)) else ValueError ;;
      js <- all_ok_pairs (sort_by (@key_lt (res json)) (map (fun kv => (key_text (fst kv), canonical (snd kv))) l)) ;;
      Ok (JObj js)
  | VTensor plain t =>
      guard plain else ValueError ;;
      Ok (JObj [(tag_tensor, JObj [(f_dtype, JStr (dtype_name (t_dtype t)));
                                   (f_shape, JList (map JInt (t_shape t)));
                                   (f_data, JStr (hex (t_data t)))])])
  | VOther _ => Err TypeError
  end.

(** ** core.py:763-804 *)
Definition ascii_upper (c : Z) : bool := (65 <=? c) && (c <=? 90).
(** [text.lower() == text]; other alphabets do not matter: bytes.fromhex rejects them
    with the same ValueError. *)
Definition lower_case (s : ustr) : bool := negb (existsb ascii_upper s).
(** bytes.fromhex(text): ASCII whitespace is skipped between bytes. *)
Definition hex_ws (c : Z) : bool := (c =? 32) || ((9 <=? c) && (c <=? 13)).
Fixpoint fromhex (s : ustr) : res bytes :=
  match s with
  | [] => Ok []
  | c :: r =>
    if hex_ws c then fromhex r
    else match r with
         | [] => Err ValueError
         | d :: r' =>
           match hex_value c, hex_value d with
           | Some a, Some b => bs <- fromhex r' ;; Ok (a * 16 + b :: bs)
           | _, _ => Err ValueError
           end
         end
  end.
Fixpoint be_value (b : bytes) : Z :=
  match b with [] => 0 | x :: t => x * 256 ^ zlen t + be_value t end.
(** struct.unpack(">d", b): needs 8 bytes. *)
Definition unpack_double (b : bytes) : res Z := guard zlen b =? 8 else StructError ;; Ok (be_value b).
Definition same_keys (a b : list ustr) : bool :=
  forallb (fun k => existsb (ustr_eqb k) b) a && forallb (fun k => existsb (ustr_eqb k) a) b.
Fixpoint zprod (l : list Z) : Z := match l with [] => 1 | x :: r => x * zprod r end.

Section Decode.
(** Conversions of JSON values that a canonical encoding never contains: int(x) of
    anything but an integer. *)
Variable int_of_other : json -> res Z.
Definition to_int (j : json) : res Z := match j with JInt n => Ok n | JBool b => Ok (if b then 1 else 0) | _ => int_of_other j end.
Definition hex_text (j : json) : res ustr := match j with JStr s => Ok s | _ => Err TypeError end.
(** [for dim in state["shape"]] *)
Definition iter_json (j : json) : res (list json) :=
  match j with
  | JList l => Ok l
  | JStr s => Ok (map (fun c => JStr [c]) s)
  | JObj l => Ok (map (fun kv => JStr (fst kv)) l)
  | _ => Err TypeError
  end.
Definition decode_tensor (state : json) : res value :=
  match state with
  | JObj l =>
      guard same_keys (map fst l) [f_dtype; f_shape; f_data] else ValueError ;;
      dname <- match obj_get l f_dtype with Some x => Ok x | None => Err KeyError end ;;
      d <- match dname with
           | JStr s => match dtype_named s with Some d => Ok d | None => Err ValueError end
           | JList _ | JObj _ => Err TypeError (* unhashable *)
           | _ => Err ValueError
           end ;;
      jshape <- match obj_get l f_shape with Some x => Ok x | None => Err KeyError end ;;
      dims <- iter_json jshape ;;
      shape <- all_ok (map to_int dims) ;;
      guard negb (existsb (fun n => n <? 0) shape) else ValueError ;;
      jdata <- match obj_get l f_data with Some x => Ok x | None => Err KeyError end ;;
      text <- hex_text jdata ;;
      data <- fromhex text ;;
      (* np.frombuffer: the buffer must be a whole number of elements *)
      guard zlen data mod itemsize d =? 0 else ValueError ;;
      guard zlen data / itemsize d =? zprod shape else ValueError ;;
      Ok (VTensor true {| t_dtype := d; t_shape := shape; t_data := data |})
  | _ => Err ValueError
  end.
Fixpoint decode_value (j : json) : res value :=
  match j with
  | JNull => Ok VNone
  | JBool b => Ok (VBool b)
  | JInt n => Ok (VInt n)
  | JFloat b => Ok (VFloat b)
  | JStr s => Ok (VStr s)
  | JList l => vs <- all_ok (map decode_value l) ;; Ok (VTuple vs)
  | JObj l =>
      if same_keys (map fst l) [tag_bytes] then
        match obj_get l tag_bytes with
        | Some (JStr text) =>
            guard (zlen text mod 2 =? 0) && lower_case text else ValueError ;;
            b <- fromhex text ;; Ok (VBytes b)
        | _ => Err ValueError
        end
      else if same_keys (map fst l) [tag_f64] then
        match obj_get l tag_f64 with
        | Some (JStr text) =>
            guard (zlen text =? 16) && lower_case text else ValueError ;;
            b <- fromhex text ;;
            bits <- unpack_double b ;;
            guard finite bits else ValueError ;;
            Ok (VFloat bits)
        | _ => Err ValueError
        end
      else if same_keys (map fst l) [tag_tensor] then
        match obj_get l tag_tensor with
        | Some state => decode_tensor state
        | None => Err ValueError
        end
      else
        guard negb (existsb reserved (map fst l)) else ValueError ;;
        vs <- all_ok_pairs (map (fun kv => (fst kv, decode_value (snd kv))) l) ;;
        Ok (VDict (map (fun kv => (KStr (fst kv), snd kv)) vs))
  end.
End Decode.

(** ** core.py:758-760 and 807-811 *)
Section State.
(** repr of a float, float of a text, and int of anything but an integer: none of them
    ever matters (the theorems hold for every choice). *)
Variable float_text : Z -> ustr.
Variable float_of : ustr -> Z.
Variable int_of_other : json -> res Z.

Definition canonical_pipeline_state_bytes (v : value) : res bytes :=
  j <- canonical v ;; utf8_encode (dumps float_text j).

Fixpoint bytes_eqb (a b : bytes) : bool :=
  match a, b with
  | [], [] => true
  | x :: a', y :: b' => (x =? y) && bytes_eqb a' b'
  | _, _ => false
  end.
Definition decode_canonical_pipeline_state (blob : bytes) : res value :=
  text <- utf8_decode blob ;;
  j <- loads float_of text ;;
  v <- decode_value int_of_other j ;;
  again <- canonical_pipeline_state_bytes v ;;
  guard bytes_eqb again blob else ValueError ;;
  decode_value int_of_other j.
End State.
