(** dataset/core.py 1487-1528: what PipelineStateComposer._field_value_digest feeds to
    SHA-256 for a batch field. *)
From Verif Require Import Base Rng Checkpoint Json StateCodec.
Set Implicit Arguments. Unset Strict Implicit.

(** The value of a batch field.  Arrays and tensors have one of the 13 dtypes of
    [StateCodec.dtype] (complex, string, datetime and structured arrays are not modelled;
    numpy has no bfloat16, torch has); their contents are in C order.  Dictionaries are
    modelled with string keys only (in insertion order).  [FOther]: any other object, by
    its type's qualified name and its repr, both already encoded. *)
Inductive fv :=
| FTensor (d : dtype) (shape : list Z) (data : bytes)
| FArray (d : dtype) (shape : list Z) (data : bytes)
| FObjects (shape : list Z) (items : list fv) (* an array with dtype object *)
| FList (l : list fv)
| FTuple (l : list fv)
| FDict (l : list (ustr * fv))
| FNone
| FBool (b : bool)
| FInt (n : Z)
| FFloat (bits : Z)
| FStr (s : ustr)
| FBytes (b : bytes)
| FOther (qualname text : bytes).

(** ** repr *)
Fixpoint hexn (k : nat) (c : Z) : bytes :=
  match k with 0%nat => [] | S k' => hexn k' (c / 16) ++ [hex_digit (c mod 16)] end.
(** repr(str) and repr(bytes) use double quotes only if the text has a single quote and no
    double quote. *)
Definition quote_of (s : ustr) : Z :=
  if existsb (Z.eqb 39) s && negb (existsb (Z.eqb 34) s) then 34 else 39.
Section Repr.
(** str.isprintable of a code point above 127; the code points the interpreter prints as
    they are. *)
Variable printable : Z -> bool.
(** float.__repr__ *)
Variable float_text : Z -> ustr.

(** One character of repr(text), encoded in UTF-8. *)
Definition repr_char (shown : Z -> bool) (q c : Z) : bytes :=
  if (c =? q) || (c =? 92) then [92; c]
  else if c =? 9 then [92; 116] else if c =? 10 then [92; 110] else if c =? 13 then [92; 114]
  else if (c <? 32) || (c =? 127) then 92 :: 120 :: hexn 2 c
  else if c <? 127 then [c]
  else if shown c then utf8_char c
  else if c <? 256 then 92 :: 120 :: hexn 2 c
  else if c <? 65536 then 92 :: 117 :: hexn 4 c
  else 92 :: 85 :: hexn 8 c.
Definition repr_text (shown : Z -> bool) (s : ustr) : bytes :=
  quote_of s :: flat_map (repr_char shown (quote_of s)) s ++ [quote_of s].
Definition repr_str (s : ustr) : bytes := repr_text printable s.
Definition repr_bytes (b : bytes) : bytes := 98 :: repr_text (fun _ => false) b.
(** repr of a tuple of integers *)
Definition repr_shape (shape : list Z) : bytes :=
  match shape with
  | [] => [40; 41]
  | [n] => 40 :: int_text n ++ [44; 41]
  | n :: r => 40 :: int_text n ++ flat_map (fun m => 44 :: 32 :: int_text m) r ++ [41]
  end.

(** ** core.py:1491-1525, [update]: the bytes passed to digest.update, concatenated. *)
Definition tagged (name : string) (payload : bytes) : bytes := ulit name ++ 0 :: payload.
Fixpoint feed (v : fv) : res bytes :=
  match v with
  | FTensor d shape data =>
      (* Tensor.numpy() raises TypeError for bfloat16 *)
      guard match d with BFloat16 => false | _ => true end else TypeError ;;
      Ok (tagged "tensor" (dtype_name d ++ repr_shape shape ++ data))
  | FArray d shape data => Ok (tagged "array" (dtype_name d ++ repr_shape shape ++ data))
  | FObjects shape items =>
      bs <- all_ok (map feed items) ;;
      Ok (tagged "array" (ulit "object" ++ repr_shape shape ++ List.concat bs))
  | FList l =>
      bs <- all_ok (map feed l) ;; Ok (tagged "list" (le_bytes 8 (zlen l) ++ List.concat bs))
  | FTuple l =>
      bs <- all_ok (map feed l) ;; Ok (tagged "tuple" (le_bytes 8 (zlen l) ++ List.concat bs))
  | FDict l =>
      bs <- all_ok_pairs (sort_by (@key_lt (res bytes)) (map (fun kv => (fst kv, feed (snd kv))) l)) ;;
      Ok (tagged "dict" (List.concat (map (fun kb => tagged "str" (repr_str (fst kb)) ++ snd kb) bs)))
  | FNone => Ok (tagged "NoneType" (ulit "None"))
  | FBool b => Ok (tagged "bool" (ulit (if b then "True" else "False")))
  | FInt n => Ok (tagged "int" (int_text n))
  | FFloat bits => Ok (tagged "float" (float_text bits))
  | FStr s => Ok (tagged "str" (repr_str s))
  | FBytes b => Ok (tagged "bytes" (repr_bytes b))
  | FOther q t => Ok (q ++ 0 :: t)
  end.
End Repr.

(** digest.digest() *)
Definition field_value_digest (printable : Z -> bool) (float_text : Z -> ustr) (sha256 : bytes -> bytes)
    (v : fv) : res bytes :=
  b <- feed printable float_text v ;; Ok (sha256 b).
