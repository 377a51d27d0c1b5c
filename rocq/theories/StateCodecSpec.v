(** Specification vocabulary for C30: which values can be encoded, and when two values
    are the same state. *)
From Verif Require Import Base Rng Json StateCodec.
Set Implicit Arguments. Unset Strict Implicit.

(** A Unicode scalar value: a code point that is not a surrogate. *)
Definition scalar_value (c : Z) : Prop := 0 <= c < 55296 \/ 57344 <= c <= 1114111.
Definition is_byte (b : Z) : Prop := 0 <= b < 256.

(** What Python guarantees about any value: bytes are bytes, dictionaries have distinct
    keys, a tensor has as many elements as its shape says. *)
Inductive wf : value -> Prop :=
| wf_none : wf VNone
| wf_bool b : wf (VBool b)
| wf_int n : wf (VInt n)
| wf_float bits : 0 <= bits < 2 ^ 64 -> wf (VFloat bits)
| wf_bytes b : Forall is_byte b -> wf (VBytes b)
| wf_str s : wf (VStr s)
| wf_list l : Forall wf l -> wf (VList l)
| wf_tuple l : Forall wf l -> wf (VTuple l)
| wf_dict l : NoDup (map fst l) -> Forall (fun kv => wf (snd kv)) l -> wf (VDict l)
| wf_tensor p t : Forall (fun n => 0 <= n) (t_shape t) -> Forall is_byte (t_data t) ->
    zlen (t_data t) = zprod (t_shape t) * itemsize (t_dtype t) -> wf (VTensor p t)
| wf_other n : wf (VOther n).

(** The values a state may be made of. *)
Inductive supported : value -> Prop :=
| su_none : supported VNone
| su_bool b : supported (VBool b)
| su_int n : - 2 ^ 63 <= n < 2 ^ 63 -> supported (VInt n)
| su_float bits : finite bits = true -> supported (VFloat bits)
| su_bytes b : supported (VBytes b)
| su_str s : Forall scalar_value s -> supported (VStr s)
| su_list l : Forall supported l -> supported (VList l)
| su_tuple l : Forall supported l -> supported (VTuple l)
| su_dict l :
    Forall (fun kv => exists s, fst kv = KStr s /\ Forall scalar_value s /\
                                ~ In s [ulit "$bytes"; ulit "$f64"; ulit "$tensor"]) l ->
    Forall (fun kv => supported (snd kv)) l -> supported (VDict l)
| su_tensor t : supported (VTensor true t).

(** The same state: lists and tuples are not told apart, and neither is the order in
    which dictionary entries were inserted; a tensor is its dtype, shape and contents. *)
Inductive same : value -> value -> Prop :=
| sa_none : same VNone VNone
| sa_bool b : same (VBool b) (VBool b)
| sa_int n : same (VInt n) (VInt n)
| sa_float bits : same (VFloat bits) (VFloat bits)
| sa_bytes b : same (VBytes b) (VBytes b)
| sa_str s : same (VStr s) (VStr s)
| sa_ll l m : Forall2 same l m -> same (VList l) (VList m)
| sa_lt l m : Forall2 same l m -> same (VList l) (VTuple m)
| sa_tl l m : Forall2 same l m -> same (VTuple l) (VList m)
| sa_tt l m : Forall2 same l m -> same (VTuple l) (VTuple m)
| sa_dict l m m' : Permutation m m' -> Forall2 (fun x y => fst x = fst y /\ same (snd x) (snd y)) l m' ->
    same (VDict l) (VDict m)
| sa_tensor p q t : same (VTensor p t) (VTensor q t)
| sa_other n : same (VOther n) (VOther n).

(** No lists left. *)
Inductive tuples_only : value -> Prop :=
| tu_none : tuples_only VNone
| tu_bool b : tuples_only (VBool b)
| tu_int n : tuples_only (VInt n)
| tu_float bits : tuples_only (VFloat bits)
| tu_bytes b : tuples_only (VBytes b)
| tu_str s : tuples_only (VStr s)
| tu_tuple l : Forall tuples_only l -> tuples_only (VTuple l)
| tu_dict l : Forall (fun kv => tuples_only (snd kv)) l -> tuples_only (VDict l)
| tu_tensor p t : tuples_only (VTensor p t).
