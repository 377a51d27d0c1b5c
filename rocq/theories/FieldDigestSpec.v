(** Specification vocabulary for field digests (C45): kinds of field values, and what is
    assumed of float.__repr__. *)
From Verif Require Import Base Rng Checkpoint Json JsonFacts StateCodec StateCodecSpec FieldDigest.
Set Implicit Arguments. Unset Strict Implicit.

(** Values without dictionaries (and without other objects or NaN), as Python guarantees
    them: an array has as many elements as its shape says, and so on. *)
Definition is_nan (bits : Z) : bool := negb (finite bits) && negb (bits mod 2 ^ 52 =? 0).
Inductive dict_free : fv -> Prop :=
| df_tensor d shape data : Forall (fun n => 0 <= n) shape ->
    zlen data = zprod shape * itemsize d -> dict_free (FTensor d shape data)
| df_array d shape data : Forall (fun n => 0 <= n) shape ->
    zlen data = zprod shape * itemsize d -> dict_free (FArray d shape data)
| df_objects shape items : Forall (fun n => 0 <= n) shape -> zlen items = zprod shape ->
    Forall dict_free items -> dict_free (FObjects shape items)
| df_list l : zlen l < 2 ^ 64 -> Forall dict_free l -> dict_free (FList l)
| df_tuple l : zlen l < 2 ^ 64 -> Forall dict_free l -> dict_free (FTuple l)
| df_none : dict_free FNone
| df_bool b : dict_free (FBool b)
| df_int n : dict_free (FInt n)
| df_float bits : 0 <= bits < 2 ^ 64 -> is_nan bits = false -> dict_free (FFloat bits)
| df_str s : Forall (fun c => 0 <= c <= 1114111) s -> dict_free (FStr s)
| df_bytes b : Forall is_byte b -> dict_free (FBytes b).

(** The same with dictionaries and NaN: everything but objects of other types. *)
Inductive known : fv -> Prop :=
| kn_tensor d shape data : Forall (fun n => 0 <= n) shape ->
    zlen data = zprod shape * itemsize d -> known (FTensor d shape data)
| kn_array d shape data : Forall (fun n => 0 <= n) shape ->
    zlen data = zprod shape * itemsize d -> known (FArray d shape data)
| kn_objects shape items : Forall (fun n => 0 <= n) shape -> zlen items = zprod shape ->
    Forall known items -> known (FObjects shape items)
| kn_list l : zlen l < 2 ^ 64 -> Forall known l -> known (FList l)
| kn_tuple l : zlen l < 2 ^ 64 -> Forall known l -> known (FTuple l)
| kn_dict l : known (FDict l)
| kn_none : known FNone
| kn_bool b : known (FBool b)
| kn_int n : known (FInt n)
| kn_float bits : 0 <= bits < 2 ^ 64 -> known (FFloat bits)
| kn_str s : Forall (fun c => 0 <= c <= 1114111) s -> known (FStr s)
| kn_bytes b : Forall is_byte b -> known (FBytes b).

(** What float.__repr__ guarantees: different numbers have different texts, made of
    digits, sign, point and exponent (or inf). *)
Definition numeric_char (c : Z) : bool := digit c || existsb (Z.eqb c) [43; 45; 46; 101].
Record float_repr_law (float_text : Z -> ustr) : Prop := {
  fr_text : forall b, 0 <= b < 2 ^ 64 -> is_nan b = false ->
    float_text b = ulit "inf" \/ float_text b = ulit "-inf" \/
    (forallb numeric_char (float_text b) = true /\ existsb digit (float_text b) = true);
  fr_nan : forall b, 0 <= b < 2 ^ 64 -> is_nan b = true -> float_text b = ulit "nan";
  fr_inj : forall a b, 0 <= a < 2 ^ 64 -> 0 <= b < 2 ^ 64 -> is_nan a = false -> is_nan b = false ->
    float_text a = float_text b -> a = b }.

