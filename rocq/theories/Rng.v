(** Model of the deterministic RNG of dataset/core.py (lines 389-459, 675-697)
    and the SplitMix finaliser used by dataset/shuffle.py and
    dataset/planner_cpp/packed_shuffle.cpp.

    The hash (hashlib.blake2b, digest_size=32, first 8 bytes little endian) is
    the section variable [hash64 : bytes -> Z]; every theorem holds for all
    functions in its place. *)
From Verif Require Import Base.
Set Implicit Arguments.

Definition two64 : Z := 2 ^ 64.
Definition two63 : Z := 2 ^ 63.

(** A byte is a [Z]; ranges are stated where needed. *)
Definition bytes := list Z.

(** struct.pack("<q"/"<I", v): [n] little-endian bytes of [v] modulo 256^n. *)
Fixpoint le_bytes (n : nat) (v : Z) : bytes :=
  match n with
  | O => []
  | S m => v mod 256 :: le_bytes m (v / 256)
  end.

(** RNG key components accepted by core.py:_tlv.  A [str] is represented by its
    UTF-8 bytes (str.encode is injective); tuple and list are not distinguished,
    as in the code. *)
Inductive key :=
| KNone
| KBool (b : bool)
| KInt (z : Z)
| KStr (utf8 : bytes)
| KBytes (b : bytes)
| KTuple (l : list key).

Definition str (s : string) : key :=
  KStr (map (fun c => Z.of_nat (nat_of_ascii c)) (list_ascii_of_string s)).

(** Python [==] on key tuples: structural, except that a bool equals the int 0/1. *)
Fixpoint zlist_eqb (a b : list Z) : bool :=
  match a, b with
  | [], [] => true
  | x :: a', y :: b' => (x =? y) && zlist_eqb a' b'
  | _, _ => false
  end.
Fixpoint key_eqb (a b : key) : bool :=
  match a, b with
  | KNone, KNone => true
  | KBool x, KBool y => Bool.eqb x y
  | KBool x, KInt z => z =? (if x then 1 else 0)
  | KInt z, KBool x => z =? (if x then 1 else 0)
  | KInt x, KInt y => x =? y
  | KStr x, KStr y => zlist_eqb x y
  | KBytes x, KBytes y => zlist_eqb x y
  | KTuple l, KTuple m =>
      (fix go (l m : list key) : bool :=
         match l, m with
         | [], [] => true
         | x :: l', y :: m' => key_eqb x y && go l' m'
         | _, _ => false
         end) l m
  | _, _ => false
  end.

(** struct.pack("<I", len): raises struct.error at 2^32. *)
Definition pack_u32 (n : Z) : res bytes :=
  if (0 <=? n) && (n <? 2 ^ 32) then Ok (le_bytes 4 n) else Err StructError.

(** core.py:389-405 [_tlv]. *)
Fixpoint tlv (k : key) : res bytes :=
  match k with
  | KNone => Ok [0]
  | KBool b => Ok [1; if b then 1 else 0]
  | KInt z =>
      guard (- two63 <=? z) && (z <? two63) else ValueError ;;
      Ok (2 :: le_bytes 8 z)
  | KStr s => n <- pack_u32 (zlen s) ;; Ok (3 :: n ++ s)
  | KBytes s => n <- pack_u32 (zlen s) ;; Ok (4 :: n ++ s)
  | KTuple l =>
      n <- pack_u32 (zlen l) ;;
      body <- (fix go (l : list key) : res bytes :=
                 match l with
                 | [] => Ok []
                 | h :: t => a <- tlv h ;; b <- go t ;; Ok (a ++ b)
                 end) l ;;
      Ok (5 :: n ++ body)
  end.

(** b"".join(_tlv(v) for v in value), core.py:404. *)
Fixpoint tlv_join (l : list key) : res bytes :=
  match l with
  | [] => Ok []
  | h :: t => a <- tlv h ;; b <- tlv_join t ;; Ok (a ++ b)
  end.

Section Hash.
  Variable header : bytes.            (* core.py _RNG_HEADER *)
  Variable hash64 : bytes -> Z.       (* int.from_bytes(blake2b(payload)[:8], "little") *)

  (** core.py:408-416 [rng_digest]/[rng_u64]. *)
  Definition rng_u64 (seed : Z) (domain k : key) (counter : Z) : res Z :=
    guard (0 <=? counter) && (counter <? two63) else ValueError ;;
    payload <- tlv (KTuple [domain; KInt seed; k; KInt counter]) ;;
    Ok (hash64 (header ++ payload)).

  (** core.py:419-433 [_counter_rng_base]: the bytes already fed to the hash. *)
  Definition counter_rng_base (seed : Z) (domain k : key) : res bytes :=
    d <- tlv domain ;; s <- tlv (KInt seed) ;; kk <- tlv k ;;
    Ok (header ++ 5 :: le_bytes 4 4 ++ d ++ s ++ kk ++ [2]).

  (** One iteration of the rejection loop of core.py:436-448.  The loop state is
      the counter; leaving the loop gives (value mod n, next counter) or an exception. *)
  Definition reject_step (n : Z) (raw : Z -> res Z) (counter : Z) : Z + res (Z * Z) :=
    let limit := two64 - (two64 mod n) in
    if negb ((0 <=? counter) && (counter <? two63)) then inr (Err ValueError)
    else match raw counter with
         | Err e => inr (Err e)
         | Ok value =>
             if value <? limit then inr (Ok (value mod n, counter + 1))
             else inl (counter + 1)
         end.

  (** More iterations than there are legal counters; [OutOfFuel] is proved
      unreachable (RngFacts.reject_loop_fuel). *)
  Definition loop_bound : positive := Eval vm_compute in Z.to_pos (2 ^ 63 + 1).

  Definition reject_loop (n : Z) (raw : Z -> res Z) (counter : Z) : res (Z * Z) :=
    match loop_pos loop_bound (reject_step n raw) counter with
    | inr r => r
    | inl _ => Err OutOfFuel
    end.

  Definition bound_ok (n : Z) : bool := (0 <? n) && (n <=? two64).

  (** core.py:436-448 [_uniform_below_from_base]; struct.pack("<q", counter). *)
  Definition uniform_below_from_base (n : Z) (base : bytes) (counter : Z) : res (Z * Z) :=
    guard bound_ok n else ValueError ;;
    reject_loop n (fun c => Ok (hash64 (base ++ le_bytes 8 c))) counter.

  (** core.py:451-459 [uniform_below]; the counter check is inside rng_digest. *)
  Definition uniform_below (n seed : Z) (domain k : key) (counter : Z) : res (Z * Z) :=
    guard bound_ok n else ValueError ;;
    reject_loop n (fun c => rng_u64 seed domain k c) counter.

  (** core.py:680 [values[i], values[j] = values[j], values[i]]. *)
  Definition swap {A} (l : list A) (i j : nat) : res (list A) :=
    x <- py_get l i ;; y <- py_get l j ;;
    l1 <- py_set l i y ;; py_set l1 j x.

  (** core.py:679-681: for i in range(length - 1, 0, -1). *)
  Fixpoint fisher_yates (i : nat) (base : bytes) (values : list nat) (counter : Z)
    : res (list nat) :=
    match i with
    | O => Ok values
    | S i' =>
        '(j, counter') <- uniform_below_from_base (Z.of_nat i + 1) base counter ;;
        values' <- swap values i (Z.to_nat j) ;;
        fisher_yates i' base values' counter'
    end.

  (** core.py:675-682 [deterministic_permutation]. *)
  Definition deterministic_permutation (length : nat) (seed : Z) (domain k : key)
    : res (list nat) :=
    base <- counter_rng_base seed domain k ;;
    fisher_yates (length - 1) base (range length) 0.

  (** core.py:685-692 [sample_is_admitted], for a rational sample rate num/den
      (den > 0).  Simplification: the code divides u64 / 2^64 in binary64 and
      compares with a binary64 rate; here the comparison is exact. *)
  Definition sample_is_admitted (num den seed epoch : Z) (sample_key : key) : res bool :=
    guard (0 <=? num) && (num <=? den) else ValueError ;;
    if num <=? 0 then Ok false
    else if den <=? num then Ok true
    else u <- rng_u64 seed (str "sample") (KTuple [KInt epoch; sample_key]) 0 ;;
         Ok (u * den <? num * two64).
End Hash.

(** SplitMix64 finaliser: shuffle.py:151-153, packed_shuffle.cpp random_slot. *)
Definition splitmix_gamma : Z := 0x9E3779B97F4A7C15.
Definition splitmix_m1 : Z := 0xBF58476D1CE4E5B9.
Definition splitmix_m2 : Z := 0x94D049BB133111EB.
Definition splitmix_finalize (v : Z) : Z :=
  let v1 := (Z.lxor v (Z.shiftr v 30) * splitmix_m1) mod two64 in
  let v2 := (Z.lxor v1 (Z.shiftr v1 27) * splitmix_m2) mod two64 in
  Z.lxor v2 (Z.shiftr v2 31).

(** shuffle.py:147-153: the raw draw number [counter] of a stream. *)
Definition splitmix_raw (rng_base counter : Z) : Z :=
  splitmix_finalize ((rng_base + counter * splitmix_gamma) mod two64).
