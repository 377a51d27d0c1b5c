(** Model of dataset/shuffle.py: StreamingShuffleReservoir (lines 48-366). *)
From Verif Require Import Base Rng.
Set Implicit Arguments.

(** shuffle.py:12 *)
Definition RESERVOIR_ALGORITHM : string := "streaming-shuffle-reservoir-v2".

(** Immutable configuration of one reservoir (shuffle.py:89-93,97-101);
    [cf_rng_base] is the cached [rng_u64] value. *)
Record rconfig := {
  cf_capacity : Z;
  cf_max_bytes : option Z;
  cf_seed : Z;
  cf_epoch : Z;
  cf_stream_key : list key;
  cf_rng_base : Z
}.

Section Item.
  Variable A : Type.

  (** The mutable fields of the object (shuffle.py:94-107), except the cache. *)
  Record rsv := {
    slots : list A;
    slot_sizes : list Z;
    resident_bytes : Z;
    rng_counter : Z;
    offered : Z;
    emitted : Z;
    peak_occupancy : Z;
    peak_resident_bytes : Z;
    closed : bool
  }.

  (** shuffle.py:30-45 ReservoirState. *)
  Record rstate := {
    st_algorithm : string;
    st_seed : Z;
    st_epoch : Z;
    st_stream_key : list key;
    st_capacity : Z;
    st_max_bytes : option Z;
    st_slots : list A;
    st_slot_sizes : list Z;
    st_resident_bytes : Z;
    st_rng_counter : Z;
    st_offered : Z;
    st_emitted : Z;
    st_peak_occupancy : Z;
    st_peak_resident_bytes : Z;
    st_closed : bool
  }.

  (** The whole object: fields plus [_state_cache]. *)
  Record reservoir := { core : rsv; cache : option rstate }.

  Definition rsv_init : rsv :=
    {| slots := []; slot_sizes := []; resident_bytes := 0; rng_counter := 0;
       offered := 0; emitted := 0; peak_occupancy := 0; peak_resident_bytes := 0;
       closed := false |}.

  Definition reservoir_init : reservoir := {| core := rsv_init; cache := None |}.

  (** shuffle.py:70-107 [__init__]: argument checks and the RNG base. *)
  Definition reservoir_config (header : bytes) (hash64 : bytes -> Z)
      (capacity : Z) (max_bytes : option Z) (seed epoch : Z) (stream_key : list key)
    : res rconfig :=
    guard 0 <? capacity else ValueError ;;
    guard (match max_bytes with None => true | Some m => 0 <? m end) else ValueError ;;
    guard 0 <=? epoch else ValueError ;;
    base <- rng_u64 header hash64 seed (str "shuffle_reservoir")
              (KTuple [str RESERVOIR_ALGORITHM; KInt epoch; KTuple stream_key]) 0 ;;
    Ok {| cf_capacity := capacity; cf_max_bytes := max_bytes; cf_seed := seed;
          cf_epoch := epoch; cf_stream_key := stream_key; cf_rng_base := base |}.

  Variable cf : rconfig.

  (** shuffle.py:133-136 [_fits]. *)
  Definition fits (r : rsv) (size : Z) : bool :=
    match cf_max_bytes cf with
    | None => true
    | Some m => resident_bytes r + size <=? m
    end.

  (** shuffle.py:138-155 [_random_slot]; returns the slot and the new counter. *)
  Definition random_slot (rng_base counter upper : Z) : res (Z * Z) :=
    reject_loop upper (fun c => Ok (splitmix_raw rng_base c)) counter.

  (** shuffle.py:157-167 [_evict_slot] (the RNG counter was advanced before). *)
  Definition evict_slot (r : rsv) (counter' : Z) (index : nat) : res (rsv * A) :=
    item <- py_get (slots r) index ;;
    size <- py_get (slot_sizes r) index ;;
    '(slots1, last_item) <- py_pop (slots r) ;;
    '(sizes1, last_size) <- py_pop (slot_sizes r) ;;
    '(slots2, sizes2) <-
       (if (index <? List.length slots1)%nat then
          s <- py_set slots1 index last_item ;;
          z <- py_set sizes1 index last_size ;; Ok (s, z)
        else Ok (slots1, sizes1)) ;;
    Ok ({| slots := slots2; slot_sizes := sizes2;
           resident_bytes := resident_bytes r - size;
           rng_counter := counter'; offered := offered r; emitted := emitted r + 1;
           peak_occupancy := peak_occupancy r;
           peak_resident_bytes := peak_resident_bytes r; closed := closed r |}, item).

  (** self._evict_slot(self._random_slot()) *)
  Definition evict_random (r : rsv) : res (rsv * A) :=
    '(i, c) <- random_slot (cf_rng_base cf) (rng_counter r) (zlen (slots r)) ;;
    evict_slot r c (Z.to_nat i).

  (** shuffle.py:183-186, 224-227: the eviction [while] loop.  Every iteration
      removes one slot, so [length slots + 1] rounds suffice (proved). *)
  Fixpoint evict_loop (fuel : nat) (r : rsv) (size : Z) : res (rsv * list A) :=
    match fuel with
    | O => Err OutOfFuel
    | S n =>
        if (match slots r with [] => false | _ => true end)
           && ((cf_capacity cf <=? zlen (slots r)) || negb (fits r size)) then
          '(r1, x) <- evict_random r ;;
          '(r2, xs) <- evict_loop n r1 size ;;
          Ok (r2, x :: xs)
        else Ok (r, [])
    end.

  (** shuffle.py:188-195: append the item and update counters and peaks. *)
  Definition admit (r : rsv) (item : A) (size : Z) : rsv :=
    {| slots := slots r ++ [item]; slot_sizes := slot_sizes r ++ [size];
       resident_bytes := resident_bytes r + size; rng_counter := rng_counter r;
       offered := offered r + 1; emitted := emitted r;
       peak_occupancy := Z.max (peak_occupancy r) (zlen (slots r ++ [item]));
       peak_resident_bytes := Z.max (peak_resident_bytes r) (resident_bytes r + size);
       closed := closed r |}.

  (** Size validation, shuffle.py:173-179 and 208-215. *)
  Definition size_ok (size : Z) : bool :=
    (0 <=? size) && match cf_max_bytes cf with None => true | Some m => size <=? m end.

  (** shuffle.py:169-196 [offer]. *)
  Definition offer_core (r : rsv) (item : A) (size : Z) : res (rsv * list A) :=
    guard negb (closed r) else RuntimeError ;;
    guard size_ok size else ValueError ;;
    '(r1, out) <- evict_loop (S (List.length (slots r))) r size ;;
    Ok (admit r1 item size, out).

  (** shuffle.py:222-237: the loop of [offer_many].  The peaks are kept in local
      variables there and written back at the end; here they are updated in
      place, which no code in the loop can observe. *)
  Fixpoint offer_many_loop (r : rsv) (items : list (A * Z)) : res (rsv * list A) :=
    match items with
    | [] => Ok (r, [])
    | (item, size) :: rest =>
        '(r1, out1) <- evict_loop (S (List.length (slots r))) r size ;;
        '(r2, out2) <- offer_many_loop (admit r1 item size) rest ;;
        Ok (r2, out1 ++ out2)
    end.

  (** shuffle.py:198-240 [offer_many]. *)
  Definition offer_many_core (r : rsv) (items : list (A * Z)) : res (rsv * list A) :=
    guard negb (closed r) else RuntimeError ;;
    guard forallb (fun it => size_ok (snd it)) items else ValueError ;;
    offer_many_loop r items.

  (** shuffle.py:254-259: the loop of [offer_zero_sized]; only slots and sizes
      (and, inside the eviction, counters) change in the loop. *)
  Definition push_zero (r : rsv) (item : A) : rsv :=
    {| slots := slots r ++ [item]; slot_sizes := slot_sizes r ++ [0];
       resident_bytes := resident_bytes r; rng_counter := rng_counter r;
       offered := offered r; emitted := emitted r;
       peak_occupancy := peak_occupancy r;
       peak_resident_bytes := peak_resident_bytes r; closed := closed r |}.

  Fixpoint offer_zero_loop (r : rsv) (items : list A) : res (rsv * list A) :=
    match items with
    | [] => Ok (r, [])
    | item :: rest =>
        '(r1, out1) <-
          (if cf_capacity cf <=? zlen (slots r) then
             '(r1, x) <- evict_random r ;; Ok (r1, [x])
           else Ok (r, [])) ;;
        '(r2, out2) <- offer_zero_loop (push_zero r1 item) rest ;;
        Ok (r2, out1 ++ out2)
    end.

  (** shuffle.py:242-262 [offer_zero_sized]. *)
  Definition offer_zero_core (r : rsv) (items : list A) : res (rsv * list A) :=
    guard negb (closed r) else RuntimeError ;;
    match items with
    | [] => Ok (r, [])
    | _ =>
        '(r1, out) <- offer_zero_loop r items ;;
        Ok ({| slots := slots r1; slot_sizes := slot_sizes r1;
               resident_bytes := resident_bytes r1; rng_counter := rng_counter r1;
               offered := offered r1 + zlen items; emitted := emitted r1;
               peak_occupancy := Z.max (peak_occupancy r1) (zlen (slots r1));
               peak_resident_bytes := peak_resident_bytes r1; closed := closed r1 |}, out)
    end.

  (** shuffle.py:264-287 [drain]. *)
  Definition drain_core (header : bytes) (hash64 : bytes -> Z) (r : rsv) : res (rsv * list A) :=
    if closed r then Ok (r, [])
    else
      order <- deterministic_permutation header hash64 (List.length (slots r)) (cf_seed cf)
                 (str "shuffle_reservoir_drain")
                 (KTuple [str RESERVOIR_ALGORITHM; KInt (cf_epoch cf);
                          KTuple (cf_stream_key cf); KInt (offered r); KInt (rng_counter r)]) ;;
      out <- mapM (py_get (slots r)) order ;;
      Ok ({| slots := []; slot_sizes := []; resident_bytes := 0;
             rng_counter := rng_counter r; offered := offered r;
             emitted := emitted r + zlen out;
             peak_occupancy := peak_occupancy r;
             peak_resident_bytes := peak_resident_bytes r; closed := true |}, out).

  (** shuffle.py:289-309: the fresh ReservoirState. *)
  Definition snapshot (r : rsv) : rstate :=
    {| st_algorithm := RESERVOIR_ALGORITHM; st_seed := cf_seed cf; st_epoch := cf_epoch cf;
       st_stream_key := cf_stream_key cf; st_capacity := cf_capacity cf;
       st_max_bytes := cf_max_bytes cf; st_slots := slots r; st_slot_sizes := slot_sizes r;
       st_resident_bytes := resident_bytes r; st_rng_counter := rng_counter r;
       st_offered := offered r; st_emitted := emitted r;
       st_peak_occupancy := peak_occupancy r;
       st_peak_resident_bytes := peak_resident_bytes r; st_closed := closed r |}.

  (** The public operations with the cache discipline of the code:
      shuffle.py:181, 217-218, 250, 268 invalidate, 290 fills. *)
  Definition offer (o : reservoir) (item : A) (size : Z) : res (reservoir * list A) :=
    '(r, out) <- offer_core (core o) item size ;;
    Ok ({| core := r; cache := None |}, out).
  Definition offer_many (o : reservoir) (items : list (A * Z)) : res (reservoir * list A) :=
    '(r, out) <- offer_many_core (core o) items ;;
    Ok ({| core := r; cache := match items with [] => cache o | _ => None end |}, out).
  Definition offer_zero_sized (o : reservoir) (items : list A) : res (reservoir * list A) :=
    '(r, out) <- offer_zero_core (core o) items ;;
    Ok ({| core := r; cache := match items with [] => cache o | _ => None end |}, out).
  Definition drain (header : bytes) (hash64 : bytes -> Z) (o : reservoir)
    : res (reservoir * list A) :=
    '(r, out) <- drain_core header hash64 (core o) ;;
    Ok ({| core := r; cache := if closed (core o) then cache o else None |}, out).
  Definition state (o : reservoir) : reservoir * rstate :=
    match cache o with
    | Some s => (o, s)
    | None => ({| core := core o; cache := Some (snapshot (core o)) |}, snapshot (core o))
    end.

  (** shuffle.py:311-366 [restore]. *)
  Definition restore (s : rstate) : res reservoir :=
    guard (String.eqb (st_algorithm s) RESERVOIR_ALGORITHM) else ValueError ;;
    guard (st_seed s =? cf_seed cf) && (st_epoch s =? cf_epoch cf)
          && key_eqb (KTuple (st_stream_key s)) (KTuple (cf_stream_key cf))
          && (st_capacity s =? cf_capacity cf)
          && (match st_max_bytes s, cf_max_bytes cf with
              | None, None => true
              | Some a, Some b => a =? b
              | _, _ => false
              end) else ValueError ;;
    guard (List.length (st_slots s) =? List.length (st_slot_sizes s))%nat else ValueError ;;
    guard (zlen (st_slots s) <=? cf_capacity cf) else ValueError ;;
    guard forallb (fun z => 0 <=? z) (st_slot_sizes s) else ValueError ;;
    guard (zsum (st_slot_sizes s) =? st_resident_bytes s) else ValueError ;;
    guard (0 <=? st_resident_bytes s) && (0 <=? st_rng_counter s) && (0 <=? st_offered s)
          && (0 <=? st_emitted s) && (0 <=? st_peak_occupancy s)
          && (0 <=? st_peak_resident_bytes s) else ValueError ;;
    guard (match cf_max_bytes cf with None => true | Some m => st_resident_bytes s <=? m end)
          else ValueError ;;
    guard (st_offered s =? st_emitted s + zlen (st_slots s)) else ValueError ;;
    guard negb (st_closed s && match st_slots s with [] => false | _ => true end)
          else ValueError ;;
    guard (0 <=? st_rng_counter s) && (st_rng_counter s <? two63) else ValueError ;;
    guard (zlen (st_slots s) <=? st_peak_occupancy s) else ValueError ;;
    guard (st_peak_occupancy s <=? cf_capacity cf) else ValueError ;;
    guard (st_resident_bytes s <=? st_peak_resident_bytes s) else ValueError ;;
    Ok {| core := {| slots := st_slots s; slot_sizes := st_slot_sizes s;
                     resident_bytes := st_resident_bytes s;
                     rng_counter := st_rng_counter s; offered := st_offered s;
                     emitted := st_emitted s; peak_occupancy := st_peak_occupancy s;
                     peak_resident_bytes := st_peak_resident_bytes s;
                     closed := st_closed s |};
          cache := Some s |}.

  (** A client history: any sequence of public calls. *)
  Inductive rop :=
  | Offer (item : A) (size : Z)
  | OfferMany (items : list (A * Z))
  | OfferZero (items : list A)
  | Drain
  | ReadState.

  Definition apply_op header hash64 (o : reservoir) (p : rop) : res (reservoir * list A) :=
    match p with
    | Offer x z => offer o x z
    | OfferMany xs => offer_many o xs
    | OfferZero xs => offer_zero_sized o xs
    | Drain => drain header hash64 o
    | ReadState => Ok (fst (state o), [])
    end.

  Fixpoint run header hash64 (o : reservoir) (ops : list rop) : res (reservoir * list A) :=
    match ops with
    | [] => Ok (o, [])
    | p :: rest =>
        '(o1, out1) <- apply_op header hash64 o p ;;
        '(o2, out2) <- run header hash64 o1 rest ;;
        Ok (o2, out1 ++ out2)
    end.

  (** ** Client view of a history (specification vocabulary) *)
  (** The items a call hands over, in order. *)
  Definition items_of (p : rop) : list A :=
    match p with
    | Offer x _ => [x]
    | OfferMany xs => map fst xs
    | OfferZero xs => xs
    | Drain => []
    | ReadState => []
    end.

  (** The same with their sizes. *)
  Definition sized_items (p : rop) : list (A * Z) :=
    match p with
    | Offer x z => [(x, z)]
    | OfferMany xs => xs
    | OfferZero xs => map (fun x => (x, 0)) xs
    | Drain => []
    | ReadState => []
    end.
  Definition is_drain (p : rop) : bool := match p with Drain => true | _ => false end.

End Item.
Arguments items_of {A} p.
Arguments sized_items {A} p.
Arguments is_drain {A} p.
