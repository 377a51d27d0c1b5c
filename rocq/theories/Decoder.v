(** Model of the decoding paths of dataset/decoder.py ProcessedNpzDecoder
    (decode_one 452-508, _post_process_vectorized 510-619, decode_batch 621-633,
    decode_packed_batch 635-715, decode_batches 717-750, _decode_grouped_batch 752-790,
    _decode_loaded_batch 792-905) and of the per-row symmetry generators of
    dataset/core.py:462-672 they call.
    A numpy array whose first axis is the sample axis is the list of its rows; rows
    carry their own shape, and [rectangular] (DecoderSpec) says that the rows of one
    array have one shape.  Memory obtained from np.empty holds arbitrary values: the
    section variables junk_*; every theorem quantifies over them.
    Simplifications: dtypes and the elementwise astype casts are not modelled; a path is
    a number and os.path.abspath the identity; [load] is _load (lines 346-369) as a
    function of the path: that its cache makes it one is C44 (NpzCache.v). *)
From Verif Require Import Base Rng Symmetry Checkpoint.
Set Implicit Arguments.
Unset Strict Implicit.

(** ** numpy primitives *)

(** np.flatnonzero(mask). *)
Definition flatnonzero (mask : list bool) : list nat :=
  map fst (filter snd (combine (seq 0 (List.length mask)) mask)).
(** a[positions] for in-range positions. *)
Definition take A (a : list A) (positions : list nat) : res (list A) := mapM (py_get a) positions.
(** a[positions] = values: one row per position, or one row for all of them. *)
Fixpoint put_rows A (a : list A) (positions : list nat) (values : list A) : res (list A) :=
  match positions, values with
  | p :: ps, v :: vs => a1 <- py_set a p v ;; put_rows a1 ps vs
  | _, _ => Ok a
  end.
Definition put A (a : list A) (positions : list nat) (values : list A) : res (list A) :=
  if (List.length values =? List.length positions)%nat then put_rows a positions values
  else match values with
       | [v] => put_rows a positions (repeat v (List.length positions))
       | _ => Err ValueError
       end.
(** np.empty(n): whatever the memory holds. *)
Definition np_empty A (junk : nat -> A) (n : nat) : list A := map junk (seq 0 n).
(** a[start:stop] with Python's clipping. *)
Definition py_slice A (a : list A) (start stop : Z) : list A :=
  let n := zlen a in
  let clip i := Z.min n (Z.max 0 (if i <? 0 then i + n else i)) in
  firstn (Z.to_nat (clip stop) - Z.to_nat (clip start)) (skipn (Z.to_nat (clip start)) a).
(** np.unique of integers. *)
Fixpoint dedup A (eqb : A -> A -> bool) (l : list A) : list A :=
  match l with
  | [] => []
  | a :: r => a :: filter (fun b => negb (eqb a b)) (dedup eqb r)
  end.
Definition np_unique (l : list nat) : list nat := sort_by Nat.ltb (dedup Nat.eqb l).

(** ** core.py:462-672 *)

(** (namespace, content_digest, kind, address). *)
Record sample_key := { sk_ns : bytes; sk_digest : bytes; sk_kind : bytes; sk_address : list Z }.
Definition key_of (k : sample_key) : key :=
  KTuple [KStr (sk_ns k); KBytes (sk_digest k); KStr (sk_kind k); KTuple (map KInt (sk_address k))].

Definition base_key := (bytes * bytes * bytes * Z)%type.
Definition base_key_of (k : sample_key) : base_key := (sk_ns k, sk_digest k, sk_kind k, zlen (sk_address k)).
Definition base_key_eqb (a b : base_key) : bool :=
  let '(a1, a2, a3, a4) := a in let '(b1, b2, b3, b4) := b in
  zlist_eqb a1 b1 && zlist_eqb a2 b2 && zlist_eqb a3 b3 && (a4 =? b4).
Definition address_ok (k : sample_key) : bool := (zlen (sk_address k) =? 1) || (zlen (sk_address k) =? 2).

(** struct.pack("<q", v). *)
Definition pack_s64 (v : Z) : res bytes :=
  if (- two63 <=? v) && (v <? two63) then Ok (le_bytes 8 v) else Err StructError.

Definition ascii_bytes (s : string) : bytes := map (fun c => Z.of_nat (nat_of_ascii c)) (list_ascii_of_string s).
Definition bytes_root : bytes := ascii_bytes "root".
Definition bytes_npz_row : bytes := ascii_bytes "npz-row".
Definition splitmix_suffix : bytes := ascii_bytes "_processed_splitmix_v1".
Definition cycle_gamma : Z := 0xD1B54A32D192ED03.
Definition is_pow2_bound (n : Z) : bool := Z.land n (n - 1) =? 0.

(** np.asarray(values, dtype=np.uint64) of Python ints. *)
Definition as_u64 (l : list Z) : res (list Z) :=
  mapM (fun v => guard (0 <=? v) && (v <? two64) else OverflowError ;; Ok v) l.

Section Rng.
  Variable header : bytes.
  Variable hash64 : bytes -> Z.
  Variable junk_index : nat -> Z.

  (** lines 489-513: the prefix of one file and kind. *)
  Definition processed_base (prefix : bytes) (k : sample_key) : res bytes :=
    ns <- pack_u32 (zlen (sk_ns k)) ;;
    dg <- pack_u32 (zlen (sk_digest k)) ;;
    kd <- pack_u32 (zlen (sk_kind k)) ;;
    ad <- pack_u32 (zlen (sk_address k)) ;;
    Ok (prefix ++ 5 :: le_bytes 4 4 ++ 3 :: ns ++ sk_ns k ++ 4 :: dg ++ sk_digest k
               ++ 3 :: kd ++ sk_kind k ++ 5 :: ad).

  (** lines 517-543: _THREE_RNG_INTS / _FOUR_RNG_INTS, "<BqBqBq(Bq)". *)
  Fixpoint pack_ints (l : list Z) : res bytes :=
    match l with
    | [] => Ok []
    | v :: r => a <- pack_s64 v ;; b <- pack_ints r ;; Ok (2 :: a ++ b)
    end.

  (** lines 488-551, with previous_base_key and base as loop state. *)
  Fixpoint processed_loop (n : Z) (prefix : bytes) (occurrence : Z) (cache : option (base_key * bytes))
                          (keys : list sample_key) : res (list Z) :=
    match keys with
    | [] => Ok []
    | k :: rest =>
        guard address_ok k else ValueError ;;
        base <- match cache with
                | Some (bk, b) => if base_key_eqb (base_key_of k) bk then Ok b else processed_base prefix k
                | None => processed_base prefix k
                end ;;
        '(v, _) <- reject_loop n (fun counter =>
                      ints <- pack_ints (sk_address k ++ [occurrence; counter]) ;;
                      Ok (hash64 (base ++ ints))) 0 ;;
        vs <- processed_loop n prefix occurrence (Some (base_key_of k, base)) rest ;;
        Ok (v :: vs)
    end.

  (** lines 462-553 _uniform_below_for_processed_sample_keys.  Simplification: the
      rejection loop is [reject_loop] of Rng.v, which at counter 2^63 raises
      ValueError where struct raises struct.error. *)
  Definition processed_sample_keys (n seed : Z) (domain : bytes) (epoch : Z) (keys : list sample_key)
                                   (occurrence : Z) : res (list Z) :=
    guard bound_ok n else ValueError ;;
    d <- tlv (KStr domain) ;; s <- tlv (KInt seed) ;; e <- tlv (KInt epoch) ;;
    let prefix := header ++ 5 :: le_bytes 4 4 ++ d ++ s ++ 5 :: le_bytes 4 3 ++ e in
    processed_loop n prefix occurrence None keys.

  (** lines 579-593: the dictionary base_key -> (positions, cycles, rows). *)
  Definition row_group := (base_key * list (nat * Z * Z))%type.
  Fixpoint add_to_group (bk : base_key) (entry : nat * Z * Z) (groups : list row_group) : list row_group :=
    match groups with
    | [] => [(bk, [entry])]
    | (b, es) :: r => if base_key_eqb b bk then (b, es ++ [entry]) :: r else (b, es) :: add_to_group bk entry r
    end.
  Fixpoint group_keys (position : nat) (keys : list sample_key) (groups : list row_group) : res (list row_group) :=
    match keys with
    | [] => Ok groups
    | k :: rest =>
        guard address_ok k else ValueError ;;
        let entry := match sk_address k with
                     | [row] => (position, 0, row)
                     | cycle :: row :: _ => (position, cycle, row)
                     | [] => (position, 0, 0)
                     end in
        group_keys (S position) rest (add_to_group (base_key_of k) entry groups)
    end.

  (** lines 600-606 / 650-662: the stream of one group. *)
  Definition splitmix_base (seed : Z) (domain : bytes) (epoch : Z) (bk : base_key) (occurrence : Z) : res Z :=
    let '(ns, digest, kind, len) := bk in
    rng_u64 header hash64 seed (KStr (domain ++ splitmix_suffix))
            (KTuple [KInt epoch; KStr ns; KBytes digest; KStr kind; KInt len; KInt occurrence]) 0.

  (** lines 607-622 with n a power of two; uint64 arithmetic wraps. *)
  Definition splitmix_value (n base cycle row : Z) : Z :=
    Z.land (splitmix_finalize ((base + row * splitmix_gamma + cycle * cycle_gamma) mod two64)) (n - 1).

  (** lines 599-622, one group. *)
  Fixpoint fill_groups (n seed : Z) (domain : bytes) (epoch occurrence : Z) (groups : list row_group)
                       (output : list Z) : res (list Z) :=
    match groups with
    | [] => Ok output
    | (bk, es) :: rest =>
        base <- splitmix_base seed domain epoch bk occurrence ;;
        rows <- as_u64 (map snd es) ;;
        cycles <- as_u64 (map (fun e => snd (fst e)) es) ;;
        output <- put output (map (fun e => fst (fst e)) es)
                      (map (fun '(cycle, row) => splitmix_value n base cycle row) (combine cycles rows)) ;;
        fill_groups n seed domain epoch occurrence rest output
    end.

  (** lines 556-623 _uniform_below_for_processed_sample_keys_v2. *)
  Definition sample_keys_v2 (n seed : Z) (domain : bytes) (epoch : Z) (keys : list sample_key)
                            (occurrence : Z) : res (list Z) :=
    guard bound_ok n else ValueError ;;
    if negb (is_pow2_bound n) then processed_sample_keys n seed domain epoch keys occurrence else
    match keys with
    | [] => Ok []
    | _ =>
        groups <- group_keys 0 keys [] ;;
        fill_groups n seed domain epoch occurrence groups (np_empty junk_index (List.length keys))
    end.

  (** lines 644-671: one file of the batch. *)
  Fixpoint fill_files (n seed : Z) (domain : bytes) (epoch occurrence : Z) (digests : list bytes)
                      (file_indices : list nat) (rows : list Z) (files : list nat) (output : list Z)
    : res (list Z) :=
    match files with
    | [] => Ok output
    | f :: rest =>
        digest <- match nth_error digests f with Some d => Ok d | None => Err ValueError end ;;
        let selected := flatnonzero (map (Nat.eqb f) file_indices) in
        base <- splitmix_base seed domain epoch (bytes_root, digest, bytes_npz_row, 1) occurrence ;;
        mine <- take rows selected ;;
        output <- put output selected (map (fun row => splitmix_value n base 0 row) mine) ;;
        fill_files n seed domain epoch occurrence digests file_indices rows rest output
    end.

  (** lines 625-672 _uniform_below_for_packed_processed_rows_v2. *)
  Definition packed_rows_v2 (n seed : Z) (domain : bytes) (epoch : Z) (digests : list bytes)
                            (file_indices : list nat) (rows : list Z) (occurrence : Z) : res (list Z) :=
    guard bound_ok n && is_pow2_bound n else ValueError ;;
    rows <- as_u64 rows ;;
    guard (List.length rows =? List.length file_indices)%nat else ValueError ;;
    fill_files n seed domain epoch occurrence digests file_indices rows (np_unique file_indices)
               (np_empty junk_index (List.length rows)).
End Rng.

(** ** decoder.py *)

Section Decoder.
  Variables (B V P : Type) (pz : P) (vz : V).

  (** one loaded file: bf (N,C,H,W), gf (N,G) or absent, vt (N,K), pt (N,H,W) or
      (N,H*W+1) or absent. *)
  Record npz := {
    f_bf : list (stack B);
    f_gf : option (list (list Z));
    f_vt : list (list V);
    f_pt : option (list (policy P))
  }.

  (** npz_source.py:84-89 _DenseDecodeRef. *)
  Record ref := { rf_path : Z; rf_address : list Z; rf_size : Z * Z; rf_key : sample_key }.

  (** one decoded sample, and the columns of a decoded batch. *)
  Record row := { r_size : Z * Z; r_board : stack B; r_stm : list Z; r_value : list V; r_policy : policy P }.
  Record cols := {
    c_size : list (Z * Z); c_board : list (stack B); c_stm : list (list Z);
    c_value : list (list V); c_policy : list (policy P)
  }.

  Record config := {
    d_fixed_side : bool;
    d_fixed_board_size : option (Z * Z);
    d_has_pass_move : bool;
    d_symmetry : option sym_kind;
    d_seed : Z;
    d_epoch : Z
  }.

  Variable header : bytes.
  Variable hash64 : bytes -> Z.
  Variable junk_index : nat -> Z.
  Variable junk_board : nat -> stack B.
  Variable junk_stm : nat -> list Z.
  Variable junk_value : nat -> list V.
  Variable junk_policy : nat -> policy P.
  Variable junk_size : nat -> Z * Z.
  Variable junk_plane : nat -> plane P.
  Variable load : Z -> res npz.
  Variable cfg : config.

  Definition symmetry_domain : bytes := ascii_bytes "symmetry".

  (** np.zeros((h*w+1,)) / np.zeros((h, w)). *)
  Definition zero_policy (pass : bool) (size : Z * Z) : policy P :=
    let '(h, w) := size in
    if pass then PFlat {| v_len := h * w + 1; v_at := fun _ => pz |}
    else PPlane {| p_h := h; p_w := w; p_at := fun _ _ => pz |}.

  (** lines 476-483, on one row. *)
  Definition board_policy (pass : bool) (size : Z * Z) (p : policy P) : res (policy P) :=
    let '(h, w) := size in
    match p with
    | PFlat v =>
        if pass then Ok p else
        guard v_len v =? h * w + 1 else ValueError ;;
        Ok (PPlane (np_reshape2 h w (np_init v)))
    | PPlane _ => Ok p
    end.

  Definition has_symmetry : bool := match d_symmetry cfg with Some _ => true | None => false end.

  (** post_process_data on the five fields (Symmetry.process_sample).  [if
      fixed_side_input and data["stm_input"] > 0]: the truth value of an array that
      does not have exactly one entry raises ValueError. *)
  Definition to_sample (stm : Z) (r : row) : sample B unit P V unit :=
    {| sm_board_size := r_size r; sm_board := r_board r; sm_stm := stm; sm_value := r_value r;
       sm_policy := r_policy r; sm_sparse := None; sm_position := None; sm_position_string := None;
       sm_last_move := None; sm_extra := None |}.
  Definition of_sample (stm : list Z) (s : sample B unit P V unit) : row :=
    {| r_size := sm_board_size s; r_board := sm_board s; r_stm := stm; r_value := sm_value s;
       r_policy := sm_policy s |}.
  Variable bz : B.
  Definition post_process_row (fixed_board_size : option (Z * Z)) (symmetry_index : Z) (r : row) : res row :=
    let o := {| po_fixed_side := d_fixed_side cfg; po_fixed_board_size := fixed_board_size;
                po_symmetry := d_symmetry cfg; po_symmetry_index := Some symmetry_index;
                po_drop_extra := false |} in
    stm <- (if d_fixed_side cfg
            then match r_stm r with [x] => Ok x | _ => Err ValueError end
            else Ok 0) ;;
    s <- process_sample bz tt pz (fun _ _ => 0) o (to_sample stm r) ;;
    Ok (of_sample (r_stm r) s).

  (** lines 458-483: the raw row. *)
  Definition raw_row (f : npz) (index : Z) : res row :=
    board <- py_index (f_bf f) index ;;
    let size := (k_h board, k_w board) in
    stm <- match f_gf f with Some l => py_index l index | None => Ok [0] end ;;
    value <- py_index (f_vt f) index ;;
    policy <- match f_pt f with Some l => py_index l index | None => Ok (zero_policy (d_has_pass_move cfg) size) end ;;
    policy <- board_policy (d_has_pass_move cfg) size policy ;;
    Ok {| r_size := size; r_board := board; r_stm := stm; r_value := value; r_policy := policy |}.

  (** lines 484-497. *)
  Definition row_symmetry_index (size : Z * Z) (k : sample_key) : res Z :=
    match d_symmetry cfg with
    | None => Ok 0
    | Some kind =>
        choices <- available_symmetries size kind ;;
        l <- sample_keys_v2 header hash64 junk_index (zlen choices) (d_seed cfg) symmetry_domain (d_epoch cfg) [k] 0 ;;
        py_get l 0
    end.

  (** lines 452-508. *)
  Definition decode_one (r : ref) : res row :=
    f <- load (rf_path r) ;;
    index <- py_get (rf_address r) 0 ;;
    guard (0 <=? index) && (index <? zlen (f_bf f)) else RuntimeError ;;
    raw <- raw_row f index ;;
    s <- row_symmetry_index (r_size raw) (rf_key r) ;;
    post_process_row (d_fixed_board_size cfg) s raw.

  (** *** batched fields *)

  Definition stack_shape A (k : stack A) : Z * Z * Z := (zlen (k_ch k), k_h k, k_w k).
  Definition policy_shape (p : policy P) : bool * Z * Z :=
    match p with
    | PPlane q => (true, p_h q, p_w q)
    | PFlat v => (false, v_len v, 0)
    end.
  Definition shape3_eqb (a b : Z * Z * Z) : bool :=
    let '(a1, a2, a3) := a in let '(b1, b2, b3) := b in (a1 =? b1) && (a2 =? b2) && (a3 =? b3).
  Definition policy_shape_eqb (a b : bool * Z * Z) : bool :=
    let '(a1, a2, a3) := a in let '(b1, b2, b3) := b in Bool.eqb a1 b1 && (a2 =? b2) && (a3 =? b3).

  (** core.py:232-386 validate_field_dict(batched=True) on the five fields. *)
  Definition validate_batch (d : cols) : bool :=
    let n := List.length (c_size d) in
    (List.length (c_board d) =? n)%nat && (List.length (c_stm d) =? n)%nat
    && (List.length (c_value d) =? n)%nat && (List.length (c_policy d) =? n)%nat
    && match c_board d, c_policy d with
       | b :: _, p :: _ =>
           forallb (fun s => (fst s <=? k_h b) && (snd s <=? k_w b)) (c_size d)
           && policy_fits p (k_h b) (k_w b)
       | _, _ => true
       end.

  (** lines 524-541: white_to_move and the two swaps. *)
  Definition single_stm (stm : list (list Z)) : res (list Z) :=
    mapM (fun s => match s with [x] => Ok x | _ => Err ValueError end) stm.
  Definition flip_side (d : cols) : res cols :=
    stm <- single_stm (c_stm d) ;;
    let white := flatnonzero (map (fun x => 0 <? x) stm) in
    match white with
    | [] => Ok d
    | _ =>
        boards <- take (c_board d) white ;;
        board <- put (c_board d) white
                     (map (fun b => {| k_h := k_h b; k_w := k_w b; k_ch := rev (k_ch b) |}) boards) ;;
        values <- take (c_value d) white ;;
        swapped <- mapM (@swap_win_loss V) values ;;
        value <- put (c_value d) white swapped ;;
        Ok {| c_size := c_size d; c_board := board; c_stm := c_stm d; c_value := value; c_policy := c_policy d |}
    end.

  (** lines 590-601: for symmetry_index, symmetry in enumerate(choices).  An
      assignment of rows of another shape raises ValueError. *)
  Definition same_stack_shapes (a b : list (stack B)) : bool :=
    match a, b with
    | x :: _, y :: _ => shape3_eqb (stack_shape x) (stack_shape y)
    | _, _ => true
    end.
  Definition same_plane_shapes (a b : list (plane P)) : bool :=
    match a, b with
    | x :: _, y :: _ => (p_h x =? p_h y) && (p_w x =? p_w y)
    | _, _ => true
    end.
  Fixpoint apply_choices (i : Z) (choices : list symmetry) (indices : list Z)
                         (boards : list (stack B)) (planes : list (plane P))
                         (board_out : list (stack B)) (plane_out : list (plane P))
    : res (list (stack B) * list (plane P)) :=
    match choices with
    | [] => Ok (board_out, plane_out)
    | sym :: rest =>
        let selected := flatnonzero (map (Z.eqb i) indices) in
        match selected with
        | [] => apply_choices (i + 1) rest indices boards planes board_out plane_out
        | _ =>
            bs <- take boards selected ;;
            let bs := map (apply_to_stack sym) bs in
            guard same_stack_shapes bs boards else ValueError ;;
            board_out <- put board_out selected bs ;;
            ps <- take planes selected ;;
            let ps := map (apply_to_array sym) ps in
            guard same_plane_shapes ps planes else ValueError ;;
            plane_out <- put plane_out selected ps ;;
            apply_choices (i + 1) rest indices boards planes board_out plane_out
        end
    end.

  (** lines 576-588 and 603-614: split off the pass entry, and put it back. *)
  Definition source_planes (size : Z * Z) (ps : list (policy P)) : res (list (plane P)) :=
    match ps with
    | PFlat v :: _ =>
        guard v_len v =? fst size * snd size + 1 else ValueError ;;
        Ok (map (fun p => match p with
                          | PFlat v => np_reshape2 (fst size) (snd size) (np_init v)
                          | PPlane q => q
                          end) ps)
    | _ => Ok (map (fun p => match p with
                             | PPlane q => q
                             | PFlat v => np_reshape2 (fst size) (snd size) (np_init v)
                             end) ps)
    end.
  Definition target_policy (ps : list (policy P)) (planes : list (plane P)) : list (policy P) :=
    map (fun '(p, q) => match p with
                        | PFlat v => PFlat (np_snoc (np_ravel q) (np_last v))
                        | PPlane _ => PPlane q
                        end) (combine ps planes).

  (** lines 510-619; [draw n] are the symmetry indices of the rows. *)
  Definition post_process_vectorized (draw : Z -> res (list Z)) (d : cols) : res cols :=
    if negb (d_fixed_side cfg) && negb has_symmetry then Ok d else
    guard validate_batch d else ValueError ;;
    d <- (if d_fixed_side cfg then flip_side d else Ok d) ;;
    match d_symmetry cfg with
    | None => Ok d
    | Some kind =>
        first <- py_get (c_board d) 0 ;;
        let size := (k_h first, k_w first) in
        choices <- available_symmetries size kind ;;
        indices <- draw (zlen choices) ;;
        planes <- source_planes size (c_policy d) ;;
        '(boards, planes) <- apply_choices 0 choices indices (c_board d) planes
             (np_empty junk_board (List.length (c_board d)))
             (np_empty junk_plane (List.length planes)) ;;
        Ok {| c_size := c_size d; c_board := boards; c_stm := c_stm d; c_value := c_value d;
              c_policy := target_policy (c_policy d) planes |}
    end.

  Definition draw_refs (refs : list ref) (n : Z) : res (list Z) :=
    sample_keys_v2 header hash64 junk_index n (d_seed cfg) symmetry_domain (d_epoch cfg) (map rf_key refs) 0.

  (** lines 799-814: the selector of one path. *)
  Definition contiguous (refs : list ref) (first : Z) : bool :=
    forallb (fun '(offset, r) => zlist_eqb (rf_address r) [first + Z.of_nat offset])
            (combine (seq 0 (List.length refs)) refs).
  (** lines 843-855, one path: np.fromiter of the row numbers, or a slice. *)
  Definition gather A (refs : list ref) (column : option (list A)) (default : Z * Z -> A) : res (list A) :=
    match column with
    | None => Ok (map (fun r => default (rf_size r)) refs)
    | Some l =>
        match refs with
        | [] => Err IndexError
        | r0 :: _ =>
            first <- py_get (rf_address r0) 0 ;;
            if contiguous refs first then Ok (py_slice l first (first + zlen refs))
            else mapM (fun r => i <- py_get (rf_address r) 0 ;; py_index l i) refs
        end
    end.

  (** lines 888-896: the (N, H, W) view of a flat policy. *)
  Definition board_policies (size : Z * Z) (ps : list (policy P)) : res (list (policy P)) :=
    match ps with
    | PFlat v :: _ =>
        if d_has_pass_move cfg then Ok ps else mapM (board_policy false size) ps
    | _ => Ok ps
    end.

  (** lines 792-905 _decode_loaded_batch.  Both callers pass refs of one path, so the
      branch for several paths (lines 815-839, 856-867) is not modelled. *)
  Definition zero_stack (size : Z * Z) : stack B :=
    {| k_h := fst size; k_w := snd size; k_ch := [fun _ _ => bz; fun _ _ => bz] |}.
  Definition decode_loaded_batch (refs : list ref) (f : npz) : res cols :=
    board <- gather refs (Some (f_bf f)) zero_stack ;;
    stm <- gather refs (f_gf f) (fun _ => [0]) ;;
    value <- gather refs (Some (f_vt f)) (fun _ => [vz; vz; vz]) ;;
    policy <- gather refs (f_pt f) (zero_policy (d_has_pass_move cfg)) ;;
    r0 <- py_get refs 0 ;;
    policy <- board_policies (rf_size r0) policy ;;
    post_process_vectorized (draw_refs refs)
      {| c_size := map rf_size refs; c_board := board; c_stm := stm; c_value := value; c_policy := policy |}.

  (** lines 768-771: (key, shape[1:]) of every column. *)
  Definition schema_eqb (a b : cols) : bool :=
    match c_board a, c_board b with
    | x :: _, y :: _ => shape3_eqb (stack_shape x) (stack_shape y) | _, _ => true
    end &&
    match c_stm a, c_stm b with
    | x :: _, y :: _ => zlen x =? zlen y | _, _ => true
    end &&
    match c_value a, c_value b with
    | x :: _, y :: _ => zlen x =? zlen y | _, _ => true
    end &&
    match c_policy a, c_policy b with
    | x :: _, y :: _ => policy_shape_eqb (policy_shape x) (policy_shape y) | _, _ => true
    end.

  Definition empty_cols (n : nat) : cols :=
    {| c_size := np_empty junk_size n; c_board := np_empty junk_board n; c_stm := np_empty junk_stm n;
       c_value := np_empty junk_value n; c_policy := np_empty junk_policy n |}.
  (** lines 788-789: output[key][positions] = value. *)
  Definition put_cols (d : cols) (positions : list nat) (g : cols) : res cols :=
    size <- put (c_size d) positions (c_size g) ;;
    board <- put (c_board d) positions (c_board g) ;;
    stm <- put (c_stm d) positions (c_stm g) ;;
    value <- put (c_value d) positions (c_value g) ;;
    policy <- put (c_policy d) positions (c_policy g) ;;
    Ok {| c_size := size; c_board := board; c_stm := stm; c_value := value; c_policy := policy |}.

  (** lines 772-789 / 679-699: allocate on the first group, compare schemas later. *)
  Definition add_group (n : nat) (acc : option (cols * cols)) (positions : list nat) (g : cols)
    : res (option (cols * cols)) :=
    match acc with
    | None => d <- put_cols (empty_cols n) positions g ;; Ok (Some (d, g))
    | Some (d, schema) =>
        guard schema_eqb g schema else ValueError ;;
        d <- put_cols d positions g ;; Ok (Some (d, schema))
    end.

  (** lines 753-757: positions_by_path and refs_by_path. *)
  Definition positions_of (path : Z) (refs : list ref) : list nat :=
    flatnonzero (map (fun r => rf_path r =? path) refs).
  Definition refs_of_path (path : Z) (refs : list ref) : list ref :=
    filter (fun r => rf_path r =? path) refs.

  Fixpoint grouped_loop (refs : list ref) (paths : list Z) (acc : option (cols * cols)) : res (option (cols * cols)) :=
    match paths with
    | [] => Ok acc
    | path :: rest =>
        f <- load path ;;
        g <- decode_loaded_batch (refs_of_path path refs) f ;;
        acc <- add_group (List.length refs) acc (positions_of path refs) g ;;
        grouped_loop refs rest acc
    end.

  (** lines 752-790 _decode_grouped_batch. *)
  Definition decode_grouped_batch (refs : list ref) (paths : list Z) : res cols :=
    acc <- grouped_loop refs paths None ;;
    match acc with Some (d, _) => Ok d | None => Err TypeError end.

  (** lines 621-633; None when fixed_board_size is set. *)
  Definition decode_batch (refs : list ref) : res (option cols) :=
    match d_fixed_board_size cfg with
    | Some _ => Ok None
    | None =>
        match refs with
        | [] => Err ValueError
        | _ =>
            match dedup Z.eqb (map rf_path refs) with
            | [path] => f <- load path ;; d <- decode_loaded_batch refs f ;; Ok (Some d)
            | paths => d <- decode_grouped_batch refs paths ;; Ok (Some d)
            end
        end
    end.

  (** lines 736-749: value[offset:next_offset] of every column. *)
  Definition slice_cols (d : cols) (start stop : Z) : cols :=
    {| c_size := py_slice (c_size d) start stop; c_board := py_slice (c_board d) start stop;
       c_stm := py_slice (c_stm d) start stop; c_value := py_slice (c_value d) start stop;
       c_policy := py_slice (c_policy d) start stop |}.
  Fixpoint split_cols (d : cols) (lengths : list Z) (offset : Z) : list cols :=
    match lengths with
    | [] => []
    | n :: rest => slice_cols d offset (offset + n) :: split_cols d rest (offset + n)
    end.

  Definition size_eqb (a b : Z * Z) : bool := (fst a =? fst b) && (snd a =? snd b).
  (** lines 717-750. *)
  Definition decode_batches (batches : list (list ref)) : res (option (list cols)) :=
    match d_fixed_board_size cfg with
    | Some _ => Ok None
    | None =>
        match batches with
        | [] => Err ValueError
        | _ =>
            firsts <- mapM (fun refs => match refs with [] => Err ValueError | r :: _ => Ok (rf_size r) end) batches ;;
            match dedup size_eqb firsts with
            | [_] =>
                let flat := List.concat batches in
                d <- match dedup Z.eqb (map rf_path flat) with
                     | [path] => f <- load path ;; decode_loaded_batch flat f
                     | paths => decode_grouped_batch flat paths
                     end ;;
                Ok (Some (split_cols d (map zlen batches) 0))
            | _ =>
                ds <- mapM (fun refs => d <- decode_batch refs ;;
                                        match d with Some d => Ok d | None => Err TypeError end) batches ;;
                Ok (Some ds)
            end
        end
    end.

  (** npz_source.py:92-103 _PackedDenseDecodeBatch. *)
  Record packed := {
    q_paths : list Z; q_digests : list bytes; q_files : list nat; q_rows : list Z; q_size : Z * Z
  }.
  (** npz_source.py:126-139 _PackedDenseSampleKeys. *)
  Definition packed_key (digests : list bytes) (f : nat) (r : Z) : res sample_key :=
    d <- py_get digests f ;;
    Ok {| sk_ns := bytes_root; sk_digest := d; sk_kind := bytes_npz_row; sk_address := [r] |}.
  Definition packed_keys (q : packed) : res (list sample_key) :=
    mapM (fun '(f, r) => packed_key (q_digests q) f r) (combine (q_files q) (q_rows q)).

  (** lines 556-575, request form. *)
  Definition draw_packed (q : packed) (n : Z) : res (list Z) :=
    if is_pow2_bound n
    then packed_rows_v2 header hash64 junk_index n (d_seed cfg) symmetry_domain (d_epoch cfg)
                        (q_digests q) (q_files q) (q_rows q) 0
    else keys <- packed_keys q ;;
         sample_keys_v2 header hash64 junk_index n (d_seed cfg) symmetry_domain (d_epoch cfg) keys 0.

  (** lines 655-660 selected. *)
  Definition selected_rows A (column : option (list A)) (default : A) (rows : list Z) : res (list A) :=
    match column with
    | Some l => mapM (py_index l) rows
    | None => Ok (map (fun _ => default) rows)
    end.

  Fixpoint packed_loop (q : packed) (used : list nat) (acc : option (cols * cols)) : res (option (cols * cols)) :=
    match used with
    | [] => Ok acc
    | index :: rest =>
        let positions := flatnonzero (map (fun f => Nat.eqb f index) (q_files q)) in
        rows <- take (q_rows q) positions ;;
        path <- py_get (q_paths q) index ;;
        f <- load path ;;
        board <- selected_rows (Some (f_bf f)) (zero_stack (q_size q)) rows ;;
        stm <- selected_rows (f_gf f) [0] rows ;;
        value <- selected_rows (Some (f_vt f)) [vz; vz; vz] rows ;;
        policy <- selected_rows (f_pt f) (zero_policy (d_has_pass_move cfg) (q_size q)) rows ;;
        let g := {| c_size := map (fun _ => q_size q) positions; c_board := board; c_stm := stm;
                    c_value := value; c_policy := policy |} in
        acc <- add_group (List.length (q_rows q)) acc positions g ;;
        packed_loop q rest acc
    end.

  Definition count_of (files : list nat) (index : nat) : nat :=
    List.length (filter (fun f => Nat.eqb f index) files).
  (** lines 635-715 decode_packed_batch. *)
  Definition decode_packed_batch (q : packed) : res (option cols) :=
    match d_fixed_board_size cfg with
    | Some _ => Ok None
    | None =>
        match q_rows q with
        | [] => Err ValueError
        | _ =>
            let used := sort_by (fun i j => (count_of (q_files q) i <? count_of (q_files q) j)%nat)
                                (np_unique (q_files q)) in
            acc <- packed_loop q used None ;;
            match acc with
            | None => Err TypeError
            | Some (d, _) =>
                policy <- board_policies (q_size q) (c_policy d) ;;
                d <- post_process_vectorized (draw_packed q)
                       {| c_size := c_size d; c_board := c_board d; c_stm := c_stm d; c_value := c_value d;
                          c_policy := policy |} ;;
                Ok (Some d)
            end
        end
    end.
End Decoder.
