(** Model of dataset/pipeline/line_encoding_cpp/line_encoding.cpp: the compact numbering of
    line windows and the board and line transforms.
    uint32_t and uint64_t arithmetic is written modulo 2^32 and 2^64; arrays are lists, an
    access outside an array is [Err IndexError] (in C++: undefined).  Not modelled: the cache
    of encoders (an encoder depends on its length only), the checks that the output array has
    the right type and layout, and the GIL. *)
From Verif Require Import Base.
Set Implicit Arguments.
Unset Strict Implicit.

Definition w32 (z : Z) : Z := z mod 2 ^ 32.
Definition w64 (z : Z) : Z := z mod 2 ^ 64.
(** The conversion of a uint32_t to int32_t. *)
Definition s32 (z : Z) : Z := if z <? 2 ^ 31 then z else z - 2 ^ 32.

(** lines 92-99 [Pow3]: twenty powers of 3. *)
Fixpoint powers (n : nat) (val : Z) : list Z :=
  match n with O => [] | S m => val :: powers m (w32 (val * 3)) end.
Definition Pow3 : list Z := powers 20 1.
(** Pow3[i] for an int i. *)
Definition pow3 (i : Z) : res Z := if i <? 0 then Err IndexError else py_get Pow3 (Z.to_nat i).

(** for (int i = from; i < to; i++) code += c * Pow3[at(i)]; with [n] = to - from iterations. *)
Fixpoint add_pows (n : nat) (i c : Z) (at_ : Z -> Z) (code : Z) : res Z :=
  match n with
  | O => Ok code
  | S m => p <- pow3 (at_ i) ;; add_pows m (i + 1) c at_ (w32 (code + w32 (c * p)))
  end.
Definition add_range (from to c : Z) (at_ : Z -> Z) (code : Z) : res Z :=
  add_pows (Z.to_nat (to - from)) from c at_ code.

(** lines 78-87 [max_encoding(len)]. *)
Definition max_encoding (len : Z) : res Z :=
  let half := len / 2 in
  p <- pow3 len ;;
  c1 <- add_range 0 (half + 1) 2 (fun i => i) (w32 (2 * p)) ;;
  add_range (half + 2) len 1 (fun i => i) c1.

(** lines 163-199 [get_boarder_encoding]. *)
Definition border_encoding (len left right : Z) : res Z :=
  let half := len / 2 in
  if (left =? half) && (right =? half) then Ok 0
  else if right =? half then
    p <- pow3 len ;;
    add_range 1 (half - left) 1 (fun i => len - i) (w32 (2 * p))
  else
    p <- pow3 len ;;
    let left_dist := half - left in
    let right_dist := half - right in
    let right_twos := Z.min left_dist right_dist in
    let left_twos := Z.min left_dist (right_dist - 1) in
    c1 <- add_range 0 right_twos 2 (fun i => i) (w32 (1 * p)) ;;
    c2 <- add_range 0 left_twos 2 (fun i => len - 1 - i) c1 ;;
    c3 <- add_range right_twos (right_dist - 1) 1 (fun i => i) c2 ;;
    add_range left_twos (left_dist - 1) 1 (fun i => len - 1 - i) c3.

(** lines 133-147: the contribution of one 12-bit chunk. *)
Fixpoint chunk_cells (n : nat) (len chunk offset value : Z) (contribution : Z) : res Z :=
  match n with
  | O => Ok contribution
  | S m =>
      let key_idx := chunk * 6 + offset in
      if len <=? key_idx then Ok contribution
      else
        let state := Z.land (Z.shiftr value (2 * offset)) 3 in
        let digit := if state =? 1 then 1 else if state =? 2 then 2 else 0 in
        p <- pow3 (len - 1 - key_idx) ;;
        chunk_cells m len chunk (offset + 1) value (w32 (contribution + w32 (digit * p)))
  end.
Definition chunk_entry (len chunk value : Z) : res Z := chunk_cells 6 len chunk 0 value 0.

(** lines 32-39 [encode_contiguous]; the table lookups chunk_lut[chunk][..] (filled for all
    4096 values at construction) are the computation itself. *)
Fixpoint add_chunks (n : nat) (len chunk key code : Z) : res Z :=
  match n with
  | O => Ok code
  | S m => c <- chunk_entry len chunk (Z.land (Z.shiftr key (12 * chunk)) 4095) ;;
           add_chunks m len (chunk + 1) key (w32 (code + c))
  end.
Definition num_chunks (len : Z) : Z := (len + 6 - 1) / 6.
Definition encode_contiguous (len key left right : Z) : res Z :=
  let key := Z.land key (2 ^ (2 * len) - 1) in
  b <- border_encoding len left right ;;
  add_chunks (Z.to_nat (num_chunks len)) len 0 key b.

(** lines 205-218 [validate_line_length]. *)
Definition validate_line_length (len : Z) (raw : bool) : res unit :=
  guard negb ((len <? 1) || (len mod 2 =? 0)) else ValueError ;;
  guard negb ((if raw then 15 else 17) <? len) else ValueError ;;
  Ok tt.

(** lines 254-259 [get_total_num_encoding]. *)
Definition get_total_num_encoding (len : Z) : res Z :=
  _ <- validate_line_length len false ;;
  m <- max_encoding len ;;
  Ok (s32 (w32 (m + 1))).

(** lines 101-119 [fill_usage_flags_recursive]; [n] = last_line_idx + 1 - line_idx. *)
Fixpoint fill_rec (n : nat) (line_idx code : Z) (flags : list Z) : res (list Z) :=
  match n with
  | O => py_set flags (Z.to_nat code) 1
  | S m =>
      f1 <- fill_rec m (line_idx + 1) code flags ;;
      p <- pow3 line_idx ;;
      f2 <- fill_rec m (line_idx + 1) (w32 (code + p)) f1 ;;
      fill_rec m (line_idx + 1) (w32 (code + w32 (2 * p))) f2
  end.
(** lines 42-56 [fill_usage_flags]: the pairs (left, right) in order. *)
Definition border_pairs (half : Z) : list (Z * Z) :=
  flat_map (fun l => map (fun r => (Z.of_nat l, Z.of_nat r)) (seq 0 (Z.to_nat (half + 1)))) (seq 0 (Z.to_nat (half + 1))).
Fixpoint fill_pairs (len : Z) (pairs : list (Z * Z)) (flags : list Z) : res (list Z) :=
  match pairs with
  | [] => Ok flags
  | (lft, rgt) :: rest =>
      let half := len / 2 in
      b <- border_encoding len lft rgt ;;
      f <- fill_rec (Z.to_nat (half + lft + 1 - (half - rgt))) (half - rgt) b flags ;;
      fill_pairs len rest f
  end.
(** lines 263-274 [get_encoding_usage_flag]. *)
Definition get_encoding_usage_flag (flags : list Z) (len : Z) : res (list Z) :=
  _ <- validate_line_length len false ;;
  m <- max_encoding len ;;
  guard zlen flags =? w32 (m + 1) else ValueError ;;
  fill_pairs len (border_pairs (len / 2)) flags.

(** lines 233-239 [rotate_right]; & of a negative int is its two's complement. *)
Definition rotate_right (x shamt : Z) : Z :=
  let shamt := Z.land shamt 63 in
  Z.lor (Z.shiftr x shamt) (w64 (Z.shiftl x (Z.land (- shamt) 63))).

(** ** The board transform, lines 276-356 *)
Record bit_keys := { k0 : list Z; k1 : list Z; k2 : list Z; k3 : list Z }.
Definition no_keys : bit_keys := {| k0 := repeat 0 32; k1 := repeat 0 32; k2 := repeat 0 63; k3 := repeat 0 63 |}.

Definition cell_bits (is_self is_oppo : bool) : Z := if is_self then 1 else if is_oppo then 2 else 3.
(** array[i] |= v *)
Definition or_at (l : list Z) (i v : Z) : res (list Z) :=
  guard 0 <=? i else IndexError ;;
  x <- py_get l (Z.to_nat i) ;; py_set l (Z.to_nat i) (Z.lor x v).
Definition z_get (l : list Z) (i : Z) : res Z :=
  guard 0 <=? i else IndexError ;; py_get l (Z.to_nat i).

(** lines 293-302 [set_bit_key]. *)
Definition set_bit_key (k : bit_keys) (x y : Z) (is_self is_oppo : bool) : res bit_keys :=
  let c := cell_bits is_self is_oppo in
  a0 <- or_at (k0 k) y (w64 (Z.shiftl c (2 * x))) ;;
  a1 <- or_at (k1 k) x (w64 (Z.shiftl c (2 * y))) ;;
  a2 <- or_at (k2 k) (x + y) (w64 (Z.shiftl c (2 * x))) ;;
  a3 <- or_at (k3 k) (32 - 1 - x + y) (w64 (Z.shiftl c (2 * x))) ;;
  Ok {| k0 := a0; k1 := a1; k2 := a2; k3 := a3 |}.

(** All (y, x) of an H by W board, row by row. *)
Definition cells (H W : nat) : list (Z * Z) :=
  flat_map (fun y => map (fun x => (Z.of_nat y, Z.of_nat x)) (seq 0 W)) (seq 0 H).

(** lines 304-311. *)
Fixpoint set_keys (board : list Z) (H W : Z) (todo : list (Z * Z)) (k : bit_keys) : res bit_keys :=
  match todo with
  | [] => Ok k
  | (y, x) :: rest =>
      s <- z_get board (y * W + x) ;;
      o <- z_get board (H * W + y * W + x) ;;
      k' <- set_bit_key k x y (negb (s =? 0)) (negb (o =? 0)) ;;
      set_keys board H W rest k'
  end.

Definition min3 (a b c : Z) : Z := Z.min (Z.min a b) c.

(** lines 318-355: the four codes of one position. *)
Definition codes_at (len : Z) (raw : bool) (H W : Z) (k : bit_keys) (yx : Z * Z) : res (list Z) :=
  let '(y, x) := yx in
  let half := len / 2 in
  let raw_mask := 2 ^ (2 * len) - 1 in
  b0 <- z_get (k0 k) y ;;
  b1 <- z_get (k1 k) x ;;
  b2 <- z_get (k2 k) (x + y) ;;
  b3 <- z_get (k3 k) (32 - 1 - x + y) ;;
  let key0 := rotate_right b0 (2 * (x - half)) in
  let key1 := rotate_right b1 (2 * (y - half)) in
  let key2 := rotate_right b2 (2 * (x - half)) in
  let key3 := rotate_right b3 (2 * (x - half)) in
  if raw then
    Ok [s32 (w32 (Z.land key0 raw_mask)); s32 (w32 (Z.land key1 raw_mask));
        s32 (w32 (Z.land key2 raw_mask)); s32 (w32 (Z.land key3 raw_mask))]
  else
    e0 <- encode_contiguous len key0 (Z.min half x) (Z.min half (W - 1 - x)) ;;
    e1 <- encode_contiguous len key1 (Z.min half y) (Z.min half (H - 1 - y)) ;;
    e2 <- encode_contiguous len key2 (min3 half x (H - 1 - y)) (min3 half (W - 1 - x) y) ;;
    e3 <- encode_contiguous len key3 (min3 half x y) (min3 half (W - 1 - x) (H - 1 - y)) ;;
    Ok [s32 e0; s32 e1; s32 e2; s32 e3].

(** The output array [4, H, W], flat: direction by direction, each row by row. *)
Definition by_direction (per_cell : list (list Z)) : list Z :=
  flat_map (fun d => map (fun l => nth d l 0) per_cell) (seq 0 4).
Definition transform_board_impl (board : list Z) (H W : nat) (len : Z) (raw : bool) : res (list Z) :=
  k <- set_keys board (Z.of_nat H) (Z.of_nat W) (cells H W) no_keys ;;
  per <- mapM (codes_at len raw (Z.of_nat H) (Z.of_nat W) k) (cells H W) ;;
  Ok (by_direction per).

(** lines 396-437 [transform_board_to_line_encoding]; the board is the flat array of shape
    [2, H, W]. *)
Definition transform_board (board : list Z) (H W : nat) (len : Z) (raw : bool) : res (list Z) :=
  _ <- validate_line_length len raw ;;
  let max_board_size := 32 - len / 2 in
  guard negb ((max_board_size <? Z.of_nat H) || (max_board_size <? Z.of_nat W)) else ValueError ;;
  transform_board_impl board H W len raw.

(** lines 440-489 [transform_boards_to_line_encoding]: the b-th board starts at b*2*H*W. *)
Definition transform_boards (boards : list Z) (B H W : nat) (len : Z) (raw : bool) : res (list Z) :=
  _ <- validate_line_length len raw ;;
  let max_board_size := 32 - len / 2 in
  guard negb ((max_board_size <? Z.of_nat H) || (max_board_size <? Z.of_nat W)) else ValueError ;;
  outs <- mapM (fun b => transform_board_impl (skipn (b * (2 * H * W)) boards) H W len raw) (seq 0 B) ;;
  Ok (List.concat outs).

(** lines 491-520 [transform_lines_impl], one line. *)
Fixpoint line_key (line : list Z) (x : Z) (bit_key : Z) : Z :=
  match line with
  | [] => bit_key
  | value :: rest =>
      line_key rest (x + 1)
        (Z.lor bit_key (w64 (Z.shiftl (cell_bits (value =? 1) (value =? 2)) (2 * x))))
  end.
Definition transform_line (len : Z) (line : list Z) : res (list Z) :=
  let half := len / 2 in
  let L := zlen line in
  mapM (fun i => let x := Z.of_nat i in
                 e <- encode_contiguous len (rotate_right (line_key line 0 0) (2 * (x - half)))
                        (Z.min half x) (Z.min half (L - 1 - x)) ;;
                 Ok (s32 e))
       (range (List.length line)).
(** lines 527-558 [transform_lines_to_line_encoding] with the checks of
    line_encoding.py:107-110 (np.min of an empty array is a ValueError); the rows of the
    [N, L] array of int8. *)
Definition transform_lines (lines : list (list Z)) (L : nat) (len : Z) : res (list (list Z)) :=
  guard negb ((List.length lines =? 0)%nat || (L =? 0)%nat) else ValueError ;;
  guard forallb (forallb (fun v => (0 <=? v) && (v <=? 2))) lines else ValueError ;;
  _ <- validate_line_length len false ;;
  guard negb (32 - len / 2 <? Z.of_nat L) else ValueError ;;
  mapM (transform_line len) lines.
