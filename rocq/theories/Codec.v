(** Model of the two binary entry formats: dataset/simple_binary.py:14-81 and
    dataset/packed_binary.py:15-190 (header and move structures, read_entry,
    read_raw_entry, decode_raw_entry, raw_entry_shape, raw_entry_metadata), of Rule and
    Result (utils/data_utils.py:7-28), and of the way both are plugged into the
    sequential source (simple_binary.py:160-165, packed_binary.py:300-308).
    A stream is its unread bytes.  ctypes lays bit fields out from the least
    significant bit of little-endian words (the layout of the platforms the project
    supports); each group of fields below fills its word exactly. *)
From Verif Require Import Base Rng Symmetry Composite Sequential.
Set Implicit Arguments.
Unset Strict Implicit.

(** An unsigned little-endian integer. *)
Fixpoint le_value (b : bytes) : Z :=
  match b with [] => 0 | x :: t => x + 256 * le_value t end.
(** A bit field of [n] bits starting at bit [lo]. *)
Definition bits (w lo n : Z) : Z := Z.land (Z.shiftr w lo) (Z.ones n).

(** f.read / f.readinto of exactly n bytes; a short read raises EOFError. *)
Definition take_exact (n : nat) (s : bytes) : res (bytes * bytes) :=
  guard (n <=? List.length s)%nat else EOFError ;; Ok (firstn n s, skipn n s).

(** (ctypes.c_uint16 * n)() *)
Fixpoint u16s (n : nat) (b : bytes) : list Z :=
  match n with 0%nat => [] | S m => le_value (firstn 2 b) :: u16s m (skipn 2 b) end.

(** data_utils.py:7-28. *)
Inductive result := LOSS | DRAW | WIN.
Definition result_of (v : Z) : res result :=
  if v =? 0 then Ok LOSS else if v =? 1 then Ok DRAW else if v =? 2 then Ok WIN else Err ValueError.
Definition opposite (r : result) : result := match r with LOSS => WIN | DRAW => DRAW | WIN => LOSS end.
Inductive rule := FREESTYLE | STANDARD | RENJU.
Definition rule_of (v : Z) : res rule :=
  if v =? 0 then Ok FREESTYLE else if v =? 1 then Ok STANDARD else if v =? 4 then Ok RENJU else Err ValueError.
Definition rule_index (r : rule) : Z := match r with FREESTYLE => 0 | STANDARD => 1 | RENJU => 2 end.
Definition rule_eqb (a b : rule) : bool := rule_index a =? rule_index b.

(** Move((m >> 5) & 31, m & 31) *)
Definition move_of (m : Z) : move := {| mv_x := Z.land (Z.shiftr m 5) 31; mv_y := Z.land m 31 |}.

(** ** simple_binary.py *)
(** lines 14-21. *)
Record simple_head := { sh_result : Z; sh_ply : Z; sh_boardsize : Z; sh_rule : Z; sh_move : Z }.
Definition simple_head_size : nat := 4.
Definition simple_head_of (b : bytes) : simple_head :=
  let w0 := le_value (firstn 2 b) in
  let w1 := le_value (firstn 2 (skipn 2 b)) in
  {| sh_result := bits w0 0 2; sh_ply := bits w0 2 9; sh_boardsize := bits w0 11 5;
     sh_rule := bits w1 0 3; sh_move := bits w1 3 13 |}.

(** The tuple returned at line 46. *)
Record simple_entry := {
  se_result : result; se_ply : Z; se_boardsize : Z; se_rule : rule; se_move : move; se_position : list move
}.

(** lines 32-46. *)
Definition simple_read_entry (s : bytes) : res (simple_entry * bytes) :=
  '(head, s) <- take_exact simple_head_size s ;;
  let ehead := simple_head_of head in
  result <- result_of (sh_result ehead) ;;
  rule <- rule_of (sh_rule ehead) ;;
  let n := Z.to_nat (sh_ply ehead) in
  '(pos, s) <- take_exact (2 * n) s ;;
  Ok ({| se_result := result; se_ply := sh_ply ehead; se_boardsize := sh_boardsize ehead; se_rule := rule;
         se_move := move_of (sh_move ehead); se_position := map move_of (u16s n pos) |}, s).

(** lines 49-67. *)
Definition simple_read_raw (s : bytes) : res (bytes * bytes) :=
  '(header, s) <- take_exact simple_head_size s ;;
  '(payload, s) <- take_exact (2 * Z.to_nat (sh_ply (simple_head_of header))) s ;;
  Ok (header ++ payload, s).

(** lines 70-75. *)
Definition simple_decode (raw : bytes) : res simple_entry :=
  '(e, rest) <- simple_read_entry raw ;;
  guard (match rest with [] => true | _ => false end) else RuntimeError ;; Ok e.

(** lines 78-82 raw_entry_shape. *)
Definition simple_shape (raw : bytes) : res (Z * rule) :=
  guard (simple_head_size <=? List.length raw)%nat else RuntimeError ;;
  let h := simple_head_of raw in
  r <- rule_of (sh_rule h) ;; Ok (sh_boardsize h, r).

(** lines 160-165: shape_of, for the accepted rules and board sizes and the fixed
    board size; the InterleavedSequentialSource built at 188-206. *)
Definition accepted (rules : list rule) (sizes : list (Z * Z)) (fixed : option (Z * Z)) (bs : Z) (r : rule)
  : option shape :=
  if existsb (rule_eqb r) rules && existsb (fun p => (fst p =? bs) && (snd p =? bs)) sizes
  then Some (match fixed with Some (h, w) => [h; w] | None => [bs; bs] end)
  else None.

Definition simple_format (id : bytes) (rules : list rule) (sizes : list (Z * Z)) (fixed : option (Z * Z)) : seq_format :=
  {| f_id := id;
     f_read := fun s => '(raw, _) <- simple_read_raw s ;; Ok (List.length raw);
     f_decode := fun raw => _ <- simple_decode raw ;; Ok tt;
     f_shape := fun raw => '(bs, r) <- simple_shape raw ;; Ok (accepted rules sizes fixed bs r);
     f_count := None |}.

(** ** packed_binary.py *)
(** lines 15-24. *)
Record packed_head := {
  ph_boardsize : Z; ph_rule : Z; ph_result : Z; ph_total : Z; ph_init : Z; ph_tag : Z; ph_count : Z
}.
Definition packed_head_size : nat := 8.
Definition packed_head_of (b : bytes) : packed_head :=
  let w0 := le_value (firstn 4 b) in
  let w1 := le_value (firstn 4 (skipn 4 b)) in
  {| ph_boardsize := bits w0 0 5; ph_rule := bits w0 5 3; ph_result := bits w0 8 4;
     ph_total := bits w0 12 10; ph_init := bits w0 22 10;
     ph_tag := bits w1 0 14; ph_count := bits w1 14 18 |}.

(** lines 27-36. *)
Record packed_move := {
  pm_first : bool; pm_last : bool; pm_noeval : bool; pm_pass : bool; pm_move : Z; pm_eval : Z
}.
Definition packed_move_size : nat := 4.
Definition packed_move_of (b : bytes) : packed_move :=
  let w0 := le_value (firstn 2 b) in
  let w1 := le_value (firstn 2 (skipn 2 b)) in
  {| pm_first := bits w0 0 1 =? 1; pm_last := bits w0 1 1 =? 1; pm_noeval := bits w0 2 1 =? 1;
     pm_pass := bits w0 3 1 =? 1; pm_move := bits w0 6 10;
     pm_eval := if w1 <? 2 ^ 15 then w1 else w1 - 2 ^ 16 |}.

(** lines 39-70 MoveData: the moves with their evaluations, and is_ended. *)
Record move_data := { md_moves : list (move * option Z); md_ended : bool }.

Definition append_move (d : move_data) (m : packed_move) : res move_data :=
  guard negb (match md_moves d with [] => negb (pm_first m) | _ => false end) else RuntimeError ;;
  guard negb (md_ended d) else RuntimeError ;;
  Ok {| md_moves := md_moves d ++ [(if pm_pass m then move_pass else move_of (pm_move m),
                                    if pm_noeval m then None else Some (pm_eval m))];
        md_ended := pm_last m |}.

(** lines 73-94 EntryData. *)
Record packed_entry := {
  pe_boardsize : Z; pe_rule : rule; pe_result : result; pe_total : Z; pe_tag : Z;
  pe_init : list move; pe_moves : list move_data
}.

(** lines 91-94 EntryData._append_entry_move. *)
Definition entry_append (gs : list move_data) (m : packed_move) : res (list move_data) :=
  match rev gs with
  | d :: before =>
      if md_ended d
      then d1 <- append_move {| md_moves := []; md_ended := false |} m ;; Ok (gs ++ [d1])
      else d1 <- append_move d m ;; Ok (rev before ++ [d1])
  | [] => d1 <- append_move {| md_moves := []; md_ended := false |} m ;; Ok [d1]
  end.

(** lines 122-125. *)
Fixpoint read_moves (n : nat) (s : bytes) (gs : list move_data) : res (list move_data * bytes) :=
  match n with
  | 0%nat => Ok (gs, s)
  | S k =>
      '(b, s) <- take_exact packed_move_size s ;;
      gs <- entry_append gs (packed_move_of b) ;;
      read_moves k s gs
  end.

(** lines 105-127. *)
Definition packed_read_entry (s : bytes) : res (packed_entry * bytes) :=
  '(head, s) <- take_exact packed_head_size s ;;
  let ehead := packed_head_of head in
  let n := Z.to_nat (ph_init ehead) in
  '(pos, s) <- take_exact (2 * n) s ;;
  r <- rule_of (ph_rule ehead) ;;
  res <- result_of (ph_result ehead) ;;
  '(gs, s) <- read_moves (Z.to_nat (ph_count ehead)) s [] ;;
  Ok ({| pe_boardsize := ph_boardsize ehead; pe_rule := r; pe_result := res; pe_total := ph_total ehead;
         pe_tag := ph_tag ehead; pe_init := map move_of (u16s n pos); pe_moves := gs |}, s).

Definition packed_payload (h : packed_head) : nat :=
  2 * Z.to_nat (ph_init h) + packed_move_size * Z.to_nat (ph_count h).

(** lines 144-153. *)
Definition packed_read_raw (s : bytes) : res (bytes * bytes) :=
  '(header, s) <- take_exact packed_head_size s ;;
  '(payload, s) <- take_exact (packed_payload (packed_head_of header)) s ;;
  Ok (header ++ payload, s).

(** lines 156-161. *)
Definition packed_decode (raw : bytes) : res packed_entry :=
  '(e, rest) <- packed_read_entry raw ;;
  guard (match rest with [] => true | _ => false end) else RuntimeError ;; Ok e.

(** lines 176-190: the loop of raw_entry_metadata; [b] are the bytes from the offset on. *)
Fixpoint count_groups (n : nat) (b : bytes) (count : Z) (ended : bool) : res Z :=
  match n with
  | 0%nat => Ok count
  | S k =>
      let m := packed_move_of (firstn packed_move_size b) in
      '(count, ended) <- (if ended then guard pm_first m else RuntimeError ;; Ok (count + 1, false)
                          else Ok (count, ended)) ;;
      let ended := if pm_last m then true else ended in
      count_groups k (skipn packed_move_size b) count ended
  end.

(** lines 164-190. *)
Definition packed_metadata (raw : bytes) : res (Z * rule * Z) :=
  guard (packed_head_size <=? List.length raw)%nat else RuntimeError ;;
  let h := packed_head_of raw in
  guard (List.length raw =? packed_head_size + packed_payload h)%nat else RuntimeError ;;
  count <- count_groups (Z.to_nat (ph_count h)) (skipn (packed_head_size + 2 * Z.to_nat (ph_init h)) raw) 0 true ;;
  r <- rule_of (ph_rule h) ;;
  Ok (ph_boardsize h, r, count).

(** lines 300-308 and the source built at 331-350. *)
Definition packed_format (id : bytes) (rules : list rule) (sizes : list (Z * Z)) (fixed : option (Z * Z)) : seq_format :=
  {| f_id := id;
     f_read := fun s => '(raw, _) <- packed_read_raw s ;; Ok (List.length raw);
     f_decode := fun raw => _ <- packed_decode raw ;; Ok tt;
     f_shape := fun raw => '(bs, r, _) <- packed_metadata raw ;; Ok (accepted rules sizes fixed bs r);
     f_count := Some (fun raw => '(_, _, n) <- packed_metadata raw ;; Ok n) |}.
