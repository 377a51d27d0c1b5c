(** Exported feature tables of the mixnet models: model/serialization/mixnet.py lines 13-20
    ([generate_base3_permutation]), 90-123 / 478-513 / 891-919 / 1559-1584 / 2155-2182 / 2450-2475
    ([_export_map_table]), 125-149 / 513-540 / 921-948 (mix6, mix7, mix8: [_export_feature_map]) and
    1586-1607 / 2205-2217 / 2477-2499 (mix9, mix9s, mix10, mix9svq).

    The learned mapping is a function from a line (a row of cells 0, 1, 2) to one feature vector per cell; the
    rows of a batch of lines do not influence each other (the exported direction is horizontal).  Numbers
    are unbounded (with the line length 11 of the code every index is below 2^20).  A table is described by the
    writes to it; which of several writes to one entry wins is left open.  Not modelled: scaling and
    overflow checks of mix6-mix8. *)
From Verif Require Import Base Rng LineEncoding.
Set Implicit Arguments. Unset Strict Implicit.

(** lines 13-20 *)
Fixpoint grow (x : list (list Z)) (todo i : nat) : list (list Z) :=
  match todo with
  | O => x
  | S m => grow (x ++ map (fun row => upd row i 1) x ++ map (fun row => upd row i 2) x) m (S i)
  end.
Definition base3 (length : nat) : list (list Z) := grow [repeat 0 length] length 0.

Section Mapping.
Variable F : Type.
(** One feature vector per cell of the line. *)
Variable mapping : list Z -> list F.

(** [_export_map_table]: the lines in batches, the results concatenated *)
Definition cut (A : Type) (l : list A) (start stop : nat) : list A := firstn (stop - start) (skipn start l).
Definition map_table (batch_size : nat) (lines : list (list Z)) : list (list F) :=
  let N := List.length lines in
  let batch_num := (1 + (N - 1) / batch_size)%nat in
  flat_map (fun i => map mapping (cut lines (i * batch_size) (Nat.min ((i + 1) * batch_size) N))) (seq 0 batch_num).

(** numpy's matmul of a row with a column of powers *)
Definition dot (xs ys : list Z) : res Z :=
  guard (List.length xs =? List.length ys)%nat else ValueError ;;
  Ok (zsum (map (fun p => fst p * snd p) (combine xs ys))).
Definition pow3s (L : nat) : list Z := map (fun k => 3 ^ Z.of_nat k) (seq 0 (L + 1)).

(** mix6, mix7, mix8: one loop body; [cells] selects the columns, [weights] and [offset] make the index,
    [column] is the cell whose feature is stored.  feature_map has 4 * 3**L rows. *)
Definition stores (L : nat) (cells : list Z -> list Z) (weights : list Z) (offset : Z) (column : nat)
    (lines : list (list Z)) (table : list (list F)) : res (list (Z * F)) :=
  mapM (fun '(line, row) =>
    d <- dot (cells line) weights ;;
    let idx := d + offset in
    guard (0 <=? idx) && (idx <? 4 * 3 ^ Z.of_nat L) else IndexError ;;
    f <- py_get row column ;;
    Ok (idx, f)) (combine lines table).
Definition mixed_feature_map (batch_size L : nat) : res (list (Z * F)) :=
  let lines := base3 L in
  let table := map_table batch_size lines in
  let pow3 := pow3s L in
  let half := (L / 2)%nat in
  let borders := seq 1 ((L + 1) / 2 - 1) in
  right <- mapM (fun r =>
      stores L (skipn r) (firstn (L - r) pow3) (zsum (skipn (L + 1 - r) pow3)) (half + r) lines table)
    (seq 0 ((L + 1) / 2)) ;;
  lft <- mapM (fun l =>
      stores L (firstn (L - l)) (cut pow3 l L) (2 * 3 ^ Z.of_nat L + zsum (firstn (l - 1) pow3)) (half - l) lines table)
    borders ;;
  both <- mapM (fun l => mapM (fun r =>
      let lines := base3 (L - l - r) in
      let table := map_table batch_size lines in
      stores L (fun x => x) (cut pow3 l (L - r))
        (3 * 3 ^ Z.of_nat L + zsum (firstn (l - 1) pow3) + zsum (cut pow3 (L + 1 - r) L)) (half - l) lines table)
    borders) borders ;;
  Ok (List.concat right ++ List.concat lft ++ List.concat (map (@List.concat _) both)).

(** mix9, mix9s, mix10, mix9svq: lines of every length from L down to 1, their line encodings as
    indices *)
Definition pairs (idxs : list Z) (row : list F) (total : Z) : res (list (Z * F)) :=
  guard (List.length idxs =? List.length row)%nat else IndexError ;;
  guard forallb (fun k => (0 <=? k) && (k <? total)) idxs else IndexError ;;
  Ok (combine idxs row).
Definition encoded_feature_map (batch_size L : nat) : res (Z * list (Z * F)) :=
  total <- get_total_num_encoding (Z.of_nat L) ;;
  writes <- mapM (fun l =>
      let lines := base3 l in
      idxs <- transform_lines lines l (Z.of_nat L) ;;
      let table := map_table batch_size lines in
      ws <- mapM (fun '(i, row) => pairs i row total) (combine idxs table) ;;
      Ok (List.concat ws)) (rev (seq 1 L)) ;;
  Ok (total, List.concat writes).
End Mapping.

(** ** Quantisation and the compressed stream: lines 1610-1612, 2190-2194 and 1894-1914 / 2653-2673 *)
(** [np.around(x * 32)] of a finite float x = n / d (d > 0): rounding to nearest, ties to even.  Multiplying by 32 is
    exact in binary floating point. *)
Definition around (n d : Z) : Z :=
  let q := n / d in
  let r := n mod d in
  if 2 * r <? d then q else if d <? 2 * r then q + 1 else if Z.even q then q else q + 1.
(** [np.clip(x, -16, 511/32)] and [np.around(. * 32)] *)
Definition quantised (n d : Z) : Z :=
  let n32 := 32 * n in (* 32 * x = n32 / d *)
  if n32 <? -512 * d then around (-512) 1
  else if 511 * d <? n32 then around 511 1
  else around n32 d.

(** uint64 shifts of numpy: shifting by 64 or more gives 0 *)
Definition shl64 (v s : Z) : Z := if s <? 64 then (v * 2 ^ s) mod 2 ^ 64 else 0.
Definition shr64 (v s : Z) : Z := if s <? 64 then v / 2 ^ s else 0.
(** lines 1894-1914, [write_feature_map_compressed]: the words, then their bytes ([tobytes], on a little-endian machine) *)
Fixpoint compress (bits : Z) (values : list Z) (acc used : Z) : list Z :=
  match values with
  | [] => if 0 <? used then [acc] else []
  | x :: rest =>
      let v := Z.land (x mod 2 ^ 64) (2 ^ bits - 1) in
      let acc := Z.lor acc (shl64 v used) in
      if bits <=? 64 - used then compress bits rest acc (used + bits)
      else acc :: compress bits rest (shr64 v (64 - used)) (bits - (64 - used))
  end.
Definition write_feature_map_compressed (bits : Z) (values : list Z) : bytes := flat_map (le_bytes 8) (compress bits values 0 0).
