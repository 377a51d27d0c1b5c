(** What a reader of an exported feature table relies on. *)
From Verif Require Import Base LineEncodingSpec.
Set Implicit Arguments. Unset Strict Implicit.

Definition cells (line : list Z) : Prop := Forall (fun v => 0 <= v <= 2) line.

(** The mapping gives one feature per cell, and the feature of a cell depends only on the h cells to
    either side, where the end of the line is seen as a wall. *)
Definition one_per_cell (F : Type) (mapping : list Z -> list F) : Prop :=
  forall line, List.length (mapping line) = List.length line.
Definition local (F : Type) (h : nat) (mapping : list Z -> list F) : Prop :=
  forall line line' (x x' : nat) f f', cells line -> cells line' ->
    line_window line h (Z.of_nat x) = line_window line' h (Z.of_nat x') ->
    nth_error (mapping line) x = Some f -> nth_error (mapping line') x' = Some f' -> f = f'.

(** The contents of a table of [size] entries after these writes, in any order, on [blank]. *)
Definition filled (F : Type) (size : Z) (writes : list (Z * F)) (blank : F) (table : Z -> F) : Prop :=
  (forall k f, In (k, f) writes -> 0 <= k < size) /\
  forall k, In (k, table k) writes \/ ((forall f, ~ In (k, f) writes) /\ table k = blank).

(** The numbering of windows the engine uses for mix6-mix8: base-3 digits, least significant first,
    the walls on the left spelled 1..10 and those on the right 01..1, and which sides have walls in
    the number above the digits. *)
Fixpoint value3 (digits : list Z) : Z := match digits with [] => 0 | d :: r => d + 3 * value3 r end.
Definition shape_number (h l : nat) (line : list Z) (r : nat) : Z :=
  let lft := match l with O => [] | S m => repeat 1 m ++ [0] end in
  let rgt := match r with O => [] | S m => 0 :: repeat 1 m end in
  let sides := match l, r with O, O => 0 | O, _ => 1 | _, O => 2 | _, _ => 3 end in
  value3 (lft ++ line ++ rgt) + sides * 3 ^ (2 * Z.of_nat h + 1).
(** The walls seen from position x of a line of n cells, and the cells seen. *)
Definition walls_left (h x : nat) : nat := h - x.
Definition walls_right (h n x : nat) : nat := h - (n - 1 - x).
Definition seen (h : nat) (line : list Z) (x : nat) : list Z :=
  firstn (x + h + 1 - (x - h)) (skipn (x - h) line).

(** Reading the compressed stream: the i-th field of [bits] bits of the number the bytes spell, lowest byte first,
    with a sign. *)
Fixpoint spelled (stream : list Z) : Z := match stream with [] => 0 | b :: r => b + 256 * spelled r end.
Definition field (bits : Z) (stream : list Z) (i : Z) : Z :=
  let u := (spelled stream / 2 ^ (bits * i)) mod 2 ^ bits in
  if u <? 2 ^ (bits - 1) then u else u - 2 ^ bits.
