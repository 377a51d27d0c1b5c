(** The Renju rules used by the forbidden-point flags, stated on an unbounded plane of points
    (what is not on the board is WALL).  Nothing here refers to the program. *)
From Verif Require Import Base Forbidden.
Set Implicit Arguments.
Unset Strict Implicit.

Definition plane := Z -> Z -> color.
Definition look (b : plane) (p : Z * Z) : color := b (fst p) (snd p).
(** The k-th point from p in direction d. *)
Definition along (p d : Z * Z) (k : Z) : Z * Z := (fst p + k * fst d, snd p + k * snd d).
(** A black stone is put on p. *)
Definition put (b : plane) (p : Z * Z) : plane :=
  fun x y => if (x =? fst p) && (y =? snd p) then BLACK else b x y.
Definition lines : list (Z * Z) := [(0, 1); (1, -1); (1, 0); (1, 1)].

(** The n points from offset a on are black. *)
Definition black_row (b : plane) (p d : Z * Z) (a n : Z) : Prop :=
  forall k, a <= k < a + n -> look b (along p d k) = BLACK.
(** ... and the row is not longer than that. *)
Definition exact_row (b : plane) (p d : Z * Z) (a n : Z) : Prop :=
  black_row b p d a n /\ look b (along p d (a - 1)) <> BLACK /\ look b (along p d (a + n)) <> BLACK.

(** Black at p makes a row of exactly five in direction d / in some direction. *)
Definition five_on (b : plane) (p d : Z * Z) : Prop := exists a, a <= 0 < a + 5 /\ exact_row (put b p) p d a 5.
Definition five (b : plane) (p : Z * Z) : Prop := exists d, In d lines /\ five_on b p d.
(** Black at p makes six or more in a row. *)
Definition overline (b : plane) (p : Z * Z) : Prop :=
  exists d a, In d lines /\ a <= 0 < a + 6 /\ black_row (put b p) p d a 6.

(** After black at p, black at the empty point with offset k makes a row of exactly five
    containing p. *)
Definition completes (b : plane) (p d : Z * Z) (k : Z) : Prop :=
  let b1 := put b p in
  let q := along p d k in
  look b1 q = EMPTY /\ exists a, a <= 0 < a + 5 /\ a <= k < a + 5 /\ exact_row (put b1 q) p d a 5.
Definition four (b : plane) (p d : Z * Z) : Prop := exists k, completes b p d k.
(** Black at p makes a straight four: four in a row, both ends empty, and either end gives five. *)
Definition straight_four_at (b : plane) (p d : Z * Z) (a : Z) : Prop :=
  let b1 := put b p in
  a <= 0 < a + 4 /\ black_row b1 p d a 4
  /\ look b1 (along p d (a - 1)) = EMPTY /\ look b1 (along p d (a + 4)) = EMPTY
  /\ look b1 (along p d (a - 2)) <> BLACK /\ look b1 (along p d (a + 5)) <> BLACK.
Definition straight_four (b : plane) (p d : Z * Z) : Prop := exists a, straight_four_at b p d a.
(** Two fours on one line. *)
Definition two_fours_on (b : plane) (p d : Z * Z) : Prop :=
  (exists k1 k2, k1 <> k2 /\ completes b p d k1 /\ completes b p d k2) /\ ~ straight_four b p d.

(** Black may look at p: it is empty and gives neither five nor overline. *)
Definition quiet (b : plane) (p : Z * Z) : Prop := look b p = EMPTY /\ ~ five b p /\ ~ overline b p.

Definition double_four (b : plane) (p : Z * Z) : Prop :=
  quiet b p /\
  ((exists d1 d2, d1 <> d2 /\ In d1 lines /\ In d2 lines /\ four b p d1 /\ four b p d2)
   \/ exists d, In d lines /\ two_fours_on b p d).

(** Black at p makes a three in direction d: a further stone q on the line makes a straight four
    containing p, without five or overline, and q is no double four and, recursively (D), no double
    three. *)
Definition three (D : plane -> Z * Z -> Prop) (b : plane) (p d : Z * Z) : Prop :=
  let b1 := put b p in
  exists k a, let q := along p d k in
    quiet b1 q /\ straight_four_at b1 q d a /\ a <= - k < a + 4
    /\ ~ double_four b1 q /\ ~ D b1 q.
Definition double_three_rule (D : plane -> Z * Z -> Prop) (b : plane) (p : Z * Z) : Prop :=
  quiet b p /\ exists d1 d2, d1 <> d2 /\ In d1 lines /\ In d2 lines /\ three D b p d1 /\ three D b p d2.

(** D is the double-three predicate if it obeys the recursive rule on all boards with finitely
    many empty points. *)
Definition finite (b : plane) : Prop := exists l, forall p, look b p = EMPTY -> In p l.
Definition is_double_three_predicate (D : plane -> Z * Z -> Prop) : Prop :=
  forall b, finite b -> forall p, D b p <-> double_three_rule D b p.

Definition forbidden (D : plane -> Z * Z -> Prop) (b : plane) (p : Z * Z) : Prop :=
  look b p = EMPTY /\ (D b p \/ double_four b p \/ overline b p).

(** The plane of a flat [2, H, W] array of black and white stones. *)
Definition stones (board : list Z) (H W : nat) : plane :=
  fun x y =>
    if (0 <=? x) && (x <? Z.of_nat W) && (0 <=? y) && (y <? Z.of_nat H) then
      if negb (nth (Z.to_nat (y * Z.of_nat W + x)) board 0 =? 0) then BLACK
      else if negb (nth (Z.to_nat (Z.of_nat H * Z.of_nat W + y * Z.of_nat W + x)) board 0 =? 0) then WHITE
      else EMPTY
    else WALL.
