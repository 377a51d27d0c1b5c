(** Vocabulary for the line-encoding properties: the contents of a board point, the window of
    cells around a point in one of four directions, and the windows that can occur at all. *)
From Verif Require Import Base.
Set Implicit Arguments.
Unset Strict Implicit.

Inductive point := Wall | Mine | Theirs | Vacant.

(** The board is the flat array of shape [2, H, W]: stones of the side to move, then of the
    opponent.  Outside the board everything is wall. *)
Definition point_at (board : list Z) (H W : nat) (x y : Z) : point :=
  if (0 <=? x) && (x <? Z.of_nat W) && (0 <=? y) && (y <? Z.of_nat H) then
    if negb (nth (Z.to_nat (y * Z.of_nat W + x)) board 0 =? 0) then Mine
    else if negb (nth (Z.to_nat (Z.of_nat H * Z.of_nat W + y * Z.of_nat W + x)) board 0 =? 0) then Theirs
    else Vacant
  else Wall.

(** The four directions in the order of the output array: right, down, up-right, down-right. *)
Definition directions : list (Z * Z) := [(1, 0); (0, 1); (1, -1); (1, 1)].

(** The 2h+1 cells centred on (x, y) in direction [d]. *)
Definition window (at_ : Z -> Z -> point) (h : nat) (x y : Z) (d : Z * Z) : list point :=
  map (fun k => at_ (x + (Z.of_nat k - Z.of_nat h) * fst d) (y + (Z.of_nat k - Z.of_nat h) * snd d))
      (seq 0 (2 * h + 1)).

(** A window that can occur: walls only at the two ends, never at the centre. *)
Definition legal (h : nat) (w : list point) : Prop :=
  exists ld vis rd, w = repeat Wall ld ++ vis ++ repeat Wall rd /\ (ld <= h)%nat /\ (rd <= h)%nat
    /\ List.length w = (2 * h + 1)%nat /\ ~ List.In Wall vis.

(** The raw code: two bits per cell, the first cell of the window in the lowest bits. *)
Definition bits (p : point) : Z := match p with Wall => 0 | Mine => 1 | Theirs => 2 | Vacant => 3 end.
Fixpoint raw_code (w : list point) : Z :=
  match w with [] => 0 | p :: t => bits p + 4 * raw_code t end.

(** A single line of cells with values 0 (empty), 1 (own), 2 (opponent). *)
Definition line_at (line : list Z) (x : Z) : point :=
  if (0 <=? x) && (x <? zlen line) then
    if nth (Z.to_nat x) line 0 =? 1 then Mine else if nth (Z.to_nat x) line 0 =? 2 then Theirs else Vacant
  else Wall.
Definition line_window (line : list Z) (h : nat) (x : Z) : list point :=
  map (fun k => line_at line (x + (Z.of_nat k - Z.of_nat h))) (seq 0 (2 * h + 1)).
