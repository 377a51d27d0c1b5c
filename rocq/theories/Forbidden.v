(** Model of dataset/pipeline/forbidden_point_cpp/{board.h,board.cpp,forbidden_point.cpp} and of
    dataset/pipeline/forbidden_point.py: the Renju forbidden points of a board.
    The Board object is the list of its 1024 colours and is passed through every function, because
    the checks place a stone, look, and take it back.  An access outside the array is
    [Err IndexError] (in C++: undefined), a failed assert is [Err AssertionError].  Loops take
    their number of iterations; the recursion isDoubleThree -> isOpenThree -> isDoubleThree takes
    fuel.  Not modelled: the checks on dtype and layout of the output array. *)
From Verif Require Import Base.
Set Implicit Arguments.
Unset Strict Implicit.

(** board.h:7-14. *)
Inductive color := BLACK | WHITE | EMPTY | WALL.
Definition color_eqb (a b : color) : bool :=
  match a, b with BLACK, BLACK | WHITE, WHITE | EMPTY, EMPTY | WALL, WALL => true | _, _ => false end.
(** board.h:18-24. *)
Inductive forbidden_type := FORBIDDEN_NONE | DOUBLE_THREE | DOUBLE_FOUR | OVERLINE.
(** board.h:72-77. *)
Inductive open_four_type := OF_NONE | OF_TRUE | OF_LONG.

(** board.h:26 Pos is uint16_t. *)
Definition u16 (z : Z) : Z := z mod 2 ^ 16.
(** board.h:28-33 MakePos. *)
Definition make_pos (x y : Z) : Z := u16 (Z.shiftl (x + 5) 5 + (y + 5)).
(** board.h:35-43. *)
Definition coord_x (pos : Z) : Z := Z.shiftr pos 5 - 5.
Definition coord_y (pos : Z) : Z := Z.land pos 31 - 5.

(** board.cpp:3-7. *)
Definition DIRECTION : list Z := [1; 32 - 1; 32; 32 + 1].
Definition direction (iDir : nat) : res Z := py_get DIRECTION iDir.

(** board[pos] *)
Definition cell (b : list color) (pos : Z) : res color :=
  guard 0 <=? pos else IndexError ;; py_get b (Z.to_nat pos).
(** board.h:58-63 set. *)
Definition set_cell (b : list color) (pos : Z) (c : color) : res (list color) :=
  guard pos <? 1024 else AssertionError ;;
  old <- cell b pos ;;
  guard negb (color_eqb old WALL) else AssertionError ;;
  py_set b (Z.to_nat pos) c.

(** board.cpp:9-16. *)
Definition new_board (width height : Z) : list color :=
  map (fun n => let pos := Z.of_nat n in
                let x := coord_x pos in let y := coord_y pos in
                if (0 <=? x) && (x <? width) && (0 <=? y) && (y <? height) then EMPTY else WALL)
      (seq 0 1024).

(** board.cpp:49-56, 57-63 (and 76-89): for (; n iterations left; i++) if (board[at(i)] == piece)
    count++ else break; the loop variable is returned. *)
Fixpoint count_loop (n : nat) (b : list color) (piece : color) (at_ : Z -> Z) (i count : Z) : res (Z * Z) :=
  match n with
  | O => Ok (i, count)
  | S m => c <- cell b (at_ i) ;;
           if color_eqb c piece then count_loop m b piece at_ (i + 1) (count + 1) else Ok (i, count)
  end.
(** The common part of isFive and isOverline: the stones in a row through pos, at most 6. *)
Definition row_count (b : list color) (pos : Z) (piece : color) (dir : Z) : res Z :=
  '(i, count) <- count_loop 5 b piece (fun i => pos - dir * i) 1 1 ;;
  '(_, count) <- count_loop (Z.to_nat (7 - i - 1)) b piece (fun j => pos + dir * j) 1 count ;;
  Ok count.

(** board.cpp:43-64 isFive(pos, piece, iDir). *)
Definition is_five_dir (b : list color) (pos : Z) (piece : color) (iDir : nat) : res bool :=
  c <- cell b pos ;;
  if negb (color_eqb c EMPTY) then Ok false
  else dir <- direction iDir ;; count <- row_count b pos piece dir ;; Ok (count =? 5).
(** board.cpp:30-41 isFive(pos, piece). *)
Fixpoint five_dirs (b : list color) (pos : Z) (piece : color) (dirs : list nat) : res bool :=
  match dirs with
  | [] => Ok false
  | d :: rest => f <- is_five_dir b pos piece d ;; if f then Ok true else five_dirs b pos piece rest
  end.
Definition is_five (b : list color) (pos : Z) (piece : color) : res bool :=
  c <- cell b pos ;;
  if negb (color_eqb c EMPTY) then Ok false else five_dirs b pos piece [0; 1; 2; 3]%nat.
(** board.cpp:66-93 isOverline. *)
Fixpoint overline_dirs (b : list color) (pos : Z) (piece : color) (dirs : list Z) : res bool :=
  match dirs with
  | [] => Ok false
  | dir :: rest => count <- row_count b pos piece dir ;; if 5 <? count then Ok true else overline_dirs b pos piece rest
  end.
Definition is_overline (b : list color) (pos : Z) (piece : color) : res bool :=
  c <- cell b pos ;;
  if negb (color_eqb c EMPTY) then Ok false else overline_dirs b pos piece DIRECTION.

(** The tests at the head of isFour, isOpenFour and isOpenThree (95-105, 138-146, 183-191): is
    there anything to look at? *)
Definition playable (b : list color) (pos : Z) (piece : color) : res bool :=
  c <- cell b pos ;;
  if negb (color_eqb c EMPTY) then Ok false
  else
    f <- is_five b pos piece ;;
    if (f : bool) then Ok false
    else
      o <- (if color_eqb piece BLACK then is_overline b pos BLACK else Ok false) ;;
      if (o : bool) then Ok false
      else Ok (color_eqb piece BLACK || color_eqb piece WHITE).

(** board.cpp:109-127, 196-215: walk over own stones; at the first other cell stop, and if it is
    empty apply [test] to it. Returns the loop variable, the outcome and the board. *)
Fixpoint seek (n : nat) (b : list color) (piece : color) (at_ : Z -> Z) (i : Z)
    (test : list color -> Z -> res (bool * list color)) : res (Z * bool * list color) :=
  match n with
  | O => Ok (i, false, b)
  | S m =>
      let posi := u16 (at_ i) in
      c <- cell b posi ;;
      if color_eqb c piece then seek m b piece at_ (i + 1) test
      else if color_eqb c EMPTY then '(hit, b1) <- test b posi ;; Ok (i, hit, b1)
      else Ok (i, false, b)
  end.

(** board.cpp:110-127, 198-215: first in the negative direction, and if that finds nothing in the
    positive one. *)
Definition seek_both (b : list color) (piece : color) (pos dir : Z)
    (test : list color -> Z -> res (bool * list color)) : res (bool * list color) :=
  '(i, hit, b1) <- seek 4 b piece (fun i => pos - dir * i) 1 test ;;
  if (hit : bool) then Ok (true, b1)
  else '(_, hit, b2) <- seek (Z.to_nat (6 - i - 1)) b1 piece (fun j => pos + dir * j) 1 test ;; Ok (hit, b2).

(** board.cpp:95-136 isFour. *)
Definition is_four (b : list color) (pos : Z) (piece : color) (iDir : nat) : res (bool * list color) :=
  ok <- playable b pos piece ;;
  if negb ok then Ok (false, b)
  else
    dir <- direction iDir ;;
    b1 <- set_cell b pos piece ;;
    let test := fun b' posi => f <- is_five_dir b' posi piece iDir ;; Ok (f, b') in
    '(four, b2) <- seek_both b1 piece pos dir test ;;
    b3 <- set_cell b2 pos EMPTY ;;
    Ok (four, b3).

(** board.cpp:151-178: the loops of isOpenFour, which also count. *)
Fixpoint seek_count (n : nat) (b : list color) (piece : color) (iDir : nat) (at_ : Z -> Z) (i count five : Z)
    : res (Z * Z * Z) :=
  match n with
  | O => Ok (i, count, five)
  | S m =>
      let posi := u16 (at_ i) in
      c <- cell b posi ;;
      if color_eqb c piece then seek_count m b piece iDir at_ (i + 1) (count + 1) five
      else if color_eqb c EMPTY then
        f <- is_five_dir b posi piece iDir ;; Ok (i, count, five + (if f then 1 else 0))
      else Ok (i, count, five)
  end.
(** board.cpp:138-181 isOpenFour. *)
Definition is_open_four (b : list color) (pos : Z) (piece : color) (iDir : nat) : res (open_four_type * list color) :=
  ok <- playable b pos piece ;;
  if negb ok then Ok (OF_NONE, b)
  else
    dir <- direction iDir ;;
    b1 <- set_cell b pos piece ;;
    '(i, count, five) <- seek_count 4 b1 piece iDir (fun i => pos - dir * i) 1 1 0 ;;
    '(_, count, five) <- (if negb (five =? 0)
                          then seek_count (Z.to_nat (6 - i - 1)) b1 piece iDir (fun j => pos + dir * j) 1 count five
                          else Ok (i, count, five)) ;;
    b2 <- set_cell b1 pos EMPTY ;;
    Ok (if five =? 2 then (if count =? 4 then OF_TRUE else OF_LONG) else OF_NONE, b2).

(** board.cpp:223-243 isDoubleFour. *)
Fixpoint count_fours (b : list color) (pos : Z) (piece : color) (dirs : list nat) (nFour : Z) : res (bool * list color) :=
  match dirs with
  | [] => Ok (false, b)
  | d :: rest =>
      '(t, b1) <- is_open_four b pos piece d ;;
      '(n, b2) <- (match t with
                   | OF_LONG => Ok (nFour + 2, b1)
                   | _ => '(f, b2) <- is_four b1 pos piece d ;; Ok (nFour + (if f then 1 else 0), b2)
                   end) ;;
      if 2 <=? n then Ok (true, b2) else count_fours b2 pos piece rest n
  end.
Definition is_double_four (b : list color) (pos : Z) (piece : color) : res (bool * list color) :=
  c <- cell b pos ;;
  if negb (color_eqb c EMPTY) then Ok (false, b)
  else f <- is_five b pos piece ;;
       if (f : bool) then Ok (false, b) else count_fours b pos piece [0; 1; 2; 3]%nat 0.

(** board.cpp:183-221 isOpenThree; [double_three] is the recursive call. *)
Definition is_open_three (double_three : list color -> Z -> res (bool * list color))
    (b : list color) (pos : Z) (piece : color) (iDir : nat) : res (bool * list color) :=
  ok <- playable b pos piece ;;
  if negb ok then Ok (false, b)
  else
    dir <- direction iDir ;;
    b1 <- set_cell b pos piece ;;
    let test := fun b' posi =>
      '(t, b2) <- is_open_four b' posi piece iDir ;;
      match t with
      | OF_TRUE =>
          '(df, b3) <- is_double_four b2 posi piece ;;
          if (df : bool) then Ok (false, b3)
          else '(dt, b4) <- double_three b3 posi ;; Ok (negb dt, b4)
      | _ => Ok (false, b2)
      end in
    '(three, b2) <- seek_both b1 piece pos dir test ;;
    b3 <- set_cell b2 pos EMPTY ;;
    Ok (three, b3).
(** board.cpp:245-263 isDoubleThree. *)
Fixpoint count_threes (three : list color -> nat -> res (bool * list color)) (b : list color) (dirs : list nat) (nThree : Z)
    : res (bool * list color) :=
  match dirs with
  | [] => Ok (false, b)
  | d :: rest =>
      '(t, b1) <- three b d ;;
      let n := nThree + (if t then 1 else 0) in
      if 2 <=? n then Ok (true, b1) else count_threes three b1 rest n
  end.
Fixpoint is_double_three (fuel : nat) (b : list color) (pos : Z) (piece : color) : res (bool * list color) :=
  match fuel with
  | O => Err OutOfFuel
  | S fuel' =>
      c <- cell b pos ;;
      if negb (color_eqb c EMPTY) then Ok (false, b)
      else f <- is_five b pos piece ;;
           if (f : bool) then Ok (false, b)
           else count_threes (fun b' d => is_open_three (fun b'' q => is_double_three fuel' b'' q piece) b' pos piece d)
                  b [0; 1; 2; 3]%nat 0
  end.

(** board.cpp:18-28 isForbidden. *)
Definition is_forbidden (fuel : nat) (b : list color) (pos : Z) : res (forbidden_type * list color) :=
  '(dt, b1) <- is_double_three fuel b pos BLACK ;;
  if (dt : bool) then Ok (DOUBLE_THREE, b1)
  else
    '(df, b2) <- is_double_four b1 pos BLACK ;;
    if (df : bool) then Ok (DOUBLE_FOUR, b2)
    else
      o <- is_overline b2 pos BLACK ;;
      if (o : bool) then Ok (OVERLINE, b2) else Ok (FORBIDDEN_NONE, b2).

(** forbidden_point.cpp:44-57: placing the stones, row by row. *)
Definition z_at (l : list Z) (i : Z) : res Z := guard 0 <=? i else IndexError ;; py_get l (Z.to_nat i).
Fixpoint place (board : list Z) (H W : Z) (todo : list (Z * Z)) (b : list color) : res (list color) :=
  match todo with
  | [] => Ok b
  | (y, x) :: rest =>
      s <- z_at board (y * W + x) ;;
      o <- z_at board (H * W + y * W + x) ;;
      let c := if negb (s =? 0) then BLACK else if negb (o =? 0) then WHITE else EMPTY in
      b1 <- (if color_eqb c EMPTY then Ok b else set_cell b (make_pos x y) c) ;;
      place board H W rest b1
  end.
(** 59-61: the flags, row by row. *)
Fixpoint flags (fuel : nat) (b : list color) (todo : list (Z * Z)) : res (list Z) :=
  match todo with
  | [] => Ok []
  | (y, x) :: rest =>
      '(t, b1) <- is_forbidden fuel b (make_pos x y) ;;
      fs <- flags fuel b1 rest ;;
      Ok ((match t with FORBIDDEN_NONE => 0 | _ => 1 end) :: fs)
  end.
Definition points (H W : nat) : list (Z * Z) :=
  flat_map (fun y => map (fun x => (Z.of_nat y, Z.of_nat x)) (seq 0 W)) (seq 0 H).
(** forbidden_point.cpp:24-61 transform_board_to_forbidden_point on the flat [2, H, W] array. *)
Definition transform_board_to_forbidden_point (fuel : nat) (board : list Z) (H W : nat) : res (list Z) :=
  guard negb ((22 <? Z.of_nat H) || (22 <? Z.of_nat W)) else ValueError ;;
  b <- place board (Z.of_nat H) (Z.of_nat W) (points H W) (new_board (Z.of_nat W) (Z.of_nat H)) ;;
  flags fuel b (points H W).

(** forbidden_point.py:24-47 process: [stm_negative] is stm_input < 0; np.flip(axis=0) exchanges the
    two channels. *)
Definition process (fuel : nat) (fixed_side_input stm_negative : bool) (board : list Z) (H W : nat) : res (list Z) :=
  let n := (H * W)%nat in
  let board' := if fixed_side_input || stm_negative then board else skipn n board ++ firstn n board in
  transform_board_to_forbidden_point fuel board' H W.
(** 49-62 process_batch: one sample after the other. *)
Definition process_batch (fuel : nat) (fixed_side_input : bool) (samples : list (bool * list Z)) (H W : nat) : res (list (list Z)) :=
  mapM (fun s => process fuel fixed_side_input (fst s) (snd s) H W) samples.
