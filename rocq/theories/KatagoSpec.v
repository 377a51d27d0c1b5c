(** Specification vocabulary for C62 and C63: files as lists of samples. *)
From Verif Require Import Base Katago.
Set Implicit Arguments. Unset Strict Implicit.

(** ** Raw files *)
Section Raw.
Variable V : Type.
Variables (is : Z -> V -> bool) (positive negative : V -> bool) (one minus_one : V).
Variable normalise : list V -> list V.
Variable opt : options V.
(** One position: bit planes (0: on board, 1: own stones, 2: opponent's stones), global features, targets, policies. *)
Record sample := { s_planes : list (list Z); s_global : list V; s_target : list V; s_policy : list (list V) }.
(** A file of boards stored in n x n bits, with g global features. *)
Record format := { side : nat; g : nat; t : nat }.
Definition bytes_for (n : nat) : nat := ((n * n + 7) / 8)%nat.
Definition file_of (fm : format) (rows : list sample) : raw V :=
  {| packed := map s_planes rows; n_bytes := Z.of_nat (bytes_for (side fm)); globals := map s_global rows; g_width := Z.of_nat (g fm);
     targets := map s_target rows; t_width := Z.of_nat (t fm); policies := map s_policy rows; n_cells := Z.of_nat (side fm) * Z.of_nat (side fm) + 1 |}.
Definition format_ok (fm : format) : Prop := (4 <= side fm)%nat /\ (g fm = 1%nat \/ (6 <= g fm)%nat) /\ (td_level opt * 4 + 3 <= t fm)%nat.
Definition sample_ok (fm : format) (s : sample) : Prop :=
  (3 <= List.length (s_planes s))%nat /\ Forall (fun p => List.length p = bytes_for (side fm)) (s_planes s)
  /\ List.length (s_global s) = g fm /\ List.length (s_target s) = t fm
  /\ (1 <= List.length (s_policy s))%nat /\ Forall (fun p => List.length p = side fm * side fm + 1)%nat (s_policy s).

(** What is in it: bit k of a plane, most significant bit first; cell (y, x) of an n x n board is bit y*n+x. *)
Definition bit (plane : list Z) (k : nat) : Z := Z.b2z (Z.testbit (nth (k / 8) plane 0) (7 - Z.of_nat (k mod 8))).
Definition plane (s : sample) (c : nat) : list Z := nth c (s_planes s) [].
Definition cell (n : nat) (s : sample) (c y x : nat) : Z := bit (plane s c) (y * n + x).
Definition grid A (n : nat) (f : nat -> nat -> A) : list (list A) := map (fun y => map (f y) (seq 0 n)) (seq 0 n).
Definition size (n : nat) (s : sample) : Z * Z := (zsum (map (fun y => cell n s 0 y 0) (seq 0 n)), zsum (map (fun x => cell n s 0 0 x) (seq 0 n))).
Definition board (n : nat) (s : sample) : list (list (list Z)) := [grid n (cell n s 1); grid n (cell n s 2)].
Definition komi (s : sample) : V := nth 5 (s_global s) one.
Definition stm (fm : format) (s : sample) : list V := [if (g fm =? 1)%nat then nth 0 (s_global s) one else if positive (komi s) then one else minus_one].
Definition value (s : sample) : list V := map (fun k => nth (td_level opt * 4 + k)%nat (s_target s) one) [0; 1; 2]%nat.
Definition policy (n : nat) (s : sample) : pol V :=
  let l := normalise (firstn (n * n + if has_pass opt then 1 else 0) (nth 0 (s_policy s) [])) in
  if has_pass opt then Flat l else Grid (grid n (fun y x => nth (y * n + x) l one)).
(** Which samples are wanted; [keep]: by the filter condition. *)
Definition wanted (keep : sample -> bool) (fm : format) (s : sample) : bool :=
  match filter_stm opt with
  | None => true
  | Some v => if (g fm =? 1)%nat then is v (nth 0 (s_global s) one) else if v =? 1 then positive (komi s) else negative (komi s)
  end && keep s && boardsizes opt (size (side fm) s).
Definition condition_is (keep : sample -> bool) : Prop :=
  match condition opt with None => forall s, keep s = true | Some c => forall fm rows, c (file_of fm rows) = Ok (map keep rows) end.
(** The columns of a data set that consists of these samples, each with the format of its file. *)
Definition dataset (rows : list (format * sample)) : cols V :=
  {| c_size := map (fun '(fm, s) => size (side fm) s) rows; c_board := map (fun '(fm, s) => board (side fm) s) rows; c_stm := map (fun '(fm, s) => stm fm s) rows;
     c_value := map (fun '(fm, s) => value s) rows; c_policy := map (fun '(fm, s) => policy (side fm) s) rows |}.
End Raw.

(** ** Processed files *)
Section Processed.
Variables B G V P : Type.
Variable side_is : Z -> G -> bool.
Variable size_of : B -> Z * Z.
Variable opt : poptions B G V P.
(** The rows of a file: row i of each of its arrays. *)
Definition file_rows (f : archive B G V P) : res (list (prow B G V P)) :=
  match a_bf f, a_vt f with
  | Some bf, Some vt => rows_of {| t_size := a_size f; t_bf := bf; t_gf := a_gf f; t_vt := vt; t_pt := a_pt f |}
  | _, _ => Err KeyError
  end.
(** The condition looks at one row at a time. *)
Definition rowwise (keep : prow B G V P -> bool) : Prop :=
  match p_condition opt with None => forall r, keep r = true | Some c => forall t rs, rows_of t = Ok rs -> c t = Ok (map keep rs) end.
(** A row is wanted for its side to move and by the condition. *)
Definition wanted_row (keep : prow B G V P -> bool) (r : prow B G V P) : bool :=
  match p_filter_stm opt, row_g r with None, _ => true | Some s, Some x => side_is s x | Some _, None => false end && keep r.
Definition wanted_file (f : archive B G V P) : bool := p_boardsizes opt (a_size f).
(** The selected channels of a row. *)
Definition channel_row (r : prow B G V P) : res (prow B G V P) :=
  b <- match board_input_channels opt with None => Ok (row_b r) | Some f => f (row_b r) end ;;
  g <- match stm_input_channel opt with None => Ok (row_g r) | Some f => match row_g r with None => Err ValueError | Some x => y <- f x ;; Ok (Some y) end end ;;
  v <- match value_target_channels opt with None => Ok (row_v r) | Some f => f (row_v r) end ;;
  Ok {| row_size := row_size r; row_b := b; row_g := g; row_v := v; row_p := row_p r |}.
(** All arrays of the file have as many rows as bf, and its rows have the file's board size. *)
Definition consistent (f : archive B G V P) : Prop :=
  forall bf, a_bf f = Some bf ->
  (forall l, a_gf f = Some l -> List.length l = List.length bf) /\ (forall l, a_vt f = Some l -> List.length l = List.length bf)
  /\ (forall l, a_pt f = Some l -> List.length l = List.length bf) /\ Forall (fun b => size_of b = a_size f) bf.
End Processed.
