(** Model of utils/data_utils.py: Move (31-56), Symmetry (59-153) and
    SamplePostProcessor (156-400), with the shape checks of
    dataset/core.py:232-386 validate_field_dict that concern these fields.
    An ndarray is its shape and its entries (a function of the index; only in-range
    indices are ever read).  Simplifications: dtypes are not modelled (the entry types
    are type parameters); fields that process_sample copies unchanged are one opaque
    value [sm_extra]; the symmetry index drawn when the caller passes none
    (lines 216-237, uniform_below over a content digest) is the parameter
    [fallback n s], an index below n. *)
From Verif Require Import Base.
Set Implicit Arguments.
Unset Strict Implicit.

(** lines 31-56: (x, y); PASS is (-1, -1). *)
Record move := { mv_x : Z; mv_y : Z }.
Definition is_pass (m : move) : bool := (mv_x m <? 0) && (mv_y m <? 0).
Definition move_pass : move := {| mv_x := -1; mv_y := -1 |}.

(** lines 59-67. *)
Inductive symmetry :=
  IDENTITY | ROTATE_90 | ROTATE_180 | ROTATE_270 | FLIP_X | FLIP_Y | FLIP_XY | FLIP_YX.

Definition symmetry_value (s : symmetry) : Z :=
  match s with
  | IDENTITY => 0 | ROTATE_90 => 1 | ROTATE_180 => 2 | ROTATE_270 => 3
  | FLIP_X => 4 | FLIP_Y => 5 | FLIP_XY => 6 | FLIP_YX => 7
  end.

(** the strings symmetry_type may be; KOther is any other string. *)
Inductive sym_kind := KDefault | KRotate | KFlip | KFlipDiagRotate180 | KOther.

(** lines 69-106; boardsize is (height, width). *)
Definition available_symmetries (boardsize : Z * Z) (kind : sym_kind) : res (list symmetry) :=
  let '(height, width) := boardsize in
  match kind with
  | KDefault =>
      if height =? width
      then Ok [IDENTITY; ROTATE_90; ROTATE_180; ROTATE_270; FLIP_X; FLIP_Y; FLIP_XY; FLIP_YX]
      else Ok [IDENTITY; ROTATE_180; FLIP_X; FLIP_Y]
  | KRotate =>
      guard height =? width else ValueError ;;
      Ok [IDENTITY; ROTATE_90; ROTATE_180; ROTATE_270]
  | KFlip =>
      guard height =? width else ValueError ;;
      Ok [IDENTITY; FLIP_X; FLIP_Y; FLIP_XY; FLIP_YX]
  | KFlipDiagRotate180 =>
      guard height =? width else ValueError ;;
      Ok [IDENTITY; ROTATE_180; FLIP_XY; FLIP_YX]
  | KOther => Err ValueError
  end.

Definition sym_in (s : symmetry) (l : list symmetry) : bool :=
  existsb (fun t => symmetry_value s =? symmetry_value t) l.

(** lines 120-129: mapping_list. *)
Definition mapping (s : symmetry) (width height x y : Z) : Z * Z :=
  match s with
  | IDENTITY => (x, y)
  | ROTATE_90 => (y, width - 1 - x)
  | ROTATE_180 => (width - 1 - x, height - 1 - y)
  | ROTATE_270 => (height - 1 - y, x)
  | FLIP_X => (x, height - 1 - y)
  | FLIP_Y => (width - 1 - x, y)
  | FLIP_XY => (y, x)
  | FLIP_YX => (height - 1 - y, width - 1 - x)
  end.

(** lines 108-131. *)
Definition apply_to_move (s : symmetry) (m : move) (boardsize : Z * Z) : res move :=
  if is_pass m then Ok m else
  allowed <- available_symmetries boardsize KDefault ;;
  guard sym_in s allowed else ValueError ;;
  let '(height, width) := boardsize in
  guard (0 <=? mv_x m) && (mv_x m <? width) && (0 <=? mv_y m) && (mv_y m <? height) else ValueError ;;
  let '(x, y) := mapping s width height (mv_x m) (mv_y m) in
  Ok {| mv_x := x; mv_y := y |}.

(** numpy arrays of shape (H, W), (C, H, W) and (N). *)
Record plane A := { p_h : Z; p_w : Z; p_at : Z -> Z -> A }.
Record stack A := { k_h : Z; k_w : Z; k_ch : list (Z -> Z -> A) }.
Record vec A := { v_len : Z; v_at : Z -> A }.

(** np.flip along the x axis, along the y axis, np.swapaxes of the two. *)
Definition np_flip_x A (p : plane A) : plane A :=
  {| p_h := p_h p; p_w := p_w p; p_at := fun y x => p_at p y (p_w p - 1 - x) |}.
Definition np_flip_y A (p : plane A) : plane A :=
  {| p_h := p_h p; p_w := p_w p; p_at := fun y x => p_at p (p_h p - 1 - y) x |}.
Definition np_swapaxes A (p : plane A) : plane A :=
  {| p_h := p_w p; p_w := p_h p; p_at := fun y x => p_at p x y |}.

(** lines 135-144: op_list. *)
Definition op_list (s : symmetry) : bool * bool * bool :=
  match s with
  | IDENTITY => (false, false, false)
  | ROTATE_90 => (true, false, true)
  | ROTATE_180 => (true, true, false)
  | ROTATE_270 => (false, true, true)
  | FLIP_X => (false, true, false)
  | FLIP_Y => (true, false, false)
  | FLIP_XY => (false, false, true)
  | FLIP_YX => (true, true, true)
  end.

(** lines 133-152, on one (H, W) plane. *)
Definition apply_to_array A (s : symmetry) (a : plane A) : plane A :=
  let '(flip_x, flip_y, swap) := op_list s in
  let a := if flip_x then np_flip_x a else a in
  let a := if flip_y then np_flip_y a else a in
  if swap then np_swapaxes a else a.

(** lines 133-152 on a (C, H, W) array: the last two axes of every channel. *)
Definition apply_to_stack A (s : symmetry) (a : stack A) : stack A :=
  let '(_, _, swap) := op_list s in
  {| k_h := if swap then k_w a else k_h a;
     k_w := if swap then k_h a else k_w a;
     k_ch := map (fun c => p_at (apply_to_array s {| p_h := k_h a; p_w := k_w a; p_at := c |})) (k_ch a) |}.

(** a.reshape((h, w)) and a.reshape(-1), in row-major order. *)
Definition np_reshape2 A (h w : Z) (v : vec A) : plane A :=
  {| p_h := h; p_w := w; p_at := fun y x => v_at v (y * w + x) |}.
Definition np_ravel A (p : plane A) : vec A :=
  {| v_len := p_h p * p_w p; v_at := fun i => p_at p (i / p_w p) (i mod p_w p) |}.
(** v[:-1], and np.concatenate([v, [last]]). *)
Definition np_init A (v : vec A) : vec A := {| v_len := v_len v - 1; v_at := v_at v |}.
Definition np_last A (v : vec A) : A := v_at v (v_len v - 1).
Definition np_snoc A (v : vec A) (a : A) : vec A :=
  {| v_len := v_len v + 1; v_at := fun i => if i =? v_len v then a else v_at v i |}.

(** np.pad((0, dh), (0, dw), constant 0); a negative width raises ValueError. *)
Definition pad_at A (z : A) (h w : Z) (f : Z -> Z -> A) : Z -> Z -> A :=
  fun y x => if (y <? h) && (x <? w) then f y x else z.
Definition np_pad A (z : A) (dh dw : Z) (p : plane A) : res (plane A) :=
  guard (0 <=? dh) && (0 <=? dw) else ValueError ;;
  Ok {| p_h := p_h p + dh; p_w := p_w p + dw; p_at := pad_at z (p_h p) (p_w p) (p_at p) |}.
Definition np_pad3 A (z : A) (dh dw : Z) (a : stack A) : res (stack A) :=
  guard (0 <=? dh) && (0 <=? dw) else ValueError ;;
  Ok {| k_h := k_h a + dh; k_w := k_w a + dw; k_ch := map (pad_at z (k_h a) (k_w a)) (k_ch a) |}.

(** l[i] with Python's negative indices. *)
Definition py_index A (l : list A) (i : Z) : res A :=
  if 0 <=? i then py_get l (Z.to_nat i)
  else if - zlen l <=? i then py_get l (Z.to_nat (zlen l + i)) else Err IndexError.

Section Post.
  Variables (B F P V E : Type).
  Variables (bz : B) (fz : F) (pz : P).

  (** policy_target: (H, W), or (H*W+1) with the pass move at the end. *)
  Inductive policy := PPlane (_ : plane P) | PFlat (_ : vec P).

  (** lines 170-179: the fields of one sample.  position_string is the list of the
      moves it spells. *)
  Record sample := {
    sm_board_size : Z * Z;
    sm_board : stack B;
    sm_stm : Z;
    sm_value : list V;
    sm_policy : policy;
    sm_sparse : option (stack F);
    sm_position : option (list move);
    sm_position_string : option (list move);
    sm_last_move : option move;
    sm_extra : option E
  }.

  Definition policy_fits (p : policy) (h w : Z) : bool :=
    match p with
    | PPlane q => (p_h q =? h) && (p_w q =? w)
    | PFlat v => v_len v =? h * w + 1
    end.

  (** dataset/core.py:304-340 and 362-386. *)
  Definition validate (s : sample) : bool :=
    let '(h, w) := sm_board_size s in
    (h <=? k_h (sm_board s)) && (w <=? k_w (sm_board s))
    && match sm_sparse s with
       | Some k => (h <=? k_h k) && (w <=? k_w k)
       | None => true
       end
    && (policy_fits (sm_policy s) h w || policy_fits (sm_policy s) (k_h (sm_board s)) (k_w (sm_board s))).

  (** lines 201-203: perm = arange(n); perm[[0, 1]] = [1, 0]; value[perm]. *)
  Definition swap_win_loss (v : list V) : res (list V) :=
    match v with
    | a :: b :: rest => Ok (b :: a :: rest)
    | _ => Err IndexError
    end.

  (** lines 204-210: np.take(sparse, indices, axis=0). *)
  Definition sparse_indices : list Z := [4; 5; 6; 7; 0; 1; 2; 3; 9; 8; 11; 10].
  Definition take_channels (k : stack F) : res (stack F) :=
    ch <- mapM (fun i => py_index (k_ch k) i) sparse_indices ;;
    Ok {| k_h := k_h k; k_w := k_w k; k_ch := ch |}.

  (** lines 195-210. *)
  Definition fix_side (s : sample) : res sample :=
    value <- swap_win_loss (sm_value s) ;;
    sparse <- match sm_sparse s with
              | Some k => k1 <- take_channels k ;; Ok (Some k1)
              | None => Ok None
              end ;;
    Ok {| sm_board_size := sm_board_size s;
          sm_board := {| k_h := k_h (sm_board s); k_w := k_w (sm_board s); k_ch := rev (k_ch (sm_board s)) |};
          sm_stm := sm_stm s; sm_value := value; sm_policy := sm_policy s; sm_sparse := sparse;
          sm_position := sm_position s; sm_position_string := sm_position_string s;
          sm_last_move := sm_last_move s; sm_extra := sm_extra s |}.

  (** lines 247-262. *)
  Definition transform_policy (sym : symmetry) (boardsize : Z * Z) (p : policy) : res policy :=
    match p with
    | PPlane q => Ok (PPlane (apply_to_array sym q))
    | PFlat v =>
        let '(h, w) := boardsize in
        guard v_len v =? h * w + 1 else ValueError ;;
        let q := apply_to_array sym (np_reshape2 h w (np_init v)) in
        Ok (PFlat (np_snoc (np_ravel q) (np_last v)))
    end.

  (** lines 238-267. *)
  Definition transform (sym : symmetry) (s : sample) : res sample :=
    policy <- transform_policy sym (sm_board_size s) (sm_policy s) ;;
    position <- match sm_position s with
                | Some l => l1 <- mapM (fun m => apply_to_move sym m (sm_board_size s)) l ;; Ok (Some l1)
                | None => Ok None
                end ;;
    Ok {| sm_board_size := sm_board_size s; sm_board := apply_to_stack sym (sm_board s);
          sm_stm := sm_stm s; sm_value := sm_value s; sm_policy := policy;
          sm_sparse := option_map (apply_to_stack sym) (sm_sparse s);
          sm_position := position; sm_position_string := sm_position_string s;
          sm_last_move := sm_last_move s; sm_extra := sm_extra s |}.

  (** lines 286-311. *)
  Definition pad_policy (boardsize : Z * Z) (board_h board_w padded_h padded_w : Z) (p : policy) : res policy :=
    match p with
    | PPlane q =>
        q1 <- np_pad pz (padded_h - board_h) (padded_w - board_w) q ;;
        Ok (PPlane q1)
    | PFlat v =>
        let '(h, w) := boardsize in
        guard v_len v =? h * w + 1 else ValueError ;;
        (* reshape((board_h, board_w)) of h*w entries *)
        guard h * w =? board_h * board_w else ValueError ;;
        q1 <- np_pad pz (padded_h - board_h) (padded_w - board_w) (np_reshape2 board_h board_w (np_init v)) ;;
        Ok (PFlat (np_snoc (np_ravel q1) (np_last v)))
    end.

  (** lines 269-323. *)
  Definition pad_fields (padded : Z * Z) (s : sample) : res sample :=
    let '(padded_h, padded_w) := padded in
    let board_h := k_h (sm_board s) in
    let board_w := k_w (sm_board s) in
    board <- np_pad3 bz (padded_h - board_h) (padded_w - board_w) (sm_board s) ;;
    sparse <- match sm_sparse s with
              | Some k => k1 <- np_pad3 fz (padded_h - k_h k) (padded_w - k_w k) k ;; Ok (Some k1)
              | None => Ok None
              end ;;
    policy <- pad_policy (sm_board_size s) board_h board_w padded_h padded_w (sm_policy s) ;;
    guard (k_h board =? padded_h) && (k_w board =? padded_w) else RuntimeError ;;
    guard policy_fits policy padded_h padded_w else RuntimeError ;;
    Ok {| sm_board_size := sm_board_size s; sm_board := board; sm_stm := sm_stm s; sm_value := sm_value s;
          sm_policy := policy; sm_sparse := sparse; sm_position := sm_position s;
          sm_position_string := sm_position_string s; sm_last_move := sm_last_move s; sm_extra := sm_extra s |}.

  (** lines 325-327. *)
  Definition drop_extra_fields (s : sample) : sample :=
    {| sm_board_size := sm_board_size s; sm_board := sm_board s; sm_stm := sm_stm s; sm_value := sm_value s;
       sm_policy := sm_policy s; sm_sparse := None; sm_position := None; sm_position_string := None;
       sm_last_move := None; sm_extra := None |}.

  (** lines 329-336. *)
  Definition spell_position (s : sample) : sample :=
    match sm_position s with
    | None => s
    | Some l =>
        {| sm_board_size := sm_board_size s; sm_board := sm_board s; sm_stm := sm_stm s; sm_value := sm_value s;
           sm_policy := sm_policy s; sm_sparse := sm_sparse s; sm_position := None;
           sm_position_string := Some l; sm_last_move := Some (last l move_pass); sm_extra := sm_extra s |}
    end.

  (** lines 159-168: the options; symmetry_type is None, or True, or a kind. *)
  Record post_options := {
    po_fixed_side : bool;
    po_fixed_board_size : option (Z * Z);
    po_symmetry : option sym_kind;
    po_symmetry_index : option Z;
    po_drop_extra : bool
  }.

  Variable fallback : Z -> sample -> Z.

  Definition process_sample (o : post_options) (s : sample) : res sample :=
    guard validate s else ValueError ;;
    s <- (if po_fixed_side o && (0 <? sm_stm s) then fix_side s else Ok s) ;;
    s <- match po_symmetry o with
         | None => Ok s
         | Some kind =>
             symmetries <- available_symmetries (sm_board_size s) kind ;;
             let index := match po_symmetry_index o with
                          | Some i => i
                          | None => fallback (zlen symmetries) s
                          end in
             sym <- py_index symmetries index ;;
             transform sym s
         end ;;
    s <- match po_fixed_board_size o with
         | None => Ok s
         | Some padded => pad_fields padded s
         end ;;
    let s := if po_drop_extra o then drop_extra_fields s else s in
    Ok (spell_position s).

  (** dataset/simple_binary.py:167-186 and dataset/packed_binary.py:310-329 materialize_entry: the
      reader has already run process_sample with apply_symmetry=False, and the
      symmetry is applied to its output. *)
  Definition materialize_with_symmetry (o : post_options) (kind : sym_kind) (index : Z) (s : sample) : res sample :=
    s1 <- process_sample {| po_fixed_side := po_fixed_side o; po_fixed_board_size := po_fixed_board_size o;
                            po_symmetry := None; po_symmetry_index := None;
                            po_drop_extra := po_drop_extra o |} s ;;
    process_sample {| po_fixed_side := false; po_fixed_board_size := None; po_symmetry := Some kind;
                      po_symmetry_index := Some index; po_drop_extra := false |} s1.

  (** lines 339-400 process_batch: rows are processed one by one with their own
      index and stacked again. *)
  Definition process_batch (fixed_side : bool) (kind : option sym_kind) (indices : option (list Z))
                           (rows : list sample) : res (list sample) :=
    if negb fixed_side && match kind with None => true | _ => false end then Ok rows else
    match indices with
    | None =>
        mapM (process_sample {| po_fixed_side := fixed_side; po_fixed_board_size := None; po_symmetry := kind;
                                po_symmetry_index := None; po_drop_extra := false |}) rows
    | Some l =>
        guard zlen l =? zlen rows else ValueError ;;
        mapM (fun '(i, s) => process_sample {| po_fixed_side := fixed_side; po_fixed_board_size := None;
                po_symmetry := kind; po_symmetry_index := Some i; po_drop_extra := false |} s) (combine l rows)
    end.
End Post.
