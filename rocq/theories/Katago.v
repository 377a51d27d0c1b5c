(** The map-style KataGo data sets: dataset/katago.py 69-255 (katago_numpy) and 391-585 (processed_katago_numpy), and the loading
    of one file by the iterative variant of the latter, dataset/decoder.py 121-193.

    An array whose first axis is the sample axis is the list of its rows, with the extents of the other axes beside it where the
    code asks for them.  [V] are the numbers of an array.  Not modelled: dtypes and casts; np.load; what a filter condition computes
    (C28: a mask for the arrays given to it); board transformations (C18, C43); the digest of the files. *)
From Verif Require Import Base Decoder.
Set Implicit Arguments. Unset Strict Implicit.

Section Raw.
Variable V : Type.
Variables (is : Z -> V -> bool) (positive negative : V -> bool) (one minus_one : V).
Variable normalise : list V -> list V. (* divide by the sum plus 1e-9 *)

(** The four arrays of a file: binaryInputNCHWPacked (N, C, n_bytes), globalInputNC (N, g_width), globalTargetsNC (N, t_width) and
    policyTargetsNCMove (N, C, n_cells). *)
Record raw := { packed : list (list (list Z)); n_bytes : Z; globals : list (list V); g_width : Z;
                targets : list (list V); t_width : Z; policies : list (list (list V)); n_cells : Z }.
Record options := { filter_stm : option Z; has_pass : bool; td_level : nat; boardsizes : Z * Z -> bool;
                    condition : option (raw -> res (list bool)) }.
Variable opt : options.

(** np.unpackbits(bitorder="big", count=c) *)
Definition bits_of (b : Z) : list Z := map (fun k => Z.b2z (Z.testbit b k)) [7; 6; 5; 4; 3; 2; 1; 0].
Definition unpackbits (c : nat) (bytes : list Z) : list Z :=
  let l := flat_map bits_of bytes in firstn c l ++ repeat 0 (c - List.length l).
(** reshape(n, n) of the last axis *)
Definition square A (n : nat) (l : list A) : list (list A) := map (fun y => firstn n (skipn (y * n) l)) (seq 0 n).

Definition select (idx : list nat) (f : raw) : res raw :=
  a <- take (packed f) idx ;; b <- take (globals f) idx ;; c <- take (targets f) idx ;; d <- take (policies f) idx ;;
  Ok {| packed := a; n_bytes := n_bytes f; globals := b; g_width := g_width f; targets := c; t_width := t_width f; policies := d; n_cells := n_cells f |}.
(** lines 191-209 *)
Definition by_side (f : raw) : res raw :=
  match filter_stm opt with
  | None => Ok f
  | Some s =>
      mask <- (if g_width f =? 1 then mapM (fun g => x <- py_get g 0 ;; Ok (is s x)) (globals f)
               else mapM (fun g => x <- py_get g 5 ;; Ok (if s =? 1 then positive x else negative x)) (globals f)) ;;
      select (flatnonzero mask) f
  end.
Definition by_condition (f : raw) : res raw :=
  match condition opt with None => Ok f | Some c => mask <- c f ;; select (flatnonzero mask) f end.

(** lines 143-151 *)
Definition unpack_global_feature (f : raw) : res (list (list V)) :=
  if g_width f =? 1 then mapM (fun g => x <- py_get g 0 ;; Ok [x]) (globals f)
  else mapM (fun g => x <- py_get g 5 ;; Ok [if positive x then one else minus_one]) (globals f).
(** lines 153-164 *)
Definition bsize (f : raw) : nat := Z.to_nat (Z.sqrt (n_bytes f * 8)).
Definition unpack_board_feature (dims : list nat) (f : raw) : res (list (list (list (list Z)))) :=
  mapM (fun row => mapM (fun d => ch <- py_get row d ;; Ok (square (bsize f) (unpackbits (bsize f * bsize f) ch))) dims) (packed f).
(** lines 166-171 *)
Definition unpack_global_target (f : raw) : res (list (list V)) :=
  let base := (td_level opt * 4)%nat in mapM (fun t => mapM (py_get t) [base; (base + 1)%nat; (base + 2)%nat]) (targets f).
(** lines 173-185 *)
Inductive pol := Flat (l : list V) | Grid (l : list (list V)).
Definition unpack_policy_target (f : raw) : res (list pol) :=
  let n := Z.sqrt (n_cells f - 1) in
  guard n * n + 1 =? n_cells f else ValueError ;;
  let n := Z.to_nat n in
  mapM (fun row => ch <- py_get row 0 ;;
                   let p := normalise (firstn (n * n + if has_pass opt then 1 else 0) ch) in
                   Ok (if has_pass opt then Flat p else Grid (square n p))) (policies f).

Record cols := { c_size : list (Z * Z); c_board : list (list (list (list Z))); c_stm : list (list V); c_value : list (list V); c_policy : list pol }.
(** lines 212-229 *)
Definition mask_size (mask : list (list (list Z))) : res (Z * Z) :=
  m <- py_get mask 0 ;; first <- py_get m 0 ;; column <- mapM (fun row => py_get row 0) m ;;
  Ok (zsum column, zsum first).
Definition unpack_data (f : raw) : res cols :=
  f <- by_side f ;; f <- by_condition f ;;
  stm <- unpack_global_feature f ;;
  board <- unpack_board_feature [1; 2]%nat f ;;
  value <- unpack_global_target f ;;
  policy <- unpack_policy_target f ;;
  mask <- unpack_board_feature [0]%nat f ;;
  size <- mapM mask_size mask ;;
  Ok {| c_size := size; c_board := board; c_stm := stm; c_value := value; c_policy := policy |}.
Definition select_cols (idx : list nat) (c : cols) : res cols :=
  a <- take (c_size c) idx ;; b <- take (c_board c) idx ;; s <- take (c_stm c) idx ;; v <- take (c_value c) idx ;; p <- take (c_policy c) idx ;;
  Ok {| c_size := a; c_board := b; c_stm := s; c_value := v; c_policy := p |}.
(** lines 103-115, one file *)
Definition load_file (f : raw) : res cols :=
  c <- unpack_data f ;; select_cols (flatnonzero (map (boardsizes opt) (c_size c))) c.
(** lines 117-135.  np.concatenate raises ValueError if the other axes differ: those of the boards and of the policies depend on
    the file. *)
Definition same_axes (fs : list raw) : bool :=
  match fs with [] => true | f :: r => forallb (fun g => (bsize g =? bsize f)%nat && (n_cells g =? n_cells f)) r end.
Definition construct (files : list raw) : res cols :=
  cs <- mapM load_file files ;;
  guard negb (match files with [] => true | _ => false end) else IndexError ;;
  guard same_axes files else ValueError ;;
  let c := {| c_size := flat_map c_size cs; c_board := flat_map c_board cs; c_stm := flat_map c_stm cs; c_value := flat_map c_value cs; c_policy := flat_map c_policy cs |} in
  let n := List.length (c_size c) in
  guard negb (n =? 0)%nat else ValueError ;;
  guard ((List.length (c_board c) =? n) && (List.length (c_stm c) =? n) && (List.length (c_value c) =? n) && (List.length (c_policy c) =? n))%nat else ValueError ;;
  Ok c.
End Raw.

(** ** Processed files *)
Section Processed.
(** rows of bf (C, H, W), gf (G), vt (K) and pt ((H, W) or (H*W+1)), with their shapes *)
Variables B G V P : Type.
Variables (bshape : B -> list Z) (gshape : G -> list Z) (vshape : V -> list Z) (pshape : P -> list Z).
Variable spatial : list Z -> Z * Z. (* the last two extents *)
Variable side_is : Z -> G -> bool. (* gf[i, 0] == filter_stm *)

(** A file: the board size is bf.shape[2:], also if bf has no rows. *)
Record archive := { a_size : Z * Z; a_bf : option (list B); a_gf : option (list G); a_vt : option (list V); a_pt : option (list P) }.
Record table := { t_size : Z * Z; t_bf : list B; t_gf : option (list G); t_vt : list V; t_pt : option (list P) }.
Record poptions := { p_boardsizes : Z * Z -> bool; p_filter_stm : option Z; p_condition : option (table -> res (list bool));
                     board_input_channels : option (B -> res B); stm_input_channel : option (G -> res G); value_target_channels : option (V -> res V) }.
Variable opt : poptions.

Definition optM A C (f : A -> res C) (o : option A) : res (option C) := match o with None => Ok None | Some a => c <- f a ;; Ok (Some c) end.
Definition select_table (idx : list nat) (t : table) : res table :=
  b <- take (t_bf t) idx ;; g <- optM (fun l => take l idx) (t_gf t) ;; v <- take (t_vt t) idx ;; p <- optM (fun l => take l idx) (t_pt t) ;;
  Ok {| t_size := t_size t; t_bf := b; t_gf := g; t_vt := v; t_pt := p |}.
Definition channels (t : table) : res table :=
  b <- match board_input_channels opt with None => Ok (t_bf t) | Some f => mapM f (t_bf t) end ;;
  g <- match stm_input_channel opt with
       | None => Ok (t_gf t)
       | Some f => match t_gf t with None => Err ValueError | Some l => l <- mapM f l ;; Ok (Some l) end
       end ;;
  v <- match value_target_channels opt with None => Ok (t_vt t) | Some f => mapM f (t_vt t) end ;;
  Ok {| t_size := t_size t; t_bf := b; t_gf := g; t_vt := v; t_pt := t_pt t |}.

(** lines 443-456: the arrays appended for one key *)
Definition present A (get : archive -> option (list A)) (files : list archive) : list (list A) :=
  flat_map (fun f => match get f with Some l => [l] | None => [] end) files.
Definition nonempty A (l : list A) : bool := match l with [] => false | _ => true end.
(** np.concatenate *)
Definition zl_eqb (a b : list Z) : bool := if list_eq_dec Z.eq_dec a b then true else false.
Definition concatenate A (shape : A -> list Z) (ls : list (list A)) : res (list A) :=
  match List.concat ls with
  | [] => Ok []
  | a :: r => guard forallb (fun b => zl_eqb (shape b) (shape a)) r else ValueError ;; Ok (a :: r)
  end.
Definition collected A (shape : A -> list Z) (ls : list (list A)) : res (option (list A)) :=
  guard forallb (@nonempty A) ls else ValueError ;;
  match ls with [] => Ok None | _ => l <- concatenate shape ls ;; Ok (Some l) end.
(** lines 442-483 *)
Definition map_tables (files : list archive) : res table :=
  guard forallb (fun f => match a_bf f with Some _ => true | None => false end) files else KeyError ;;
  let kept := filter (fun f => p_boardsizes opt (a_size f)) files in
  bf <- collected bshape (present a_bf kept) ;;
  gf <- collected gshape (present a_gf kept) ;;
  vt <- collected vshape (present a_vt kept) ;;
  pt <- collected pshape (present a_pt kept) ;;
  match bf, vt with
  | Some bf, Some vt =>
      let n := List.length bf in
      let same A (o : option (list A)) := match o with Some l => (List.length l =? n)%nat | None => true end in
      guard negb (n =? 0)%nat else ValueError ;;
      guard (List.length vt =? n)%nat && same _ gf && same _ pt else ValueError ;;
      Ok {| t_size := match bf with b :: _ => spatial (bshape b) | [] => (0, 0) end; t_bf := bf; t_gf := gf; t_vt := vt; t_pt := pt |}
  | _, _ => Err KeyError
  end.
(** lines 485-513 *)
Definition map_dataset (files : list archive) : res table :=
  t <- map_tables files ;;
  t <- match p_filter_stm opt with
       | None => Ok t
       | Some s => match t_gf t with None => Err ValueError | Some g => select_table (flatnonzero (map (side_is s) g)) t end
       end ;;
  t <- match p_condition opt with None => Ok t | Some c => mask <- c t ;; select_table (flatnonzero mask) t end ;;
  channels t.

(** dataset/decoder.py 121-193: what the iterative variant loads from one file *)
Definition load_archive (f : archive) : res table :=
  match a_bf f, a_vt f with
  | Some bf, Some vt =>
      let n := List.length bf in
      let same A (o : option (list A)) := match o with Some l => (List.length l =? n)%nat | None => true end in
      guard negb (n =? 0)%nat else ValueError ;;
      guard (List.length vt =? n)%nat && same _ (a_gf f) && same _ (a_pt f) else ValueError ;;
      let t := {| t_size := a_size f; t_bf := bf; t_gf := a_gf f; t_vt := vt; t_pt := a_pt f |} in
      if negb (p_boardsizes opt (a_size f))
      then Ok {| t_size := a_size f; t_bf := []; t_gf := option_map (fun _ => []) (a_gf f); t_vt := []; t_pt := option_map (fun _ => []) (a_pt f) |}
      else
        mask <- match p_filter_stm opt with
                | None => Ok None
                | Some s => match t_gf t with None => Err ValueError | Some g => Ok (Some (map (side_is s) g)) end
                end ;;
        mask <- match p_condition opt with
                | None => Ok mask
                | Some c => m <- c t ;; Ok (Some (match mask with None => m | Some a => map (fun '(x, y) => x && y) (combine a m) end))
                end ;;
        t <- match mask with None => Ok t | Some m => select_table (flatnonzero m) t end ;;
        channels t
  | _, _ => Err ValueError
  end.

(** One row, as both variants go on to decode it (katago.py 519-547, decoder.py 458-483). *)
Record prow := { row_size : Z * Z; row_b : B; row_g : option G; row_v : V; row_p : option P }.
Definition row_at (t : table) (i : nat) : res prow :=
  b <- py_get (t_bf t) i ;; g <- optM (fun l => py_get l i) (t_gf t) ;; v <- py_get (t_vt t) i ;; p <- optM (fun l => py_get l i) (t_pt t) ;;
  Ok {| row_size := t_size t; row_b := b; row_g := g; row_v := v; row_p := p |}.
Definition rows_of (t : table) : res (list prow) := mapM (row_at t) (seq 0 (List.length (t_bf t))).
End Processed.
