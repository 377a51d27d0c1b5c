(** Exporting a model: model/serialization/__init__.py lines 6-70 and 73-154 (rule and board size
    arguments, masks, [build_serializer]) and export.py lines 185-211 ([make_onnx_model_version],
    [parse_onnx_model_version]), 214-270 ([export_onnx]) and 273-341 ([export_serialization]).

    Not modelled: what the tensor library, onnx, onnxslim and lz4 write (arbitrary bytes here), moving
    the model to a device, the printed messages, buffering of the file object (every write reaches the
    file at once; a crash can come after any of them). *)
From Verif Require Import Base Json Rng.
Set Implicit Arguments. Unset Strict Implicit.

Definition args := list (ustr * json).
Definition has (a : args) (k : ustr) : bool := match obj_get a k with Some _ => true | None => false end.
(** What is left after [export_args.pop(k)]. *)
Definition without (a : args) (k : ustr) : args := filter (fun e => negb (ustr_eqb k (fst e))) a.

Definition freestyle := ulit "freestyle".
Definition standard := ulit "standard".
Definition renju := ulit "renju".
Definition k_rule := ulit "rule".
Definition k_rule_list := ulit "rule_list".
Definition k_rules := ulit "rules".
Definition k_size := ulit "board_size".
Definition k_min := ulit "min_board_size".
Definition k_max := ulit "max_board_size".
Definition k_size_list := ulit "board_size_list".
Definition k_sizes := ulit "boardsizes".
Definition k_model_type := ulit "model_type".
Definition mem (x : ustr) (l : list ustr) : bool := existsb (ustr_eqb x) l.

(** ** model/serialization/__init__.py lines 6-15, [rules_to_mask] *)
Definition rules_to_mask (rules : list ustr) : Z :=
  let m := 0 in
  let m := if mem freestyle rules then Z.lor m 1 else m in
  let m := if mem standard rules then Z.lor m 2 else m in
  if mem renju rules then Z.lor m 4 else m.

(** lines 18-24, [boardsizes_to_mask] *)
Fixpoint sizes_mask_from (m : Z) (sizes : list Z) : res Z :=
  match sizes with
  | [] => Ok m
  | n :: r => guard (1 <=? n) && (n <=? 32) else AssertionError ;;
              sizes_mask_from (Z.lor m (Z.shiftl 1 (n - 1))) r
  end.
Definition boardsizes_to_mask (sizes : list Z) : res Z := sizes_mask_from 0 sizes.

(** lines 83-106, [get_rules_from_args]: the rules and what is left of the arguments *)
Definition as_list (j : json) : res (list json) :=
  match j with JList l => Ok l | _ => Err AssertionError end.
Definition check_rule (j : json) : res ustr :=
  match j with
  | JStr s => guard mem s [freestyle; standard; renju] else ValueError ;; Ok s
  | _ => Err ValueError
  end.
Definition get_rules_from_args (a : args) : res (list ustr * args) :=
  '(values, rest) <- match obj_get a k_rule with
    | Some j => Ok ([j], without a k_rule)
    | None => match obj_get a k_rule_list with
      | Some j => l <- as_list j ;; Ok (l, without a k_rule_list)
      | None => match obj_get a k_rules with
        | Some j => l <- as_list j ;; Ok (l, without a k_rules)
        | None => Err ValueError
        end end end ;;
  guard negb (zlen values =? 0) else ValueError ;;
  rules <- mapM check_rule values ;;
  Ok (rules, rest).

(** lines 109-133, [get_boardsizes_from_args].  A Python bool is an int. *)
Definition int_of (j : json) : option Z :=
  match j with JInt n => Some n | JBool b => Some (if b then 1 else 0) | _ => None end.
Definition check_size (j : json) : res Z :=
  match int_of j with
  | Some n => guard (1 <=? n) && (n <=? 32) else ValueError ;; Ok n
  | None => Err ValueError
  end.
Definition int_range (lo hi : Z) : list Z := map (fun k => lo + Z.of_nat k) (seq 0 (Z.to_nat (hi - lo))).
Definition get_boardsizes_from_args (a : args) : res (list Z * args) :=
  '(values, rest) <- match obj_get a k_size with
    | Some j => Ok ([j], without a k_size)
    | None => match obj_get a k_min, obj_get a k_max with
      | Some jlo, Some jhi =>
          match int_of jlo, int_of jhi with
          | Some lo, Some hi => Ok (map JInt (int_range lo (hi + 1)), without (without a k_min) k_max)
          | _, _ => Err TypeError
          end
      | _, _ => match obj_get a k_size_list with
        | Some j => l <- as_list j ;; Ok (l, without a k_size_list)
        | None => match obj_get a k_sizes with
          | Some j => l <- as_list j ;; Ok (l, without a k_sizes)
          | None => Ok (map JInt (int_range 1 (32 + 1)), a)
          end end end end ;;
  sizes <- mapM check_size values ;;
  Ok (sizes, rest).

(** lines 73-80, [has_rules_in_args], [has_boardsizes_in_args] *)
Definition has_rules_in_args (a : args) : bool := has a k_rule || has a k_rule_list || has a k_rules.
Definition has_boardsizes_in_args (a : args) : bool :=
  (has a k_min && has a k_max) || (has a k_size || has a k_size_list || has a k_sizes).

(** ** Serializers
    What one serializer object answers for the model being exported: lines 27-66 and the classes of
    mixnet.py and flatnet.py.  [body] is what [serialize] writes, write by write, and how it ends. *)
Record traits := Traits {
  is_binary : bool; needs_header : bool; arch_hash : res Z; description : res ustr;
  body : list (list Z) * option exn }.
Record serializer := Serializer { s_rules : list ustr; s_sizes : list Z; s_traits : traits }.
(** A registered class: the keyword arguments it takes besides [rules] and [boardsizes], and its
    constructor. *)
Record class := Class { accepts : list ustr; construct : args -> res traits }.

(** A call f(rules=..., boardsizes=..., **rest): a name given twice, or not a parameter, is a TypeError. *)
Definition call (c : class) (rules : list ustr) (sizes : list Z) (rest : args) : res serializer :=
  guard negb (has rest k_rules || has rest k_sizes) else TypeError ;;
  guard forallb (fun e => mem (fst e) (accepts c)) rest else TypeError ;;
  t <- construct c rest ;;
  Ok (Serializer rules sizes t).

(** lines 136-154, [build_serializer] *)
Definition build_serializer (registry : list (ustr * class)) (model_type : ustr) (a : args) : res serializer :=
  c <- match obj_get registry model_type with Some c => Ok c | None => Err ValueError end ;;
  '(rules, a) <- (if has_rules_in_args a then get_rules_from_args a else Ok ([freestyle], a)) ;;
  '(sizes, a) <- (if has_boardsizes_in_args a then get_boardsizes_from_args a else Ok ([15], a)) ;;
  call c rules sizes a.

(** ** Files *)
Definition fs := list (ustr * list Z).
Inductive fsop := Open (p : ustr) | Append (p : ustr) (b : list Z) | Replace (a b : ustr).
Definition apply (s : fs) (o : fsop) : fs :=
  match o with
  | Open p => obj_set s p []
  | Append p b => match obj_get s p with Some old => obj_set s p (old ++ b) | None => s end
  | Replace a b => match obj_get s a with
                   | Some x => obj_set (filter (fun e => negb (ustr_eqb a (fst e))) s) b x
                   | None => s
                   end
  end.
Definition applied (s : fs) (l : list fsop) : fs := fold_left apply l s.

(** ** export.py lines 273-341, [export_serialization] *)
Definition magic := 2899889258.
Definition low32 (n : Z) : Z := Z.land n 4294967295.
(** [n.to_bytes(4, "little", signed=False)] *)
Definition to_bytes4 (n : Z) : res (list Z) :=
  guard (0 <=? n) && (n <? 2 ^ 32) else OverflowError ;; Ok (le_bytes 4 n).
(** lines 309-334: the writes of the header, and how that ends.  [stamp] is the sentence with the commit
    hash and the time (lines 315-319). *)
Definition header (s : serializer) (stamp : ustr) : list (list Z) * option exn :=
  match
    hash <- arch_hash (s_traits s) ;;
    sizes <- boardsizes_to_mask (s_sizes s) ;;
    text <- description (s_traits s) ;;
    encoded <- utf8_encode (text ++ stamp) ;;
    Ok (hash, sizes, encoded)
  with
  | Err e => ([], Some e)
  | Ok (hash, sizes, encoded) =>
      if negb (is_binary (s_traits s)) then ([], Some TypeError) (* bytes written to a text file *) else
      let four := [le_bytes 4 magic; le_bytes 4 (low32 hash);
                   le_bytes 4 (low32 (rules_to_mask (s_rules s))); le_bytes 4 (low32 sizes)] in
      match to_bytes4 (zlen encoded) with
      | Ok n => (four ++ [n; encoded], None)
      | Err e => (four, Some e)
      end
  end.
(** lines 307-338: everything written to the open file *)
Definition stream (s : serializer) (no_header : bool) (stamp : ustr) : list (list Z) * option exn :=
  if needs_header (s_traits s) && negb no_header then
    match header s stamp with
    | (ws, Some e) => (ws, Some e)
    | (ws, None) => (ws ++ fst (body (s_traits s)), snd (body (s_traits s)))
    end
  else body (s_traits s).

Inductive output_type := Raw | Lz4 | OtherType.
(** What reaches the file when these pieces are written and it is closed; [frame] is lz4's. *)
Definition stored (frame : list (list Z) -> list (list Z)) (t : output_type) (ws : list (list Z)) : list (list Z) :=
  match t with Lz4 => frame ws | _ => ws end.

Definition dot_tmp (output : ustr) : ustr := output ++ ulit ".tmp".
(** All file operations of the call, in order, and its result.  [extra] are the remaining arguments of
    [build_serializer(model_type, rules=..., boardsizes=..., **export_args)] (line 282). *)
Definition prepare (registry : list (ustr * class)) (model_type : ustr) (a : args) : res serializer :=
  '(rules, rest) <- get_rules_from_args a ;;
  '(sizes, rest) <- get_boardsizes_from_args rest ;;
  guard negb (has rest k_rules || has rest k_sizes || has rest k_model_type) else TypeError ;;
  build_serializer registry model_type ((k_rules, JList (map JStr rules)) :: (k_sizes, JList (map JInt sizes)) :: rest).
Definition export_serialization (frame : list (list Z) -> list (list Z)) (registry : list (ustr * class))
    (stamp output : ustr) (t : output_type) (model_type : ustr) (a : args) (no_header : bool)
    : list fsop * res unit :=
  match prepare registry model_type a with
  | Err e => ([], Err e)
  | Ok s =>
      match t with
      | OtherType => ([], Err ValueError)
      | _ =>
          let tmp := dot_tmp output in
          let (ws, e) := stream s no_header stamp in
          let writing := Open tmp :: map (Append tmp) (stored frame t ws) in
          match e with
          | Some e => (writing, Err e)
          | None => (writing ++ [Replace tmp output], Ok tt)
          end
      end
  end.

(** ** export.py lines 185-190, [make_onnx_model_version] *)
Definition make_onnx_model_version (io_version : Z) (rules : list ustr) (sizes : list Z) : res Z :=
  guard (0 <? io_version) && (io_version <=? 32767) else AssertionError ;;
  m <- boardsizes_to_mask sizes ;;
  Ok (Z.lor (Z.lor (Z.shiftl io_version 48) (Z.shiftl (rules_to_mask rules) 32)) m).

(** lines 193-211, [parse_onnx_model_version] *)
Definition parse_onnx_model_version (v : Z) : Z * list ustr * list Z :=
  let io := Z.land (Z.shiftr v 48) 65535 in
  let rule_mask := Z.land (Z.shiftr v 32) 65535 in
  let size_mask := Z.land v 4294967295 in
  let rules := (if Z.land rule_mask 1 =? 0 then [] else [freestyle])
            ++ (if Z.land rule_mask 2 =? 0 then [] else [standard])
            ++ (if Z.land rule_mask 4 =? 0 then [] else [renju]) in
  let sizes := flat_map (fun i => if Z.land size_mask (Z.shiftl 1 i) =? 0 then [] else [i + 1]) (int_range 0 32) in
  (io, rules, sizes).

(** ** lines 214-270, [export_onnx]
    [sample]: reading a sample of the data (lines 226-228) can fail.  [trace] is the exporter: what it
    writes to the output and how that ends; [slim] is onnxslim: not installed ([None]) or the pieces it
    writes (its failure is only a warning); [save] is the stamped model. *)
Definition export_onnx (sample : option exn) (trace : list (list Z) * option exn) (slim : option (list (list Z)))
    (save : Z -> list (list Z)) (io_version : Z) (output : ustr) (a : args) : list fsop * res Z :=
  match '(rules, rest) <- get_rules_from_args a ;;
        '(sizes, rest) <- get_boardsizes_from_args rest ;;
        Ok (rules, sizes) with
  | Err e => ([], Err e)
  | Ok (rules, sizes) =>
      match sample with
      | Some e => ([], Err e)
      | None =>
          let traced := Open output :: map (Append output) (fst trace) in
          match snd trace with
          | Some e => (traced, Err e)
          | None =>
              let slimmed := match slim with None => [] | Some l => Open output :: map (Append output) l end in
              match make_onnx_model_version io_version rules sizes with
              | Err e => (traced ++ slimmed, Err e)
              | Ok v => (traced ++ slimmed ++ Open output :: map (Append output) (save v), Ok v)
              end
          end
      end
  end.
