(** Filter expressions: dataset/filter.py:1-320.

    The parser (ast.parse) and the operators of Python and NumPy are parameters; the model is
    the evaluator around them.  [event]s record what the evaluator does, in order. *)
From Verif Require Import Base Json.
Set Implicit Arguments. Unset Strict Implicit.

Section Filter.
Variable F : Type. (* floats *)
Variable finite : F -> bool.
Variable D : Type. (* array contents *)

(** ** The syntax tree, with every node that ast.walk visits *)
Inductive const := CNone | CBool (b : bool) | CInt (z : Z) | CFloat (f : F) | CEllipsis | COther.
Inductive uop := UAdd | USub | Invert | Not.
Inductive bop := Add | Sub | Mult | Div | FloorDiv | Mod | Pow | BitAnd | BitOr | BitXor | MatMult | LShift | RShift.
Inductive cop := Eq | NotEq | Lt | LtE | Gt | GtE | Is | IsNot | In | NotIn.
(** [Other]: all other expressions (lambda, comprehensions, boolean operators, f-strings, ...),
    with the number of child nodes that are not expressions. *)
Inductive expr :=
| Constant (c : const)
| Name (id : ustr)
| Tuple (elts : list expr)
| ListLit (elts : list expr)
| UnaryOp (o : uop) (e : expr)
| BinOp (o : bop) (l r : expr)
| Compare (l : expr) (ops : list cop) (comparators : list expr)
| Subscript (e s : expr)
| Attribute (e : expr) (attr : ustr)
| Call (f : expr) (args keywords : list expr)
| Slice (lower upper step : option expr)
| Other (leaves : nat) (children : list expr).

Definition nsum (l : list nat) : nat := fold_right Nat.add 0%nat l.
Definition nmax (l : list nat) : nat := fold_right Nat.max 0%nat l.
Definition opt_list (o : option expr) : list expr := match o with Some e => [e] | None => [] end.
(** Number of nodes (ast.walk, line 63) below an expression: the contexts Load() and the
    operators are nodes too. *)
Fixpoint nodes (e : expr) : nat :=
  match e with
  | Constant _ => 1
  | Name _ => 2
  | Tuple l | ListLit l => 2 + nsum (map nodes l)
  | UnaryOp _ e => 2 + nodes e
  | BinOp _ l r => 2 + nodes l + nodes r
  | Compare l ops cs => 1 + nodes l + List.length ops + nsum (map nodes cs)
  | Subscript e s => 2 + nodes e + nodes s
  | Attribute e _ => 2 + nodes e
  | Call f args kws => 1 + nodes f + nsum (map nodes args) + nsum (map (fun e => 1 + nodes e) kws)
  | Slice a b c =>
      let o (x : option expr) := match x with Some e => nodes e | None => 0%nat end in 1 + o a + o b + o c
  | Other k l => 1 + k + nsum (map nodes l)
  end%nat.
(** _check_depth, lines 79-83: the depth of the tree below an expression. *)
Fixpoint depth (e : expr) : nat :=
  match e with
  | Constant _ => 1
  | Name _ => 2
  | Tuple l | ListLit l => 1 + Nat.max 1 (nmax (map depth l))
  | UnaryOp _ e => 1 + Nat.max 1 (depth e)
  | BinOp _ l r => 1 + Nat.max 1 (Nat.max (depth l) (depth r))
  | Compare l ops cs => 1 + Nat.max (match ops with [] => 0 | _ => 1 end) (Nat.max (depth l) (nmax (map depth cs)))
  | Subscript e s => 1 + Nat.max 1 (Nat.max (depth e) (depth s))
  | Attribute e _ => 1 + Nat.max 1 (depth e)
  | Call f args kws => 1 + Nat.max (depth f) (Nat.max (nmax (map depth args)) (nmax (map (fun e => 1 + depth e) kws)))
  | Slice a b c =>
      let o (x : option expr) := match x with Some e => depth e | None => 0%nat end in 1 + Nat.max (o a) (Nat.max (o b) (o c))
  | Other k l => 1 + Nat.max (match k with O => 0 | _ => 1 end) (nmax (map depth l))
  end%nat.

(** ** Values *)
Inductive dkind := KBool | KInt | KUInt | KFloat | KOther. (* dtype.kind *)
Definition allowed_kind (k : dkind) : bool := match k with KOther => false | _ => true end. (* line 46 *)
Record array := mk_array { shape : list Z; kind : dkind; itemsize : Z; contents : D }.
Definition prod (l : list Z) : Z := fold_right Z.mul 1 l. (* math.prod *)
Definition size (a : array) : Z := prod (shape a).
Definition nbytes (a : array) : Z := size a * itemsize a.
(** What _index_literal returns. *)
Inductive index :=
| IInt (z : Z)
| IEllipsis
| ISlice (lower upper step : option index)
| ITuple (l : list index)
| IList (l : list index).
Inductive value :=
| VNone
| VBool (b : bool)
| VInt (z : Z)
| VFloat (f : F)
| VTuple (l : list index)
| VScalar (itemsize : Z) (d : D) (* numpy scalar *)
| VArray (a : array)
| VNumpy
| VFunction (name : ustr).

(** ** Effects *)
Inductive event :=
| EInput (name : ustr) (* an input array is read *)
| EUnary (o : uop) | EBinary (o : bop) | ECompare (o : cop) | EAnd | EIndex | ECall (f : ustr) (* an operation starts *)
| EComputed (v : value) (* the object that an operator or function made, before any check *)
| EIndexed (v : value). (* the object that a subscript made *)
Definition M (A : Type) : Type := (list event * res A)%type.
Definition ret (A : Type) (a : A) : M A := ([], Ok a).
Definition fail (A : Type) (e : exn) : M A := ([], Err e).
Definition andthen (A B : Type) (m : M A) (k : A -> M B) : M B :=
  match m with
  | (log, Ok a) => let (log', r) := k a in (log ++ log', r)
  | (log, Err e) => (log, Err e)
  end.
Definition emit (e : event) : M unit := ([e], Ok tt).
Definition lift (A : Type) (r : res A) : M A := ([], r).
Definition need (b : bool) (e : exn) : M unit := if b then ret tt else fail unit e.
Notation "x <~ m ; k" := (andthen m (fun x => k)) (at level 61, m at next level, right associativity).
Notation "m ;~ k" := (andthen m (fun _ => k)) (at level 61, right associativity).
Section Each.
Variables (A B : Type) (f : A -> M B).
Fixpoint each (l : list A) : M (list B) :=
  match l with [] => ret [] | a :: r => b <~ f a; bs <~ each r; ret (b :: bs) end.
End Each.
Section EachR.
Variables (A B : Type) (f : A -> res B).
Fixpoint each_res (l : list A) : res (list B) :=
  match l with [] => Ok [] | a :: r => b <- f a ;; bs <- each_res r ;; Ok (b :: bs) end.
End EachR.

(** ** The operators of Python and NumPy *)
Variable py_unary : uop -> value -> res value.
Variable py_binary : bop -> value -> value -> res value.
Variable py_compare : cop -> value -> value -> res value.
Variable np_logical_and : value -> value -> res value.
Variable np_call : ustr -> list value -> res value.
Variable np_index : array -> index -> res value.

(** Lines 18-25. *)
Definition functions : list ustr := map ulit ["abs"; "isfinite"; "isnan"; "logical_and"; "logical_or"; "logical_not"]%string.
Definition member (k : ustr) (l : list ustr) : bool := existsb (ustr_eqb k) l.
Definition in_unary (o : uop) : bool := match o with Not => false | _ => true end. (* line 26 *)
Definition in_binary (o : bop) : bool := match o with MatMult | LShift | RShift => false | _ => true end. (* lines 27-38 *)
Definition in_compare (o : cop) : bool := match o with Is | IsNot | In | NotIn => false | _ => true end. (* lines 39-46 *)
Definition dunder (s : ustr) : bool := match s with 95 :: 95 :: _ => true | _ => false end. (* startswith("__") *)

Definition MAX_EXPRESSION_BYTES : Z := 4096.
Definition MAX_AST_NODES : nat := 128.
Definition MAX_AST_DEPTH : nat := 16.
Definition MAX_LITERAL_ITEMS : Z := 64.
Definition MAX_INTERMEDIATE_BYTES : Z := 64 * 1024 * 1024.

Variable arrays : list (ustr * array).
Variable length : Z.
(** Line 57. *)
Definition max_elements : Z := Z.max 4096 (8 * length).

(** Lines 85-97. *)
Definition check_array (v : value) (allocated : bool) : res value :=
  match v with
  | VArray a =>
      guard allowed_kind (kind a) else ValueError ;;
      guard negb (allocated && ((max_elements <? size a) || (MAX_INTERMEDIATE_BYTES <? nbytes a))) else ValueError ;;
      Ok v
  | _ => Ok v
  end.
(** Lines 257-265. *)
Definition check_allocation (sh : list Z) (isz : Z) : res unit :=
  guard negb ((max_elements <? prod sh) || (MAX_INTERMEDIATE_BYTES <? prod sh * isz)) else ValueError ;; Ok tt.
(** np.broadcast_shapes of two shapes (last dimension first). *)
Fixpoint broadcast_rev (a b : list Z) : option (list Z) :=
  match a, b with
  | [], _ => Some b
  | _, [] => Some a
  | x :: p, y :: q =>
      match broadcast_rev p q with
      | Some r => if x =? y then Some (x :: r) else if x =? 1 then Some (y :: r) else if y =? 1 then Some (x :: r) else None
      | None => None
      end
  end.
Definition broadcast (a b : list Z) : option (list Z) :=
  match broadcast_rev (rev a) (rev b) with Some r => Some (rev r) | None => None end.
Fixpoint broadcast_all (acc : list Z) (l : list (list Z)) : option (list Z) :=
  match l with [] => Some acc | s :: r => match broadcast acc s with Some t => broadcast_all t r | None => None end end.
Definition arrays_of (l : list value) : list array := flat_map (fun v => match v with VArray a => [a] | _ => [] end) l.
(** Lines 239-255; also lines 220-233 for the arguments of a call. *)
Definition check_broadcast (l : list value) : res unit :=
  match arrays_of l with
  | [] => Ok tt
  | a :: r =>
      match broadcast_all (shape a) (map shape r) with
      | None => Err ValueError
      | Some sh => check_allocation sh (fold_left Z.max (map itemsize r) (itemsize a))
      end
  end.

(** Lines 117-129. *)
Definition literal (c : const) : res value :=
  match c with
  | CNone => Ok VNone
  | CBool b => Ok (VBool b)
  | CInt z => guard (- 2 ^ 63 <=? z) && (z <? 2 ^ 63) else ValueError ;; Ok (VInt z)
  | CFloat f => guard finite f else ValueError ;; Ok (VFloat f)
  | CEllipsis | COther => Err ValueError
  end.
Definition is_int (i : index) : bool := match i with IInt _ => true | _ => false end.
Definition is_ellipsis (i : index) : bool := match i with IEllipsis => true | _ => false end.
(** Lines 286-316. *)
Fixpoint index_literal (e : expr) : res index :=
  match e with
  | Constant CEllipsis => Ok IEllipsis
  | Constant c => v <- literal c ;; match v with VInt z => Ok (IInt z) | _ => Err ValueError end
  | UnaryOp USub e =>
      v <- index_literal e ;; match v with IInt z => Ok (IInt (- z)) | _ => Err TypeError end
  | Slice a b c =>
      let o (x : option expr) := match x with Some e => v <- index_literal e ;; Ok (Some v) | None => Ok None end in
      a' <- o a ;; b' <- o b ;; c' <- o c ;; Ok (ISlice a' b' c')
  | Tuple l =>
      guard zlen l <=? MAX_LITERAL_ITEMS else ValueError ;;
      vs <- each_res index_literal l ;;
      guard zlen (filter is_ellipsis vs) <=? 1 else ValueError ;;
      Ok (ITuple vs)
  | ListLit l =>
      guard zlen l <=? MAX_LITERAL_ITEMS else ValueError ;;
      vs <- each_res index_literal l ;;
      guard zlen (filter is_ellipsis vs) <=? 1 else ValueError ;;
      guard forallb is_int vs else ValueError ;;
      Ok (IList vs)
  | _ => Err ValueError
  end.
(** Lines 268-284. *)
Definition list_lengths (i : index) : list Z :=
  match i with
  | IList l => [zlen l]
  | ITuple l => flat_map (fun x => match x with IList m => [zlen m] | _ => [] end) l
  | _ => []
  end.
Definition contains_advanced_index (i : index) : bool := match list_lengths i with [] => false | _ => true end.
Definition advanced_index_count (i : index) : Z := fold_right Z.max 0 (list_lengths i).

(** An operation: what it is, its result, the exception the caller sees. *)
Definition perform (e : event) (made : value -> event) (wrap : bool) (r : res value) : M value :=
  emit e ;~
  match r with
  | Ok v => emit (made v) ;~ ret v
  | Err x => fail value (if wrap then ValueError else x)
  end.
(** Lines 174-187. *)
Section Chain.
Variable eval : expr -> M value.
Fixpoint chain (left : value) (result : option value) (ops : list cop) (cs : list expr) {struct cs} : M value :=
  match ops, cs with
  | o :: ops', c :: cs' =>
      need (in_compare o) ValueError ;~
      right <~ eval c ;
      lift (check_broadcast [left; right]) ;~
      part <~ perform (ECompare o) EComputed false (py_compare o left right) ;
      part <~ lift (check_array part true) ;
      result' <~ (match result with
                  | None => ret part
                  | Some r => perform EAnd EComputed false (np_logical_and r part)
                  end) ;
      chain right (Some result') ops' cs'
  | _, _ => ret (match result with Some r => r | None => VNone end)
  end.
End Chain.
(** Lines 131-237. *)
Fixpoint eval (e : expr) : M value :=
  match e with
  | Constant c => lift (literal c)
  | Name id => (* 134-143 *)
      need (negb (dunder id)) ValueError ;~
      match obj_get arrays id with
      | Some a => emit (EInput id) ;~ ret (VArray a)
      | None =>
          if ustr_eqb id (ulit "np") then ret VNumpy
          else if member id functions then ret (VFunction id)
          else fail value ValueError
      end
  | Tuple l | ListLit l => (* 144-147 *)
      need (zlen l <=? MAX_LITERAL_ITEMS) ValueError ;~
      vs <~ lift (each_res index_literal l) ; ret (VTuple vs)
  | UnaryOp o e => (* 148-156 *)
      if in_unary o then
        v <~ eval e ;
        lift (match v with
              | VArray a => check_allocation (shape a) (itemsize a)
              | VScalar isz _ => check_allocation [] isz
              | _ => check_allocation [] 8
              end) ;~
        r <~ perform (EUnary o) EComputed false (py_unary o v) ;
        lift (check_array r true)
      else fail value ValueError
  | BinOp o l r => (* 157-173 *)
      if in_binary o then
        need (match o, r with
              | Pow, Constant (CInt z) => (0 <=? z) && (z <=? 8)
              | Pow, _ => false
              | _, _ => true
              end) ValueError ;~
        left <~ eval l ;
        right <~ eval r ;
        lift (check_broadcast [left; right]) ;~
        v <~ perform (EBinary o) EComputed true (py_binary o left right) ;
        lift (check_array v true)
      else fail value ValueError
  | Compare l ops cs => (* 174-187 *)
      need (Nat.eqb (List.length ops) (List.length cs)) ValueError ;~
      left <~ eval l ;
      chain eval left None ops cs
  | Subscript e s => (* 188-205 *)
      v <~ eval e ;
      match v with
      | VArray a =>
          i <~ lift (index_literal s) ;
          lift (if contains_advanced_index i then
                  match shape a with
                  | [] => Err IndexError
                  | d :: _ => check_allocation [Z.max 1 (advanced_index_count i) * Z.max 1 (size a / Z.max 1 d)] (itemsize a)
                  end
                else Ok tt) ;~
          r <~ perform EIndex EIndexed true (np_index a i) ;
          lift (check_array r true)
      | _ => fail value ValueError
      end
  | Attribute e attr => (* 206-213 *)
      match e with
      | Name id => if ustr_eqb id (ulit "np") && member attr functions then ret (VFunction attr) else fail value ValueError
      | _ => fail value ValueError
      end
  | Call f args kws => (* 214-237; a callable is compared with the listed functions *)
      fn <~ eval f ;
      match fn with
      | VFunction g =>
          need (member g functions) ValueError ;~
          need (match kws with [] => true | _ => false end) ValueError ;~
          vs <~ each eval args ;
          lift (check_broadcast vs) ;~
          r <~ perform (ECall g) EComputed true (np_call g vs) ;
          lift (check_array r true)
      | _ => fail value ValueError
      end
  | Slice _ _ _ | Other _ _ => fail value ValueError (* 237 *)
  end.
End Filter.
Arguments VNone {F D}. Arguments VBool {F D} b. Arguments VInt {F D} z. Arguments VFloat {F D} f. Arguments VTuple {F D} l.
Arguments VScalar {F D} itemsize d. Arguments VArray {F D} a. Arguments VNumpy {F D}. Arguments VFunction {F D} name.
Arguments CNone {F}. Arguments CBool {F} b. Arguments CInt {F} z. Arguments CFloat {F} f. Arguments CEllipsis {F}. Arguments COther {F}.
Arguments Name {F} id. Arguments EInput {F D} name. Arguments EUnary {F D} o. Arguments EBinary {F D} o. Arguments ECompare {F D} o.
Arguments EAnd {F D}. Arguments EIndex {F D}. Arguments ECall {F D} f.
Arguments ret {F D A} a. Arguments fail {F D A} e. Arguments lift {F D A} r. Arguments need {F D} b e. Arguments emit {F D} e.

(** __init__ and evaluate, lines 50-115, 319-320.  [parse] is ast.parse in mode "eval". *)
Section Evaluate.
Variables (F : Type) (finite : F -> bool) (D : Type) (parse : ustr -> option (expr F)).
Variable py_unary : uop -> value F D -> res (value F D).
Variable py_binary : bop -> value F D -> value F D -> res (value F D).
Variable py_compare : cop -> value F D -> value F D -> res (value F D).
Variable np_logical_and : value F D -> value F D -> res (value F D).
Variable np_call : ustr -> list (value F D) -> res (value F D).
Variable np_index : array D -> index -> res (value F D).
Notation "x <~ m ; k" := (andthen m (fun x => k)) (at level 61, m at next level, right associativity).
Notation "m ;~ k" := (andthen m (fun _ => k)) (at level 61, right associativity).
Definition evaluate_filter_condition (expression : ustr) (arrays : list (ustr * array D)) : M F D (array D) :=
  length <~ lift (match arrays with
                      | [] => Err ValueError
                      | (_, a) :: _ => match shape a with d :: _ => Ok d | [] => Err TypeError end
                      end) ;
  bytes <~ lift (utf8_encode expression) ;
  need (zlen bytes <=? MAX_EXPRESSION_BYTES) ValueError ;~
  tree <~ lift (match parse expression with Some t => Ok t | None => Err ValueError end) ;
  need (1 + nodes tree <=? MAX_AST_NODES)%nat ValueError ;~
  need (1 + depth tree <=? MAX_AST_DEPTH)%nat ValueError ;~
  lift (mapM (fun na => guard negb (dunder (fst na)) else ValueError ;; check_array (F:=F) length (VArray (snd na)) false) arrays) ;~
  v <~ eval finite py_unary py_binary py_compare np_logical_and np_call np_index arrays length tree ;
  match v with
  | VArray a =>
      need (match kind a with KBool => true | _ => false end) ValueError ;~
      need (match shape a with [n] => n =? length | _ => false end) ValueError ;~
      ret a
  | _ => fail ValueError
  end.
End Evaluate.
