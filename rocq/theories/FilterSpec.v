(** Specification vocabulary for C32: the accepted language, its meaning, the allowed
    effects, and what the theorems assume of NumPy. *)
From Verif Require Import Base Json Filter.
Set Implicit Arguments. Unset Strict Implicit.

Definition listed_functions : list ustr := map ulit ["abs"; "isfinite"; "isnan"; "logical_and"; "logical_or"; "logical_not"]%string.
Definition unary_operators : list uop := [UAdd; USub; Invert].
Definition binary_operators : list bop := [Add; Sub; Mult; Div; FloorDiv; Mod; BitAnd; BitOr; BitXor].
Definition comparisons : list cop := [Eq; NotEq; Lt; LtE; Gt; GtE].

Section Spec.
Variables (F : Type) (finite : F -> bool) (D : Type).

(** ** The accepted language *)
(** Literal indexes. *)
Inductive index_syntax : expr F -> Prop :=
| IS_ellipsis : index_syntax (Constant CEllipsis)
| IS_int z : - 2 ^ 63 <= z < 2 ^ 63 -> index_syntax (Constant (CInt z))
| IS_minus e : index_syntax e -> index_syntax (UnaryOp USub e)
| IS_slice a b c : (forall e, a = Some e \/ b = Some e \/ c = Some e -> index_syntax e) -> index_syntax (Slice a b c)
| IS_tuple l : (List.length l <= 64)%nat -> (forall e, List.In e l -> index_syntax e) -> index_syntax (Tuple l)
| IS_list l : (List.length l <= 64)%nat -> (forall e, List.In e l -> index_syntax e) -> index_syntax (ListLit l).
Variable names : list ustr. (* the input arrays *)
Inductive allowed : expr F -> Prop :=
| A_none : allowed (Constant CNone)
| A_bool b : allowed (Constant (CBool b))
| A_int z : - 2 ^ 63 <= z < 2 ^ 63 -> allowed (Constant (CInt z))
| A_float f : finite f = true -> allowed (Constant (CFloat f))
| A_name n : firstn 2 n <> ulit "__" -> List.In n (names ++ ulit "np" :: listed_functions) -> allowed (Name n)
| A_tuple l : (List.length l <= 64)%nat -> (forall e, List.In e l -> index_syntax e) -> allowed (Tuple l)
| A_list l : (List.length l <= 64)%nat -> (forall e, List.In e l -> index_syntax e) -> allowed (ListLit l)
| A_unary o e : List.In o unary_operators -> allowed e -> allowed (UnaryOp o e)
| A_binary o l r : List.In o binary_operators -> allowed l -> allowed r -> allowed (BinOp o l r)
| A_power e z : allowed e -> 0 <= z <= 8 -> allowed (BinOp Pow e (Constant (CInt z)))
| A_compare l ops cs : allowed l -> (forall o, List.In o ops -> List.In o comparisons) -> List.length ops = List.length cs ->
    (forall e, List.In e cs -> allowed e) -> allowed (Compare l ops cs)
| A_subscript e s : allowed e -> index_syntax s -> allowed (Subscript e s)
| A_attribute f : List.In f listed_functions -> allowed (Attribute (Name (ulit "np")) f)
| A_call f args : allowed f -> (forall e, List.In e args -> allowed e) -> allowed (Call f args []).

(** ** Their meaning in Python *)
Inductive index_meaning : expr F -> index -> Prop :=
| IM_ellipsis : index_meaning (Constant CEllipsis) IEllipsis
| IM_int z : index_meaning (Constant (CInt z)) (IInt z)
| IM_minus e z : index_meaning e (IInt z) -> index_meaning (UnaryOp USub e) (IInt (- z))
| IM_slice a b c i j k : index_option a i -> index_option b j -> index_option c k -> index_meaning (Slice a b c) (ISlice i j k)
| IM_tuple l is : index_meanings l is -> index_meaning (Tuple l) (ITuple is)
| IM_list l is : index_meanings l is -> index_meaning (ListLit l) (IList is)
with index_meanings : list (expr F) -> list index -> Prop :=
| IMs_nil : index_meanings [] []
| IMs_cons e i l is : index_meaning e i -> index_meanings l is -> index_meanings (e :: l) (i :: is)
with index_option : option (expr F) -> option index -> Prop :=
| IO_none : index_option None None
| IO_some e i : index_meaning e i -> index_option (Some e) (Some i).

Variable py_unary : uop -> value F D -> res (value F D).
Variable py_binary : bop -> value F D -> value F D -> res (value F D).
Variable py_compare : cop -> value F D -> value F D -> res (value F D).
Variable np_logical_and : value F D -> value F D -> res (value F D).
Variable np_call : ustr -> list (value F D) -> res (value F D).
Variable np_index : array D -> index -> res (value F D).
Variable arrays : list (ustr * array D).
Inductive meaning : expr F -> value F D -> Prop :=
| M_none : meaning (Constant CNone) VNone
| M_bool b : meaning (Constant (CBool b)) (VBool b)
| M_int z : meaning (Constant (CInt z)) (VInt z)
| M_float f : meaning (Constant (CFloat f)) (VFloat f)
| M_array n a : obj_get arrays n = Some a -> meaning (Name n) (VArray a)
| M_numpy : obj_get arrays (ulit "np") = None -> meaning (Name (ulit "np")) VNumpy
| M_function n : obj_get arrays n = None -> List.In n listed_functions -> meaning (Name n) (VFunction n)
| M_tuple l is : index_meanings l is -> meaning (Tuple l) (VTuple is)
| M_list l is : index_meanings l is -> meaning (ListLit l) (VTuple is)
| M_unary o e v w : meaning e v -> py_unary o v = Ok w -> meaning (UnaryOp o e) w
| M_binary o l r v w x : meaning l v -> meaning r w -> py_binary o v w = Ok x -> meaning (BinOp o l r) x
| M_compare l o c ops cs v w p x : meaning l v -> meaning c w -> py_compare o v w = Ok p -> comparison p w ops cs x ->
    meaning (Compare l (o :: ops) (c :: cs)) x
(* not produced by the parser *)
| M_nothing l v : meaning l v -> meaning (Compare l [] []) VNone
| M_subscript e s a i v : meaning e (VArray a) -> index_meaning s i -> np_index a i = Ok v -> meaning (Subscript e s) v
| M_attribute f : List.In f listed_functions -> meaning (Attribute (Name (ulit "np")) f) (VFunction f)
| M_call f args g vs v : meaning f (VFunction g) -> meanings args vs -> np_call g vs = Ok v -> meaning (Call f args []) v
(** [comparison p v ops cs x]: the conjunction of [p] and of the comparisons of [v] and the
    values of [cs] with their left neighbours is [x]. *)
with comparison : value F D -> value F D -> list cop -> list (expr F) -> value F D -> Prop :=
| C_end p v : comparison p v [] [] p
| C_more p v o c ops cs w p' p'' x : meaning c w -> py_compare o v w = Ok p' -> np_logical_and p p' = Ok p'' ->
    comparison p'' w ops cs x -> comparison p v (o :: ops) (c :: cs) x
with meanings : list (expr F) -> list (value F D) -> Prop :=
| Ms_nil : meanings [] []
| Ms_cons e v l vs : meaning e v -> meanings l vs -> meanings (e :: l) (v :: vs).

(** ** Allowed effects *)
Definition harmless (ev : event F D) : Prop :=
  match ev with
  | EInput n => List.In n names /\ firstn 2 n <> ulit "__"
  | EUnary o => List.In o unary_operators
  | EBinary o => List.In o (Pow :: binary_operators)
  | ECompare o => List.In o comparisons
  | ECall f => List.In f listed_functions
  | EAnd | EIndex | EComputed _ | EIndexed _ => True
  end.

(** ** Sizes *)
(** Expressions without chained comparisons and without tuples (except in subscripts). *)
Inductive plain : expr F -> Prop :=
| P_const c : plain (Constant c)
| P_name n : plain (Name n)
| P_unary o e : plain e -> plain (UnaryOp o e)
| P_binary o l r : plain l -> plain r -> plain (BinOp o l r)
| P_compare l o c : plain l -> plain c -> plain (Compare l [o] [c])
| P_subscript e s : plain e -> plain (Subscript e s)
| P_attribute e f : plain (Attribute e f)
| P_call f args : plain f -> (forall e, List.In e args -> plain e) -> plain (Call f args []).
Definition no_tuple (v : value F D) : Prop := match v with VTuple _ => False | _ => True end.
(** The shapes of the array operands broadcast to [sh]. *)
Definition joint_shape (vs : list (value F D)) (sh : list Z) : Prop :=
  match arrays_of vs with [] => False | a :: l => broadcast_all (shape a) (map (@shape D) l) = Some sh end.
(** NumPy's operators and functions applied elementwise to arrays and numbers make arrays of
    the joint shape, and no tuples. *)
Record elementwise : Prop := {
  of_unary : forall o v w, no_tuple v -> py_unary o v = Ok w -> no_tuple w /\ forall a, w = VArray a -> joint_shape [v] (shape a);
  of_binary : forall o v w x, no_tuple v -> no_tuple w -> py_binary o v w = Ok x -> no_tuple x /\ forall a, x = VArray a -> joint_shape [v; w] (shape a);
  of_compare : forall o v w x, no_tuple v -> no_tuple w -> py_compare o v w = Ok x -> no_tuple x /\ forall a, x = VArray a -> joint_shape [v; w] (shape a);
  of_call : forall f vs x, Forall no_tuple vs -> np_call f vs = Ok x -> no_tuple x /\ forall a, x = VArray a -> joint_shape vs (shape a);
  of_index : forall a i x, np_index a i = Ok x -> no_tuple x
}.
End Spec.
Scheme index_meaning_mut := Induction for index_meaning Sort Prop
  with index_meanings_mut := Induction for index_meanings Sort Prop
  with index_option_mut := Induction for index_option Sort Prop.
