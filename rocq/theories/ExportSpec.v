(** What an export asks for and what a reader of the exported file sees. *)
From Verif Require Import Base Json Codec Export.
Set Implicit Arguments. Unset Strict Implicit.

Definition legal_rules := [ulit "freestyle"; ulit "standard"; ulit "renju"].

(** The rules named by the export arguments: a single [rule], or a list under [rule_list] or [rules]. *)
Inductive names_rules (a : args) : list ustr -> Prop :=
| by_rule r : obj_get a (ulit "rule") = Some (JStr r) -> names_rules a [r]
| by_rules k l : In k [ulit "rule_list"; ulit "rules"] -> obj_get a k = Some (JList (map JStr l)) -> names_rules a l.

(** A number in the arguments (Python counts True as 1). *)
Inductive number : json -> Z -> Prop :=
| num_int n : number (JInt n) n
| num_bool (b : bool) : number (JBool b) (if b then 1 else 0).

(** The board sizes named: one size, a range, a list, or, when none is given, all of them.  Given as the
    property of belonging to them. *)
Inductive names_sizes (a : args) : (Z -> Prop) -> Prop :=
| by_size j n : obj_get a (ulit "board_size") = Some j -> number j n -> names_sizes a (eq n)
| by_range jlo jhi lo hi : obj_get a (ulit "min_board_size") = Some jlo -> obj_get a (ulit "max_board_size") = Some jhi ->
    number jlo lo -> number jhi hi -> names_sizes a (fun n => lo <= n <= hi)
| by_sizes k js ns : In k [ulit "board_size_list"; ulit "boardsizes"] -> obj_get a k = Some (JList js) ->
    Forall2 number js ns -> names_sizes a (fun n => In n ns)
| by_default : (forall k, In k [ulit "board_size"; ulit "board_size_list"; ulit "boardsizes"] -> obj_get a k = None) ->
    (obj_get a (ulit "min_board_size") = None \/ obj_get a (ulit "max_board_size") = None) ->
    names_sizes a (fun n => 1 <= n <= 32).

Definition given (a : args) (k : ustr) : Prop := obj_get a k <> None.
(** The rules, or the sizes, are given in more than one way. *)
Definition two_ways (a : args) : Prop :=
  (exists k1 k2, k1 <> k2 /\ In k1 [ulit "rule"; ulit "rule_list"; ulit "rules"]
      /\ In k2 [ulit "rule"; ulit "rule_list"; ulit "rules"] /\ given a k1 /\ given a k2)
  \/ (exists k1 k2, k1 <> k2 /\ In k1 [ulit "board_size"; ulit "min_board_size"; ulit "board_size_list"; ulit "boardsizes"]
      /\ In k2 [ulit "board_size"; ulit "min_board_size"; ulit "board_size_list"; ulit "boardsizes"] /\ given a k1 /\ given a k2).
(** Every name the export itself gives a meaning to; no serializer class has an option of such a name. *)
Definition reserved := [ulit "rule"; ulit "rule_list"; ulit "rules"; ulit "board_size"; ulit "min_board_size";
  ulit "max_board_size"; ulit "board_size_list"; ulit "boardsizes"; ulit "model_type"].
Definition usual_classes (registry : list (ustr * class)) : Prop :=
  forall n c k, In (n, c) registry -> In k reserved -> ~ In k (accepts c).

(** A reader of a weight file: four numbers of four bytes, least significant first, then the length of
    the description, the description, and the weights. *)
Record weight_file := WeightFile {
  w_magic : Z; w_arch : Z; w_rules : Z; w_sizes : Z; w_description : list Z; w_weights : list Z }.
Definition word (b : list Z) : option (Z * list Z) :=
  match b with b0 :: b1 :: b2 :: b3 :: r => Some (le_value [b0; b1; b2; b3], r) | _ => None end.
Definition read_file (b : list Z) : option weight_file :=
  match word b with None => None | Some (m, b) =>
  match word b with None => None | Some (h, b) =>
  match word b with None => None | Some (r, b) =>
  match word b with None => None | Some (s, b) =>
  match word b with None => None | Some (n, b) =>
    if n <=? zlen b then Some (WeightFile m h r s (firstn (Z.to_nat n) b) (skipn (Z.to_nat n) b)) else None
  end end end end end.
(** The file declares support for a rule (bit 0, 1, 2) or a board size (bit n-1). *)
Definition rule_bit (r : ustr) (k : Z) : Prop :=
  (r = ulit "freestyle" /\ k = 0) \/ (r = ulit "standard" /\ k = 1) \/ (r = ulit "renju" /\ k = 2).
(** The number's set bits are exactly those for the rules, or sizes, in question. *)
Definition advertises_rules (mask : Z) (rules : list ustr) : Prop :=
  0 <= mask /\ forall k, 0 <= k -> (Z.testbit mask k = true <-> exists r, In r rules /\ rule_bit r k).
Definition advertises_sizes (mask : Z) (sizes : Z -> Prop) : Prop :=
  0 <= mask /\ forall k, 0 <= k -> (Z.testbit mask k = true <-> sizes (k + 1)).
