(** Shared vocabulary of the model: exceptions as values, Python list
    primitives, and a total "loop until stop" combinator.
    Nothing here models one particular function of /repo; these are the Python
    language constructs the modelled functions are written in. *)
From Coq Require Export List ZArith Lia Permutation Bool String Ascii.
From Coq Require Export ZifyBool ZifyNat.
Export ListNotations.
Set Implicit Arguments.
Open Scope Z_scope.
Open Scope list_scope.

(** The exceptions the modelled code raises.  [OutOfFuel] is not a Python
    exception: it marks a loop bound of the model; every theorem that needs it
    excludes it, and it is proved unreachable where it appears. *)
Inductive exn :=
| ValueError | RuntimeError | TypeError | IndexError | KeyError | EOFError
| OverflowError | StopIteration | StructError | OSError | AssertionError
| OutOfFuel.

Inductive res (A : Type) : Type :=
| Ok (a : A)
| Err (e : exn).
Arguments Ok {A} a.
Arguments Err {A} e.

Definition bind {A B} (m : res A) (k : A -> res B) : res B :=
  match m with Ok a => k a | Err e => Err e end.

Declare Scope res_scope.
Delimit Scope res_scope with res.
Notation "x <- m ;; k" := (bind m (fun x => k))
  (at level 61, m at next level, right associativity) : res_scope.
Notation "' p <- m ;; k" := (bind m (fun p => k))
  (at level 61, p pattern, m at next level, right associativity) : res_scope.
Notation "'guard' b 'else' e ;; k" := (if b then k else Err e)
  (at level 61, b at next level, e at next level, right associativity) : res_scope.
Open Scope res_scope.

Definition is_ok {A} (m : res A) : bool := match m with Ok _ => true | Err _ => false end.

(** Python [len(l)]. *)
Definition zlen {A} (l : list A) : Z := Z.of_nat (List.length l).

(** Python [l[i]] for a non-negative index. *)
Definition py_get {A} (l : list A) (i : nat) : res A :=
  match nth_error l i with Some a => Ok a | None => Err IndexError end.

(** Python [l[i] = x] for a non-negative index. *)
Fixpoint upd {A} (l : list A) (i : nat) (x : A) : list A :=
  match l, i with
  | [], _ => []
  | _ :: t, O => x :: t
  | h :: t, S j => h :: upd t j x
  end.
Definition py_set {A} (l : list A) (i : nat) (x : A) : res (list A) :=
  if (i <? List.length l)%nat then Ok (upd l i x) else Err IndexError.

(** Python [l.pop()]. *)
Fixpoint py_pop {A} (l : list A) : res (list A * A) :=
  match l with
  | [] => Err IndexError
  | [a] => Ok ([], a)
  | h :: t => match py_pop t with Ok (t', a) => Ok (h :: t', a) | Err e => Err e end
  end.

(** Python [sum] of a list of ints. *)
Definition zsum (l : list Z) : Z := fold_right Z.add 0 l.

(** Sequence a list of fallible computations left to right. *)
Fixpoint mapM {A B} (f : A -> res B) (l : list A) : res (list B) :=
  match l with
  | [] => Ok []
  | a :: t => b <- f a ;; bs <- mapM f t ;; Ok (b :: bs)
  end.

(** [while True] loop: [f] either continues with a new loop state ([inl]) or
    leaves the loop ([inr]); at most [p] iterations.  Structural recursion on a
    binary number, so a bound such as 2^63 costs nothing when the loop stops early. *)
Fixpoint loop_pos {S B} (p : positive) (f : S -> S + B) (s : S) : S + B :=
  match p with
  | xH => f s
  | xO q => match loop_pos q f s with
            | inl s' => loop_pos q f s'
            | inr b => inr b
            end
  | xI q => match f s with
            | inl s0 => match loop_pos q f s0 with
                        | inl s' => loop_pos q f s'
                        | inr b => inr b
                        end
            | inr b => inr b
            end
  end.

(** [range(n)] as indices. *)
Definition range (n : nat) : list nat := seq 0 n.

(** Keep [simpl] away from binary arithmetic. *)
Global Arguments Z.modulo : simpl never.
Global Arguments Z.div : simpl never.
Global Arguments Z.pow : simpl never.
Global Arguments Z.mul : simpl never.
Global Arguments Z.add : simpl never.
Global Arguments Z.sub : simpl never.
Global Arguments Z.lxor : simpl never.
Global Arguments Z.shiftr : simpl never.
Global Arguments Z.ltb : simpl never.
Global Arguments Z.leb : simpl never.
Global Arguments Z.eqb : simpl never.
Global Arguments Z.of_nat : simpl never.
Global Arguments Z.to_nat : simpl never.
