(** What C67-C69 assume of a configuration and of the rows of a batch. *)
From Coq Require Import String Field_theory.
From Verif Require Import Base Loss.
Set Implicit Arguments. Unset Strict Implicit.

Section Spec.
Context {R : Type} {N : numbers R} {row : Type}.

(** Real numbers: a field in which no positive count is zero; constant weights are recognised as constant; softmax keeps the length. *)
Definition exact_arithmetic : Prop :=
  (exists (opp inv : R -> R), field_theory r0 r1 radd rmul rsub opp rdiv inv eq)
  /\ (forall n, n <> 0%nat -> inj n <> r0)
  /\ (forall x, too_far x r0 = false)
  /\ (forall l : list R, List.length (softmax l) = List.length l).

(** The row has a board of n cells, at least one of them playable, and every board-shaped thing said about it has n cells. *)
Definition on_board (d : reading R row) (n : nat) (r : row) : Prop :=
  List.length (policy_of d r) = n /\ List.length (policy_target d r) = n /\ List.length (teacher_policy d r) = n /\ List.length (forbidden d r) = n
  /\ (forall m, board_mask d = Some m -> List.length (m r) = n /\ List.In true (m r))
  /\ (forall name f, List.In (name, APolicy f) (auxiliaries d) \/ List.In (name, AReg f) (auxiliaries d) -> List.length (f r) = n).

(** no auxiliary loss is a plain tensor *)
Definition all_predefined (d : reading R row) : Prop := forall name f, ~ List.In (name, ATensor f) (auxiliaries d).

(** [l] and [l'] agree wherever the mask is true. *)
Definition agree_on (mask : list bool) (l l' : list R) : Prop :=
  List.length l = List.length l' /\ forall i, nth_error mask i = Some true -> nth_error l i = nth_error l' i.
Definition aux_agree (m : row -> list bool) (a a' : aux R row) : Prop :=
  match a, a' with
  | APolicy f, APolicy f' | AReg f, AReg f' => forall r, agree_on (m r) (f r) (f' r)
  | _, _ => a = a'
  end.
(** Two readings of the same rows that differ at most in what the policy heads, the targets and the teacher say outside the board. *)
Definition same_on_board (m : row -> list bool) (d d' : reading R row) : Prop :=
  board_mask d = Some m /\ board_mask d' = Some m
  /\ value_of d = value_of d' /\ value_target d = value_target d' /\ teacher_value d = teacher_value d' /\ forbidden d = forbidden d'
  /\ (forall r, agree_on (m r) (policy_of d r) (policy_of d' r))
  /\ (forall r, agree_on (m r) (policy_target d r) (policy_target d' r))
  /\ (forall r, agree_on (m r) (teacher_policy d r) (teacher_policy d' r))
  /\ Forall2 (fun x y => fst x = fst y /\ aux_agree m (snd x) (snd y)) (auxiliaries d) (auxiliaries d').
End Spec.

(** ** What the total is made of, for C69 *)
Section Total.
Context {R : Type} {N : numbers R} {row : Type}.
Notation "x + y" := (radd x y). Notation "x * y" := (rmul x y). Notation "x - y" := (rsub x y). Notation "x / y" := (rdiv x y).
(** name of the reported loss; does it compare with the target; weight *)
Record part := { p_name : string; p_target : bool; p_weight : R }.
Definition main_parts (c : config R) : list part :=
  let ratio := value_policy_ratio c in
  [{| p_name := "value_loss"; p_target := true; p_weight := two * ratio / (ratio + r1) |};
   {| p_name := "policy_loss"; p_target := true; p_weight := two / (ratio + r1) |}].
Definition reg_parts (c : config R) : list part := if less r0 (policy_reg_lambda c) then [{| p_name := "policy_reg"; p_target := false; p_weight := policy_reg_lambda c |}] else [].
Definition own (c : config R) (name : string) (default : R) : R := match aux_lambda c name with Some w => w | None => default end.
Definition aux_parts (c : config R) (na : string * aux R row) : list part :=
  let '(name, a) := na in let ratio := value_policy_ratio c in let name_loss := String.append name "_loss" in
  match a with
  | AValue _ => [{| p_name := name_loss; p_target := true; p_weight := own c name (two * ratio / (ratio + r1)) |}]
  | APolicy _ => match policy_kind c with NONE => [] | _ => [{| p_name := name_loss; p_target := true; p_weight := own c name (two / (ratio + r1)) |}] end
  | AReg _ => match aux_lambda c name with
              | None => if is_zero (policy_reg_lambda c) then [] else [{| p_name := name; p_target := false; p_weight := policy_reg_lambda c |}]
              | Some w => [{| p_name := name; p_target := false; p_weight := w |}]
              end
  | _ => [{| p_name := name_loss; p_target := false; p_weight := own c name r1 |}]
  end.
Definition parts (c : config R) (d : reading R row) : list part := main_parts c ++ reg_parts c ++ flat_map (aux_parts c) (auxiliaries d).
(** the value reported under a name *)
Fixpoint reported (losses : dict R) (k : string) : R := match losses with [] => r0 | (k', v) :: losses => if String.eqb k' k then v else reported losses k end.
Definition weighted (prefix : string) (losses : dict R) (ps : list part) : R := rsum (map (fun p => p_weight p * reported losses (String.append prefix (p_name p))) ps).
(** no two losses are reported under one name *)
Definition distinct (kd : bool) (ps : list part) : Prop :=
  NoDup (map p_name ps ++ (if kd then map (fun p => String.append "kd_" (p_name p)) ps else []) ++ ["total_loss"%string]).
End Total.
