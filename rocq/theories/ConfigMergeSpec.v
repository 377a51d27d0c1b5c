(** Specification vocabulary for C33: nested configurations as trees, where they are in
    the heap, and what is at a path. *)
From Verif Require Import Base Checkpoint ConfigMerge.
Set Implicit Arguments. Unset Strict Implicit.
Section Spec.
Variable A : Type.

(** A nested configuration, with the address of each of its dictionaries. *)
Inductive tree := Leaf (x : A) | Dict (a : nat) (l : list (str * tree)).
Definition head (t : tree) : hval A := match t with Leaf x => HLeaf x | Dict a _ => HRef A a end.
(** The addresses of its dictionaries. *)
Fixpoint addrs (t : tree) : list nat :=
  match t with Leaf _ => [] | Dict a l => a :: flat_map (fun kv => addrs (snd kv)) l end.
(** The heap holds it. *)
Inductive holds (h : heap A) : tree -> Prop :=
| holds_leaf x : holds h (Leaf x)
| holds_dict a l : h a = Some (map (fun kv => (fst kv, head (snd kv))) l) ->
    Forall (fun kv => holds h (snd kv)) l -> holds h (Dict a l).
(** The keys of each dictionary are distinct. *)
Inductive well_formed : tree -> Prop :=
| wf_leaf x : well_formed (Leaf x)
| wf_dict a l : NoDup (map fst l) -> Forall (fun kv => well_formed (snd kv)) l -> well_formed (Dict a l).

(** What is at a path of keys: something, or a dictionary. *)
Inductive found := Value (x : A) | ADict.
Fixpoint at_path (t : tree) (p : list str) : option found :=
  match p, t with
  | [], Leaf x => Some (Value x)
  | [], Dict _ _ => Some ADict
  | k :: q, Dict _ l => match dict_get l k with Some s => at_path s q | None => None end
  | _ :: _, Leaf _ => None
  end.
(** Some proper or improper prefix of [p] is a value. *)
Definition below_value (t : tree) (p : list str) : Prop := exists q r x, p = q ++ r /\ at_path t q = Some (Value x).
Fixpoint depth (t : tree) : nat :=
  match t with Leaf _ => 0 | Dict _ l => S (fold_right Nat.max 0%nat (map (fun kv => depth (snd kv)) l)) end.
End Spec.
