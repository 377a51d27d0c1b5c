(** utils/misc_utils.py:57-79, deep_update_dict: merging an override into a nested
    configuration, in place.

    Python dictionaries are objects: the model has a heap.  [key_prefix], used only for the
    text of the error, is left out. *)
From Verif Require Import Base Checkpoint.
Set Implicit Arguments. Unset Strict Implicit.

Section Merge.
Variable A : Type. (* everything that is not a dictionary *)

(** A value: a reference to a dictionary, or something else. *)
Inductive hval := HLeaf (x : A) | HRef (a : nat).
Definition heap := nat -> option (list (str * hval)).
Definition write (h : heap) (a : nat) (es : list (str * hval)) : heap := fun b => if (b =? a)%nat then Some es else h b.

(** recursive_update (lines 64-74), applied to dict1 = [a1] and dict2 = [a2]: the heap
    afterwards and the exception raised, if any.  The entries of dict2 are read once, when
    the loop starts (the loop writes dict2 only if the two dictionaries share parts). *)
Fixpoint recursive_update (fuel : nat) (h : heap) (a1 a2 : nat) {struct fuel} : heap * option exn :=
  match fuel with
  | 0%nat => (h, Some OutOfFuel)
  | S f =>
    let fix loop (h : heap) (items : list (str * hval)) {struct items} : heap * option exn :=
      match items with
      | [] => (h, None)
      | (key, value) :: rest =>
        match h a1 with
        | None => (h, Some RuntimeError) (* not an address of a dictionary *)
        | Some entries =>
          match value, dict_get entries key with
          | HRef sub, Some (HRef mine) => (* lines 67-71 *)
              match recursive_update f h mine sub with
              | (h', None) => loop h' rest
              | (h', Some e) => (h', Some e)
              end
          | HRef sub, Some (HLeaf _) => (h, Some TypeError) (* lines 69-70 *)
          | _, _ => loop (write h a1 (dict_set entries key value)) rest (* line 73 *)
          end
        end
      end in
    match h a2 with
    | None => (h, Some RuntimeError)
    | Some items => loop h items
    end
  end.
End Merge.
