(** What the training code sees, for C29. *)
From Verif Require Import Base AsyncWriter.
Set Implicit Arguments.
Unset Strict Implicit.

Section Spec.
Variables V K O : Type.
(** The values of the tensors in program order: every kernel launched and every
    assignment made so far has taken effect. *)
Definition values (s0 : store V) (l : list (event V K O)) : store V :=
  fold_left (fun s e => match e with
    | EKernel _ _ n f => {| gpu := fun m => if (m =? n)%nat then f (gpu s) else gpu s m; cpu := cpu s |}
    | EHost _ _ n v => {| gpu := gpu s; cpu := fun m => if (m =? n)%nat then v else cpu s m |}
    | _ => s
    end) l s0.
(** An object with its tensors replaced by their values. *)
Definition content (s : store V) (t : tree K O loc) : tree K O V := tree_map (value s) t.
End Spec.
