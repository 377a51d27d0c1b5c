(** Specification vocabulary for C64. *)
From Verif Require Import Base AdamW.
Set Implicit Arguments. Unset Strict Implicit.

Section Spec.
Variable R : Type.
Variables (r0 r1 : R) (radd rmul rsub : R -> R -> R) (ropp : R -> R) (rdiv : R -> R -> R).
Variable sqrt : R -> R.
Notation "x + y" := (radd x y). Notation "x * y" := (rmul x y). Notation "x - y" := (rsub x y). Notation "x / y" := (rdiv x y).
Notation view := (view R). Notation opt := (opt). Notation memory := (memory R). Notation hyper := (hyper R).

(** The n-th AdamW update of one number: new parameter and moments (Loshchilov and Hutter). *)
Definition adamw (h : hyper) (n : nat) (p g m v : R) : R * R * R :=
  let m := beta1 h * m + (r1 - beta1 h) * g in
  let v := beta2 h * v + (r1 - beta2 h) * (g * g) in
  let m_hat := m / (r1 - power r1 rmul (beta1 h) n) in
  let root_hat := sqrt v / sqrt (r1 - power r1 rmul (beta2 h) n) in
  (p - (lr h * weight_decay h) * p - (lr h * m_hat) / (root_hat + eps h), m, v).

(** ** What the surroundings have to respect *)
Definition index_of (t : tensor) (i : list nat) : Prop := Forall2 lt i (shape t).
Definition ids (s : opt) : list nat := List.concat (groups s).
(** The moments of a parameter: those it has, or the tensors that it will get. *)
Definition moments (w : view) (s : opt) (i : nat) : tensor * tensor :=
  match state s i with Some e => (exp_avg e, exp_avg_sq e) | None => fresh w i end.
(** The tensors that a step changes. *)
Inductive which := Param | First | Second.
Definition target (w : view) (s : opt) (i : nat) (k : which) : tensor :=
  match k with Param => param w i | First => fst (moments w s i) | Second => snd (moments w s i) end.
Definition shaped (t : tensor) (l : list nat) : Prop := shape t = l /\ List.length (strides t) = List.length l.
(** Tensors have the parameter's shape, those that are written do not overlap, and no gradient is among them or is sparse; no parameter is in two groups. *)
Definition sound (w : view) (s : opt) : Prop :=
  NoDup (ids s)
  /\ (forall i k, List.In i (ids s) -> shaped (target w s i k) (shape (param w i)))
  /\ (forall i g, List.In i (ids s) -> grad w i = Some g -> shaped g (shape (param w i)) /\ ptr g <> 0 /\ sparse g = false)
  /\ (forall i j k l a b, List.In i (ids s) -> List.In j (ids s) -> index_of (target w s i k) a -> index_of (target w s j l) b ->
        addr (target w s i k) a = addr (target w s j l) b -> i = j /\ k = l /\ a = b)
  /\ (forall i g a j l b, List.In i (ids s) -> List.In j (ids s) -> grad w i = Some g -> index_of g a -> index_of (target w s j l) b ->
        addr g a <> addr (target w s j l) b).
(** From one step to the next: a parameter keeps its layout unless it gets another address; parameters of a group get other addresses only if a
    gradient of the group does; [maximize] stays. *)
Definition moves (w0 w : view) (s : opt) : Prop :=
  forall j ps, nth_error (groups s) j = Some ps ->
    (forall i, List.In i ps -> ptr (param w i) = ptr (param w0 i) -> param w i = param w0 i)
    /\ ((forall i, List.In i ps -> ptr_of (grad w i) = ptr_of (grad w0 i)) -> forall i, List.In i ps -> ptr (param w i) = ptr (param w0 i))
    /\ maximize (hypers w j) = maximize (hypers w0 j).
Definition allowed (last : option view) (w : view) (s : opt) : Prop := match last with None => True | Some w0 => moves w0 w s end.

(** ** What a step should do *)
Definition old_count (s : opt) (i : nat) : nat := match state s i with Some e => count e | None => 0 end.
(** A moment that is not there yet counts as 0. *)
Definition old_moment (s : opt) (mem : memory) (i : nat) (a : Z) : R := match state s i with Some _ => mem a | None => r0 end.
Definition stepped (w : view) (s : opt) (mem : memory) (s' : opt) (mem' : memory) : Prop :=
  groups s' = groups s
  /\ (forall j ps i, nth_error (groups s) j = Some ps -> List.In i ps ->
        match grad w i with
        | None => state s' i = state s i
        | Some g =>
            state s' i = Some {| count := S (old_count s i); exp_avg := fst (moments w s i); exp_avg_sq := snd (moments w s i) |}
            /\ forall a, index_of (param w i) a ->
               let at_ k := addr (target w s i k) a in
               (mem' (at_ Param), mem' (at_ First), mem' (at_ Second))
               = adamw (hypers w j) (S (old_count s i)) (mem (at_ Param)) (if maximize (hypers w j) then ropp (mem (addr g a)) else mem (addr g a))
                   (old_moment s mem i (at_ First)) (old_moment s mem i (at_ Second))
        end)
  /\ (forall x, (forall i k a, List.In i (ids s) -> grad w i <> None -> index_of (target w s i k) a -> x <> addr (target w s i k) a) -> mem' x = mem x)
  /\ (forall i, ~ List.In i (ids s) -> state s' i = state s i).
End Spec.
