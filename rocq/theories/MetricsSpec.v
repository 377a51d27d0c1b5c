(** Specification vocabulary for C31: exact numbers, samples, means. *)
From Coq Require Import QArith Qcanon.
From Verif Require Import Base Checkpoint Json Metrics.
Open Scope Z_scope.
Set Implicit Arguments. Unset Strict Implicit.

(** Rational numbers with minus infinity and "not a number". *)
Inductive xq := Fin (q : Qc) | MinusInf | NotANumber.
Definition xadd (a b : xq) : xq :=
  match a, b with
  | Fin p, Fin q => Fin (p + q)%Qc
  | NotANumber, _ | _, NotANumber => NotANumber
  | _, _ => MinusInf
  end.
Definition inj (n : Z) : Qc := Q2Qc (inject_Z n).
Definition xdiv (a : xq) (n : Z) : xq :=
  match a with
  | Fin q => if n =? 0 then NotANumber else Fin (q / inj n)%Qc
  | MinusInf => if 0 <? n then MinusInf else NotANumber
  | NotANumber => NotANumber
  end.
Definition qmax (p q : Qc) : Qc := match (p ?= q)%Qc with Lt => q | _ => p end.
Definition xmax (a b : xq) : xq :=
  match a, b with
  | NotANumber, _ | _, NotANumber => NotANumber
  | MinusInf, x => x
  | x, MinusInf => x
  | Fin p, Fin q => Fin (qmax p q)
  end.
Definition exact : arith := {| V := xq; zero := Fin 0%Qc; add := xadd; divz := xdiv; vmax := xmax; neg_inf := MinusInf |}.

Definition qsum (l : list Qc) : Qc := fold_right Qcplus 0%Qc l.

(** ** Samples.  A batch is a list of rows, each flagged "real" or padding. *)
Section Samples.
Variable X : Type.
Definition batch := list (bool * X).
Definition real (b : batch) : list X := map snd (filter fst b).
(** The [i]-th global batch: the real rows of the [i]-th batches of all ranks. *)
Definition global_batch (loaders : list (list batch)) (i : nat) : list X :=
  flat_map (fun l => match nth_error l i with Some b => real b | None => [] end) loaders.
(** All real rows of the evaluation. *)
Definition all_rows (loaders : list (list batch)) : list X := flat_map (fun l => flat_map real l) loaders.
(** The number of ranks that have an [i]-th batch. *)
Definition present (loaders : list (list batch)) (i : nat) : Z :=
  zlen (filter (fun l => (i <? List.length l)%nat) loaders).
(** The mean of [f] with weights [w] (the statistic's count). *)
Definition total (f : X -> Qc) (l : list X) : Qc := qsum (map f l).
Definition weight (w : X -> Z) (l : list X) : Z := zsum (map w l).
Definition mean (f : X -> Qc) (w : X -> Z) (l : list X) : Qc := (total f l / inj (weight w l))%Qc.
End Samples.

(** Vectors, for statistics with named tensors. *)
Fixpoint vplus (a b : list Qc) : list Qc := match a, b with x :: p, y :: q => (x + y)%Qc :: vplus p q | _, _ => [] end.
Definition vtotal (len : nat) (l : list (list Qc)) : list Qc := fold_right vplus (repeat 0%Qc len) l.
Section Named.
Variables (X : Type) (shape_of : ustr -> list Z) (dtype_of : ustr -> dtype) (len_of : ustr -> nat)
  (vec : ustr -> X -> list Qc) (cnt : ustr -> X -> Z).
(** The dictionaries of the sums over a list of rows. *)
Definition sums (names : list ustr) (rows : list X) : list (ustr * tensor exact) :=
  map (fun nm => (nm, mk_tensor (R:=exact) (shape_of nm) (dtype_of nm) true (map Fin (vtotal (len_of nm) (map (vec nm) rows))))) names.
Definition counts (names : list ustr) (rows : list X) : list (ustr * Z) := map (fun nm => (nm, zsum (map (cnt nm) rows))) names.
End Named.
(** A library reduction that takes the maximum of scalars. *)
Definition takes_maximum (reduce : list (tensor exact) -> res (tensor exact)) : Prop := forall ts xs, xs <> [] ->
  map (@t_data exact) ts = map (fun x => [x]) xs -> exists t, reduce ts = Ok t /\ t_data t = [fold_right xmax MinusInf xs].
