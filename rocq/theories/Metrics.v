(** Evaluation statistics: dataset/core.py:813-936 (SumCount, Maximum, SufficientStats)
    and their reduction over batches and ranks in trainer/base.py:4496-4872, 5092-5128,
    5172-5176, 5286-5304.

    The ranks run in lock-step: every rank executes the same steps and meets the others in
    each collective, so one step of the model handles all ranks.  Left out: the two separate
    namespaces (loss, aux) of _validate, which are processed one after the other in the same
    way; VQ perplexities; logging; opaque values (rejected by the preflight). *)
From Verif Require Import Base Checkpoint Json.
Set Implicit Arguments. Unset Strict Implicit.

(** The arithmetic of tensor elements.  The theorems use exact numbers ([exact] in
    MetricsSpec.v) and binary32. *)
Record arith := {
  V : Type;
  zero : V;
  add : V -> V -> V;
  divz : V -> Z -> V; (* tensor / int *)
  vmax : V -> V -> V; (* torch.maximum *)
  neg_inf : V
}.

Section Metrics.
Variable R : arith.
Notation V := (V R).

Inductive dtype := DFloat (bits : Z) | DInt (bits : Z) | DBool | DComplex (bits : Z).
Definition dtype_eqb (a b : dtype) : bool :=
  match a, b with
  | DFloat x, DFloat y | DInt x, DInt y | DComplex x, DComplex y => x =? y
  | DBool, DBool => true
  | _, _ => false
  end.
Fixpoint shape_eqb (a b : list Z) : bool :=
  match a, b with [], [] => true | x :: p, y :: q => (x =? y) && shape_eqb p q | _, _ => false end.
(** A tensor: its shape, element type, whether it lies on the evaluation device of its
    rank, and its elements in order. *)
Record tensor := mk_tensor { t_shape : list Z; t_dtype : dtype; t_here : bool; t_data : list V }.
Definition compatible (a b : tensor) : bool :=
  shape_eqb (t_shape a) (t_shape b) && dtype_eqb (t_dtype a) (t_dtype b) && Bool.eqb (t_here a) (t_here b).
Fixpoint zip_with (f : V -> V -> V) (a b : list V) : list V :=
  match a, b with x :: p, y :: q => f x y :: zip_with f p q | _, _ => [] end.
Definition on_data (f : list V -> list V) (t : tensor) : tensor :=
  mk_tensor (t_shape t) (t_dtype t) (t_here t) (f (t_data t)).
Definition t_add (a b : tensor) : tensor := on_data (fun d => zip_with (@add R) d (t_data b)) a.
Definition t_max (a b : tensor) : tensor := on_data (fun d => zip_with (@vmax R) d (t_data b)) a.
Definition t_fill (x : V) (t : tensor) : tensor := on_data (map (fun _ => x)) t. (* zeros_like, full_like *)
Definition t_div (t : tensor) (n : Z) : tensor := on_data (map (fun x => divz x n)) t.
(** tensor.item(): only for one element. *)
Definition item (t : tensor) : res V := match t_data t with [x] => Ok x | _ => Err RuntimeError end.

Inductive scope := GlobalBatch | Evaluation.
Definition scope_eqb (a b : scope) : bool := match a, b with GlobalBatch, GlobalBatch | Evaluation, Evaluation => true | _, _ => false end.
(** core.py:813-818, 849-853, 886-891.  The scope of a Maximum is always "evaluation". *)
Inductive stat :=
| SumCount (s : scope) (sum : tensor) (count : Z)
| Maximum (value : tensor) (valid_count : Z)
| Sufficient (s : scope) (finalizer_id : ustr) (tensors : list (ustr * tensor)) (counts : list (ustr * Z)).
Definition keys (A : Type) (l : list (ustr * A)) : list ustr := map fst l.
Definition member (k : ustr) (l : list ustr) : bool := existsb (ustr_eqb k) l.
(** dict.keys() == dict.keys() *)
Definition same_keys (A B : Type) (a : list (ustr * A)) (b : list (ustr * B)) : bool :=
  forallb (fun k => member k (keys b)) (keys a) && forallb (fun k => member k (keys a)) (keys b).
(** sorted(d.items()) *)
Definition sorted_items (A : Type) (l : list (ustr * A)) : list (ustr * A) := sort_by (@key_lt A) l.

(** FINALIZERS (core.py:1396-1403) and _validate_sufficient_stats_schema (core.py:1094-1164):
    any function of the dictionaries, any predicate of the key sets. *)
Variable finalizers : ustr -> option (list (ustr * tensor) -> list (ustr * Z) -> res tensor).
Variable schema_valid : ustr -> list ustr -> list ustr -> bool.

(** The constructors with __post_init__: core.py:819-830, 854-866, 893-917. *)
Definition sum_count (s : scope) (sum : tensor) (count : Z) : res stat :=
  guard 0 <=? count else ValueError ;; Ok (SumCount s sum count).
Definition maximum (value : tensor) (valid_count : Z) : res stat :=
  guard 0 <=? valid_count else ValueError ;; Ok (Maximum value valid_count).
Definition sufficient (s : scope) (fid : ustr) (tensors : list (ustr * tensor)) (counts : list (ustr * Z)) : res stat :=
  guard (match finalizers fid with Some _ => true | None => false end) else ValueError ;;
  guard forallb (fun kc => 0 <=? snd kc) counts else ValueError ;;
  guard schema_valid fid (keys (sorted_items tensors)) (keys (sorted_items counts)) else ValueError ;;
  Ok (Sufficient s fid tensors counts).

(** combine: core.py:832-840, 868-879, 919-936; a change of type is refused by the
    accumulation (base.py:4601-4608). *)
Definition combine (a b : stat) : res stat :=
  match a, b with
  | SumCount s x n, SumCount s' y m =>
      guard scope_eqb s s' && compatible x y else ValueError ;;
      sum_count s (t_add x y) (n + m)
  | Maximum x n, Maximum y m =>
      guard compatible x y else ValueError ;;
      if n =? 0 then Ok b
      else if m =? 0 then Ok a
      else maximum (t_max x y) (n + m)
  | Sufficient s f x n, Sufficient s' f' y m =>
      guard scope_eqb s s' && ustr_eqb f f' && same_keys x y && same_keys n m &&
        forallb (fun kt => match obj_get y (fst kt) with Some t => compatible (snd kt) t | None => false end) x else ValueError ;;
      sufficient s f
        (map (fun kt => (fst kt, match obj_get y (fst kt) with Some t => t_add (snd kt) t | None => snd kt end)) x)
        (map (fun kc => (fst kc, match obj_get m (fst kc) with Some c => snd kc + c | None => snd kc end)) n)
  | _, _ => Err TypeError
  end.

(** SufficientStats.finalize: core.py:938-939; SumCount.finalize: 842-845. *)
Definition finalize_sufficient (s : stat) : res tensor :=
  match s with
  | Sufficient _ f x n => match finalizers f with Some g => g x n | None => Err KeyError end
  | SumCount _ t c => guard negb (c =? 0) else ValueError ;; Ok (t_div t c)
  | Maximum _ _ => Err TypeError
  end.

Definition metrics := list (ustr * stat).

(** ** The preflight, base.py:4639-4752: the schema of a dictionary of statistics. *)
Definition tensor_schema (kt : ustr * tensor) : ustr * (list Z * dtype) := (fst kt, (t_shape (snd kt), t_dtype (snd kt))).
Inductive descriptor :=
| DSum (s : scope) (t : list Z * dtype)
| DMax (t : list Z * dtype)
| DSufficient (s : scope) (f : ustr) (counts : list ustr) (tensors : list (ustr * (list Z * dtype))).
Definition describe (s : stat) : descriptor :=
  match s with
  | SumCount s t _ => DSum s (snd (tensor_schema ([], t)))
  | Maximum t _ => DMax (snd (tensor_schema ([], t)))
  | Sufficient s f x n => DSufficient s f (keys (sorted_items n)) (map tensor_schema (sorted_items x))
  end.
Definition schema_of (m : metrics) : list (ustr * descriptor) := map (fun kv => (fst kv, describe (snd kv))) (sorted_items m).
(** Each tensor has to be real and on the evaluation device (lines 4696-4712). *)
Definition tensors_of (s : stat) : list tensor :=
  match s with SumCount _ t _ => [t] | Maximum t _ => [t] | Sufficient _ _ x _ => map snd x end.
Definition real_tensor (t : tensor) : bool := t_here t && match t_dtype t with DBool | DComplex _ => false | _ => true end.
Definition stat_errors (m : metrics) : bool := negb (forallb (fun kv => forallb real_tensor (tensors_of (snd kv))) m).

Definition pair_eqb (a b : list Z * dtype) : bool := shape_eqb (fst a) (fst b) && dtype_eqb (snd a) (snd b).
Fixpoint list_eqb (A : Type) (eqb : A -> A -> bool) (a b : list A) : bool :=
  match a, b with [], [] => true | x :: p, y :: q => eqb x y && list_eqb eqb p q | _, _ => false end.
Definition descriptor_eqb (a b : descriptor) : bool :=
  match a, b with
  | DSum s t, DSum s' t' => scope_eqb s s' && pair_eqb t t'
  | DMax t, DMax t' => pair_eqb t t'
  | DSufficient s f n x, DSufficient s' f' n' x' =>
      scope_eqb s s' && ustr_eqb f f' && list_eqb ustr_eqb n n' &&
      list_eqb (fun p q => ustr_eqb (fst p) (fst q) && pair_eqb (snd p) (snd q)) x x'
  | _, _ => false
  end.
Definition schema_eqb : list (ustr * descriptor) -> list (ustr * descriptor) -> bool :=
  list_eqb (fun p q => ustr_eqb (fst p) (fst q) && descriptor_eqb (snd p) (snd q)).
(** All ranks of a step; the schema expected from earlier steps.  Returns the schema to expect. *)
Definition preflight (expected : option (list (ustr * descriptor))) (ranks : list metrics) : res (list (ustr * descriptor)) :=
  match ranks with
  | [] => Err RuntimeError
  | m :: rest =>
      let reference := schema_of m in
      guard negb (existsb stat_errors ranks) else RuntimeError ;;
      guard forallb (fun m' => schema_eqb (schema_of m') reference) rest else RuntimeError ;;
      match expected with
      | None => Ok reference
      | Some e => guard schema_eqb reference e else RuntimeError ;; Ok reference
      end
  end.

(** ** Collectives: accelerator.reduce over the ranks, in rank order *)
Definition reduce_sum (l : list tensor) : res tensor :=
  match l with [] => Err RuntimeError | t :: r => Ok (fold_left t_add r t) end.
(** What the library does for reduction="max" (base.py:4544) is a parameter. *)
Variable reduce_max : list tensor -> res tensor.

(** ** Closing a global batch, base.py:4754-4861, for one key: the flag include_metrics and
    the statistic of every rank; the finalized statistic of every rank. *)
Definition masked_sum (p : bool * stat) : res tensor :=
  match p with
  | (inc, SumCount GlobalBatch t _) => Ok (if inc then t else t_fill (zero R) t)
  | _ => Err RuntimeError
  end.
Definition masked_count (p : bool * stat) : Z :=
  match p with (true, SumCount GlobalBatch _ c) => c | _ => 0 end.
Definition masked_tensor (name : ustr) (p : bool * stat) : res tensor :=
  match p with
  | (inc, Sufficient GlobalBatch _ x _) =>
      match obj_get x name with Some t => Ok (if inc then t else t_fill (zero R) t) | None => Err KeyError end
  | _ => Err RuntimeError
  end.
Definition masked_named_count (name : ustr) (p : bool * stat) : res Z :=
  match p with
  | (inc, Sufficient GlobalBatch _ _ n) =>
      match obj_get n name with Some c => Ok (if inc then c else 0) | None => Err KeyError end
  | _ => Err RuntimeError
  end.
Definition keep_or_empty (p : bool * stat) : res stat :=
  match p with
  | (true, s) => Ok s
  | (false, SumCount _ t _) => sum_count Evaluation (t_fill (zero R) t) 0
  | (false, Maximum t _) => maximum t 0
  | (false, Sufficient _ f x n) => sufficient Evaluation f (map (fun kt => (fst kt, t_fill (zero R) (snd kt))) x) (map (fun kc => (fst kc, 0)) n)
  end.
Definition close_key (ranks : list (bool * stat)) : res (list stat) :=
  match ranks with
  | [] => Err RuntimeError
  | (_, SumCount GlobalBatch _ _) :: _ => (* lines 4770-4795 *)
      locals <- mapM masked_sum ranks ;;
      global_sum <- reduce_sum locals ;;
      s <- sum_count GlobalBatch global_sum (zsum (map masked_count ranks)) ;;
      value <- finalize_sufficient s ;;
      closed <- sum_count Evaluation value 1 ;;
      Ok (map (fun _ => closed) ranks)
  | (_, Sufficient GlobalBatch f x n) :: _ => (* lines 4813-4845 *)
      tensors <- mapM (fun kt => locals <- mapM (masked_tensor (fst kt)) ranks ;; t <- reduce_sum locals ;; Ok (fst kt, t)) (sorted_items x) ;;
      counts <- mapM (fun kc => locals <- mapM (masked_named_count (fst kc)) ranks ;; Ok (fst kc, zsum locals)) (sorted_items n) ;;
      s <- sufficient GlobalBatch f tensors counts ;;
      value <- finalize_sufficient s ;;
      closed <- sum_count Evaluation value 1 ;;
      Ok (map (fun _ => closed) ranks)
  | _ => mapM keep_or_empty ranks (* lines 4760-4769, 4797-4812, 4846-4854 *)
  end.

(** _zero_evaluation_stat, lines 4618-4637. *)
Definition zero_stat (s : stat) : res stat :=
  match s with
  | SumCount sc t _ => sum_count sc (t_fill (zero R) t) 0
  | Maximum t _ => maximum t 0
  | Sufficient sc f x n => sufficient sc f (map (fun kt => (fst kt, t_fill (zero R) (snd kt))) x) (map (fun kc => (fst kc, 0)) n)
  end.

(** One key of one rank: lines 5113-5127 with 4598-4617. *)
Definition accumulate_key (total : option stat) (inc : bool) (value : stat) : res stat :=
  match total, inc with
  | Some t, true => combine t value
  | None, true => Ok value
  | Some t, false => Ok t
  | None, false => zero_stat value
  end.
Fixpoint accumulate (totals : metrics) (inc : bool) (values : metrics) : res metrics :=
  match values with
  | [] => Ok totals
  | (k, v) :: rest =>
      t <- accumulate_key (obj_get totals k) inc v ;;
      accumulate (obj_set totals k t) inc rest
  end.

(** One step of all ranks: [totals] and the flag and statistics of each rank. *)
Definition lookup (A : Type) (k : ustr) (m : list (ustr * A)) : res A := match obj_get m k with Some s => Ok s | None => Err KeyError end.
Definition close_batch (ranks : list (bool * metrics)) : res (list (ustr * list stat)) :=
  match ranks with
  | [] => Err RuntimeError
  | (_, m) :: _ =>
      mapM (fun kv =>
        column <- mapM (fun r => s <- lookup (fst kv) (snd r) ;; Ok (fst r, s)) ranks ;;
        closed <- close_key column ;; Ok (fst kv, closed)) (sorted_items m)
  end.
(** The finalized dictionary of rank [i]. *)
Definition row (closed : list (ustr * list stat)) (i : nat) : res metrics :=
  mapM (fun kc => s <- py_get (snd kc) i ;; Ok (fst kc, s)) closed.
Fixpoint accumulate_ranks (totals : list metrics) (incs : list bool) (rows : list metrics) : res (list metrics) :=
  match totals, incs, rows with
  | t :: ts, i :: is, r :: rs => t' <- accumulate t i r ;; ts' <- accumulate_ranks ts is rs ;; Ok (t' :: ts')
  | [], [], [] => Ok []
  | _, _, _ => Err RuntimeError
  end.
Record eval_state := mk_eval { expected : option (list (ustr * descriptor)); totals : list metrics; batches : Z }.
Definition step (st : eval_state) (ranks : list (bool * metrics)) : res eval_state :=
  e <- preflight (expected st) (map snd ranks) ;;
  closed <- close_batch ranks ;;
  rows <- mapM (row closed) (seq 0 (List.length ranks)) ;;
  t <- accumulate_ranks (totals st) (map fst ranks) rows ;;
  Ok (mk_eval (Some e) t (batches st + zsum (map (fun r => if fst r : bool then 1 else 0) ranks))).
Fixpoint run_steps (st : eval_state) (l : list (list (bool * metrics))) : res eval_state :=
  match l with [] => Ok st | r :: rest => st' <- step st r ;; run_steps st' rest end.

(** _gather_averaged_metrics, base.py:4513-4595, for one key. *)
Definition gather_key (column : list stat) : res tensor :=
  match column with
  | SumCount _ _ _ :: _ => (* lines 4530-4537 *)
      sums <- mapM (fun s => match s with SumCount _ t _ => Ok t | _ => Err RuntimeError end) column ;;
      t <- reduce_sum sums ;;
      Ok (t_div t (zsum (map (fun s => match s with SumCount _ _ c => c | _ => 0 end) column)))
  | Maximum _ _ :: _ => (* lines 4538-4554 *)
      cands <- mapM (fun s => match s with Maximum t c => Ok (if c =? 0 then t_fill (neg_inf R) t else t) | _ => Err RuntimeError end) column ;;
      t <- reduce_max cands ;;
      guard negb (zsum (map (fun s => match s with Maximum _ c => c | _ => 0 end) column) =? 0) else RuntimeError ;;
      Ok t
  | Sufficient sc f x n :: _ => (* lines 4555-4574 *)
      tensors <- mapM (fun kt =>
        locals <- mapM (fun s => match s with Sufficient _ _ y _ => lookup (fst kt) y | _ => Err RuntimeError end) column ;;
        t <- reduce_sum locals ;; Ok (fst kt, t)) (sorted_items x) ;;
      counts <- mapM (fun kc =>
        locals <- mapM (fun s => match s with Sufficient _ _ _ m => lookup (fst kc) m | _ => Err RuntimeError end) column ;;
        Ok (fst kc, zsum locals)) (sorted_items n) ;;
      s <- sufficient sc f tensors counts ;;
      finalize_sufficient s
  | [] => Err RuntimeError
  end.
Definition gather (totals : list metrics) (total_batches : Z) : res (list (ustr * V)) :=
  guard negb (total_batches =? 0) else RuntimeError ;;
  match totals with
  | [] => Err RuntimeError
  | m :: _ =>
      mapM (fun kv =>
        column <- mapM (lookup (fst kv)) totals ;;
        t <- gather_key column ;;
        x <- item t ;; Ok (fst kv, x)) (sorted_items m)
  end.

(** A whole evaluation of [world] ranks (lines 5079-5128, 5172-5176). *)
Definition evaluate (world : nat) (steps : list (list (bool * metrics))) : res (list (ustr * V)) :=
  st <- run_steps (mk_eval None (repeat [] world) 0) steps ;;
  gather (totals st) (batches st).
End Metrics.

(** ** _iter_collective_safe_batches, base.py:4905-5045, several processes, a loader that
    does not yield planned batches: [loaders] are the batches of each rank (cut to
    max_batches).  A rank that has run out repeats its last batch - or, if it never had one,
    the first batch of the first rank that has one - and is told not to count it. *)
Section Iter.
Variable B : Type.
Definition first_candidate (loaders : list (list B)) : option B := hd_error (flat_map (fun l => firstn 1 l) loaders).
Definition batch_at (loaders : list (list B)) (i : nat) (mine : list B) : option (bool * B) :=
  match nth_error mine i with
  | Some b => Some (true, b)
  | None => match rev mine with
            | b :: _ => Some (false, b)
            | [] => match first_candidate loaders with Some b => Some (false, b) | None => None end
            end
  end.
Fixpoint all_some (l : list (option (bool * B))) : option (list (bool * B)) :=
  match l with
  | [] => Some []
  | Some x :: r => match all_some r with Some y => Some (x :: y) | None => None end
  | None :: _ => None
  end.
Definition num_steps (loaders : list (list B)) : nat := fold_right Nat.max 0%nat (map (@List.length B) loaders).
Definition iter_batches (loaders : list (list B)) : list (list (bool * B)) :=
  flat_map (fun i => match all_some (map (batch_at loaders i) loaders) with Some s => [s] | None => [] end) (seq 0 (num_steps loaders)).
End Iter.
