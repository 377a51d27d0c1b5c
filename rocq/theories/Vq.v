(** Vector quantization in training on several ranks: model/vq.py.

    Numbers are rationals and exact.  Each rank runs a program that meets the others at collective operations.  What is random (torch.randperm,
    torch.randint, Gumbel noise) is given for each call.  The nearest code (model/ops/vector_quantization.py, pykeops), l2_norm and the view of
    the parameters as codebook (l2_norm, code_transform) are any functions.  Not modelled: gradients, losses, outputs, evaluation, dtypes. *)
From Coq Require Import QArith Qcanon.
From Verif Require Import Base.
Set Implicit Arguments. Unset Strict Implicit.
Local Open Scope Qc_scope.

(** ** Programs of the ranks: accelerate's reduce (sum), gather (concatenation along dimension 0) and gather_object *)
Definition vec := list Qc.
Definition matrix := list vec.
Inductive prog (A : Type) :=
| Ret (a : A)
| Fail (e : exn)
| Reduce (m : matrix) (k : matrix -> prog A)
| Gather (m : matrix) (k : matrix -> prog A)
| GatherObject (b : bool) (k : list bool -> prog A).
Arguments Ret {A} a. Arguments Fail {A} e. Arguments Reduce {A} m k. Arguments Gather {A} m k. Arguments GatherObject {A} b k.
Fixpoint map2 A B C (f : A -> B -> C) (l : list A) (m : list B) : list C := match l, m with x :: l, y :: m => f x y :: map2 f l m | _, _ => [] end.
Definition vadd : vec -> vec -> vec := map2 Qcplus.
Definition madd : matrix -> matrix -> matrix := map2 vadd.
(** The ranks together.  Where they do not all do the same, they hang (RuntimeError here). *)
Fixpoint run A (p : prog A) (ps : list (prog A)) : res (list A) :=
  match p with
  | Ret a => l <- mapM (fun q => match q with Ret b => Ok b | _ => Err RuntimeError end) ps ;; Ok (a :: l)
  | Fail e => Err e
  | Reduce m k =>
      l <- mapM (fun q => match q with Reduce m k => Ok (m, k) | _ => Err RuntimeError end) ps ;;
      let s := fold_left madd (map fst l) m in run (k s) (map (fun e => snd e s) l)
  | Gather m k =>
      l <- mapM (fun q => match q with Gather m k => Ok (m, k) | _ => Err RuntimeError end) ps ;;
      let s := List.concat (m :: map fst l) in run (k s) (map (fun e => snd e s) l)
  | GatherObject b k =>
      l <- mapM (fun q => match q with GatherObject b k => Ok (b, k) | _ => Err RuntimeError end) ps ;;
      let s := b :: map fst l in run (k s) (map (fun e => snd e s) l)
  end.
Definition run_all A (ps : list (prog A)) : res (list A) := match ps with [] => Ok [] | p :: ps => run p ps end.

(** ** The module *)
Class setup := {
  codebook_size : nat; dim_feature : nat; processes : nat; kmeans_sample_multiplier : nat; kmeans_iter : nat;
  ema_decay : Qc; threshold : Qc; reset_cluster_size : Qc; ema_update : bool;
  nearest : matrix -> vec -> nat; l2_norm : vec -> vec; cosine : bool; code_view : matrix -> matrix
}.
Section Vq.
Context {U : setup}.
Definition Qn (n : nat) : Qc := Q2Qc (inject_Z (Z.of_nat n)).
Definition K : Qc := Qn codebook_size.
(** What chance gives in one forward of one rank: sampled positions (for which call, of how many rows, how many), and the codes found. *)
Record luck := { draw : nat -> nat -> list nat; search : matrix -> matrix -> list nat }.
Record vq := {
  inited : bool; batches : list matrix; embed : matrix; embed_avg : matrix; cluster_size : list Qc;
  (* _dead_code_min_cluster_lower_python, _dead_code_total_upper_python *)
  bounds : option (Qc * Qc)
}.
Definition total (l : list Qc) : Qc := fold_right Qcplus 0 l.
Definition vzero : vec := repeat 0 dim_feature.
Definition scale (q : Qc) (v : vec) : vec := map (Qcmult q) v.
(** torch.bincount with minlength *)
Definition bincount (idx : list nat) : list Qc := map (fun c => Qn (List.length (filter (Nat.eqb c) idx))) (seq 0 codebook_size).
(** scatter_add_ of the rows into zeros *)
Definition scatter (idx : list nat) (x : matrix) : matrix :=
  map (fun c => fold_left vadd (map snd (filter (fun ir => Nat.eqb c (fst ir)) (combine idx x))) vzero) (seq 0 codebook_size).
Definition ceil_div (a b : nat) : nat := ((a + b - 1) / b)%nat.
(** lines 227-243, [sample_vectors] *)
Definition sample_vectors A (l : luck) (x : matrix) (n : nat) (k : matrix -> prog A) : prog A :=
  match x with
  | [] => Fail AssertionError
  | _ => Gather (map (fun i => nth i x []) (draw l (List.length x) (ceil_div n processes))) (fun s =>
           if (n <=? List.length s)%nat then k (firstn n s) else Fail AssertionError)
  end.
(** lines 246-300, [kmeans]; [bins] is unbound (None) before the first iteration *)
Definition means_of (bins : list Qc) (sums old : matrix) : matrix :=
  map2 (fun b so => if Qc_eq_dec b 0 then snd so else let v := map (fun s => s / b) (fst so) in if cosine then l2_norm v else v) bins (combine sums old).
Fixpoint lloyd A (n : nat) (x means : matrix) (bins : option (list Qc)) (k : matrix -> list Qc -> prog A) : prog A :=
  match n with
  | O => match bins with Some b => k means b | None => Fail RuntimeError end
  | S n =>
      let buckets := map (nearest means) x in
      Reduce [bincount buckets] (fun b => Reduce (scatter buckets x) (fun s =>
        let bins := hd [] b in lloyd n x (means_of bins s means) (Some bins) k))
  end.
Definition kmeans A (l : luck) (x : matrix) (k : matrix -> list Qc -> prog A) : prog A :=
  if (List.length x * processes <? codebook_size)%nat then Fail ValueError
  else sample_vectors l x codebook_size (fun means => lloyd kmeans_iter x means None k).
(** lines 425-433: samples that each rank collects *)
Definition target : nat := ceil_div (codebook_size * kmeans_sample_multiplier) processes.
(** lines 727-753, [_init_embed] *)
Definition init_embed (l : luck) (x : matrix) (st : vq) : prog vq :=
  let done e a c := Ret {| inited := true; batches := []; embed := e; embed_avg := a; cluster_size := c; bounds := None |} in
  if (List.length x * processes <? codebook_size)%nat then Fail AssertionError
  else if (codebook_size <? List.length x * processes)%nat then kmeans l x (fun e b => done e (map2 (fun v n => scale n v) e b) b)
  else Gather x (fun e => done e e (repeat 1 codebook_size)).
(** lines 665-685, [_accumulate_input_batch] *)
Definition held (st : vq) : nat := List.length (List.concat (batches st)).
Definition accumulate (l : luck) (x : matrix) (st : vq) : prog vq :=
  let remain := (target - held st)%nat in
  let st := if (0 <? remain)%nat then {| inited := inited st; batches := batches st ++ [firstn remain x]; embed := embed st; embed_avg := embed_avg st; cluster_size := cluster_size st; bounds := bounds st |} else st in
  GatherObject (target <=? held st)%nat (fun flags =>
    if forallb (fun b => b) flags then init_embed l (List.concat (batches st)) st else Ret st).
(** lines 479-481, 756-803, 906-911, [_expire_codes] *)
Definition bound_eps : Qc := Q2Qc (1 # 1000000).
Definition two : Qc := 1 + 1.
Definition lt (x y : Qc) : bool := match (x ?= y) with Lt => true | _ => false end.
Fixpoint minimum (x : Qc) (l : list Qc) : Qc := match l with [] => x | y :: l => minimum (if lt y x then y else x) l end.
Definition safe (mn tot : Qc) : bool := negb (lt (mn * K / tot) (two * threshold)).
Definition expired (st : vq) : list bool := map (fun s => lt (s * (K / total (cluster_size st))) threshold) (cluster_size st).
Fixpoint masked_put A (mask : list bool) (old new : list A) : list A :=
  match mask, old with
  | true :: mask, o :: old => match new with n :: new => n :: masked_put mask old new | [] => o :: masked_put mask old [] end
  | false :: mask, o :: old => o :: masked_put mask old new
  | _, _ => old
  end.
Definition with_bounds (b : option (Qc * Qc)) (st : vq) : vq := {| inited := inited st; batches := batches st; embed := embed st; embed_avg := embed_avg st; cluster_size := cluster_size st; bounds := b |}.
Definition scan_codes A (l : luck) (x : matrix) (st : vq) (k : vq -> prog A) : prog A :=
  let n := List.length (filter (fun b => b) (expired st)) in
  if (n =? 0)%nat then k st
  else sample_vectors l x n (fun s =>
    k {| inited := inited st; batches := batches st; embed := masked_put (expired st) (embed st) s;
         embed_avg := masked_put (expired st) (embed_avg st) (map (scale reset_cluster_size) s);
         cluster_size := masked_put (expired st) (cluster_size st) (repeat reset_cluster_size n); bounds := None |}).
Definition expire_codes A (l : luck) (x : matrix) (st : vq) (k : vq -> prog A) : prog A :=
  if Qc_eq_dec threshold 0 then k st
  else if (processes =? 1)%nat then
    if match bounds st with Some (lo, up) => safe lo up | None => false end then k st
    else
      let mn := match cluster_size st with [] => 0 | s :: l => minimum s l end in let tot := total (cluster_size st) in
      if safe mn tot then k (with_bounds (Some (mn * (1 - bound_eps), tot * (1 + bound_eps))) st) else scan_codes l x st k
  else scan_codes l x st k.
(** lines 303-304, [ema_inplace] *)
Definition lerp (old new : Qc) : Qc := old + (1 - ema_decay) * (new - old).
(** lines 806-859, [_update_ema]; [counts] are those of all ranks; the fused kernel computes the same *)
Definition smoothing_eps : Qc := Q2Qc (1 # 100000).
Definition new_bounds (rows : nat) (b : option (Qc * Qc)) : option (Qc * Qc) :=
  match b with
  | Some (lo, up) => if (processes =? 1)%nat then Some (lo * (ema_decay * (1 - bound_eps)), (up * ema_decay + Qn rows * (1 - ema_decay)) * (1 + bound_eps)) else b
  | None => None
  end.
Definition finish_ema (sizes : list Qc) (b : option (Qc * Qc)) (avg : matrix) (st : vq) : vq :=
  let t := total sizes in
  let e := map2 (fun v s => let w := map (fun y => y / (t * (s + smoothing_eps) / (t + K * smoothing_eps))) v in if cosine then l2_norm w else w) avg sizes in
  {| inited := inited st; batches := batches st; embed := e; embed_avg := avg; cluster_size := sizes; bounds := b |}.
(** index_add_ of the scaled rows, one after the other, to the decayed averages *)
Definition index_add (idx : list nat) (x : matrix) (avg : matrix) : matrix :=
  map (fun ca => fold_left vadd (map (fun ir => scale (1 - ema_decay) (snd ir)) (filter (fun ir => Nat.eqb (fst ca) (fst ir)) (combine idx x))) (scale ema_decay (snd ca)))
      (combine (seq 0 codebook_size) avg).
Definition update_ema (x : matrix) (idx : list nat) (counts : list Qc) (st : vq) : prog vq :=
  let sizes := map2 lerp (cluster_size st) counts in
  let b := new_bounds (List.length x) (bounds st) in
  if ema_update then
    if (processes =? 1)%nat then Ret (finish_ema sizes b (index_add idx x (embed_avg st)) st)
    else Reduce (scatter idx x) (fun s => Ret (finish_ema sizes b (map2 (map2 lerp) (embed_avg st) s) st))
  else Ret {| inited := inited st; batches := batches st; embed := embed st; embed_avg := embed_avg st; cluster_size := sizes; bounds := b |}.
(** lines 923-1120, [forward] in training *)
Definition forward (l : luck) (x : matrix) (st : vq) : prog vq :=
  if inited st then
    expire_codes l x st (fun st =>
      let idx := search l (code_view (embed st)) x in
      Reduce [bincount idx] (fun c => update_ema x idx (hd [] c) st))
  else accumulate l x st.
(** lines 363-452: a new module *)
Definition fresh (kmeans_init : bool) (e : matrix) : vq :=
  {| inited := negb kmeans_init; batches := []; embed := e; embed_avg := e; cluster_size := repeat 1 codebook_size; bounds := None |}.
(** lines 454-640: the state dict, with the rank's pending samples beside it, loaded into a new module *)
Definition reload (st : vq) : vq :=
  {| inited := inited st; batches := if inited st then [] else match List.concat (batches st) with [] => [] | s => [s] end;
     embed := embed st; embed_avg := embed_avg st; cluster_size := cluster_size st; bounds := None |}.
(** a step of the optimizer on a learnable codebook *)
Definition set_embed (e : matrix) (st : vq) : vq := {| inited := inited st; batches := batches st; embed := e; embed_avg := embed_avg st; cluster_size := cluster_size st; bounds := bounds st |}.
(** One forward of all ranks *)
Definition step (ranks : list (luck * matrix * vq)) : res (list vq) := run_all (map (fun r => forward (fst (fst r)) (snd (fst r)) (snd r)) ranks).
End Vq.
