(** What one forward does to the codebook, for C70-C73: one state for all ranks, and the rows of all ranks together. *)
From Coq Require Import QArith Qcanon.
From Verif Require Import Base Vq.
Set Implicit Arguments. Unset Strict Implicit.
Local Open Scope Qc_scope.

Section Spec.
Context {U : setup}.
Record global := { g_inited : bool; g_rows : list matrix; g_embed : matrix; g_avg : matrix; g_sizes : list Qc }.
Definition codes A (f : nat -> A) : list A := map f (seq 0 codebook_size).
Definition dims (f : nat -> Qc) : vec := map f (seq 0 dim_feature).
Definition cell (m : matrix) (c j : nat) : Qc := nth j (nth c m []) 0.
Definition unit (v : vec) : vec := if cosine then l2_norm v else v.
(** Rows with the code each is assigned to: how many have code c, and their sum. *)
Definition count_of (c : nat) (pairs : list (nat * vec)) : Qc := Qn (List.length (filter (fun p => Nat.eqb c (fst p)) pairs)).
Fixpoint sum_of (c j : nat) (pairs : list (nat * vec)) : Qc :=
  match pairs with [] => 0 | p :: pairs => (if Nat.eqb c (fst p) then nth j (snd p) 0 else 0) + sum_of c j pairs end.

(** The exponential moving averages: decay times the old, 1 - decay times the batch; the code is the average row, with smoothed sizes. *)
Definition ema_sizes (pairs : list (nat * vec)) (g : global) : list Qc := codes (fun c => ema_decay * nth c (g_sizes g) 0 + (1 - ema_decay) * count_of c pairs).
Definition smoothed (sizes : list Qc) (c : nat) : Qc :=
  let t := total sizes in t * (nth c sizes 0 + smoothing_eps) / (t + K * smoothing_eps).
Definition ema_avg (pairs : list (nat * vec)) (g : global) : matrix := codes (fun c => dims (fun j => ema_decay * cell (g_avg g) c j + (1 - ema_decay) * sum_of c j pairs)).
Definition ema (pairs : list (nat * vec)) (g : global) : global :=
  let sizes := ema_sizes pairs g in let avg := ema_avg pairs g in
  if ema_update then {| g_inited := g_inited g; g_rows := g_rows g; g_sizes := sizes; g_avg := avg; g_embed := codes (fun c => unit (dims (fun j => cell avg c j / smoothed sizes c))) |}
  else {| g_inited := g_inited g; g_rows := g_rows g; g_sizes := sizes; g_avg := g_avg g; g_embed := g_embed g |}.

(** A code has expired if its size, relative to the mean size, is below the threshold; expired codes are replaced by the given rows. *)
Definition dead (g : global) (c : nat) : bool := if Qc_eq_dec threshold 0 then false else lt (nth c (g_sizes g) 0 * (K / total (g_sizes g))) threshold.
Definition dead_before (g : global) (c : nat) : nat := List.length (filter (dead g) (seq 0 c)).
Definition replaced (g : global) (s : matrix) : global :=
  let new c := nth (dead_before g c) s [] in
  {| g_inited := g_inited g; g_rows := g_rows g;
     g_embed := codes (fun c => if dead g c then new c else nth c (g_embed g) []);
     g_avg := codes (fun c => if dead g c then map (Qcmult reset_cluster_size) (new c) else nth c (g_avg g) []);
     g_sizes := codes (fun c => if dead g c then reset_cluster_size else nth c (g_sizes g) 0) |}.

(** What chance picks: the same number of rows on every rank, the first n of them all *)
Definition picked (ranks : list (luck * matrix)) (n : nat) : matrix :=
  firstn n (flat_map (fun lx => map (fun i => nth i (snd lx) []) (draw (fst lx) (List.length (snd lx)) (ceil_div n processes))) ranks).
Definition batch_of (ranks : list (luck * matrix)) : matrix := flat_map snd ranks.

(** Lloyd's iteration over all rows *)
Definition assigned (means rows : matrix) : list (nat * vec) := map (fun r => (nearest means r, r)) rows.
Definition lloyd_step (rows means : matrix) : matrix :=
  let pairs := assigned means rows in
  codes (fun c => if Qc_eq_dec (count_of c pairs) 0 then nth c means [] else unit (dims (fun j => sum_of c j pairs / count_of c pairs))).
Fixpoint lloyd_steps (n : nat) (rows means : matrix) : matrix := match n with O => means | S n => lloyd_steps n rows (lloyd_step rows means) end.
(** sizes are those of the last assignment *)
Definition started (ls : list luck) (g : global) : global :=
  let rows := List.concat (g_rows g) in
  if (codebook_size <? List.length rows)%nat then
    let before := lloyd_steps (kmeans_iter - 1) rows (picked (combine ls (g_rows g)) codebook_size) in
    let sizes := codes (fun c => count_of c (assigned before rows)) in let e := lloyd_step rows before in
    {| g_inited := true; g_rows := []; g_embed := e; g_avg := codes (fun c => map (Qcmult (nth c sizes 0)) (nth c e [])); g_sizes := sizes |}
  else {| g_inited := true; g_rows := []; g_embed := rows; g_avg := rows; g_sizes := repeat 1 codebook_size |}.

(** One forward *)
Definition collect (x rows : matrix) : matrix := firstn target (rows ++ x).
Definition spec_step (ranks : list (luck * matrix)) (g : global) : global :=
  if g_inited g then
    let n := dead_before g codebook_size in
    let g1 := if (n =? 0)%nat then g else replaced g (picked ranks n) in
    ema (flat_map (fun lx => combine (search (fst lx) (code_view (g_embed g1)) (snd lx)) (snd lx)) ranks) g1
  else
    let rows := map2 (fun lx r => collect (snd lx) r) ranks (g_rows g) in
    let g1 := {| g_inited := false; g_rows := rows; g_embed := g_embed g; g_avg := g_avg g; g_sizes := g_sizes g |} in
    if forallb (fun r => (target <=? List.length r)%nat) rows then started (map fst ranks) g1 else g1.

(** ** Assumptions *)
Definition is_matrix (m : matrix) : Prop := Forall (fun v => List.length v = dim_feature) m.
Definition good_setup : Prop :=
  (0 < codebook_size)%nat /\ (0 < processes)%nat /\ (0 < kmeans_sample_multiplier)%nat /\ (0 < kmeans_iter)%nat
  /\ 0 <= ema_decay /\ ema_decay <= 1 /\ 0 < reset_cluster_size /\ 0 <= threshold
  /\ (forall means x, List.length means = codebook_size -> (nearest means x < codebook_size)%nat)
  /\ (forall v, List.length v = dim_feature -> List.length (l2_norm v) = dim_feature).
(** The ranks' batches are not empty; samples are positions in the batch; every row is assigned to one code. *)
Definition good_inputs (ranks : list (luck * matrix)) : Prop :=
  List.length ranks = processes /\ forall l x, List.In (l, x) ranks ->
    x <> [] /\ is_matrix x
    /\ (forall n k, List.length (draw l n k) = k /\ (n <> 0%nat -> Forall (fun i => (i < n)%nat) (draw l n k)))
    /\ (forall cb, List.length (search l cb x) = List.length x /\ Forall (fun i => (i < codebook_size)%nat) (search l cb x)).
End Spec.
