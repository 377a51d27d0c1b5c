(** MultiTensorAdamW: utils/fused_adamw.py 65-107 (kernel), 110-172 (layouts), 175-237 (launch plan), 306-533 (update).

    Numbers are elements of any field, so arithmetic is exact; [sqrt] is any function.  Addresses count elements.  A GPU kernel runs
    its lanes in any order.  Not modelled: rounding, amsgrad, closures, CPU tensors without Triton, the ring of staging buffers (AdamWRing.v: here the table of
    gradient addresses that a launch reads is the one made for it), the conversion of the step count in state_dict. *)
From Coq Require Import Field_theory.
From Verif Require Import Base.
Set Implicit Arguments. Unset Strict Implicit.

(** ** Tensors *)
(** [plain]: on a CUDA device, float32, not sparse. *)
Record tensor := { ptr : Z; shape : list nat; strides : list nat; plain : bool; sparse : bool }.
Definition numel (t : tensor) : nat := fold_right Nat.mul 1%nat (shape t).
(** where the element of an index is *)
Fixpoint dot (i s : list nat) : nat := match i, s with a :: i, b :: s => (a * b + dot i s)%nat | _, _ => 0%nat end.
Definition addr (t : tensor) (i : list nat) : Z := ptr t + Z.of_nat (dot i (strides t)).
(** all indices of a shape *)
Fixpoint indices (s : list nat) : list (list nat) :=
  match s with [] => [[]] | n :: s => flat_map (fun a => map (cons a) (indices s)) (seq 0 n) end.

(** sorted(...) of (stride, size) pairs; lines 110-139, [_flat_layout] *)
Definition pair_le (a b : nat * nat) : bool := (fst a <? fst b)%nat || (fst a =? fst b)%nat && (snd a <=? snd b)%nat.
Fixpoint insert_pair (x : nat * nat) (l : list (nat * nat)) : list (nat * nat) :=
  match l with [] => [x] | y :: r => if pair_le x y then x :: l else y :: insert_pair x r end.
Definition sort_pairs (l : list (nat * nat)) : list (nat * nat) := fold_right insert_pair [] l.
Fixpoint covers (covered : nat) (l : list (nat * nat)) : bool :=
  match l with [] => true | (stride, size) :: r => (stride =? covered)%nat && covers (covered * size)%nat r end.
Definition extents (t : tensor) : list (nat * nat) := filter (fun e => negb (fst e =? 1)%nat) (combine (shape t) (strides t)).
Definition layout := list (nat * nat).
Definition flat_layout (t : tensor) : option layout :=
  if covers 1 (sort_pairs (map (fun '(size, stride) => (stride, size)) (extents t))) then Some (extents t) else None.
Definition pair_eqb (a b : nat * nat) : bool := (fst a =? fst b)%nat && (snd a =? snd b)%nat.
Fixpoint list_eqb A (eqb : A -> A -> bool) (l m : list A) : bool :=
  match l, m with [], [] => true | a :: l, b :: m => eqb a b && list_eqb eqb l m | _, _ => false end.
Definition layout_eqb (a b : option layout) : bool :=
  match a, b with Some a, Some b => list_eqb pair_eqb a b | None, None => true | _, _ => false end.

Section AdamW.
Variable R : Type.
Variables (r0 r1 : R) (radd rmul rsub : R -> R -> R) (ropp : R -> R) (rdiv : R -> R -> R) (rinv : R -> R).
Variable sqrt : R -> R.
Notation "x + y" := (radd x y). Notation "x * y" := (rmul x y). Notation "x - y" := (rsub x y). Notation "x / y" := (rdiv x y). Notation "- x" := (ropp x).
Fixpoint power (b : R) (n : nat) : R := match n with O => r1 | S n => b * power b n end.

Record pstate := { count : nat; exp_avg : tensor; exp_avg_sq : tensor }.
(** lines 142-158, [_supports_fast_path]; that all are on one device is part of [plain] *)
Definition supports_fast_path (param grad : tensor) (s : pstate) : bool :=
  match flat_layout param with
  | None => false
  | Some l => forallb (fun b => plain b && layout_eqb (flat_layout b) (Some l)) [grad; exp_avg s; exp_avg_sq s]
  end.
(** lines 161-172, [_grad_layout_unchanged]; [None.dtype] is an error *)
Definition grad_layout_unchanged (grad : option tensor) (l : option layout) : res bool :=
  match grad with None => Err TypeError | Some g => Ok (plain g && layout_eqb (flat_layout g) l) end.

(** the entries of a group other than its parameters; lines 175-224, [_LaunchPlan]: its partition and tables *)
Record hyper := { lr : R; weight_decay : R; beta1 : R; beta2 : R; eps : R; maximize : bool }.
Record plan := { param_addresses : list Z; grad_addresses : list Z; fast : list nat; slow : list nat; fast_layouts : list (option layout);
                 param_ptrs : list Z; grad_ptrs : list Z; avg_ptrs : list Z; sq_ptrs : list Z; numels : list nat;
                 chunk_tensor : list nat; chunk_offset : list nat }.
(** What the optimizer finds: the tensors of the parameters and gradients, the entries of each group; and where torch.zeros_like would put new
    moments for a parameter. *)
Record view := { param : nat -> tensor; grad : nat -> option tensor; hypers : nat -> hyper; fresh : nat -> tensor * tensor }.
(** The optimizer: the parameters of each group, self.state, self._launch_cache. *)
Record opt := { groups : list (list nat); state : nat -> option pstate; cache : nat -> option plan }.
Definition memory := Z -> R.
Definition set_state (i : nat) (s : pstate) (st : nat -> option pstate) : nat -> option pstate := fun j => if (j =? i)%nat then Some s else st j.

(** ** One cell *)
Record cell := { at_p : Z; at_g : Z; at_m : Z; at_v : Z }.
Definition write (a : Z) (x : R) (mem : memory) : memory := fun b => if b =? a then x else mem b.
Definition update (f : R -> R -> R -> R -> R * R * R) (c : cell) (mem : memory) : memory :=
  let '(p, m, v) := f (mem (at_p c)) (mem (at_g c)) (mem (at_m c)) (mem (at_v c)) in write (at_p c) p (write (at_v c) v (write (at_m c) m mem)).
Definition updates f (cs : list cell) (mem : memory) : memory := fold_left (fun mem c => update f c mem) cs mem.

(** lines 93-107 *)
Definition kernel_cell (decay b2 one_minus_beta1 one_minus_beta2 e step_size rsqrt_bias_correction2 : R) (p g m v : R) : R * R * R :=
  let p := p * decay in
  let m := m + (g - m) * one_minus_beta1 in
  let v := v * b2 + (g * g) * one_minus_beta2 in
  let denominator := sqrt v * rsqrt_bias_correction2 + e in
  (p - step_size * (m / denominator), m, v).
(** lines 320-344, for one element; lerp_ is m + w*(g-m) *)
Definition reference_cell (h : hyper) (step : nat) (p g m v : R) : R * R * R :=
  let g := if maximize h then - g else g in
  let bias_correction1 := r1 - power (beta1 h) step in
  let bias_correction2 := r1 - power (beta2 h) step in
  let p := p * (r1 - lr h * weight_decay h) in
  let m := m + (r1 - beta1 h) * (g - m) in
  let v := v * beta2 h + (r1 - beta2 h) * (g * g) in
  let denominator := sqrt v / sqrt bias_correction2 + eps h in
  (p + (- lr h / bias_correction1) * (m / denominator), m, v).

(** ** Lines 320-344, [_reference_update] *)
Definition tensor_cells (p g m v : tensor) : list cell :=
  map (fun i => {| at_p := addr p i; at_g := addr g i; at_m := addr m i; at_v := addr v i |}) (indices (shape p)).
Fixpoint reference_update (w : view) (h : hyper) (ps : list nat) (s : opt) (mem : memory) : res (opt * memory) :=
  match ps with
  | [] => Ok (s, mem)
  | i :: r =>
      match grad w i, state s i with
      | Some g, Some st =>
          guard negb (sparse g) else RuntimeError ;;
          let st' := {| count := S (count st); exp_avg := exp_avg st; exp_avg_sq := exp_avg_sq st |} in
          let mem := updates (reference_cell h (S (count st))) (tensor_cells (param w i) g (exp_avg st) (exp_avg_sq st)) mem in
          reference_update w h r {| groups := groups s; state := set_state i st' (state s); cache := cache s |} mem
      | None, _ => Err TypeError | _, None => Err KeyError
      end
  end.

(** ** Lines 346-376, [_partition] *)
Variable majority : list nat -> nat. (* max(set(steps), key=steps.count) *)
Definition zero (t : tensor) (mem : memory) : memory := fun a => if existsb (Z.eqb a) (map (addr t) (indices (shape t))) then r0 else mem a.
Definition has_grad (w : view) (i : nat) : bool := match grad w i with Some _ => true | None => false end.
Fixpoint init_states (w : view) (ps : list nat) (st : nat -> option pstate) (mem : memory) : (nat -> option pstate) * memory :=
  match ps with
  | [] => (st, mem)
  | i :: r =>
      match has_grad w i, st i with
      | true, None =>
          let '(m, v) := fresh w i in
          init_states w r (set_state i {| count := 0; exp_avg := m; exp_avg_sq := v |} st) (zero v (zero m mem))
      | _, _ => init_states w r st mem
      end
  end.
Definition usable (w : view) (h : hyper) (st : nat -> option pstate) (i : nat) : bool :=
  negb (maximize h) && match grad w i, st i with Some g, Some s => supports_fast_path (param w i) g s | _, _ => false end.
Definition step_of (st : nat -> option pstate) (i : nat) : nat := match st i with Some s => count s | None => 0 end.
Definition partition (w : view) (h : hyper) (ps : list nat) (st : nat -> option pstate) : list nat * list nat :=
  let present := filter (has_grad w) ps in
  let fast := filter (usable w h st) present in
  let slow := filter (fun i => negb (usable w h st i)) present in
  let steps := map (step_of st) fast in
  let m := majority steps in
  (filter (fun i => (step_of st i =? m)%nat) fast, slow ++ filter (fun i => negb (step_of st i =? m)%nat) fast).

(** ** Lines 378-469, [_launch_plan] *)
Variable block : nat. (* _BLOCK *)
Definition ptr_of (o : option tensor) : Z := match o with None => 0 | Some t => ptr t end.
Definition offsets (n : nat) : list nat := map (fun k => Nat.mul k block) (seq 0 ((Nat.add n (block - 1)) / block)).
Definition chunks (ns : list nat) : list (nat * nat) := flat_map (fun '(pos, n) => map (pair pos) (offsets n)) (combine (seq 0 (List.length ns)) ns).
Definition unchanged (w : view) (p : plan) : res bool :=
  bs <- mapM (fun '(i, l) => grad_layout_unchanged (grad w i) l) (combine (fast p) (fast_layouts p)) ;; Ok (forallb (fun b => b) bs).
Definition zlist_eqb := list_eqb Z.eqb.
Definition ptr_of_avg (st : nat -> option pstate) (i : nat) : Z := match st i with Some s => ptr (exp_avg s) | None => 0 end.
Definition ptr_of_sq (st : nat -> option pstate) (i : nat) : Z := match st i with Some s => ptr (exp_avg_sq s) | None => 0 end.
Definition build (w : view) (h : hyper) (ps : list nat) (st : nat -> option pstate) : plan :=
  let '(fast, slow) := partition w h ps st in
  let ns := map (fun i => numel (param w i)) fast in
  {| param_addresses := map (fun i => ptr (param w i)) ps; grad_addresses := map (fun i => ptr_of (grad w i)) ps; fast := fast; slow := slow;
     fast_layouts := map (fun i => flat_layout (param w i)) fast;
     param_ptrs := map (fun i => ptr (param w i)) fast; grad_ptrs := map (fun i => ptr_of (grad w i)) fast;
     avg_ptrs := map (ptr_of_avg st) fast; sq_ptrs := map (ptr_of_sq st) fast;
     numels := ns; chunk_tensor := map fst (chunks ns); chunk_offset := map snd (chunks ns) |}.
Definition refresh (w : view) (addresses : list Z) (p : plan) : plan :=
  {| param_addresses := param_addresses p; grad_addresses := addresses; fast := fast p; slow := slow p; fast_layouts := fast_layouts p;
     param_ptrs := param_ptrs p; grad_ptrs := map (fun i => ptr_of (grad w i)) (fast p); avg_ptrs := avg_ptrs p; sq_ptrs := sq_ptrs p;
     numels := numels p; chunk_tensor := chunk_tensor p; chunk_offset := chunk_offset p |}.
Definition launch_plan (w : view) (index : nat) (ps : list nat) (s : opt) (mem : memory) : res (plan * opt * memory) :=
  let addresses := map (fun i => ptr_of (grad w i)) ps in
  same <- match cache s index with
          | None => Ok None
          | Some p => if zlist_eqb (grad_addresses p) addresses then u <- unchanged w p ;; Ok (if u then Some p else None) else Ok None
          end ;;
  match same with
  | Some p => Ok (p, s, mem)
  | None =>
      moved <- match cache s index with
               | None => Ok None
               | Some p =>
                   if zlist_eqb (param_addresses p) (map (fun i => ptr (param w i)) ps)
                      && forallb (fun '(a, b) => Bool.eqb (a =? 0) (b =? 0)) (combine (grad_addresses p) addresses)
                   then u <- unchanged w p ;; Ok (if u then Some (refresh w addresses p) else None) else Ok None
               end ;;
      let put p st := {| groups := groups s; state := st; cache := fun j => if (j =? index)%nat then Some p else cache s j |} in
      match moved with
      | Some p => Ok (p, put p (state s), mem)
      | None => let '(st, mem) := init_states w ps (state s) mem in let p := build w (hypers w index) ps st in Ok (p, put p st, mem)
      end
  end.

(** ** Lines 79-92: the lanes of the kernel, in the order [schedule] *)
Variable schedule : list (nat * nat) -> list (nat * nat).
Definition lanes (p : plan) : list (nat * nat) :=
  flat_map (fun '(t, o) => map (pair t) (filter (fun k => (k <? nth t (numels p) 0)%nat) (map (Nat.add o) (seq 0 block)))) (combine (chunk_tensor p) (chunk_offset p)).
Definition lane_cell (p : plan) (l : nat * nat) : cell :=
  let '(t, k) := l in let at_ (ptrs : list Z) := Z.add (nth t ptrs 0) (Z.of_nat k) in
  {| at_p := at_ (param_ptrs p); at_g := at_ (grad_ptrs p); at_m := at_ (avg_ptrs p); at_v := at_ (sq_ptrs p) |}.

(** ** Lines 471-533, [step] *)
Definition group_step (w : view) (index : nat) (ps : list nat) (s : opt) (mem : memory) : res (opt * memory) :=
  let h := hypers w index in
  '(p, s, mem) <- launch_plan w index ps s mem ;;
  match fast p with
  | [] => reference_update w h (slow p) s mem
  | first :: _ =>
      '(s, mem) <- reference_update w h (slow p) s mem ;;
      let step := S (step_of (state s) first) in
      let st := fold_left (fun st i => match st i with Some e => set_state i {| count := step; exp_avg := exp_avg e; exp_avg_sq := exp_avg_sq e |} st | None => st end) (fast p) (state s) in
      let f := kernel_cell (r1 - lr h * weight_decay h) (beta2 h) (r1 - beta1 h) (r1 - beta2 h) (eps h)
                 (lr h / (r1 - power (beta1 h) step)) (r1 / sqrt (r1 - power (beta2 h) step)) in
      Ok ({| groups := groups s; state := st; cache := cache s |}, updates f (map (lane_cell p) (schedule (lanes p))) mem)
  end.
Fixpoint steps (w : view) (index : nat) (gs : list (list nat)) (s : opt) (mem : memory) : res (opt * memory) :=
  match gs with [] => Ok (s, mem) | ps :: r => '(s, mem) <- group_step w index ps s mem ;; steps w (S index) r s mem end.
Definition step (w : view) (s : opt) (mem : memory) : res (opt * memory) := steps w 0 (groups s) s mem.

(** lines 306-316: everything in self.state is replaced and the cache dropped *)
Definition load_state_dict (st : nat -> option pstate) (s : opt) : opt := {| groups := groups s; state := st; cache := fun _ => None |}.
Definition add_param_group (ps : list nat) (s : opt) : opt := {| groups := groups s ++ [ps]; state := state s; cache := fun _ => None |}.
Definition fresh_optimizer (gs : list (list nat)) : opt := {| groups := gs; state := fun _ => None; cache := fun _ => None |}.
End AdamW.
