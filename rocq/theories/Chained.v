(** ChainedOptimizer: utils/chained_optimizer.py.

    Parameters are numbers (their identities).  The rule by which a sub-optimizer updates one parameter is any function of the rate, the
    weight decay, the gradient, that optimizer's state of the parameter and its value.  torch.optim.Optimizer is modelled as far as it is
    used: the checks of its constructor and of add_param_group, the defaults of a group, state_dict and load_state_dict.  Not modelled: the
    selection callback (it prints), other entries of a group, the cast of a loaded state to the type and device of its parameter, hooks. *)
From Verif Require Import Base.
Set Implicit Arguments. Unset Strict Implicit.

Section Chained.
Variables V T G L W : Type.
Variable update : nat -> L -> W -> G -> option T -> V -> V * T.

(** lines 10-16, [OptimizerSpec]; a [param_filter] of None accepts all; of [init_args] the rate and the weight decay *)
Record spec := { accepts : nat -> bool; init_lr : option L; init_wd : option W }.
Definition or_default A (o : option A) (d : A) : A := match o with Some a => a | None => d end.

(** a sub-optimizer: its defaults, its groups and its state *)
Record sgroup := { sg_params : list nat; sg_lr : L; sg_wd : W }.
Record sub := { s_lr : L; s_wd : W; s_groups : list sgroup; s_state : nat -> option T }.
(** a group of the chained optimizer; [links] is the set under "optimizer_and_param_group_indices" *)
Record group := { g_params : list nat; g_lr : L; g_wd : W; g_links : list (nat * nat) }.
Record chain := { specs : list spec; c_lr : L; c_wd : W; groups : list group; subs : list sub }.
(** what a caller gives for a group: parameters, and a rate and a weight decay if it wants its own *)
Record request := { r_params : list nat; r_lr : option L; r_wd : option W }.

(** torch: the base class refuses a group that shares a parameter with an earlier one (a parameter repeated inside a group is only warned of) *)
Definition overlaps (old : list (list nat)) (ps : list nat) : bool :=
  existsb (fun p => existsb (existsb (Nat.eqb p)) old) ps.
Definition fill (lr : L) (wd : W) (r : request) : group :=
  {| g_params := r_params r; g_lr := or_default (r_lr r) lr; g_wd := or_default (r_wd r) wd; g_links := [] |}.
Definition base_add (lr : L) (wd : W) (gs : list group) (r : request) : res (list group) :=
  guard (negb (overlaps (map g_params gs) (r_params r))) else ValueError ;; Ok (gs ++ [fill lr wd r]).
Fixpoint base_new (lr : L) (wd : W) (gs : list group) (rs : list request) : res (list group) :=
  match rs with [] => Ok gs | r :: rs => gs <- base_add lr wd gs r ;; base_new lr wd gs rs end.

(** lines 51-56, 113-118: the first spec that accepts a parameter *)
Fixpoint first_accepting (k : nat) (ss : list spec) (p : nat) : option nat :=
  match ss with [] => None | s :: ss => if accepts s p then Some k else first_accepting (S k) ss p end.
(** set.add *)
Definition add_link (a : nat * nat) (l : list (nat * nat)) : list (nat * nat) :=
  if existsb (fun b => (fst a =? fst b)%nat && (snd a =? snd b)%nat) l then l else l ++ [a].
(** lines 45-60 and 107-123: [at k] is the number of the group of sub-optimizer [k] that parameters go to; the loop ends at a parameter
    that no spec accepts, with the links made so far *)
Fixpoint route (ss : list spec) (at_ : nat -> nat) (ps : list nat) (acc : list (list nat) * list (nat * nat))
  : list (list nat) * list (nat * nat) * bool :=
  match ps with
  | [] => (acc, true)
  | p :: ps =>
      match first_accepting 0 ss p with
      | None => (acc, false)
      | Some k => route ss at_ ps (upd (fst acc) k (nth k (fst acc) [] ++ [p]), add_link (k, at_ k) (snd acc))
      end
  end.
Definition with_links (g : group) (l : list (nat * nat)) : group :=
  {| g_params := g_params g; g_lr := g_lr g; g_wd := g_wd g; g_links := l |}.
(** lines 42-60 *)
Fixpoint route_groups (ss : list spec) (gs : list group) (lists : list (list nat)) : res (list (list nat) * list group) :=
  match gs with
  | [] => Ok (lists, [])
  | g :: gs =>
      let '(lists, links, ok) := route ss (fun _ => 0%nat) (g_params g) (lists, []) in
      guard ok else ValueError ;;
      '(lists, gs) <- route_groups ss gs lists ;; Ok (lists, with_links g links :: gs)
  end.
(** lines 62-68; an optimizer of no parameters is refused by torch *)
Definition new_sub (lr : L) (wd : W) (s : spec) (ps : list nat) : res sub :=
  guard (negb (List.length ps =? 0)%nat) else ValueError ;;
  let lr := or_default (init_lr s) lr in let wd := or_default (init_wd s) wd in
  Ok {| s_lr := lr; s_wd := wd; s_groups := [{| sg_params := ps; sg_lr := lr; sg_wd := wd |}]; s_state := fun _ => None |}.
(** lines 28-68, [__init__] *)
Definition new (ss : list spec) (lr : L) (wd : W) (rs : list request) : res chain :=
  guard (negb (List.length rs =? 0)%nat) else ValueError ;;
  gs <- base_new lr wd [] rs ;;
  '(lists, gs) <- route_groups ss gs (map (fun _ => []) ss) ;;
  subs <- mapM (fun '(s, ps) => new_sub lr wd s ps) (combine ss lists) ;;
  Ok {| specs := ss; c_lr := lr; c_wd := wd; groups := gs; subs := subs |}.

(** lines 83-87, [_copy_lr_to_optimizers]; an index outside its list raises IndexError and leaves the copies made so far *)
Definition set_sg_lr (lr : L) (g : sgroup) : sgroup := {| sg_params := sg_params g; sg_lr := lr; sg_wd := sg_wd g |}.
Definition set_groups (s : sub) (gs : list sgroup) : sub := {| s_lr := s_lr s; s_wd := s_wd s; s_groups := gs; s_state := s_state s |}.
Definition copy_one (lr : L) (link : nat * nat) (subs : list sub) : option (list sub) :=
  match nth_error subs (fst link) with
  | None => None
  | Some s => match nth_error (s_groups s) (snd link) with
              | None => None
              | Some g => Some (upd subs (fst link) (set_groups s (upd (s_groups s) (snd link) (set_sg_lr lr g))))
              end
  end.
Fixpoint copy_links (lr : L) (links : list (nat * nat)) (subs : list sub) : list sub * bool :=
  match links with
  | [] => (subs, true)
  | a :: links => match copy_one lr a subs with None => (subs, false) | Some subs => copy_links lr links subs end
  end.
Fixpoint copy_lr (gs : list group) (subs : list sub) : list sub * bool :=
  match gs with
  | [] => (subs, true)
  | g :: gs => match copy_links (g_lr g) (g_links g) subs with (subs, false) => (subs, false) | (subs, true) => copy_lr gs subs end
  end.

(** one sub-optimizer's step: its parameters that have a gradient, group by group *)
Definition set {A} (f : nat -> A) (p : nat) (a : A) : nat -> A := fun q => if (q =? p)%nat then a else f q.
Definition update_one (k : nat) (lr : L) (wd : W) (grads : nat -> option G) (x : (nat -> V) * (nat -> option T)) (p : nat)
  : (nat -> V) * (nat -> option T) :=
  match grads p with
  | None => x
  | Some g => let '(v, t) := update k lr wd g (snd x p) (fst x p) in (set (fst x) p v, set (snd x) p (Some t))
  end.
Definition sub_step (k : nat) (grads : nat -> option G) (values : nat -> V) (s : sub) : (nat -> V) * sub :=
  let '(values, state) := fold_left (fun x g => fold_left (update_one k (sg_lr g) (sg_wd g) grads) (sg_params g) x) (s_groups s) (values, s_state s) in
  (values, {| s_lr := s_lr s; s_wd := s_wd s; s_groups := s_groups s; s_state := state |}).
Fixpoint sub_steps (k : nat) (grads : nat -> option G) (values : nat -> V) (ss : list sub) : (nat -> V) * list sub :=
  match ss with
  | [] => (values, [])
  | s :: ss => let '(values, s) := sub_step k grads values s in let '(values, ss) := sub_steps (S k) grads values ss in (values, s :: ss)
  end.
Definition set_subs (c : chain) (ss : list sub) : chain := {| specs := specs c; c_lr := c_lr c; c_wd := c_wd c; groups := groups c; subs := ss |}.
Definition set_all_groups (c : chain) (gs : list group) : chain := {| specs := specs c; c_lr := c_lr c; c_wd := c_wd c; groups := gs; subs := subs c |}.
(** lines 89-100, [step]; [closure] computes the gradients from the values *)
Definition step (c : chain) (values : nat -> V) (closure : (nat -> V) -> nat -> option G) : chain * (nat -> V) * option exn :=
  let grads := closure values in
  match copy_lr (groups c) (subs c) with
  | (ss, false) => (set_subs c ss, values, Some IndexError)
  | (ss, true) => let '(values, ss) := sub_steps 0 grads values ss in (set_subs c ss, values, None)
  end.

(** lines 125-128: the groups are added to the sub-optimizers *)
Definition sub_add (s : sub) (ps : list nat) : res sub :=
  if (List.length ps =? 0)%nat then Ok s else
  guard (negb (overlaps (map sg_params (s_groups s)) ps)) else ValueError ;;
  Ok (set_groups s (s_groups s ++ [{| sg_params := ps; sg_lr := s_lr s; sg_wd := s_wd s |}])).
Fixpoint sub_adds (ss : list sub) (lists : list (list nat)) : list sub * option exn :=
  match ss, lists with
  | s :: ss', ps :: lists =>
      match sub_add s ps with
      | Err e => (ss, Some e)
      | Ok s => let '(ss', e) := sub_adds ss' lists in (s :: ss', e)
      end
  | _, _ => (ss, None)
  end.
(** lines 102-128, [add_param_group] *)
Definition add (c : chain) (r : request) : chain * option exn :=
  match base_add (c_lr c) (c_wd c) (groups c) r with
  | Err e => (c, Some e)
  | Ok gs =>
      match subs c with
      | [] => (set_all_groups c gs, None)
      | _ =>
          let at_ k := match nth_error (subs c) k with Some s => List.length (s_groups s) | None => 0%nat end in
          let '(lists, links, ok) := route (specs c) at_ (r_params r) (map (fun _ => []) (specs c), []) in
          let gs := groups c ++ [with_links (fill (c_lr c) (c_wd c) r) links] in
          if ok then let '(ss, e) := sub_adds (subs c) lists in (set_subs (set_all_groups c gs) ss, e)
          else (set_all_groups c gs, Some ValueError)
      end
  end.
(** a scheduler writes [optimizer.param_groups[i]["lr"]] *)
Definition set_lr (c : chain) (i : nat) (lr : L) : chain * option exn :=
  match nth_error (groups c) i with
  | None => (c, Some IndexError)
  | Some g => (set_all_groups c (upd (groups c) i {| g_params := g_params g; g_lr := lr; g_wd := g_wd g; g_links := g_links g |}), None)
  end.

(** lines 70-81: the state is saved by the position of a parameter among all parameters of the optimizer (torch), the entries of the groups
    other than the parameters with it.  A parameter repeated inside a group is not modelled here. *)
Record saved_sub := { ss_groups : list (nat * L * W); ss_state : list (option T) }.
Record saved := { sv_groups : list (nat * L * W * list (nat * nat)); sv_subs : list saved_sub }.
Definition all_params (s : sub) : list nat := flat_map sg_params (s_groups s).
Definition save_sub (s : sub) : saved_sub :=
  {| ss_groups := map (fun g => (List.length (sg_params g), sg_lr g, sg_wd g)) (s_groups s); ss_state := map (s_state s) (all_params s) |}.
Definition state_dict (c : chain) : saved :=
  {| sv_groups := map (fun g => (List.length (g_params g), g_lr g, g_wd g, g_links g)) (groups c); sv_subs := map save_sub (subs c) |}.
Fixpoint nats_eqb (l m : list nat) : bool :=
  match l, m with [], [] => true | a :: l, b :: m => (a =? b)%nat && nats_eqb l m | _, _ => false end.
Fixpoint position (p : nat) (l : list nat) : option nat :=
  match l with [] => None | q :: l => if (q =? p)%nat then Some 0%nat else option_map S (position p l) end.
(** torch, [load_state_dict]: the groups must have the sizes of the saved ones *)
Definition load_sub (s : sub) (d : saved_sub) : res sub :=
  guard (nats_eqb (map (fun g => List.length (sg_params g)) (s_groups s)) (map (fun '(n, _, _) => n) (ss_groups d))) else ValueError ;;
  Ok {| s_lr := s_lr s; s_wd := s_wd s;
        s_groups := map (fun '(g, (_, lr, wd)) => {| sg_params := sg_params g; sg_lr := lr; sg_wd := wd |}) (combine (s_groups s) (ss_groups d));
        s_state := fun p => match position p (all_params s) with Some i => nth i (ss_state d) None | None => None end |}.
Fixpoint load_subs (ss : list sub) (ds : list saved_sub) : res (list sub) :=
  match ss, ds with
  | [], _ => Ok []
  | s :: ss, [] => Err IndexError
  | s :: ss, d :: ds => s <- load_sub s d ;; ss <- load_subs ss ds ;; Ok (s :: ss)
  end.
Definition load_state_dict (c : chain) (d : saved) : res chain :=
  guard (nats_eqb (map (fun g => List.length (g_params g)) (groups c)) (map (fun '(n, _, _, _) => n) (sv_groups d))) else ValueError ;;
  ss <- load_subs (subs c) (sv_subs d) ;;
  Ok {| specs := specs c; c_lr := c_lr c; c_wd := c_wd c;
        groups := map (fun '(g, (_, lr, wd, links)) => {| g_params := g_params g; g_lr := lr; g_wd := wd; g_links := links |})
                      (combine (groups c) (sv_groups d));
        subs := ss |}.
End Chained.
Arguments accepts {L W}. Arguments init_lr {L W}. Arguments init_wd {L W}.
