(** What a user expects of ChainedOptimizer: every parameter has one optimizer, the first whose filter accepts it, and a group, and each
    step updates it once with that optimizer's rule, its group's current rate, and its own gradient and state. *)
From Verif Require Import Base Chained.
Set Implicit Arguments. Unset Strict Implicit.

Section ChainedSpec.
Variables V T G L W : Type.
Variable update : nat -> L -> W -> G -> option T -> V -> V * T.

(** optimizer [k] is the first that accepts [p] *)
Definition belongs (ss : list (spec L W)) (p k : nat) : Prop :=
  (exists s, nth_error ss k = Some s /\ accepts s p = true) /\
  (forall j s, (j < k)%nat -> nth_error ss j = Some s -> accepts s p = false).
(** the weight decay of optimizer [k]: its own, or that given to the constructor *)
Definition decay_of (ss : list (spec L W)) (wd : W) (k : nat) : W :=
  match nth_error ss k with Some s => match init_wd s with Some w => w | None => wd end | None => wd end.

(** what a caller does with an optimizer: steps (the closure computes the gradients from the values), changes of the rate of a group, and
    new groups (with their own rate, if given) *)
Inductive op :=
| Step (closure : (nat -> V) -> nat -> option G)
| SetLr (i : nat) (lr : L)
| Add (r : request L W).
(** groups with their current rates, and each parameter's value and optimizer state *)
Record view := { v_groups : list (list nat * L); v_values : nat -> V; v_states : nat -> option T }.

(** one step, given the rate that parameter [p] is to be updated with *)
Definition stepped (ss : list (spec L W)) (wd : W) (rate : list (list nat * L) -> nat -> nat -> L -> Prop)
  (closure : (nat -> V) -> nat -> option G) (x y : view) : Prop :=
  v_groups y = v_groups x /\
  forall p,
    (* a parameter of no group, or without a gradient, is left alone *)
    ((forall ps lr, List.In (ps, lr) (v_groups x) -> ~ List.In p ps) \/ closure (v_values x) p = None ->
       v_values y p = v_values x p /\ v_states y p = v_states x p) /\
    (* any other is updated once *)
    (forall k g lr, (exists ps lr', List.In (ps, lr') (v_groups x) /\ List.In p ps) -> closure (v_values x) p = Some g ->
       belongs ss p k -> rate (v_groups x) p k lr ->
       (v_values y p, v_states y p) =
       (let '(v, t) := update k lr (decay_of ss wd k) g (v_states x p) (v_values x p) in (v, Some t))).
(** its group's rate *)
Definition own_rate (gs : list (list nat * L)) (p k : nat) (lr : L) : Prop := exists ps, List.In (ps, lr) gs /\ List.In p ps.
(** the rate that is used when the optimizer is made of [n] groups: of a parameter of one of these, the rate of the last of them that has
    a parameter of the same optimizer *)
Definition last_rate (ss : list (spec L W)) (n : nat) (gs : list (list nat * L)) (p k : nat) (lr : L) : Prop :=
  exists i ps, nth_error gs i = Some (ps, lr) /\
    (List.In p ps /\ (n <= i)%nat \/
     (exists j ps' lr', (j < n)%nat /\ nth_error gs j = Some (ps', lr') /\ List.In p ps') /\ (i < n)%nat /\
     (exists q, List.In q ps /\ belongs ss q k) /\
     forall j ps' lr', (i < j < n)%nat -> nth_error gs j = Some (ps', lr') -> forall q, List.In q ps' -> ~ belongs ss q k).

(** the effect of an operation on the view, and the exception it raises *)
Inductive done (ss : list (spec L W)) (lr0 : L) (wd : W) (rate : list (list nat * L) -> nat -> nat -> L -> Prop)
  : op -> view -> view -> option exn -> Prop :=
| DStep closure x y : stepped ss wd rate closure x y -> done ss lr0 wd rate (Step closure) x y None
| DSet i lr ps lr' x y : nth_error (v_groups x) i = Some (ps, lr') -> v_groups y = upd (v_groups x) i (ps, lr) ->
    v_values y = v_values x -> (forall p, v_states y p = v_states x p) -> done ss lr0 wd rate (SetLr i lr) x y None
| DSetBad i lr x : nth_error (v_groups x) i = None -> done ss lr0 wd rate (SetLr i lr) x x (Some IndexError)
| DAdd r x y : (forall p ps lr, List.In p (r_params r) -> List.In (ps, lr) (v_groups x) -> ~ List.In p ps) ->
    v_groups y = v_groups x ++ [(r_params r, match r_lr r with Some l => l | None => lr0 end)] ->
    v_values y = v_values x -> (forall p, v_states y p = v_states x p) -> done ss lr0 wd rate (Add r) x y None
| DAddBad r x p ps lr : List.In p (r_params r) -> List.In (ps, lr) (v_groups x) -> List.In p ps ->
    done ss lr0 wd rate (Add r) x x (Some ValueError).
Inductive all_done (ss : list (spec L W)) (lr0 : L) (wd : W) (rate : list (list nat * L) -> nat -> nat -> L -> Prop)
  : list op -> view -> view -> list (option exn) -> Prop :=
| ANil x : all_done ss lr0 wd rate [] x x []
| ACons o os x y z e es : done ss lr0 wd rate o x y e -> all_done ss lr0 wd rate os y z es -> all_done ss lr0 wd rate (o :: os) x z (e :: es).

(** what the program does with it *)
Definition perform (o : op) (c : chain T L W) (values : nat -> V) : chain T L W * (nat -> V) * option exn :=
  match o with
  | Step closure => step update c values closure
  | SetLr i lr => let '(c, e) := set_lr c i lr in (c, values, e)
  | Add r => let '(c, e) := add c r in (c, values, e)
  end.
Fixpoint performs (os : list op) (c : chain T L W) (values : nat -> V) : chain T L W * (nat -> V) * list (option exn) :=
  match os with
  | [] => (c, values, [])
  | o :: os => let '(c, values, e) := perform o c values in let '(c, values, es) := performs os c values in (c, values, e :: es)
  end.
(** what of it can be seen: the state of a parameter is that of the optimizer it belongs to *)
Definition sees (c : chain T L W) (values : nat -> V) (x : view) : Prop :=
  v_groups x = map (fun g => (g_params g, g_lr g)) (groups c) /\ v_values x = values /\
  (forall p k s, belongs (specs c) p k -> nth_error (subs c) k = Some s -> v_states x p = s_state s p).
(** no group names a parameter twice, and every parameter is accepted by some optimizer *)
Definition proper (ss : list (spec L W)) (r : request L W) : Prop :=
  NoDup (r_params r) /\ forall p, List.In p (r_params r) -> exists k, belongs ss p k.
Definition op_proper (ss : list (spec L W)) (o : op) : Prop := match o with Add r => proper ss r | _ => True end.
End ChainedSpec.
