(** C66: ChainedOptimizer. *)
From Verif Require Import Base BaseFacts Chained ChainedSpec ChainedFacts ChainedInv ChainedNew ChainedSave.
Set Implicit Arguments. Unset Strict Implicit.

Section C66.
Variables V T G L W : Type.
Variable update : nat -> L -> W -> G -> option T -> V -> V * T.

(** it can be made exactly when there is a group, no parameter is in two groups, some optimizer accepts each parameter, and each optimizer
    gets at least one *)
Theorem C66_construction_succeeds_iff (ss : list (spec L W)) (lr : L) (wd : W) (rs : list (request L W)) :
  (exists c, new T ss lr wd rs = Ok c) <->
  rs <> [] /\
  (forall i j ri rj p, (i < j)%nat -> nth_error rs i = Some ri -> nth_error rs j = Some rj -> List.In p (r_params ri) -> ~ List.In p (r_params rj)) /\
  (forall r p, List.In r rs -> List.In p (r_params r) -> exists k, belongs ss p k) /\
  (forall k, (k < List.length ss)%nat -> exists r p, List.In r rs /\ List.In p (r_params r) /\ belongs ss p k).
Proof.
  rewrite new_iff. unfold apart, accepted, every_optimizer_used. split.
  - intros (A & B & C & D). repeat split; try assumption. intros r p R P. exact (C r R p P).
  - intros (A & B & C & D). repeat split; try assumption. intros r R p P. exact (C r p R P).
Qed.

(** made of one group, as build_optimizer makes it: whatever steps, changes of rates and new groups follow, each step updates each parameter
    once, with the rule of the first optimizer that accepts it, its group's rate of that moment, that optimizer's weight decay, and its own
    gradient and state; the gradients are computed from the values before the step; only a group with a parameter that is there already is refused *)
Theorem C66_each_parameter_is_updated_once_by_its_own_optimizer (ss : list (spec L W)) (lr : L) (wd : W) (r : request L W) c os values c' values' es :
  new T ss lr wd [r] = Ok c -> proper ss r -> Forall (op_proper ss) os -> performs update os c values = (c', values', es) ->
  exists y, sees c' values' y /\
    all_done update ss lr wd (@own_rate L) os
      {| v_groups := [(r_params r, match r_lr r with Some l => l | None => lr end)]; v_values := values; v_states := fun _ => None |} y es.
Proof.
  intros N PR OP H. destruct (new_good N) as (GD & VG & ST); [intros r' [<-|[]]; exact PR|]. cbn [List.length map] in *.
  set (x := {| v_groups := _; v_values := values; v_states := _ |}).
  assert (SE : sees c values x). { split; [symmetry; exact VG|]. split; [reflexivity|]. intros p k s _ E. symmetry. exact (ST k s p E). }
  destruct (performs_done GD OP SE H) as (y & _ & SE' & D). exists y. split; [exact SE'|].
  assert (RATE : forall gs p k l, belongs ss p k -> own_rate gs p k l -> last_rate ss 1 gs p k l).
  { intros gs p k l B (ps & I & P). apply In_nth_error in I. destruct I as (i & I). exists i, ps. split; [exact I|]. destruct i as [|i]; [right|left; split; [exact P|lia]].
    split; [exists 0%nat, ps, l; auto|]. split; [lia|]. split; [eauto|]. intros j ps' lr' J. lia. }
  clear - D RATE. induction D as [x|o os x y z e es D1 D2 IH]; [constructor|]. econstructor; [|exact IH]. inversion D1; subst; try solve [econstructor; eauto].
  constructor. destruct H as (A & B). split; [exact A|]. intros p. destruct (B p) as (B1 & B2). split; [exact B1|]. intros k g l X Y BL O. exact (B2 k g l X Y BL (RATE _ _ _ _ BL O)).
Qed.
(** made of several groups: the same, but the parameters that one optimizer took from them all have one rate, that of the last of these
    groups with a parameter of that optimizer *)
Theorem C66_several_groups (ss : list (spec L W)) (lr : L) (wd : W) (rs : list (request L W)) c os values c' values' es :
  new T ss lr wd rs = Ok c -> (forall r, List.In r rs -> proper ss r) -> Forall (op_proper ss) os -> performs update os c values = (c', values', es) ->
  exists y, sees c' values' y /\
    all_done update ss lr wd (last_rate ss (List.length rs)) os
      {| v_groups := map (fun r => (r_params r, match r_lr r with Some l => l | None => lr end)) rs; v_values := values; v_states := fun _ => None |} y es.
Proof.
  intros N PR OP H. destruct (new_good N PR) as (GD & VG & ST).
  set (x := {| v_groups := _; v_values := values; v_states := _ |}).
  assert (SE : sees c values x). { split; [symmetry; exact VG|]. split; [reflexivity|]. intros p k s _ E. symmetry. exact (ST k s p E). }
  destruct (performs_done GD OP SE H) as (y & _ & SE' & D). exists y. split; [exact SE'|exact D].
Qed.

(** the state that one optimizer saves can be loaded into another one made the same way and given the same groups in the same order,
    whatever else was done with either; it then has the groups, rates and states of the first, and goes on like it *)
Theorem C66_a_saved_optimizer_goes_on (ss : list (spec L W)) (lr : L) (wd : W) (rs : list (request L W)) c (os1 os2 os3 : list (op V G L W))
  values1 values2 c1 v1 es1 c2 v2 es2 x :
  new T ss lr wd rs = Ok c -> (forall r, List.In r rs -> proper ss r) ->
  Forall (op_proper ss) os1 -> Forall (op_proper ss) os2 -> Forall (op_proper ss) os3 ->
  performs update os1 c values1 = (c1, v1, es1) -> performs update os2 c values2 = (c2, v2, es2) -> adds os1 = adds os2 ->
  sees c1 v1 x ->
  exists c3, load_state_dict c2 (state_dict c1) = Ok c3 /\ sees c3 v1 x /\
    forall c4 v4 es4, performs update os3 c3 v1 = (c4, v4, es4) -> exists y, sees c4 v4 y /\ all_done update ss lr wd (last_rate ss (List.length rs)) os3 x y es4.
Proof.
  intros N PR O1 O2 O3 H1 H2 EA SE. destruct (new_good N PR) as (GD & VG & ST).
  assert (CL : clean ss c) by (intros p k s _ E _; exact (ST k s p E)).
  destruct (performs_clean GD O1 CL H1) as (G1 & C1), (performs_clean GD O2 CL H2) as (G2 & C2).
  assert (AL : alike ss c1 c2).
  { pose proof (@alike_refl T L W ss c (proj1 GD)) as R. pose proof (performs_alike update os1 values1 R) as A1. pose proof (performs_alike update os2 values2 R) as A2.
    rewrite H1 in A1. rewrite H2 in A2. cbn [fst] in *. rewrite EA in A1. exact (alike_trans A1 (alike_sym A2)). }
  destruct (load_same update G1 C1 G2 AL) as (c3 & E & G3 & S3). exists c3. split; [exact E|]. split; [exact (S3 v1 x SE)|].
  intros c4 v4 es4 H. destruct (performs_done G3 O3 (S3 v1 x SE) H) as (y & _ & SE' & D). eauto.
Qed.

(** REFUTED: "an exception leaves the optimizer as it was".  After any history, a new group that names a parameter some optimizer accepts
    before one that none does is refused, and from then on every step raises IndexError and updates nothing *)
Theorem C66_a_refused_group_stops_training (ss : list (spec L W)) (lr : L) (wd : W) (rs : list (request L W)) c (os : list (op V G L W)) values c1 v1 es r p1 rest k :
  new T ss lr wd rs = Ok c -> (forall r, List.In r rs -> proper ss r) -> Forall (op_proper ss) os -> performs update os c values = (c1, v1, es) ->
  r_params r = p1 :: rest -> belongs ss p1 k -> (exists p, List.In p rest /\ forall k, ~ belongs ss p k) ->
  (forall p g, List.In p (r_params r) -> List.In g (groups c1) -> ~ List.In p (g_params g)) ->
  exists c2, add c1 r = (c2, Some ValueError) /\ forall values closure, exists c3, step update c2 values closure = (c3, values, Some IndexError).
Proof.
  intros N PR OP H EP B NB NO. destruct (new_good N PR) as (GD & VG & ST).
  assert (CL : clean ss c) by (intros p k' s _ E _; exact (ST k' s p E)).
  destruct (performs_clean GD OP CL H) as (G1 & _). exact (refused update G1 EP B NB NO).
Qed.
End C66.

(** ** Concrete cases: the value, the state (a count of updates) and the rates are integers; optimizer 0 subtracts rate * gradient, optimizer 1
    subtracts twice that and the decay *)
Definition rule (k : nat) (lr wd : Z) (g : Z) (t : option Z) (v : Z) : Z * Z :=
  (match k with O => v - lr * g | _ => v - 2 * lr * g - wd end, match t with Some n => n + 1 | None => 1 end).
Definition two : list (spec Z Z) := [{| accepts := Nat.even; init_lr := None; init_wd := Some 9 |}; {| accepts := fun _ => true; init_lr := Some 7; init_wd := None |}].
Definition req (ps : list nat) (lr : option Z) : request Z Z := {| r_params := ps; r_lr := lr; r_wd := None |}.
Definition made (rs : list (request Z Z)) : chain Z Z Z := match new Z two 10 5 rs with Ok c => c | Err _ => {| specs := []; c_lr := 0; c_wd := 0; groups := []; subs := [] |} end.
Definition ones (_ : nat -> Z) (p : nat) : option Z := if (p =? 3)%nat then None else Some 1.
Definition a_step : op Z Z Z Z := @Step Z Z Z Z ones.
Definition rate (i : nat) (lr : Z) : op Z Z Z Z := @SetLr Z Z Z Z i lr.
Definition group_of (r : request Z Z) : op Z Z Z Z := @Add Z Z Z Z r.
Example C66_ex : let '(c, v, es) := performs rule [a_step; rate 0 1; group_of (req [4; 5]%nat (Some 100)); a_step; group_of (req [5]%nat None); rate 2 1] (made [req [0; 1; 3]%nat None]) (fun _ => 0) in
  (map v [0; 1; 2; 3; 4; 5]%nat, es) = ([-11; -32; 0; 0; -100; -205], [None; None; None; None; Some ValueError; Some IndexError]).
Proof. vm_compute. reflexivity. Qed.
Example C66_ex_proper : (exists c, new Z two 10 5 [req [0; 1; 3]%nat None] = Ok c) /\ proper two (req [0; 1; 3]%nat None) /\ proper two (req [4; 5]%nat (Some 100)).
Proof.
  assert (P : forall ps lr, NoDup ps -> proper two (req ps lr)).
  { intros ps lr N. split; [exact N|]. intros p _. destruct (Nat.even p) eqn:E.
    - exists 0%nat. apply first_belongs. cbn. rewrite E. reflexivity.
    - exists 1%nat. apply first_belongs. cbn. rewrite E. reflexivity. }
  split; [eexists; vm_compute; reflexivity|]. split; apply P; repeat constructor; cbn; intuition discriminate.
Qed.
(** REFUTED: "a group's parameters are updated with its own rate", when the optimizer is made of several groups: 0 and 2 both go to optimizer 0,
    and 0's group asks for rate 1 *)
Theorem C66_groups_of_one_optimizer_do_not_keep_their_rates : let '(c, v, es) := performs rule [a_step] (made [req [0; 1]%nat (Some 1); req [2]%nat (Some 1000)]) (fun _ => 0) in
  (map v [0; 1; 2]%nat, es) = ([-1000; -7; -1000], [None]).
Proof. vm_compute. reflexivity. Qed.
(** REFUTED: "an optimizer without parameters is left out": muon-adamw of a model without matrices *)
Theorem C66_an_optimizer_without_parameters_is_an_error : new Z two 10 5 [req [1; 3]%nat None] = Err ValueError.
Proof. reflexivity. Qed.
(** REFUTED: "a group's own weight decay is used": the group asks for 0, and 1 still decays by 5 *)
Theorem C66_a_groups_weight_decay_is_ignored :
  snd (fst (performs rule [a_step] (made [{| r_params := [0; 1]%nat; r_lr := None; r_wd := Some 0 |}]) (fun _ => 0))) 1%nat = -25.
Proof. vm_compute. reflexivity. Qed.
(** a refused group, concretely *)
Definition even_only : list (spec Z Z) := [{| accepts := Nat.even; init_lr := None; init_wd := None |}].
Example C66_ex_refused : match new Z even_only 10 5 [req [0]%nat None] with
  | Ok c => let '(_, v, es) := performs rule [a_step; group_of (req [2; 1]%nat None); a_step] c (fun _ => 0) in (v 0%nat, es) = (-10, [None; Some ValueError; Some IndexError])
  | Err _ => False
  end.
Proof. vm_compute. reflexivity. Qed.
Example C66_ex_saved : match performs rule [a_step; rate 0 3] (made [req [0; 1]%nat None]) (fun _ => 0) with
  | (c, v, _) => match load_state_dict (made [req [0; 1]%nat (Some 4)]) (state_dict c) with
    | Ok c' => map (fun g => g_lr g) (groups c') = [3] /\ map (fun s => map (s_state s) [0; 1]%nat) (subs c') = [[Some 1; None]; [None; Some 1]]
    | Err _ => False
    end
  end.
Proof. vm_compute. split; reflexivity. Qed.
Print Assumptions C66_construction_succeeds_iff.
Print Assumptions C66_each_parameter_is_updated_once_by_its_own_optimizer.
Print Assumptions C66_several_groups.
Print Assumptions C66_a_saved_optimizer_goes_on.
Print Assumptions C66_a_refused_group_stops_training.
