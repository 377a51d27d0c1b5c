(** C31 (continued): an evaluation in which the processes, or the batches of one process,
    report different statistics stops with an error. *)
From Verif Require Import Base BaseFacts Checkpoint CheckpointFacts Json JsonFacts Metrics MetricsFacts.
Set Implicit Arguments. Unset Strict Implicit.

Section C31.
Variable R : arith.
Variable finalizers : ustr -> option (list (ustr * tensor R) -> list (ustr * Z) -> res (tensor R)).
Variable schema_valid : ustr -> list ustr -> list ustr -> bool.
Variable reduce_max : list (tensor R) -> res (tensor R).
Notation evaluate := (@evaluate R finalizers schema_valid reduce_max).
Notation step := (@step R finalizers schema_valid).
Notation run_steps := (@run_steps R finalizers schema_valid).

(** ** Specification: two statistics of the same form. *)
Definition same_tensor (a b : tensor R) : Prop := t_shape a = t_shape b /\ t_dtype a = t_dtype b.
Definition both {U} (f : U -> U -> Prop) (a b : option U) : Prop :=
  match a, b with Some x, Some y => f x y | None, None => True | _, _ => False end.
Definition same_form (a b : stat R) : Prop :=
  match a, b with
  | SumCount s t _, SumCount s' t' _ => s = s' /\ same_tensor t t'
  | Maximum t _, Maximum t' _ => same_tensor t t'
  | Sufficient s f x n, Sufficient s' f' x' n' =>
      s = s' /\ f = f' /\ (forall k, both same_tensor (obj_get x k) (obj_get x' k)) /\ (forall k, In k (map fst n) <-> In k (map fst n'))
  | _, _ => False
  end.
(** Dictionaries have each key once. *)
Definition stat_dict (s : stat R) : Prop := match s with Sufficient _ _ x n => NoDup (map fst x) | _ => True end.
Definition dict (m : metrics R) : Prop := NoDup (map fst m) /\ forall k s, In (k, s) m -> stat_dict s.
Definition is_real (t : tensor R) : Prop := t_here t = true /\ t_dtype t <> DBool /\ forall b, t_dtype t <> DComplex b.
Definition stat_real (s : stat R) : Prop :=
  match s with SumCount _ t _ => is_real t | Maximum t _ => is_real t | Sufficient _ _ x _ => forall k t, In (k, t) x -> is_real t end.

(** ** Soundness of the comparison *)
Lemma list_eqb_eq (A : Type) (e : A -> A -> bool) : (forall x y, e x y = true -> x = y) -> forall a b, list_eqb e a b = true -> a = b.
Proof.
  intros H. induction a as [|x a IH]; intros [|y b] E; try discriminate; [reflexivity|]. cbn in E. apply andb_true_iff in E. destruct E as (E1 & E2).
  f_equal; [apply H; exact E1|apply IH; exact E2].
Qed.
Lemma shape_eqb_eq : forall a b, shape_eqb a b = true -> a = b.
Proof.
  induction a as [|x a IH]; intros [|y b] E; try discriminate; [reflexivity|]. cbn in E. apply andb_true_iff in E. destruct E as (E1 & E2).
  f_equal; [lia|apply IH; exact E2].
Qed.
Lemma dtype_eqb_eq a b : dtype_eqb a b = true -> a = b.
Proof. destruct a, b; cbn; intros E; try discriminate; try reflexivity; apply Z.eqb_eq in E; congruence. Qed.
Lemma pair_eqb_eq a b : pair_eqb a b = true -> a = b.
Proof. destruct a, b. unfold pair_eqb. cbn. intros E. apply andb_true_iff in E. destruct E as (E1 & E2). f_equal; [apply shape_eqb_eq; exact E1|apply dtype_eqb_eq; exact E2]. Qed.
Lemma ustr_ok x y : ustr_eqb x y = true -> x = y.
Proof. apply ustr_eqb_eq. Qed.
Lemma scope_ok a b : scope_eqb a b = true -> a = b.
Proof. destruct a, b; cbn; congruence. Qed.
Lemma descriptor_ok a b : descriptor_eqb a b = true -> a = b.
Proof.
  destruct a, b; cbn; intros E; try discriminate.
  - apply andb_true_iff in E. destruct E as (E1 & E2). rewrite (scope_ok E1), (pair_eqb_eq E2). reflexivity.
  - rewrite (pair_eqb_eq E). reflexivity.
  - apply andb_true_iff in E. destruct E as (E & E4). apply andb_true_iff in E. destruct E as (E & E3). apply andb_true_iff in E. destruct E as (E1 & E2).
    rewrite (scope_ok E1), (ustr_ok E2), (list_eqb_eq ustr_ok E3). f_equal.
    refine (list_eqb_eq _ E4). intros [p1 p2] [q1 q2] G. cbn in G. apply andb_true_iff in G. destruct G as (G1 & G2). rewrite (ustr_ok G1), (pair_eqb_eq G2). reflexivity.
Qed.
Lemma schema_ok a b : schema_eqb a b = true -> a = b.
Proof. intros E. refine (list_eqb_eq _ E). intros [p1 p2] [q1 q2] G. cbn in G. apply andb_true_iff in G. destruct G as (G1 & G2). rewrite (ustr_ok G1), (descriptor_ok G2). reflexivity. Qed.

Lemma get_map (A B : Type) (g : A -> B) (l : list (ustr * A)) k : obj_get (map (fun kv => (fst kv, g (snd kv))) l) k = option_map g (obj_get l k).
Proof. induction l as [|[k' v] l IH]; [reflexivity|]. cbn. destruct (ustr_eqb k k'); [reflexivity|exact IH]. Qed.
Lemma schema_get (m : metrics R) k : NoDup (map fst m) -> obj_get (schema_of m) k = option_map (@describe R) (obj_get m k).
Proof. intros N. unfold schema_of. rewrite get_map, sorted_get by exact N. reflexivity. Qed.
Lemma keys_in (A : Type) (l : list (ustr * A)) k : In k (keys (sorted_items l)) <-> In k (map fst l).
Proof.
  unfold keys. assert (P : Permutation (sorted_items l) l) by apply sort_perm. split; intros H; (eapply Permutation_in; [|exact H]); apply Permutation_map; [exact P|symmetry; exact P].
Qed.
Lemma describe_form (a b : stat R) : stat_dict a -> stat_dict b -> describe a = describe b -> same_form a b.
Proof.
  destruct a as [s t c|t c|s f x n], b as [s' t' c'|t' c'|s' f' x' n']; cbn; intros Da Db E; try discriminate.
  - injection E as -> E1 E2. split; [reflexivity|split; assumption].
  - injection E as E1 E2. split; assumption.
  - injection E as -> -> E1 E2. split; [reflexivity|]. split; [reflexivity|]. split.
    + intros k. assert (K : option_map (fun t => (t_shape t, t_dtype t)) (obj_get x k) = option_map (fun t => (t_shape t, t_dtype t)) (obj_get x' k)).
      { rewrite <- (sorted_get k Da), <- (sorted_get k Db), <- !get_map. unfold tensor_schema in E2. f_equal. exact E2. }
      destruct (obj_get x k), (obj_get x' k); cbn in *; try discriminate; [|exact I]. injection K as K1 K2. split; assumption.
    + intros k. rewrite <- keys_in, E1, keys_in. reflexivity.
Qed.
Lemma same_schema (m m' : metrics R) : dict m -> dict m' -> schema_of m = schema_of m' -> forall k, both same_form (obj_get m k) (obj_get m' k).
Proof.
  intros (N & D) (N' & D') E k. assert (K : option_map (@describe R) (obj_get m k) = option_map (@describe R) (obj_get m' k)) by (rewrite <- !schema_get by assumption; rewrite E; reflexivity).
  destruct (obj_get m k) as [s|] eqn:E1, (obj_get m' k) as [s'|] eqn:E2; cbn in *; try discriminate; [|exact I].
  apply describe_form; [eapply D; apply obj_get_in; exact E1|eapply D'; apply obj_get_in; exact E2|injection K as K; exact K].
Qed.

Lemma step_schema st ranks st' : step st ranks = Ok st' -> exists e, expected st' = Some e /\ (expected st = None \/ expected st = Some e)
  /\ forall r, In r ranks -> schema_of (snd r) = e /\ stat_errors (snd r) = false.
Proof.
  unfold Metrics.step. intros H. destruct (preflight (expected st) (map snd ranks)) as [e|] eqn:P; [|discriminate]. cbn [bind] in H.
  exists e. split; [inv_bind H; inv_bind H; inv_bind H; injection H as <-; reflexivity|]. clear H.
  unfold preflight in P. destruct ranks as [|r0 rest]; [discriminate|]. cbn [map] in P. apply guard_Ok in P. destruct P as (P1 & P). apply guard_Ok in P. destruct P as (P2 & P).
  apply negb_true_iff in P1. rewrite forallb_forall in P2.
  assert (P3 : forall r, In r (r0 :: rest) -> stat_errors (snd r) = false).
  { intros r Hr. destruct (stat_errors (snd r)) eqn:X; [|reflexivity]. exfalso. rewrite <- not_true_iff_false in P1. apply P1. apply existsb_exists. exists (snd r). split; [|exact X]. exact (in_map snd _ _ Hr). }
  assert (E : schema_of (snd r0) = e /\ (expected st = None \/ expected st = Some e)).
  { destruct (expected st) as [e'|]; [|injection P as <-; auto]. apply guard_Ok in P. destruct P as (P4 & P). injection P as <-. rewrite (schema_ok P4). auto. }
  destruct E as (E & E2). split; [exact E2|]. intros r Hr. split; [|apply P3; exact Hr]. destruct Hr as [<-|Hr]; [exact E|]. rewrite <- E. apply schema_ok. apply P2. apply in_map. exact Hr.
Qed.
Lemma run_schema l : forall st st', run_steps st l = Ok st' -> exists e, (expected st = None \/ expected st = Some e)
  /\ forall s r, In s l -> In r s -> schema_of (snd r) = e /\ stat_errors (snd r) = false.
Proof.
  induction l as [|s l IH]; intros st st' H.
  - destruct (expected st) as [e|]; [exists e|exists []]; (split; [auto|intros s r []]).
  - cbn in H. destruct (step st s) as [st1|] eqn:E; [|discriminate]. cbn [bind] in H. destruct (step_schema E) as (e & E1 & E2 & E3).
    destruct (IH _ _ H) as (e' & [X|X] & K); rewrite E1 in X; [discriminate|]. injection X as <-. exists e. split; [exact E2|]. intros s' r [<-|Hs] Hr; [apply E3; exact Hr|apply (K s' r Hs Hr)].
Qed.

(** An evaluation that succeeds got, from every process in every step, the same names with
    statistics of the same kind, scope, finalizer, shapes and element types, all of them
    real tensors on the evaluation device. *)
Theorem C31_different_statistics_stop_the_evaluation : forall world steps out,
  (forall s r, In s steps -> In r s -> dict (snd r)) -> evaluate world steps = Ok out ->
  forall s r s' r', In s steps -> In r s -> In s' steps -> In r' s' ->
  (forall k, both same_form (obj_get (snd r) k) (obj_get (snd r') k)) /\ (forall k x, In (k, x) (snd r) -> stat_real x).
Proof.
  intros world steps out D H s r s' r' Hs Hr Hs' Hr'. unfold Metrics.evaluate in H. destruct (run_steps _ steps) as [st|] eqn:E; [|discriminate]. clear H.
  destruct (run_schema E) as (e & _ & K). destruct (K s r Hs Hr) as (K1 & K2). destruct (K s' r' Hs' Hr') as (K3 & _). split.
  - apply same_schema; [exact (D s r Hs Hr)|exact (D s' r' Hs' Hr')|congruence].
  - intros k x Hx. unfold stat_errors in K2. apply negb_false_iff in K2. rewrite forallb_forall in K2. specialize (K2 _ Hx). cbn [snd] in K2. rewrite forallb_forall in K2.
    assert (T : forall t, In t (tensors_of x) -> is_real t).
    { intros t Ht. specialize (K2 t Ht). unfold real_tensor in K2. apply andb_true_iff in K2. destruct K2 as (K4 & K5). split; [exact K4|]. destruct (t_dtype t); try discriminate; (split; [discriminate|intros b; discriminate]). }
    destruct x as [sc t c|t c|sc f x n]; cbn in *; [apply T; auto|apply T; auto|]. intros k' t Ht. apply T. apply in_map_iff. exists (k', t). auto.
Qed.
End C31.
Print Assumptions C31_different_statistics_stop_the_evaluation.

(** ** Two processes: with the same statistics the evaluation goes through; with another
    element type, kind or name it does not. *)
From Coq Require Import QArith Qcanon.
From Verif Require Import MetricsSpec Prop_Metrics.
Open Scope Z_scope.
Definition rep (k : String.string) (t : dtype) (x : Z) : metrics exact := [(ulit k, SumCount (R := exact) Evaluation (mk_tensor (R := exact) [] t true [Fin (q x 1)]) 1)].
Definition top (x : Z) : metrics exact := [(ulit "a", Maximum (R := exact) (mk_tensor (R := exact) [] (DFloat 32) true [Fin (q x 1)]) 1)].
Definition two (m1 m2 : metrics exact) := @evaluate exact no_finalizers no_schema max_reduction 2 [[(true, m1); (true, m2)]].
Example C31_schema_example :
  (exists out, two (rep "a" (DFloat 32) 1) (rep "a" (DFloat 32) 3) = Ok out)
  /\ two (rep "a" (DFloat 32) 1) (rep "a" (DFloat 64) 3) = Err RuntimeError
  /\ two (rep "a" (DFloat 32) 1) (rep "b" (DFloat 32) 3) = Err RuntimeError
  /\ two (rep "a" (DFloat 32) 1) (top 3) = Err RuntimeError.
Proof. split; [eexists; vm_compute; reflexivity|]. split; [vm_compute; reflexivity|]. split; vm_compute; reflexivity. Qed.
